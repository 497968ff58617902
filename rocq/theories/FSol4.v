(** The energy of the distance between the solution of a static problem with shear and the samples of a smooth motion. *)
From Coq Require Import ZArith Reals List Bool Arith Lra Lia Psatz String.
From Verif Require Import Num Py Mesh Utils CalcK0 Spec SpecK0 SpecKG SpecK0s SpecStab SpecStat SpecConv SpecSol SpecSol2 FSum FMat FDict FGeom FWf FRead2 FAsm FTensor FSmooth FStab FStab2
  FK0s FK0u FConv FConv2 FSol FSol2 FSol3 FLin2 LKG LK0s LStab.
Import ListNotations.
Local Open Scope R_scope.
Implicit Types (m : mesh R).

Lemma method_lin : forall method m u v a b t,
  fst (method_strain method m (fun i => a * u i + b * v i) t) = a * fst (method_strain method m u t) + b * fst (method_strain method m v t) /\
  snd (method_strain method m (fun i => a * u i + b * v i) t) = a * snd (method_strain method m u t) + b * snd (method_strain method m v t).
Proof.
  intros. assert (C : forall c n, comp m (fun i => a * u i + b * v i) c n = a * comp m u c n + b * comp m v c n) by reflexivity.
  unfold method_strain. destruct (String.eqb method "cell-based").
  - unfold strain_cell, cell_shear, dsg, parea, pdet, gap, center, at_node; cbn [fst snd ptx pty ptw ptfx ptfy]. rewrite !C. unfold Rdiv. split; ring.
  - unfold strain_ns. destruct (Rlt_dec _ _); unfold dsg, pdet, gap, at_node; cbn [fst snd ptx pty ptw ptfx ptfy]; rewrite !C; unfold Rdiv; split; ring.
Qed.

(** one product *)
Lemma term_split : forall G g k sv sh tru gu gv tv delta e C N th, 0 <= G <= g -> 1 / 2 <= k <= 1 -> 1 - k <= C -> Rabs (sh - tru) <= delta -> Rabs (gu - tru) <= e -> Rabs tru <= sv -> 0 < th ->
  sv + delta <= N -> let rho := delta + e + C * (sv + e) in
  Rabs (G * sh * tv - k * (G * gu * gv)) <= (g * N) ^ 2 / (4 * th) + th * (gv - tv) ^ 2 + 2 * g * rho ^ 2 + k * (G * gv * gv) / 4.
Proof.
  intros G g k sv sh tru gu gv tv delta e C N th HG K KC H1 H2 H3 T HN rho.
  assert (SH : Rabs sh <= N) by (replace sh with (tru + (sh - tru)) by ring; apply rb_le with (sv + delta); [apply rb_plus; assumption|exact HN]).
  assert (C0 : 0 <= C) by lra.
  assert (GU : Rabs gu <= sv + e) by (replace gu with (tru + (gu - tru)) by ring; apply rb_plus; assumption).
  assert (RH : Rabs (sh - k * gu) <= rho).
  { replace (sh - k * gu) with ((sh - tru) - (gu - tru) + (1 - k) * gu) by ring. unfold rho. apply rb_plus; [apply rb_minus; assumption|].
    apply rb_mult; [rewrite Rabs_right; lra|exact GU]. }
  replace (G * sh * tv - k * (G * gu * gv)) with (- (G * sh * (gv - tv)) + G * (sh - k * gu) * gv) by ring.
  set (x := gv - tv). set (y := sh - k * gu) in *.
  assert (A1 : Rabs (- (G * sh * x)) <= (g * N) ^ 2 / (4 * th) + th * x ^ 2).
  { rewrite Rabs_Ropp, Rabs_mult. assert (B : Rabs (G * sh) <= g * N) by (apply rb_mult; [rewrite Rabs_right; lra|exact SH]).
    assert (Y := young (g * N) (Rabs x) th T). rewrite <- (pow2_abs x). assert (Z := Rmult_le_compat_r _ _ _ (Rabs_pos x) B).
    replace ((g * N) ^ 2) with (g * N * (g * N)) by ring. lra. }
  assert (A2 : Rabs (G * y * gv) <= 2 * g * rho ^ 2 + k * (G * gv * gv) / 4).
  { rewrite Rabs_mult, Rabs_mult, (Rabs_right G) by lra.
    assert (Y := sq_nn (4 * Rabs y - Rabs gv)). 
    assert (Y1 : Rabs y * Rabs gv <= 2 * (Rabs y * Rabs y) + Rabs gv * Rabs gv / 8) by lra.
    assert (YY : Rabs y * Rabs y <= rho * rho) by (apply Rmult_le_compat; auto using Rabs_pos).
    assert (GG : Rabs gv * Rabs gv = gv * gv) by (rewrite <- Rabs_mult; apply Rabs_right, Rle_ge, sq_nn). rewrite GG in Y1.
    assert (Y2 : Rabs y * Rabs gv <= 2 * (rho * rho) + gv * gv / 8) by lra.
    assert (Y3 := Rmult_le_compat_l G _ _ (proj1 HG) Y2).
    assert (P1 : G * (rho * rho) <= g * (rho * rho)) by (apply Rmult_le_compat_r; [apply sq_nn|lra]).
    assert (P2 : 1 / 2 * (G * (gv * gv)) <= k * (G * (gv * gv))) by (apply Rmult_le_compat_r; [apply Rmult_le_pos; [lra|apply sq_nn]|lra]). lra. }
  assert (Z := rb_plus _ _ _ _ A1 A2). lra.
Qed.

Section Sol.
  Variables (Om : R * R -> Prop) (m : mesh R) (pfn : bool) (p : prop R) (h kappa : R) (Q : tria R -> R * R) (c lam mu th alpha M s b : R) (F : motion) (u : nat -> R)
    (method : string) (mfa : bool).
  Hypothesis V : valid m pfn.
  Hypothesis OP : all_props m (fun q => q = p).
  Hypothesis SG : stiffness_ge lam p.
  Hypothesis SP : shear_pos p.
  Hypothesis SGE : shear_ge mu p.
  Hypothesis BA : mat3_bounded c (pA p).
  Hypothesis BB : mat3_bounded c (pB p).
  Hypothesis BD : mat3_bounded c (pD p).
  Hypothesis SB : shear_bounded c th m.
  Hypothesis FI : fine_trias Om m h kappa Q.
  Hypothesis Hh : 0 < h.
  Hypothesis Hk : 0 < kappa.
  Hypothesis Hl : 0 < lam.
  Hypothesis Hmu : 0 < mu.
  Hypothesis Hc : 0 <= c.
  Hypothesis HM : 0 <= M.
  Hypothesis Hth : 0 < th.
  Hypothesis Hal : 0 <= alpha.
  Hypothesis HC : 16 * alpha * (h * h) <= th * th.
  Hypothesis MT : In method cell_methods.
  Hypothesis SM : motion_smooth Om M s F.
  Hypothesis RB : rotations_le Om b F.
  Hypothesis SA : samples m F u.
  Let W := va_wf _ _ V.
  Let PL := va_plate _ _ V.

  Variables (delta tau : R) (st : tria R -> strain) (sh : tria R -> R * R) (test : (nat -> R) -> tria R -> R * R).
  Hypothesis ST : forall t, In t (trias_of m) -> strain_near delta (st t) (true_strain F (Q t)) /\
      Rabs (fst (sh t) - fst (true_shear F (Q t))) <= delta /\ Rabs (snd (sh t) - snd (true_shear F (Q t))) <= delta.
  Variables (k' : matrix R) (S : nat -> bool) (load d : nat -> R).
  Hypothesis DK : mdim k' = (List.length (nodes m) * 5)%nat.
  Hypothesis FK : forall a b, form k' a b = k0_energy m pfn a b + shear_energy (method_strain method m) m pfn alpha mfa a b.
  Hypothesis LD : forall v, admissible (List.length (nodes m) * 5) S v ->
      load_work (List.length (nodes m) * 5) load v =
      Sum (fun t => tarea m t * (dens (pA p) (pB p) (pD p) (st t) (tria_strain m v t) +
             (pk23 p * e00 (pE p) * fst (sh t) * fst (test v t) + pk13 p * e11 (pE p) * snd (sh t) * snd (test v t)))) (trias_of m).
  Hypothesis Htau : 0 < tau.
  Hypothesis TN : forall v, admissible (List.length (nodes m) * 5) S v ->
    Sum (fun t => tarea m t * ((fst (method_strain method m v t) - fst (test v t)) ^ 2 + (snd (method_strain method m v t) - snd (test v t)) ^ 2)) (trias_of m) <= tau * strains_sq m v.
  Hypothesis AU : admissible (List.length (nodes m) * 5) S u.
  Hypothesis SO : solves k' S load d.
  Let v := fun i => 1 * d i + -1 * u i.

  Definition sol_e : R := serr h kappa M s b (third_error method).
  Definition sol_rho : R := delta + sol_e + 8 * alpha * (h * h) / (th * th) * (s + b + sol_e).
  Definition sol_E : R := sol_L kappa lam * (36 * c * sol_eta h kappa M delta) ^ 2 + 4 * sol_L kappa lam * tau * (c * c * (s + b + delta)) ^ 2 + 4 * (c * c) * sol_rho ^ 2.

  Lemma strains_k0 : forall w, strains_sq m w <= sol_L kappa lam * k0_energy m pfn w w.
  Proof.
    intros w. assert (P : all_props m (stiffness_ge lam)) by (destruct OP as [O1 O2]; split; [intros n q E; rewrite (O1 n q E); exact SG|intros t q Ht E; rewrite (O2 t q Ht E); exact SG]).
    assert (X := energy_stable m pfn V lam (kappa / 4) w ltac:(lra) Hl (fine_shapely Om m h kappa Q FI Hh) P).
    assert (K4 : 0 < kappa ^ 4) by (apply pow_lt, Hk). assert (Z : 0 < lam * kappa ^ 4) by (apply Rmult_lt_0_compat; assumption).
    apply Rmult_le_reg_l with (lam * kappa ^ 4); [exact Z|].
    replace (lam * kappa ^ 4 * (sol_L kappa lam * k0_energy m pfn w w)) with (2592 * k0_energy m pfn w w) by (unfold sol_L; field; split; lra).
    replace ((kappa / 4) ^ 4) with (kappa ^ 4 / 256) in X by field. lra.
  Qed.

  Lemma k0_nn : forall w, 0 <= k0_energy m pfn w w.
  Proof.
    intros w. assert (X := strains_k0 w). assert (LP := L_pos kappa lam Hk Hl).
    assert (Y : 0 <= strains_sq m w) by (unfold strains_sq; apply Sum_nonneg; intros t _; apply Rmult_le_pos; [apply area_nn|apply strain_sq_nonneg]).
    apply Rmult_le_reg_l with (sol_L kappa lam); [exact LP|]. lra.
  Qed.

  Lemma G_one : forall t, In t (trias_of m) -> tria_G44 m pfn t = pk23 p * e00 (pE p) /\ tria_G55 m pfn t = pk13 p * e11 (pE p).
  Proof. intros t Ht. unfold tria_G44, tria_G55. rewrite !(fun f => uniform_val m pfn p f t W (va_props _ _ V) OP Ht). split; reflexivity. Qed.

  Lemma G_range : forall t, In t (trias_of m) -> 0 <= pk23 p * e00 (pE p) <= c * c /\ 0 <= pk13 p * e11 (pE p) <= c * c.
  Proof.
    intros t Ht. destruct (G_le m pfn c th (va_props _ _ V) SB Hc t Ht) as [X1 X2]. destruct (G_one t Ht) as [Z1 Z2]. rewrite Z1 in X1. rewrite Z2 in X2. 
    unfold shear_ge in SGE. rewrite rb in X1, X2. lra.
  Qed.

  Lemma corr_half : forall t, In t (trias_of m) -> let k := corr alpha (tria_val m pfn ph t) (tria_size m mfa t) in 1 / 2 <= k <= 1 /\ 1 - k <= 8 * alpha * (h * h) / (th * th).
  Proof.
    intros t Ht k.
    destruct (corr_near h th Hth alpha (tria_size m mfa t) (tria_val m pfn ph t) Hal (thick_ge m W pfn c th (va_props _ _ V) SB t Ht) (size_small Om m h kappa Q W FI PL mfa t Ht)) as [[K0 K1] K2].
    fold k in K0, K1, K2. assert (Z : 8 * alpha * (h * h) / (th * th) <= 1 / 2).
    { assert (TP : 0 < th * th) by (apply Rmult_lt_0_compat; exact Hth). apply Rmult_le_reg_r with (th * th); [exact TP|]. unfold Rdiv at 1. rewrite Rmult_assoc, Rinv_l by lra. lra. }
    lra.
  Qed.

  Lemma delta_nn' : forall t, In t (trias_of m) -> 0 <= delta.
  Proof. intros t Ht. destruct (ST t Ht) as [_ [X _]]. apply (rb_nonneg _ _ X). Qed.

  Lemma adm_v : admissible (List.length (nodes m) * 5) S v.
  Proof.
    assert (AD : admissible (List.length (nodes m) * 5) S d) by (rewrite <- DK; apply (solves_admissible k' S load d SO)).
    intros i Hi Si; unfold v; rewrite (AD i Hi Si), (AU i Hi Si); ring.
  Qed.

  Lemma energy_bound : form k' v v <= 2 * sol_E * total_area m.
  Proof.
    assert (LP := L_pos kappa lam Hk Hl). set (L := sol_L kappa lam) in *. assert (AV := adm_v).
    assert (SW := solves_work k' S load d v SO). rewrite DK in SW. specialize (SW AV). rewrite (LD v AV) in SW.
    assert (E : form k' v v = form k' v d - form k' u v).
    { assert (X := form_lin_r k' 1 (-1) d u v). fold v in X. rewrite X.
      assert (SY : form k' v u = form k' u v).
      { rewrite !FK. f_equal; [unfold k0_energy; apply Sum_ext; intros k; rewrite dens_sym; reflexivity|apply energy_sym]. } rewrite SY. ring. }
    rewrite SW, (FK u v) in E.
    set (f1 := fun t => tarea m t * dens (pA p) (pB p) (pD p) (st t) (tria_strain m v t)).
    set (f2 := fun t => tarea m t * (pk23 p * e00 (pE p) * fst (sh t) * fst (test v t) + pk13 p * e11 (pE p) * snd (sh t) * snd (test v t))).
    assert (E1 : Sum (fun t => tarea m t * (dens (pA p) (pB p) (pD p) (st t) (tria_strain m v t) +
             (pk23 p * e00 (pE p) * fst (sh t) * fst (test v t) + pk13 p * e11 (pE p) * snd (sh t) * snd (test v t)))) (trias_of m) = Sum f1 (trias_of m) + Sum f2 (trias_of m)).
    { rewrite <- Sum_plus. apply Sum_ext. intros t. unfold f1, f2. ring. }
    rewrite E1 in E. clear E1.
    assert (C := consistency Om m pfn p h kappa Q c M s F u V OP BA BB BD FI Hh Hk HM SM SA delta st (fun t Ht => proj1 (ST t Ht)) v (/ (4 * L)) ltac:(apply Rinv_0_lt_compat; lra)).
    fold f1 in C.
    assert (NS := strains_k0 v). fold L in NS. assert (TV := TN v AV).
    assert (C2 : Rabs (Sum f2 (trias_of m) - shear_energy (method_strain method m) m pfn alpha mfa u v) <=
      (4 * L * tau * (c * c * (s + b + delta)) ^ 2 + 4 * (c * c) * sol_rho ^ 2) * total_area m + / (8 * L * tau) * (tau * strains_sq m v) + shear_energy (method_strain method m) m pfn alpha mfa v v / 4).
    { assert (LT : 0 < 8 * L * tau) by (apply Rmult_lt_0_compat; lra). assert (IT : 0 < / (8 * L * tau)) by (apply Rinv_0_lt_compat, LT).
      eapply Rle_trans; [|apply Rplus_le_compat_r; apply Rplus_le_compat_l; apply Rmult_le_compat_l; [left; exact IT|exact TV]].
      unfold shear_energy, total_area, Rminus, Rdiv. rewrite <- (Rmult_1_l (- Sum _ _)), <- Ropp_mult_distr_r, Ropp_mult_distr_l.
      rewrite (Rmult_comm (Sum _ (trias_of m)) (/ 4)). rewrite <- !Sum_scal, <- !Sum_plus. apply Sum_abs. intros t Ht. assert (A := area_nn m t).
      destruct (G_one t Ht) as [-> ->]. destruct (G_range t Ht) as [GR1 GR2]. destruct (corr_half t Ht) as [K1 K2]. set (k := corr _ _ _) in *.
      destruct (ST t Ht) as [_ [T1 T2]]. destruct (shear_near Om m h kappa Q W FI Hh Hk F u M s b HM SM RB SA method t MT Ht) as [N1 N2]. fold sol_e in N1, N2.
      destruct (true_shear_le Om m h kappa Q FI F M s b SM RB t Ht) as [B1 B2].
      assert (P1 := term_split _ _ _ _ _ _ _ (fst (method_strain method m v t)) (fst (test v t)) _ _ _ _ _ GR1 K1 K2 T1 N1 B1 IT (Rle_refl _)).
      assert (P2 := term_split _ _ _ _ _ _ _ (snd (method_strain method m v t)) (snd (test v t)) _ _ _ _ _ GR2 K1 K2 T2 N2 B2 IT (Rle_refl _)).
      cbv zeta in P1, P2. fold sol_rho in P1, P2. assert (P := rb_plus _ _ _ _ P1 P2). clear P1 P2.
      assert (EQ : (c * c * (s + b + delta)) ^ 2 / (4 * / (8 * L * tau)) = 2 * L * tau * (c * c * (s + b + delta)) ^ 2) by (field; split; lra).
      rewrite EQ in P. unfold f2.
      match type of P with Rabs ?x <= ?y => match goal with |- Rabs ?a <= ?z => replace a with (tarea m t * x) by ring; replace z with (tarea m t * y) end end; [|field; split; lra].
      rewrite Rabs_mult, (Rabs_right (tarea m t)) by lra. apply Rmult_le_compat_l; assumption. }
    rewrite FK in E |- *. set (X := k0_energy m pfn v v) in *. set (Y := shear_energy (method_strain method m) m pfn alpha mfa v v) in *.
    assert (YN : 0 <= Y).
    { unfold Y, shear_energy. apply Sum_nonneg. intros t Ht. assert (A := area_nn m t). destruct (G_one t Ht) as [-> ->]. destruct (G_range t Ht) as [GR1 GR2]. destruct (corr_half t Ht) as [K1 _].
      apply Rmult_le_pos; [apply Rmult_le_pos; lra|]. apply Rplus_le_le_0_compat; rewrite Rmult_assoc; (apply Rmult_le_pos; [lra|apply sq_nn]). }
    set (B := 36 * c * sol_eta h kappa M delta) in *.
    replace (B * B / (4 * / (4 * L))) with (L * B ^ 2) in C by (field; lra).
    assert (D1 : / (4 * L) * strains_sq m v <= X / 4).
    { apply (Rmult_le_compat_l (/ (4 * L))) in NS; [|left; apply Rinv_0_lt_compat; lra]. replace (/ (4 * L) * (L * X)) with (X / 4) in NS by (field; lra). exact NS. }
    replace (/ (8 * L * tau) * (tau * strains_sq m v)) with (1 / 2 * (/ (4 * L) * strains_sq m v)) in C2 by (field; split; lra).
    rewrite rb in C, C2. unfold sol_E. fold L B. assert (XN := k0_nn v). fold X in XN. lra.
  Qed.

  Lemma shear_part : Sum (fun t => tarea m t * (fst (method_strain method m v t) ^ 2 + snd (method_strain method m v t) ^ 2)) (trias_of m) <= 2 / mu * form k' v v.
  Proof.
    apply Rle_trans with (2 / mu * shear_energy (method_strain method m) m pfn alpha mfa v v).
    - unfold shear_energy. rewrite <- Sum_scal. apply Sum_le. intros t Ht. assert (A := area_nn m t). destruct (G_one t Ht) as [-> ->]. destruct SGE as [G1 G2]. destruct (corr_half t Ht) as [K1 _].
      set (k := corr _ _ _) in *. set (a1 := fst (method_strain method m v t)). set (a2 := snd (method_strain method m v t)).
      replace (2 / mu * (tarea m t * k * (pk23 p * e00 (pE p) * a1 * a1 + pk13 p * e11 (pE p) * a2 * a2)))
        with (tarea m t * ((k * (2 / mu)) * (pk23 p * e00 (pE p)) * (a1 ^ 2) + (k * (2 / mu)) * (pk13 p * e11 (pE p)) * (a2 ^ 2))) by ring.
      apply Rmult_le_compat_l; [exact A|].
      assert (KM : / mu <= k * (2 / mu)) by (unfold Rdiv; rewrite <- Rmult_assoc; rewrite <- (Rmult_1_l (/ mu)) at 1; apply Rmult_le_compat_r; [left; apply Rinv_0_lt_compat, Hmu|lra]).
      assert (Z : forall G, mu <= G -> 1 <= k * (2 / mu) * G).
      { intros G HG. replace 1 with (/ mu * mu) by (field; lra). apply Rmult_le_compat; try lra. left; apply Rinv_0_lt_compat, Hmu. }
      assert (Z1 := Rmult_le_compat_r (a1 ^ 2) _ _ (pow2_ge_0 a1) (Z _ G1)). assert (Z2 := Rmult_le_compat_r (a2 ^ 2) _ _ (pow2_ge_0 a2) (Z _ G2)). lra.
    - apply Rmult_le_compat_l; [unfold Rdiv; apply Rmult_le_pos; [lra|left; apply Rinv_0_lt_compat, Hmu]|]. rewrite FK. assert (X := k0_nn v). lra.
  Qed.

  Lemma k0_le : k0_energy m pfn v v <= form k' v v.
  Proof.
    rewrite FK. assert (Y : 0 <= shear_energy (method_strain method m) m pfn alpha mfa v v); [|lra].
      unfold shear_energy. apply Sum_nonneg. intros t Ht. assert (A := area_nn m t). destruct (G_one t Ht) as [-> ->]. destruct (G_range t Ht) as [GR1 GR2]. destruct (corr_half t Ht) as [K1 _].
      apply Rmult_le_pos; [apply Rmult_le_pos; lra|]. apply Rplus_le_le_0_compat; rewrite Rmult_assoc; (apply Rmult_le_pos; [lra|apply sq_nn]).
  Qed.

  Lemma strain_total : strain_error m Q F d <= (4 * sol_L kappa lam * sol_E + 12 * sol_eta h kappa M delta ^ 2) * total_area m.
  Proof.
    assert (E := energy_bound). assert (LP := L_pos kappa lam Hk Hl). set (L := sol_L kappa lam) in *.
    assert (YN := k0_le).
    assert (N := strains_k0 v). fold L in N. assert (N2 : L * k0_energy m pfn v v <= L * (2 * sol_E * total_area m)) by (apply Rmult_le_compat_l; lra).
    unfold strain_error.
    apply Rle_trans with (2 * strains_sq m v + 12 * sol_eta h kappa M delta ^ 2 * total_area m); [|lra].
    unfold strains_sq, total_area. rewrite <- !Sum_scal, <- Sum_plus. apply Sum_le. intros t Ht. assert (A := area_nn m t).
    assert (DN := delta_nn' t Ht).
    replace (strain_minus (tria_strain m d t) (true_strain F (Q t))) with (sadd_s (tria_strain m v t) (sub_strain (tria_strain m u t) (true_strain F (Q t)))).
    - assert (X := sq_sum (tria_strain m v t) (sub_strain (tria_strain m u t) (true_strain F (Q t)))).
      set (eta := sol_eta h kappa M delta).
      assert (Y : strain_sq (sub_strain (tria_strain m u t) (true_strain F (Q t))) <= 6 * (eta * eta)).
      { apply sq_small, near_sub. eapply near_weak; [apply (tria_near_Q Om m pfn h kappa Q M s F u V FI Hh Hk HM SM SA t Ht)|]. unfold eta, sol_eta.
        assert (Z : 0 <= M * h / kappa) by (apply Rmult_le_pos; [apply Rmult_le_pos; lra|left; apply Rinv_0_lt_compat, Hk]).
        replace (12 * M * h / kappa) with (12 * (M * h / kappa)) by (field; lra). replace (204 * M * h / kappa) with (204 * (M * h / kappa)) by (field; lra). lra. }
      assert (Z : strain_sq (sadd_s (tria_strain m v t) (sub_strain (tria_strain m u t) (true_strain F (Q t)))) <= 2 * strain_sq (tria_strain m v t) + 12 * eta ^ 2) by lra.
      apply (Rmult_le_compat_l _ _ _ A) in Z. lra.
    - unfold v. rewrite tria_strain_lin. unfold sadd_s, sscale, sub_strain, strain_minus; cbn [exx eyy exy kxx kyy kxy]. f_equal; ring.
  Qed.

  Lemma shear_total : shear_error method m Q F d <= (8 / mu * sol_E + 4 * sol_e ^ 2) * total_area m.
  Proof.
    assert (E := energy_bound). assert (SPT := shear_part). unfold shear_error.
    assert (N2 : 2 / mu * form k' v v <= 2 / mu * (2 * sol_E * total_area m)).
    { apply Rmult_le_compat_l; [unfold Rdiv; apply Rmult_le_pos; [lra|left; apply Rinv_0_lt_compat, Hmu]|exact E]. }
    apply Rle_trans with (2 * Sum (fun t => tarea m t * (fst (method_strain method m v t) ^ 2 + snd (method_strain method m v t) ^ 2)) (trias_of m) + 4 * sol_e ^ 2 * total_area m); [|lra].
    unfold total_area. rewrite <- !Sum_scal, <- Sum_plus. apply Sum_le. intros t Ht. assert (A := area_nn m t).
    destruct (shear_near Om m h kappa Q W FI Hh Hk F u M s b HM SM RB SA method t MT Ht) as [N1 N3]. fold sol_e in N1, N3.
    apply sq_abs_le in N1. apply sq_abs_le in N3.
    destruct (method_lin method m d u 1 (-1) t) as [M1 M2]. fold v in M1, M2.
    set (d1 := fst (method_strain method m d t)) in *. set (d2 := snd (method_strain method m d t)) in *. set (u1 := fst (method_strain method m u t)) in *. set (u2 := snd (method_strain method m u t)) in *.
    set (v1 := fst (method_strain method m v t)) in *. set (v2 := snd (method_strain method m v t)) in *. set (r1 := fst (true_shear F (Q t))) in *. set (r2 := snd (true_shear F (Q t))) in *.
    assert (Z1 := sq_nn (v1 - (u1 - r1))). assert (Z2 := sq_nn (v2 - (u2 - r2))).
    assert (Q1 : (d1 - r1) ^ 2 + (d2 - r2) ^ 2 <= 2 * (v1 ^ 2 + v2 ^ 2) + 4 * sol_e ^ 2).
    { replace d1 with (v1 + u1) by lra. replace d2 with (v2 + u2) by lra. lra. }
    apply (Rmult_le_compat_l _ _ _ A) in Q1. lra.
  Qed.
End Sol.
