(** Lemmas behind the properties on convergence of solutions with shear (C101, C102). *)
(* P: Num Py Mesh Utils CalcK0 AddK0s Spec SpecK0 SpecK0s SpecStab SpecStat SpecConv SpecSol SpecSol2 SpecKorn Ex ExK0 ExK0s ExGrid ExGrid2 ExMindlin *)
From Coq Require Import ZArith Reals List Bool Arith Lra Lia Psatz String.
From Verif Require Import Num Py Mesh Utils CalcK0 AddK0s Spec SpecK0 SpecKG SpecK0s SpecStab SpecStat SpecConv SpecSol SpecSol2 SpecKorn FSum FMat FWf FTensor FSmooth FStab FStab2 FConn FKG FK0s
  FConv FConv2 FSol FSol2 FSol3 FSol4 FKorn FLin2 LK0 LKG LK0s LConv LStab LSol Ex ExK0 ExK0s ExGrid ExGrid2 ExStab ExMindlin.
Import ListNotations.
Local Open Scope R_scope.
Implicit Types (m : mesh R).

Lemma sq_le : forall a b, 0 <= a -> a <= b -> a ^ 2 <= b ^ 2.
Proof. intros a b H L. apply pow_incr. split; assumption. Qed.

Lemma consts : forall kappa c lam th alpha M s b T, 0 < kappa -> 0 <= c -> 0 < lam -> 0 < th -> 0 <= alpha -> 0 <= M -> 0 <= s -> 0 <= b -> 0 <= T ->
  exists CE a1 a2, 0 <= CE /\ 0 <= a1 /\ 0 <= a2 /\ forall h delta tau method, 0 < h <= 1 -> 0 <= delta <= 1 -> let z := h + delta + third_error method in
    0 <= tau <= T * z ^ 2 ->
    sol_eta h kappa M delta ^ 2 <= a1 * z ^ 2 /\ sol_e h kappa M s b method ^ 2 <= a2 * z ^ 2 /\
    sol_E h kappa c lam th alpha M s b method delta tau <= CE * z ^ 2.
Proof.
  intros kappa c lam th alpha M s b T Hk Hc Hl Hth Hal HM Hs Hb HT.
  set (i := / kappa). assert (Hi : 0 < i) by (apply Rinv_0_lt_compat, Hk).
  set (g := / (th * th)). assert (Hg : 0 < g) by (apply Rinv_0_lt_compat, Rmult_lt_0_compat; assumption).
  set (L := sol_L kappa lam). assert (HL : 0 <= L).
  { unfold L, sol_L, Rdiv. apply Rmult_le_pos; [lra|]. left. apply Rinv_0_lt_compat, Rmult_lt_0_compat; [exact Hl|apply pow_lt, Hk]. }
  set (a1 := 1 + 204 * M * i). set (a2 := (40 * M + 32 * s + 24 * b) * i). set (a3 := 1 + a2 + 8 * alpha * g * (s + b + 3 * a2)).
  assert (P1 : 0 <= M * i) by (apply Rmult_le_pos; lra).
  assert (A1 : 0 <= a1) by (unfold a1; lra).
  assert (A2 : 0 <= a2) by (unfold a2; apply Rmult_le_pos; lra).
  assert (AG : 0 <= alpha * g) by (apply Rmult_le_pos; lra).
  assert (A3 : 0 <= a3).
  { unfold a3. assert (0 <= alpha * g * (s + b + 3 * a2)) by (apply Rmult_le_pos; lra). lra. }
  set (CE := L * (36 * c * a1) ^ 2 + 4 * L * T * (c * c * (s + b + 1)) ^ 2 + 4 * (c * c) * a3 ^ 2).
  exists CE, (a1 ^ 2), (a2 ^ 2).
  assert (CC : 0 <= c * c) by (apply Rmult_le_pos; assumption).
  assert (LT : 0 <= L * T) by (apply Rmult_le_pos; assumption).
  split.
  { unfold CE. assert (0 <= L * (36 * c * a1) ^ 2) by (apply Rmult_le_pos; [exact HL|apply pow2_ge_0]).
    assert (0 <= L * T * (c * c * (s + b + 1)) ^ 2) by (apply Rmult_le_pos; [exact LT|apply pow2_ge_0]).
    assert (0 <= c * c * a3 ^ 2) by (apply Rmult_le_pos; [exact CC|apply pow2_ge_0]). lra. }
  split; [apply pow2_ge_0|]. split; [apply pow2_ge_0|].
  intros h delta tau method [H0 H1] [D0 D1] z [T0 T1].
  destruct (third_small method) as [R0 R1]. set (te := third_error method) in *.
  assert (Z0 : 0 <= z) by (unfold z; lra). assert (Z3 : z <= 3) by (unfold z; lra).
  assert (E1 : 0 <= sol_eta h kappa M delta <= a1 * z).
  { unfold sol_eta, a1, Rdiv. fold i. assert (0 <= M * i * h) by (apply Rmult_le_pos; lra).
    assert (M * i * h <= M * i * z) by (apply Rmult_le_compat_l; unfold z; lra).
    replace (204 * M * h * i) with (204 * (M * i * h)) by ring. replace ((1 + 204 * M * i) * z) with (z + 204 * (M * i * z)) by ring. unfold z in *. lra. }
  assert (E2 : 0 <= sol_e h kappa M s b method <= a2 * z).
  { unfold sol_e, serr, a2, Rdiv. fold te i.
    assert (Q1 : M * h <= M) by (rewrite <- (Rmult_1_r M) at 2; apply Rmult_le_compat_l; assumption). assert (Q2 : 0 <= M * h) by (apply Rmult_le_pos; lra).
    assert (Q3 : 0 <= (8 * M + 32 * s + 32 * M * h) * h) by (apply Rmult_le_pos; lra).
    assert (Q4 : (8 * M + 32 * s + 32 * M * h) * h <= (40 * M + 32 * s) * z).
    { apply Rmult_le_compat; try lra. unfold z; lra. }
    assert (Q5 : 0 <= te * b) by (apply Rmult_le_pos; lra). assert (Q6 : te * b <= z * b) by (apply Rmult_le_compat_r; [exact Hb|unfold z; lra]).
    replace ((8 * M + 32 * s + 32 * M * h) * h * i + 24 * te * b * i) with (((8 * M + 32 * s + 32 * M * h) * h + 24 * (te * b)) * i) by ring.
    replace ((40 * M + 32 * s + 24 * b) * i * z) with (((40 * M + 32 * s) * z + 24 * (z * b)) * i) by ring.
    split; [apply Rmult_le_pos; lra|apply Rmult_le_compat_r; lra]. }
  assert (E3 : 0 <= sol_rho h kappa th alpha M s b method delta <= a3 * z).
  { unfold sol_rho. set (e := sol_e h kappa M s b method) in *.
    assert (F1 : e <= 3 * a2). { apply (Rle_trans _ (a2 * z)); [apply E2|]. rewrite (Rmult_comm 3). apply Rmult_le_compat_l; assumption. }
    assert (F2 : 0 <= h * h <= z).
    { split; [apply Rmult_le_pos; lra|]. apply (Rle_trans _ (1 * h)); [apply Rmult_le_compat_r; lra|unfold z; lra]. }
    assert (F3 : 0 <= alpha * g * (h * h)) by (apply Rmult_le_pos; lra).
    assert (F4 : alpha * g * (h * h) <= alpha * g * z) by (apply Rmult_le_compat_l; lra).
    assert (F5 : 0 <= alpha * g * (h * h) * (s + b + e)) by (apply Rmult_le_pos; lra).
    assert (F6 : alpha * g * (h * h) * (s + b + e) <= alpha * g * z * (s + b + 3 * a2)) by (apply Rmult_le_compat; lra).
    replace (8 * alpha * (h * h) / (th * th) * (s + b + e)) with (8 * (alpha * g * (h * h) * (s + b + e))) by (unfold g; field; lra).
    replace (a3 * z) with (z + a2 * z + 8 * (alpha * g * z * (s + b + 3 * a2))) by (unfold a3; ring). unfold z in *. lra. }
  split; [rewrite <- Rpow_mult_distr; apply sq_le; apply E1|]. split; [rewrite <- Rpow_mult_distr; apply sq_le; apply E2|].
  unfold sol_E. fold L.
  replace (CE * z ^ 2) with (L * (36 * c * (a1 * z)) ^ 2 + 4 * (L * (T * z ^ 2)) * (c * c * (s + b + 1)) ^ 2 + 4 * (c * c) * (a3 * z) ^ 2) by (unfold CE; ring).
  apply Rplus_le_compat; [apply Rplus_le_compat|].
  - apply Rmult_le_compat_l; [exact HL|]. apply sq_le; [apply Rmult_le_pos; lra|]. apply Rmult_le_compat_l; lra.
  - replace (4 * L * tau) with (4 * (L * tau)) by ring. apply Rmult_le_compat.
    + assert (0 <= L * tau) by (apply Rmult_le_pos; lra). lra.
    + apply pow2_ge_0.
    + assert (L * tau <= L * (T * z ^ 2)) by (apply Rmult_le_compat_l; assumption). lra.
    + apply sq_le; [apply Rmult_le_pos; lra|]. apply Rmult_le_compat_l; lra.
  - apply Rmult_le_compat_l; [lra|]. apply sq_le; apply E3.
Qed.

(** ** C101 *)

Lemma total_nn : forall m, 0 <= total_area m.
Proof. intros m. unfold total_area. apply Sum_nonneg. intros t _. apply area_nn. Qed.

Section Conv.
  Variables (kappa c lam mu th alpha M s b T : R).
  Hypothesis Hk : 0 < kappa.
  Hypothesis Hc : 0 <= c.
  Hypothesis Hl : 0 < lam.
  Hypothesis Hmu : 0 < mu.
  Hypothesis Hth : 0 < th.
  Hypothesis Hal : 0 <= alpha.
  Hypothesis HM : 0 <= M.
  Hypothesis Hs : 0 <= s.
  Hypothesis Hb : 0 <= b.
  Hypothesis HT : 0 <= T.

  Lemma mindlin_core : exists C, 0 <= C /\ forall test method mfa Om m pfn p h Q F u S load delta tau,
    In method cell_methods -> mindlin_plate Om m pfn p h kappa Q c lam mu th -> 0 < h <= 1 -> 16 * alpha * (h * h) <= th * th -> 0 <= delta <= 1 ->
    mindlin_motion Om m M s b F u -> admissible (List.length (nodes m) * 5) S u -> mindlin_loads (test m) m p S Q F delta load ->
    0 < tau -> tau <= T * (h + delta + third_error method) ^ 2 ->
    (forall v, admissible (List.length (nodes m) * 5) S v ->
       Sum (fun t => tarea m t * ((fst (method_strain method m v t) - fst (test m v t)) ^ 2 + (snd (method_strain method m v t) - snd (test m v t)) ^ 2)) (trias_of m)
       <= tau * strains_sq m v) ->
    exists m' K k', calc_k0 m pfn = (m', Ok K) /\ add_k0s lits_src K m' pfn method alpha mfa = (k', Ok tt) /\
      mdim k' = (List.length (nodes m) * 5)%nat /\
      (forall a a', form k' a a' = k0_energy m pfn a a' + shear_energy (method_strain method m) m pfn alpha mfa a a') /\
      forall d, solves k' S load d -> let e := C * (h + delta + third_error method) ^ 2 * total_area m in
        form k' (fun i => 1 * d i + -1 * u i) (fun i => 1 * d i + -1 * u i) <= e /\ strain_error m Q F d <= e /\ shear_error method m Q F d <= e.
  Proof.
    destruct (consts kappa c lam th alpha M s b T Hk Hc Hl Hth Hal HM Hs Hb HT) as [CE [a1 [a2 [N0 [N1 [N2 CO]]]]]].
    assert (HL : 0 <= sol_L kappa lam).
    { unfold sol_L, Rdiv. apply Rmult_le_pos; [lra|]. left. apply Rinv_0_lt_compat, Rmult_lt_0_compat; [exact Hl|apply pow_lt, Hk]. }
    set (L := sol_L kappa lam) in *.
    assert (IM : 0 < / mu) by (apply Rinv_0_lt_compat, Hmu).
    assert (U1 : 0 <= L * CE) by (apply Rmult_le_pos; assumption). assert (U2 : 0 <= / mu * CE) by (apply Rmult_le_pos; lra).
    exists (2 * CE + (4 * (L * CE) + 12 * a1) + (8 * (/ mu * CE) + 4 * a2)). split; [lra|].
    intros test method mfa Om m pfn p h Q F u S load delta tau MT [V [OP [SP [SG [SGE [BA [BB [BD [SB FI]]]]]]]]] Hh HC Hd [SM [RB SA]] AU [st [sh [ST LD]]] Ht0 Ht1 TN.
    assert (A0 : all_props m shear_pos) by (apply (all_imp m (fun q => q = p)); [intros q ->; exact SP|exact OP]).
    destruct (total_spec method MT m pfn V alpha mfa A0 Hal) as [m' [K [k' [E1 [E2 [DK FK]]]]]].
    exists m', K, k'. split; [exact E1|]. split; [exact E2|]. split; [exact DK|]. split; [exact FK|]. intros d SO. cbv zeta.
    destruct (CO h delta tau method Hh Hd (conj (Rlt_le _ _ Ht0) Ht1)) as [B1 [B2 B3]].
    destruct Hh as [Hh _].
    assert (X1 := energy_bound Om m pfn p h kappa Q c lam mu th alpha M s b F u method mfa V OP SG SGE BA BB BD SB FI Hh Hk Hl Hmu Hc HM Hth Hal HC MT SM RB SA
      delta tau st sh (test m) ST k' S load d DK FK LD Ht0 TN AU SO).
    assert (X2 := strain_total Om m pfn p h kappa Q c lam mu th alpha M s b F u method mfa V OP SG SGE BA BB BD SB FI Hh Hk Hl Hmu Hc HM Hth Hal HC MT SM RB SA
      delta tau st sh (test m) ST k' S load d DK FK LD Ht0 TN AU SO).
    assert (X3 := shear_total Om m pfn p h kappa Q c lam mu th alpha M s b F u method mfa V OP SG SGE BA BB BD SB FI Hh Hk Hl Hmu Hc HM Hth Hal HC MT SM RB SA
      delta tau st sh (test m) ST k' S load d DK FK LD Ht0 TN AU SO).
    fold L in X2.
    set (EE := sol_E h kappa c lam th alpha M s b method delta tau) in *. set (z := h + delta + third_error method) in *.
    assert (Z2 : 0 <= z ^ 2) by apply pow2_ge_0. assert (TA := total_nn m).
    assert (Y1 : L * EE <= L * CE * z ^ 2) by (rewrite Rmult_assoc; apply Rmult_le_compat_l; assumption).
    assert (Y2 : / mu * EE <= / mu * CE * z ^ 2) by (rewrite Rmult_assoc; apply Rmult_le_compat_l; lra).
    assert (W0 : 0 <= CE * z ^ 2) by (apply Rmult_le_pos; assumption). assert (W1 : 0 <= L * CE * z ^ 2) by (apply Rmult_le_pos; assumption).
    assert (W2 : 0 <= / mu * CE * z ^ 2) by (apply Rmult_le_pos; assumption). assert (W3 : 0 <= a1 * z ^ 2) by (apply Rmult_le_pos; assumption).
    assert (W4 : 0 <= a2 * z ^ 2) by (apply Rmult_le_pos; assumption).
    replace ((2 * CE + (4 * (L * CE) + 12 * a1) + (8 * (/ mu * CE) + 4 * a2)) * z ^ 2)
      with (2 * (CE * z ^ 2) + (4 * (L * CE * z ^ 2) + 12 * (a1 * z ^ 2)) + (8 * (/ mu * CE * z ^ 2) + 4 * (a2 * z ^ 2))) by ring.
    split; [|split].
    - eapply Rle_trans; [exact X1|]. apply Rmult_le_compat_r; [exact TA|]. lra.
    - eapply Rle_trans; [exact X2|]. apply Rmult_le_compat_r; [exact TA|]. lra.
    - eapply Rle_trans; [exact X3|]. apply Rmult_le_compat_r; [exact TA|].
      replace (8 / mu * EE) with (8 * (/ mu * EE)) by (unfold Rdiv; ring). lra.
  Qed.
End Conv.

Lemma third_nn : forall method, 0 <= third_error method.
Proof. intros method. apply third_small. Qed.

(** The solution of a static problem with a cell-based shear method: if the loads belong to a smooth motion F that
    respects the supports, the energy of the difference to F in the nodes and the integrals of the squares of the errors of
    strains and shear strains are bounded by a multiple of the square of the mesh size h, of delta, by which the loads miss
    those of F, and of the error of the constant 1/3 as written in the code.  The factor depends on the bounds only, not on
    mesh, supports, laminate, motion or options.  The loads work on the rotations the method uses. *)
Lemma c101_strains : forall kappa c lam mu th alpha M s b, 0 < kappa -> 0 <= c -> 0 < lam -> 0 < mu -> 0 < th -> 0 <= alpha -> 0 <= M -> 0 <= s -> 0 <= b ->
  exists C, 0 <= C /\ forall method mfa Om m pfn p h Q F u S load delta, In method cell_methods ->
    mindlin_plate Om m pfn p h kappa Q c lam mu th -> 0 < h <= 1 -> 16 * alpha * (h * h) <= th * th -> 0 <= delta <= 1 ->
    mindlin_motion Om m M s b F u -> admissible (List.length (nodes m) * 5) S u -> mindlin_loads (test_shear method m) m p S Q F delta load ->
    exists m' K k', calc_k0 m pfn = (m', Ok K) /\ add_k0s lits_src K m' pfn method alpha mfa = (k', Ok tt) /\
      forall d, solves k' S load d -> let e := C * (h + delta + third_error method) ^ 2 * total_area m in
        form k' (fun i => 1 * d i + -1 * u i) (fun i => 1 * d i + -1 * u i) <= e /\ strain_error m Q F d <= e /\ shear_error method m Q F d <= e.
Proof.
  intros kappa c lam mu th alpha M s b Hk Hc Hl Hmu Hth Hal HM Hs Hb. set (T := 2 * (24 / kappa) ^ 2).
  assert (HT : 0 <= T) by (unfold T; assert (0 <= (24 / kappa) ^ 2) by apply pow2_ge_0; lra).
  destruct (mindlin_core kappa c lam mu th alpha M s b T Hk Hc Hl Hmu Hth Hal HM Hs Hb HT) as [C [NC CO]]. exists C. split; [exact NC|].
  intros method mfa Om m pfn p h Q F u S load delta MT PL Hh HC Hd MO AU LD.
  assert (FI : fine_trias Om m h kappa Q) by apply PL. assert (R0 := third_nn method).
  assert (G0 : 0 < (24 * h / kappa) ^ 2) by (apply pow_lt, Rdiv_lt_0_compat; lra).
  destruct (CO (test_shear method) method mfa Om m pfn p h Q F u S load delta (2 * (24 * h / kappa) ^ 2) MT PL Hh HC Hd MO AU LD) as [m' [K [k' [E1 [E2 [_ [_ X]]]]]]].
  - lra.
  - replace (2 * (24 * h / kappa) ^ 2) with (T * h ^ 2) by (unfold T, Rdiv; ring). apply Rmult_le_compat_l; [exact HT|]. apply sq_le; lra.
  - intros v _. apply (test_sq Om m h kappa Q FI); tauto.
  - exists m', K, k'. auto.
Qed.

(** The same for loads that work on the displacements themselves (linear in every triangle), in plates whose supports
    satisfy Korn's inequality for the rotations. *)
Lemma c101_natural : forall kappa c lam mu th alpha M s b CK, 0 < kappa -> 0 <= c -> 0 < lam -> 0 < mu -> 0 < th -> 0 <= alpha -> 0 <= M -> 0 <= s -> 0 <= b -> 0 <= CK ->
  exists C, 0 <= C /\ forall method mfa Om m pfn p h Q F u S load delta, In method cell_methods ->
    mindlin_plate Om m pfn p h kappa Q c lam mu th -> 0 < h <= 1 -> 16 * alpha * (h * h) <= th * th -> 0 <= delta <= 1 ->
    mindlin_motion Om m M s b F u -> admissible (List.length (nodes m) * 5) S u -> mindlin_loads (tria_shear m) m p S Q F delta load -> korn CK m S ->
    exists m' K k', calc_k0 m pfn = (m', Ok K) /\ add_k0s lits_src K m' pfn method alpha mfa = (k', Ok tt) /\
      forall d, solves k' S load d -> let e := C * (h + delta + third_error method) ^ 2 * total_area m in
        form k' (fun i => 1 * d i + -1 * u i) (fun i => 1 * d i + -1 * u i) <= e /\ strain_error m Q F d <= e /\ shear_error method m Q F d <= e.
Proof.
  intros kappa c lam mu th alpha M s b CK Hk Hc Hl Hmu Hth Hal HM Hs Hb HK. set (T := 4 * (24 / kappa) ^ 2 + 2 * ((3 / 2) ^ 2 + 8) * CK).
  assert (HT : 0 <= T) by (unfold T; assert (0 <= (24 / kappa) ^ 2) by apply pow2_ge_0; lra).
  destruct (mindlin_core kappa c lam mu th alpha M s b T Hk Hc Hl Hmu Hth Hal HM Hs Hb HT) as [C [NC CO]]. exists C. split; [exact NC|].
  intros method mfa Om m pfn p h Q F u S load delta MT PL Hh HC Hd MO AU LD KO.
  assert (FI : fine_trias Om m h kappa Q) by apply PL. assert (R0 := third_nn method).
  set (tau := 4 * (24 * h / kappa) ^ 2 + 2 * ((3 / 2 * third_error method) ^ 2 + 8 * h ^ 2) * CK).
  assert (G0 : 0 < (24 * h / kappa) ^ 2) by (apply pow_lt, Rdiv_lt_0_compat; lra).
  assert (G1 : 0 <= ((3 / 2 * third_error method) ^ 2 + 8 * h ^ 2) * CK).
  { apply Rmult_le_pos; [|exact HK]. assert (A := pow2_ge_0 (3 / 2 * third_error method)). assert (B := pow2_ge_0 h). lra. }
  destruct (CO tria_shear method mfa Om m pfn p h Q F u S load delta tau MT PL Hh HC Hd MO AU LD) as [m' [K [k' [E1 [E2 [_ [_ X]]]]]]].
  - unfold tau. lra.
  - unfold tau, T. set (z := h + delta + third_error method).
    assert (Z1 : h ^ 2 <= z ^ 2) by (apply sq_le; unfold z; lra). assert (Z2 : third_error method ^ 2 <= z ^ 2) by (apply sq_le; unfold z; lra).
    assert (Y1 : (24 / kappa) ^ 2 * h ^ 2 <= (24 / kappa) ^ 2 * z ^ 2) by (apply Rmult_le_compat_l; [apply pow2_ge_0|exact Z1]).
    assert (Y2 : ((3 / 2 * third_error method) ^ 2 + 8 * h ^ 2) * CK <= ((3 / 2) ^ 2 + 8) * z ^ 2 * CK).
    { apply Rmult_le_compat_r; [exact HK|]. rewrite Rpow_mult_distr. lra. }
    replace ((24 * h / kappa) ^ 2) with ((24 / kappa) ^ 2 * h ^ 2) by (unfold Rdiv; ring). lra.
  - intros v AV. apply (mean_sq Om m h kappa Q FI (proj1 Hh) Hk method v S CK MT KO AV).
  - exists m', K, k'. auto.
Qed.

(** Plates whose supports hold the rotations along the boundary satisfy Korn's inequality, with a constant that depends on
    the width of the plate only: the solutions of all of them converge. *)
Lemma c101_korn : forall m pfn S X, valid m pfn -> held [3; 4]%nat m S -> in_strip X m -> korn (2 + 8 * (X * X)) m S.
Proof. intros m pfn S X V. apply korn_held; [apply (va_wf _ _ V)|apply (va_plate _ _ V)]. Qed.

Definition linear (N : nat) (f : (nat -> R) -> R) : Prop :=
  (forall a b v w, f (fun i => a * v i + b * w i) = a * f v + b * f w) /\ (forall v w, (forall i, (i < N)%nat -> v i = w i) -> f v = f w).

Lemma Sum_last' : forall (f : nat -> R) n, Sum f (seq 0 (S n)) = Sum f (seq 0 n) + f n.
Proof. intros f n. rewrite seq_S, Sum_app, Sum_cons, Sum_nil. cbn [Nat.add]. ring. Qed.

Lemma represent : forall N f, linear N f -> exists load, forall v, load_work N load v = f v.
Proof.
  intros N f [LI EX]. exists (fun i => f (fun j => if Nat.eqb j i then 1 else 0)). intros v. unfold load_work.
  assert (X : forall k, (k <= N)%nat -> Sum (fun i => f (fun j => if Nat.eqb j i then 1 else 0) * v i) (seq 0 k) = f (fun j => if Nat.ltb j k then v j else 0)).
  { induction k as [|k IH]; intros Hk.
    - cbn [seq]. rewrite Sum_nil. symmetry. rewrite (EX _ (fun i => 0 * 0 + 0 * 0)); [|intros i _; cbn; ring]. rewrite (LI 0 0 (fun _ => 0) (fun _ => 0)). ring.
    - rewrite Sum_last', IH by lia.
      replace (f (fun j => if Nat.ltb j k then v j else 0) + f (fun j => if Nat.eqb j k then 1 else 0) * v k)
        with (1 * f (fun j => if Nat.ltb j k then v j else 0) + v k * f (fun j => if Nat.eqb j k then 1 else 0)) by ring.
      rewrite <- LI. apply EX. intros i _. destruct (Nat.ltb_spec i k), (Nat.eqb_spec i k), (Nat.ltb_spec i (S k)); try lia; subst; ring. }
  rewrite X by lia. apply EX. intros i Hi. destruct (Nat.ltb_spec i N); [reflexivity|lia].
Qed.

Definition linear_shear (test : (nat -> R) -> tria R -> R * R) (m : mesh R) : Prop :=
  forall t, In t (trias_of m) -> linear (List.length (nodes m) * 5) (fun v => fst (test v t)) /\ linear (List.length (nodes m) * 5) (fun v => snd (test v t)).

Lemma comp_same : forall m v w c n, In n (node_keys m) -> (c < 5)%nat -> (forall i, (i < List.length (nodes m) * 5)%nat -> v i = w i) -> comp m v c n = comp m w c n.
Proof. intros m v w c n Hn Hc H. unfold comp. apply H. assert (L := rank_lt m n Hn). lia. Qed.

Lemma have_loads : forall test m p S Q F, wf_mesh m -> linear_shear test m -> exists load, mindlin_loads test m p S Q F 0 load.
Proof.
  intros test m p S Q F W LT.
  destruct (represent (List.length (nodes m) * 5) (fun v => Sum (fun t => tarea m t * (dens (pA p) (pB p) (pD p) (true_strain F (Q t)) (tria_strain m v t) +
    (pk23 p * e00 (pE p) * fst (true_shear F (Q t)) * fst (test v t) + pk13 p * e11 (pE p) * snd (true_shear F (Q t)) * snd (test v t)))) (trias_of m))) as [load HL].
  { split.
    - intros a b v w. rewrite <- !Sum_scal, <- Sum_plus. apply Sum_ext_in. intros t Ht. destruct (LT t Ht) as [[L1 _] [L2 _]].
      rewrite (L1 a b v w), (L2 a b v w), tria_strain_lin, dens_add_r, !dens_scale_r. ring.
    - intros v w E. apply Sum_ext_in. intros t Ht. destruct (LT t Ht) as [[_ L1] [_ L2]]. rewrite (L1 v w E), (L2 v w E).
      assert (C : forall c n, (c < 5)%nat -> vertex t n -> comp m v c n = comp m w c n) by (intros c n Hc Vn; apply comp_same; [apply (wf_vertices m W t n Ht Vn)|exact Hc|exact E]).
      unfold tria_strain. rewrite !(tgx_ext m t (comp m v _) (comp m w _)), !(tgy_ext m t (comp m v _) (comp m w _)) by (intros n Vn; apply C; [lia|exact Vn]). reflexivity. }
  exists load, (fun t => true_strain F (Q t)), (fun t => true_shear F (Q t)). split; [|intros v _; apply HL].
  intros t _. unfold strain_near. rewrite !Rminus_diag_eq, Rabs_R0 by reflexivity. repeat split; lra.
Qed.

Lemma lin_sum : forall N f g c1 c2, linear N f -> linear N g -> linear N (fun v => c1 * f v + c2 * g v).
Proof. intros N f g c1 c2 [L1 E1] [L2 E2]. split; [intros a b v w; rewrite L1, L2; ring|intros v w E; rewrite (E1 v w E), (E2 v w E); reflexivity]. Qed.
Lemma lin_ext : forall N f g, (forall v, f v = g v) -> linear N f -> linear N g.
Proof. intros N f g E [L1 E1]. split; [intros a b v w; rewrite <- !E; apply L1|intros v w H; rewrite <- !E; apply E1, H]. Qed.

Section Lin.
  Variable m : mesh R.
  Hypothesis W : wf_mesh m.
  Variable t : tria R.
  Hypothesis Ht : In t (trias_of m).
  Let N := (List.length (nodes m) * 5)%nat.
  Variable c : nat.
  Hypothesis Hc : (c < 5)%nat.

  Lemma comp_linear : forall n, vertex t n -> linear N (fun v => comp m v c n).
  Proof. intros n Vn. split; [reflexivity|]. intros v w E. apply comp_same; [apply (wf_vertices m W t n Ht Vn)|exact Hc|exact E]. Qed.
  Lemma mean_linear : linear N (fun v => tmean t (comp m v c)).
  Proof.
    split; [intros a b v w; unfold tmean, comp; field|]. intros v w E. unfold tmean.
    rewrite !(comp_same m v w c) by (assumption || (apply (wf_vertices m W t _ Ht); unfold vertex; auto)). reflexivity.
  Qed.
  Lemma tgx_linear : linear N (fun v => tgx m t (comp m v c)).
  Proof.
    split; [intros a b v w; change (comp m (fun i => a * v i + b * w i) c) with (fun n => a * comp m v c n + b * comp m w c n); apply tgx_lin|].
    intros v w E. apply tgx_ext. intros n Vn. apply comp_same; [apply (wf_vertices m W t n Ht Vn)|exact Hc|exact E].
  Qed.
  Lemma tgy_linear : linear N (fun v => tgy m t (comp m v c)).
  Proof.
    split; [intros a b v w; change (comp m (fun i => a * v i + b * w i) c) with (fun n => a * comp m v c n + b * comp m w c n); apply tgy_lin|].
    intros v w E. apply tgy_ext. intros n Vn. apply comp_same; [apply (wf_vertices m W t n Ht Vn)|exact Hc|exact E].
  Qed.
End Lin.

Lemma gap_vertex : forall m t, vertex t (gap_node m t).
Proof. intros m t. unfold gap_node, vertex. destruct (Rlt_dec (tdet m t) 0); auto. Qed.

Lemma tria_shear_linear : forall m, wf_mesh m -> linear_shear (tria_shear m) m.
Proof.
  intros m W t Ht. unfold tria_shear; cbn [fst snd]. split.
  - refine (lin_ext _ _ _ _ (lin_sum _ _ _ 1 1 (tgx_linear m W t Ht 2 _) (mean_linear m W t Ht 3 _))); [intros v; cbv beta; ring|lia|lia].
  - refine (lin_ext _ _ _ _ (lin_sum _ _ _ 1 1 (tgy_linear m W t Ht 2 _) (mean_linear m W t Ht 4 _))); [intros v; cbv beta; ring|lia|lia].
Qed.
Lemma test_shear_linear : forall method m, wf_mesh m -> linear_shear (test_shear method m) m.
Proof.
  intros method m W t Ht. unfold test_shear. destruct (String.eqb method "cell-based"); cbn [fst snd]; split.
  - refine (lin_ext _ _ _ _ (lin_sum _ _ _ 1 (1 + literal_error method) (tgx_linear m W t Ht 2 _) (mean_linear m W t Ht 3 _))); [intros v; cbv beta; ring|lia|lia].
  - refine (lin_ext _ _ _ _ (lin_sum _ _ _ 1 (1 + literal_error method) (tgy_linear m W t Ht 2 _) (mean_linear m W t Ht 4 _))); [intros v; cbv beta; ring|lia|lia].
  - refine (lin_ext _ _ _ _ (lin_sum _ _ _ 1 1 (tgx_linear m W t Ht 2 _) (comp_linear m W t Ht 3 _ (gap_node m t) _))); [intros v; cbv beta; ring|lia|lia|apply gap_vertex].
  - refine (lin_ext _ _ _ _ (lin_sum _ _ _ 1 1 (tgy_linear m W t Ht 2 _) (comp_linear m W t Ht 4 _ (gap_node m t) _))); [intros v; cbv beta; ring|lia|lia|apply gap_vertex].
Qed.

(** Every motion has such loads, of both kinds, without any error. *)
Lemma c101_loads : forall m pfn p S Q F method, valid m pfn ->
  (exists load, mindlin_loads (test_shear method m) m p S Q F 0 load) /\ (exists load, mindlin_loads (tria_shear m) m p S Q F 0 load).
Proof.
  intros m pfn p S Q F method V. assert (W := va_wf _ _ V).
  split; apply have_loads; try exact W; [apply test_shear_linear, W|apply tria_shear_linear, W].
Qed.

Lemma grid_mindlin : forall n pfn, (0 < n)%nat -> mindlin_plate unit_square (grid_mesh n) pfn (ex_prop 1) (1 / INR n) (1 / 2) (grid_tpoint n) 20 1 4 (1 / 10).
Proof.
  intros n pfn H. destruct (c95_fraction_ex n pfn H) as [V [OP [SG [BA [BB [BD _]]]]]].
  split; [exact V|]. split; [exact OP|]. split; [apply ex_shear_pos; lra|]. split; [exact SG|]. split; [unfold shear_ge, ex_prop; cbn; lra|].
  split; [exact BA|]. split; [exact BB|]. split; [exact BD|]. split; [apply grid_shear_bounded, H|apply grid_fine_trias, H].
Qed.
Lemma grid_fine_h : forall h0, 0 < h0 -> exists n, (0 < n)%nat /\ 0 < 1 / INR n <= h0 /\ 1 / INR n <= 1 /\ 16 * 1 * (1 / INR n * (1 / INR n)) <= 1 / 10 * (1 / 10).
Proof.
  intros h0 H. destruct (grid_small (Rmin h0 (1 / 40))) as [n [Hn [P L]]]; [apply Rmin_pos; lra|]. assert (L1 := Rmin_l h0 (1 / 40)). assert (L2 := Rmin_r h0 (1 / 40)).
  exists n. split; [exact Hn|]. split; [lra|]. split; [lra|]. assert (X : 1 / INR n * (1 / INR n) <= 1 / 40 * (1 / 40)) by (apply Rmult_le_compat; lra). lra.
Qed.
Lemma grid_solution : forall n pfn load, (0 < n)%nat -> let m := grid_mesh n in
  exists m' K k', calc_k0 m pfn = (m', Ok K) /\ add_k0s lits_src K m' pfn "cell-based" 1 false = (k', Ok tt) /\ exists d, solves k' (framed m) load d.
Proof.
  intros n pfn load H m. destruct (grid_pd n H) as [PD SP].
  destruct (c66_unique "cell-based" m pfn 1 false (or_introl eq_refl) (grid_valid n H pfn) PD SP ltac:(lra) (grid_braced n H)) as [m' [K [k' [E1 [E2 X]]]]].
  exists m', K, k'. split; [exact E1|]. split; [exact E2|]. destruct (X (framed m) load (grid_framed n H _)) as [d [S _]]. exists d. exact S.
Qed.

(** The unit square cut into 2 n^2 triangles, held along its boundary, with loads that belong to a dome; there are meshes of
    this kind of every size, and all of them have a solution. *)
Lemma c101_strains_ex : forall h0 pfn, 0 < h0 -> exists h m Q load, 0 < h <= h0 /\ h <= 1 /\ 16 * 1 * (h * h) <= 1 / 10 * (1 / 10) /\ let p := ex_prop 1 in let u := sampled m dome in
  mindlin_plate unit_square m pfn p h (1 / 2) Q 20 1 4 (1 / 10) /\ mindlin_motion unit_square m 4 2 2 dome u /\ admissible (List.length (nodes m) * 5) (framed m) u /\
  mindlin_loads (test_shear "cell-based" m) m p (framed m) Q dome 0 load /\ total_area m = 1 /\
  exists m' K k', calc_k0 m pfn = (m', Ok K) /\ add_k0s lits_src K m' pfn "cell-based" 1 false = (k', Ok tt) /\ exists d, solves k' (framed m) load d.
Proof.
  intros h0 pfn H. destruct (grid_fine_h h0 H) as [n [Hn [Hh [H1 HC]]]].
  destruct (c101_loads (grid_mesh n) pfn (ex_prop 1) (framed (grid_mesh n)) (grid_tpoint n) dome "cell-based" (grid_valid n Hn pfn)) as [[load HL] _].
  exists (1 / INR n), (grid_mesh n), (grid_tpoint n), load. split; [exact Hh|]. split; [exact H1|]. split; [exact HC|]. cbv zeta.
  split; [apply grid_mindlin, Hn|]. split; [split; [apply dome_smooth|split; [apply dome_rot|apply sampled_ok]]|]. split; [apply dome_framed|].
  split; [exact HL|]. split; [apply grid_total, Hn|apply grid_solution, Hn].
Qed.

(** Its supports satisfy Korn's inequality. *)
Lemma c101_natural_ex : forall h0 pfn, 0 < h0 -> exists h m Q load, 0 < h <= h0 /\ h <= 1 /\ 16 * 1 * (h * h) <= 1 / 10 * (1 / 10) /\ let p := ex_prop 1 in let u := sampled m dome in
  mindlin_plate unit_square m pfn p h (1 / 2) Q 20 1 4 (1 / 10) /\ mindlin_motion unit_square m 4 2 2 dome u /\ admissible (List.length (nodes m) * 5) (framed m) u /\
  mindlin_loads (tria_shear m) m p (framed m) Q dome 0 load /\ korn 4 m (framed m) /\ total_area m = 1 /\
  exists m' K k', calc_k0 m pfn = (m', Ok K) /\ add_k0s lits_src K m' pfn "cell-based" 1 false = (k', Ok tt) /\ exists d, solves k' (framed m) load d.
Proof.
  intros h0 pfn H. destruct (grid_fine_h h0 H) as [n [Hn [Hh [H1 HC]]]].
  destruct (c101_loads (grid_mesh n) pfn (ex_prop 1) (framed (grid_mesh n)) (grid_tpoint n) dome "cell-based" (grid_valid n Hn pfn)) as [_ [load HL]].
  exists (1 / INR n), (grid_mesh n), (grid_tpoint n), load. split; [exact Hh|]. split; [exact H1|]. split; [exact HC|]. cbv zeta.
  split; [apply grid_mindlin, Hn|]. split; [split; [apply dome_smooth|split; [apply dome_rot|apply sampled_ok]]|]. split; [apply dome_framed|].
  split; [exact HL|]. split; [|split; [apply grid_total, Hn|apply grid_solution, Hn]].
  replace 4 with (2 + 8 * (1 / 2 * (1 / 2))) by field. apply (c101_korn _ pfn); [apply grid_valid, Hn|apply grid_held; [exact Hn|cbn [In]; lia]|apply grid_strip, Hn].
Qed.
Lemma c101_korn_ex : forall n pfn, (0 < n)%nat -> let m := grid_mesh n in valid m pfn /\ held [3; 4]%nat m (framed m) /\ in_strip (1 / 2) m.
Proof. intros n pfn H m. split; [apply grid_valid, H|]. split; [apply grid_held; [exact H|cbn [In]; lia]|apply grid_strip, H]. Qed.
Lemma c101_loads_ex : forall n pfn, (0 < n)%nat -> valid (grid_mesh n) pfn.
Proof. intros n pfn H. apply grid_valid, H. Qed.

(** ** C102 *)

(** the displacements of a plate held along its boundary, from strains and shear strains *)
Lemma means_bound : forall m S v X CK tau method, wf_mesh m -> plate m -> admissible (List.length (nodes m) * 5) S v -> held [0; 1; 2; 3; 4]%nat m S -> in_strip X m ->
  CK = 2 + 8 * (X * X) ->
  Sum (fun t => tarea m t * ((fst (method_strain method m v t) - fst (tria_shear m v t)) ^ 2 + (snd (method_strain method m v t) - snd (tria_shear m v t)) ^ 2)) (trias_of m)
    <= tau * strains_sq m v ->
  Sum (fun c => Sum (fun t => tarea m t * tmean t (comp m v c) ^ 2) (trias_of m)) (seq 0 5)
    <= (2 * CK + 4 * (X * X) * (4 * tau + 2 * CK)) * strains_sq m v +
       16 * (X * X) * Sum (fun t => tarea m t * (fst (method_strain method m v t) ^ 2 + snd (method_strain method m v t) ^ 2)) (trias_of m).
Proof.
  intros m S v X CK tau method W PL AV HE ST CKE TN.
  assert (Z : forall j, In j [0; 1; 2; 3; 4]%nat -> zero_edge m (comp m v j)) by (apply (held_zero m W S v _ HE AV); intros j; cbn [In]; lia).
  assert (Z0 := Z 0%nat ltac:(cbn; auto)). assert (Z1 := Z 1%nat ltac:(cbn; auto)). assert (Z2 := Z 2%nat ltac:(cbn; auto 6)).
  assert (Z3 := Z 3%nat ltac:(cbn; auto 6)). assert (Z4 := Z 4%nat ltac:(cbn; auto 8)).
  assert (CP : 0 <= CK) by (rewrite CKE; assert (A := sq_nn X); lra).
  assert (D : forall f g, Sum (fun t => tarea m t * tmean t f ^ 2) (trias_of m) + Sum (fun t => tarea m t * tmean t g ^ 2) (trias_of m) <=
    Sum (fun t => tarea m t * (tmean t f ^ 2 + tmean t g ^ 2 + (tgx m t f ^ 2 + tgy m t f ^ 2 + tgx m t g ^ 2 + tgy m t g ^ 2))) (trias_of m)).
  { intros f g. rewrite <- Sum_plus. apply Sum_le. intros t _. rewrite <- Rmult_plus_distr_l. apply Rmult_le_compat_l; [apply area_nn|].
    assert (A1 := pow2_ge_0 (tgx m t f)). assert (A2 := pow2_ge_0 (tgy m t f)). assert (A3 := pow2_ge_0 (tgx m t g)). assert (A4 := pow2_ge_0 (tgy m t g)). lra. }
  assert (K1 := Rle_trans _ _ _ (D (comp m v 0) (comp m v 1)) (korn_pair m W PL _ _ X Z0 Z1 ST)).
  assert (K2 := Rle_trans _ _ _ (D (comp m v 3) (comp m v 4)) (korn_pair m W PL _ _ X Z3 Z4 ST)).
  rewrite <- CKE in K1, K2.
  apply (fun H => Rle_trans _ _ _ H (Rmult_le_compat_l CK _ _ CP (strain_mem m v))) in K1.
  apply (fun H => Rle_trans _ _ _ H (Rmult_le_compat_l CK _ _ CP (strain_rot m v))) in K2.
  assert (P := poincare_mean m W PL (comp m v 2) X Z2 ST).
  set (ss := strains_sq m v) in *.
  set (ms := Sum (fun t => tarea m t * (fst (method_strain method m v t) ^ 2 + snd (method_strain method m v t) ^ 2)) (trias_of m)).
  match type of TN with ?A <= _ => set (df := A) in * end.
  assert (GX : Sum (fun t => tarea m t * tgx m t (comp m v 2) ^ 2) (trias_of m) <= 4 * ms + 4 * df + 2 * Sum (fun t => tarea m t * tmean t (comp m v 3) ^ 2) (trias_of m)).
  { unfold ms, df. rewrite <- !Sum_scal, <- !Sum_plus. apply Sum_le. intros t _. assert (A := area_nn m t).
    set (a := fst (method_strain method m v t)). set (a' := snd (method_strain method m v t)). set (b' := snd (tria_shear m v t)).
    unfold tria_shear; cbn [fst]. set (g := tgx m t (comp m v 2)). set (r := tmean t (comp m v 3)).
    replace (4 * (tarea m t * (a ^ 2 + a' ^ 2)) + 4 * (tarea m t * ((a - (g + r)) ^ 2 + (a' - b') ^ 2)) + 2 * (tarea m t * r ^ 2))
      with (tarea m t * (4 * (a ^ 2 + a' ^ 2) + 4 * ((a - (g + r)) ^ 2 + (a' - b') ^ 2) + 2 * r ^ 2)) by ring.
    apply Rmult_le_compat_l; [exact A|].
    assert (U1 := pow2_ge_0 (g + 2 * r)). assert (U2 := pow2_ge_0 (a + (a - (g + r)))). assert (U3 := pow2_ge_0 a'). assert (U4 := pow2_ge_0 (a' - b')).
    assert (U5 : (g + r) ^ 2 <= 2 * a ^ 2 + 2 * (a - (g + r)) ^ 2) by lra.
    assert (U6 : g ^ 2 <= 2 * (g + r) ^ 2 + 2 * r ^ 2) by lra. lra. }
  set (w3 := Sum (fun t => tarea m t * tmean t (comp m v 3) ^ 2) (trias_of m)) in *.
  set (w4 := Sum (fun t => tarea m t * tmean t (comp m v 4) ^ 2) (trias_of m)) in *.
  assert (N4 : 0 <= w4) by (apply Sum_nonneg; intros t _; apply Rmult_le_pos; [apply area_nn|apply pow2_ge_0]).
  assert (GX' : Sum (fun t => tarea m t * tgx m t (comp m v 2) ^ 2) (trias_of m) <= 4 * ms + (4 * tau + 2 * CK) * ss) by lra.
  assert (XX : 0 <= 4 * (X * X)) by (assert (A := sq_nn X); lra).
  assert (P2 := Rle_trans _ _ _ P (Rmult_le_compat_l _ _ _ XX GX')).
  cbn [seq]. rewrite !Sum_cons, Sum_nil. fold w3 w4.
  match goal with |- ?A <= _ => set (A0 := A) end. assert (A1 : A0 <= CK * ss + CK * ss + 4 * (X * X) * (4 * ms + (4 * tau + 2 * CK) * ss)) by (unfold A0; lra).
  eapply Rle_trans; [exact A1|]. right. ring.
Qed.

(** The displacements and rotations of a plate whose supports hold all degrees of freedom along the boundary: if the loads
    belong to a smooth motion F that respects the supports, the integral of the squares of their errors is bounded by a
    multiple of the square of the mesh size h, of delta, by which the loads miss those of F, and of the error of the
    constant 1/3 as written in the code.  The factor depends on the bounds and the width of the plate only. *)
Lemma c102_displacements : forall kappa c lam mu th alpha M s b X, 0 < kappa -> 0 <= c -> 0 < lam -> 0 < mu -> 0 < th -> 0 <= alpha -> 0 <= M -> 0 <= s -> 0 <= b ->
  exists C, 0 <= C /\ forall method mfa Om m pfn p h Q F u S load delta, In method cell_methods ->
    mindlin_plate Om m pfn p h kappa Q c lam mu th -> 0 < h <= 1 -> 16 * alpha * (h * h) <= th * th -> 0 <= delta <= 1 ->
    mindlin_motion Om m M s b F u -> admissible (List.length (nodes m) * 5) S u -> mindlin_loads (tria_shear m) m p S Q F delta load ->
    held [0; 1; 2; 3; 4]%nat m S -> in_strip X m ->
    exists m' K k', calc_k0 m pfn = (m', Ok K) /\ add_k0s lits_src K m' pfn method alpha mfa = (k', Ok tt) /\
      forall d, solves k' S load d -> disp_error m Q F d <= C * (h + delta + third_error method) ^ 2 * total_area m.
Proof.
  intros kappa c lam mu th alpha M s b X Hk Hc Hl Hmu Hth Hal HM Hs Hb. remember (2 + 8 * (X * X)) as CK eqn:CKE.
  assert (XX : 0 <= X * X) by apply sq_nn. assert (HK : 0 <= CK) by lra.
  set (T := 4 * (24 / kappa) ^ 2 + 2 * ((3 / 2) ^ 2 + 8) * CK).
  assert (HT : 0 <= T) by (unfold T; assert (0 <= (24 / kappa) ^ 2) by apply pow2_ge_0; lra).
  destruct (mindlin_core kappa c lam mu th alpha M s b T Hk Hc Hl Hmu Hth Hal HM Hs Hb HT) as [C [NC CO]].
  assert (HL : 0 <= sol_L kappa lam).
  { unfold sol_L, Rdiv. apply Rmult_le_pos; [lra|]. left. apply Rinv_0_lt_compat, Rmult_lt_0_compat; [exact Hl|apply pow_lt, Hk]. }
  set (L := sol_L kappa lam) in *.
  assert (IM : 0 <= 2 / mu) by (left; apply Rdiv_lt_0_compat; lra).
  set (q := 2 * CK + 4 * (X * X) * (4 * (9 * T) + 2 * CK)).
  assert (Q0 : 0 <= q) by (unfold q; assert (0 <= X * X * (4 * (9 * T) + 2 * CK)) by (apply Rmult_le_pos; lra); lra).
  set (CD := q * L + 16 * (X * X) * (2 / mu)).
  assert (CD0 : 0 <= CD) by (unfold CD; apply Rplus_le_le_0_compat; [apply Rmult_le_pos; lra|apply Rmult_le_pos; lra]).
  exists (2 * (CD * C) + 10 * (2 * s + 2 * M) ^ 2).
  split; [assert (A := pow2_ge_0 (2 * s + 2 * M)); assert (0 <= CD * C) by (apply Rmult_le_pos; assumption); lra|].
  intros method mfa Om m pfn p h Q F u S load delta MT PL Hh HC Hd MO AU LD HE IS.
  assert (FI : fine_trias Om m h kappa Q) by apply PL. assert (V : valid m pfn) by apply PL. assert (R0 := third_nn method). assert (R1 := proj2 (third_small method)).
  assert (W := va_wf _ _ V). assert (PLT := va_plate _ _ V).
  assert (KO : korn CK m S).
  { rewrite CKE. apply (korn_held m W PLT S X); [|exact IS]. intros k n j K1 K2 K3 K4. apply (HE k n j K1 K2 K3). cbn [In] in *. lia. }
  set (tau := 4 * (24 * h / kappa) ^ 2 + 2 * ((3 / 2 * third_error method) ^ 2 + 8 * h ^ 2) * CK).
  assert (G0 : 0 < (24 * h / kappa) ^ 2) by (apply pow_lt, Rdiv_lt_0_compat; lra).
  assert (G1 : 0 <= ((3 / 2 * third_error method) ^ 2 + 8 * h ^ 2) * CK).
  { apply Rmult_le_pos; [|exact HK]. assert (A := pow2_ge_0 (3 / 2 * third_error method)). assert (B := pow2_ge_0 h). lra. }
  assert (TA : 0 < tau) by (unfold tau; lra).
  set (z := h + delta + third_error method) in *.
  assert (Z1 : h ^ 2 <= z ^ 2) by (apply sq_le; unfold z; lra). assert (Z2 : third_error method ^ 2 <= z ^ 2) by (apply sq_le; unfold z; lra).
  assert (Z3 : z ^ 2 <= 9) by (replace 9 with (3 ^ 2) by ring; apply sq_le; unfold z; lra).
  assert (TB : tau <= T * z ^ 2).
  { unfold tau, T.
    assert (Y1 : (24 / kappa) ^ 2 * h ^ 2 <= (24 / kappa) ^ 2 * z ^ 2) by (apply Rmult_le_compat_l; [apply pow2_ge_0|exact Z1]).
    assert (Y2 : ((3 / 2 * third_error method) ^ 2 + 8 * h ^ 2) * CK <= ((3 / 2) ^ 2 + 8) * z ^ 2 * CK).
    { apply Rmult_le_compat_r; [exact HK|]. rewrite Rpow_mult_distr. lra. }
    replace ((24 * h / kappa) ^ 2) with ((24 / kappa) ^ 2 * h ^ 2) by (unfold Rdiv; ring). lra. }
  assert (TN : forall v, admissible (List.length (nodes m) * 5) S v ->
    Sum (fun t => tarea m t * ((fst (method_strain method m v t) - fst (tria_shear m v t)) ^ 2 + (snd (method_strain method m v t) - snd (tria_shear m v t)) ^ 2)) (trias_of m)
    <= tau * strains_sq m v) by (intros v AV; apply (mean_sq Om m h kappa Q FI (proj1 Hh) Hk method v S CK MT KO AV)).
  destruct (CO tria_shear method mfa Om m pfn p h Q F u S load delta tau MT PL Hh HC Hd MO AU LD TA TB TN) as [m' [K [k' [E1 [E2 [DK [FK SOL]]]]]]].
  exists m', K, k'. split; [exact E1|]. split; [exact E2|]. intros d SO. destruct (SOL d SO) as [EN _]. cbv zeta in EN.
  destruct PL as [_ [OP [SP [SG [SGE [BA [BB [BD [SB _]]]]]]]]]. destruct MO as [SM [RB SA]]. destruct Hh as [Hh Hh1].
  assert (AV := adm_v m u k' S load d DK AU SO).
  assert (SPT := shear_part Om m pfn p h kappa Q c lam mu th alpha u method mfa V OP SG SGE SB FI Hh Hk Hl Hmu Hth Hal HC k' d FK).
  assert (K0L := k0_le Om m pfn p h kappa Q c mu th alpha u method mfa V OP SGE SB FI Hmu Hc Hth Hal HC k' d FK).
  assert (SK := strains_k0 Om m pfn p h kappa Q lam V OP SG FI Hh Hk Hl (fun i => 1 * d i + -1 * u i)). fold L in SK.
  set (v := fun i => 1 * d i + -1 * u i) in *.
  assert (MB := means_bound m S v X CK tau method W PLT AV HE IS CKE (TN v AV)).
  set (ss := strains_sq m v) in *. set (fv := form k' v v) in *.
  assert (SS : 0 <= ss) by (unfold ss, strains_sq; apply Sum_nonneg; intros t _; apply Rmult_le_pos; [apply area_nn|apply strain_sq_nonneg]).
  assert (S2 : ss <= L * fv) by (eapply Rle_trans; [exact SK|]; apply Rmult_le_compat_l; assumption).
  assert (MB2 : Sum (fun c => Sum (fun t => tarea m t * tmean t (comp m v c) ^ 2) (trias_of m)) (seq 0 5) <= CD * fv).
  { eapply Rle_trans; [exact MB|]. replace (CD * fv) with (q * (L * fv) + 16 * (X * X) * (2 / mu * fv)) by (unfold CD; ring). apply Rplus_le_compat.
    - apply Rle_trans with (q * ss).
      + apply Rmult_le_compat_r; [exact SS|]. unfold q. assert (T9 : tau <= 9 * T) by (assert (A := Rmult_le_compat_l T _ _ HT Z3); lra).
        assert (B := Rmult_le_compat_l (X * X) _ _ XX T9). lra.
      + apply Rmult_le_compat_l; assumption.
    - apply Rmult_le_compat_l; [lra|exact SPT]. }
  assert (MB3 : CD * fv <= CD * C * z ^ 2 * total_area m).
  { replace (CD * C * z ^ 2 * total_area m) with (CD * (C * z ^ 2 * total_area m)) by ring. apply Rmult_le_compat_l; assumption. }
  assert (NR : forall j t, In j (seq 0 5) -> In t (trias_of m) -> (tmean t (comp m u j) - fval (motion_comp F j) (fst (Q t)) (snd (Q t))) ^ 2 <= (2 * s + 2 * M) ^ 2 * z ^ 2).
  { intros j t Hj Ht.
    assert (SMJ : smooth Om M s (motion_comp F j)) by (unfold motion_smooth in SM; destruct j as [|[|[|[|j]]]]; cbn [motion_comp]; tauto).
    destruct FI as [FN FT]. destruct (FT t Ht) as [OQ [NQ _]].
    assert (NV : forall n, vertex t n -> Rabs (comp m u j n - fval (motion_comp F j) (fst (Q t)) (snd (Q t))) <= (2 * s + 2 * M) * h).
    { intros n Vn. assert (Hn := wf_vertices m W t n Ht Vn). assert (On := FN n Hn). destruct (NQ n Vn) as [N1 N2].
      assert (EC : comp m u j n = fval (motion_comp F j) (vx (pos m n)) (vy (pos m n))).
      { destruct (SA n Hn) as [A0 [A1 [A2 [A3 A4]]]]. apply in_seq in Hj. destruct j as [|[|[|[|[|j]]]]]; cbn [motion_comp]; try assumption; lia. }
      rewrite EC. rewrite (surjective_pairing (Q t)) in OQ.
      destruct (smooth_near Om h (motion_comp F j) M s _ _ _ _ HM SMJ OQ On N1 N2) as [_ B].
      eapply Rle_trans; [exact B|]. assert (H2 : h * h <= h) by (rewrite <- (Rmult_1_r h) at 3; apply Rmult_le_compat_l; lra).
      assert (B2 := Rmult_le_compat_l M _ _ HM H2). lra. }
    assert (A1 := NV (tn1 t) (or_introl eq_refl)). assert (A2 := NV (tn2 t) (or_intror (or_introl eq_refl))). assert (A3 := NV (tn3 t) (or_intror (or_intror eq_refl))).
    set (f0 := fval _ _ _) in *. unfold tmean.
    assert (B : Rabs ((comp m u j (tn1 t) + comp m u j (tn2 t) + comp m u j (tn3 t)) / 3 - f0) <= (2 * s + 2 * M) * h).
    { rewrite rb in A1, A2, A3. rewrite rb. lra. }
    assert (B0 : 0 <= (2 * s + 2 * M) * h) by (apply Rmult_le_pos; lra).
    rewrite <- pow2_abs. eapply Rle_trans; [apply sq_le; [apply Rabs_pos|exact B]|]. rewrite Rpow_mult_distr. apply Rmult_le_compat_l; [apply pow2_ge_0|exact Z1]. }
  unfold disp_error.
  apply Rle_trans with (2 * Sum (fun c => Sum (fun t => tarea m t * tmean t (comp m v c) ^ 2) (trias_of m)) (seq 0 5) +
    Sum (fun _ : nat => 2 * ((2 * s + 2 * M) ^ 2 * z ^ 2) * total_area m) (seq 0 5)).
  - rewrite <- Sum_scal, <- Sum_plus. apply Sum_le. intros j Hj. unfold total_area. rewrite <- !Sum_scal, <- Sum_plus. apply Sum_le. intros t Ht.
    assert (A := area_nn m t). assert (B := NR j t Hj Ht).
    assert (E : tmean t (comp m d j) = tmean t (comp m v j) + tmean t (comp m u j)) by (unfold tmean, comp, v; field).
    rewrite E. set (a := tmean t (comp m v j)). set (a' := tmean t (comp m u j)) in *. set (f0 := fval _ _ _) in *.
    assert (U := pow2_ge_0 (a - (a' - f0))).
    assert (Y : (a + a' - f0) ^ 2 <= 2 * a ^ 2 + 2 * ((2 * s + 2 * M) ^ 2 * z ^ 2)) by lra.
    apply (Rmult_le_compat_l _ _ _ A) in Y. lra.
  - cbn [seq].
    assert (E5 : forall r : R, Sum (fun _ : nat => r) [0; 1; 2; 3; 4]%nat = 5 * r) by (intros r; rewrite !Sum_cons, Sum_nil; ring).
    rewrite E5. change (seq 0 5) with [0; 1; 2; 3; 4]%nat in MB2. lra.
Qed.

(** The problem of C101: its displacements converge. *)
Lemma c102_displacements_ex : forall h0 pfn, 0 < h0 -> exists h m Q load, 0 < h <= h0 /\ h <= 1 /\ 16 * 1 * (h * h) <= 1 / 10 * (1 / 10) /\ let p := ex_prop 1 in let u := sampled m dome in
  mindlin_plate unit_square m pfn p h (1 / 2) Q 20 1 4 (1 / 10) /\ mindlin_motion unit_square m 4 2 2 dome u /\ admissible (List.length (nodes m) * 5) (framed m) u /\
  mindlin_loads (tria_shear m) m p (framed m) Q dome 0 load /\ held [0; 1; 2; 3; 4]%nat m (framed m) /\ in_strip (1 / 2) m /\ total_area m = 1 /\
  exists m' K k', calc_k0 m pfn = (m', Ok K) /\ add_k0s lits_src K m' pfn "cell-based" 1 false = (k', Ok tt) /\ exists d, solves k' (framed m) load d.
Proof.
  intros h0 pfn H. destruct (grid_fine_h h0 H) as [n [Hn [Hh [H1 HC]]]].
  destruct (c101_loads (grid_mesh n) pfn (ex_prop 1) (framed (grid_mesh n)) (grid_tpoint n) dome "cell-based" (grid_valid n Hn pfn)) as [_ [load HL]].
  exists (1 / INR n), (grid_mesh n), (grid_tpoint n), load. split; [exact Hh|]. split; [exact H1|]. split; [exact HC|]. cbv zeta.
  split; [apply grid_mindlin, Hn|]. split; [split; [apply dome_smooth|split; [apply dome_rot|apply sampled_ok]]|]. split; [apply dome_framed|].
  split; [exact HL|]. split; [apply grid_held; [exact Hn|cbn [In]; lia]|]. split; [apply grid_strip, Hn|]. split; [apply grid_total, Hn|apply grid_solution, Hn].
Qed.

Lemma small_enough : forall C eps th alpha, 0 <= C -> 0 < eps -> 0 < th -> 0 <= alpha -> exists h1, 0 < h1 <= 1 /\ forall h delta te, 0 < h <= h1 -> 0 <= delta <= h1 -> 0 <= te ->
  16 * alpha * (h * h) <= th * th /\ C * (h + delta + te) ^ 2 <= eps + 2 * C * te ^ 2.
Proof.
  intros C eps th alpha HC He Hth Hal. assert (T2 : 0 < th * th) by (apply Rmult_lt_0_compat; assumption).
  set (e1 := eps / (8 * C + 1)). set (e2 := th * th / (16 * alpha + 1)).
  assert (E1 : 0 < e1) by (apply Rdiv_lt_0_compat; lra). assert (E2 : 0 < e2) by (apply Rdiv_lt_0_compat; lra).
  exists (Rmin 1 (Rmin e1 e2)). assert (L1 := Rmin_l 1 (Rmin e1 e2)). assert (L2 := Rmin_r 1 (Rmin e1 e2)). assert (L3 := Rmin_l e1 e2). assert (L4 := Rmin_r e1 e2).
  assert (LP : 0 < Rmin 1 (Rmin e1 e2)) by (apply Rmin_pos; [lra|apply Rmin_pos; assumption]). set (h1 := Rmin 1 (Rmin e1 e2)) in *. split; [lra|].
  intros h delta te [H0 H1] [D0 D1] Ht.
  assert (X1 : (8 * C + 1) * h1 <= eps).
  { apply Rle_trans with ((8 * C + 1) * e1); [apply Rmult_le_compat_l; lra|]. right. unfold e1. field. lra. }
  assert (X2 : (16 * alpha + 1) * h1 <= th * th).
  { apply Rle_trans with ((16 * alpha + 1) * e2); [apply Rmult_le_compat_l; lra|]. right. unfold e2. field. lra. }
  split.
  - assert (h * h <= h1 * 1) by (apply Rmult_le_compat; lra). assert (alpha * (h * h) <= alpha * (h1 * 1)) by (apply Rmult_le_compat_l; assumption). lra.
  - assert (Y : (h + delta) ^ 2 <= 4 * h1).
    { apply Rle_trans with ((2 * h1) ^ 2); [apply sq_le; lra|]. assert (h1 * h1 <= h1 * 1) by (apply Rmult_le_compat_l; lra). lra. }
    assert (U := pow2_ge_0 (h + delta - te)). assert (Z : (h + delta + te) ^ 2 <= 2 * (4 * h1) + 2 * te ^ 2) by lra.
    apply (Rmult_le_compat_l C _ _ HC) in Z. lra.
Qed.

(** So the displacements of such plates converge under mesh refinement, except for the error of the constant 1/3 in the
    code: for every eps, in all meshes that are fine enough the mean square of the error is at most eps plus a multiple of
    the square of that error (which is 0 for the method "cell-based-no-smoothing"). *)
Lemma c102_convergence : forall kappa c lam mu th alpha M s b X, 0 < kappa -> 0 <= c -> 0 < lam -> 0 < mu -> 0 < th -> 0 <= alpha -> 0 <= M -> 0 <= s -> 0 <= b ->
  exists C, 0 <= C /\ forall eps, 0 < eps -> exists h1, 0 < h1 /\ forall method mfa Om m pfn p h Q F u S load delta, In method cell_methods ->
    mindlin_plate Om m pfn p h kappa Q c lam mu th -> 0 < h <= h1 -> 0 <= delta <= h1 ->
    mindlin_motion Om m M s b F u -> admissible (List.length (nodes m) * 5) S u -> mindlin_loads (tria_shear m) m p S Q F delta load ->
    held [0; 1; 2; 3; 4]%nat m S -> in_strip X m ->
    exists m' K k', calc_k0 m pfn = (m', Ok K) /\ add_k0s lits_src K m' pfn method alpha mfa = (k', Ok tt) /\
      forall d, solves k' S load d -> disp_error m Q F d <= (eps + C * third_error method ^ 2) * total_area m.
Proof.
  intros kappa c lam mu th alpha M s b X Hk Hc Hl Hmu Hth Hal HM Hs Hb.
  destruct (c102_displacements kappa c lam mu th alpha M s b X Hk Hc Hl Hmu Hth Hal HM Hs Hb) as [C [NC CO]].
  exists (2 * C). split; [lra|]. intros eps He. destruct (small_enough C eps th alpha NC He Hth Hal) as [h1 [[H0 H1] SE]]. exists h1. split; [exact H0|].
  intros method mfa Om m pfn p h Q F u S load delta MT PL Hh Hd MO AU LD HE IS. destruct (SE h delta (third_error method) Hh Hd (third_nn method)) as [HC HZ].
  destruct (CO method mfa Om m pfn p h Q F u S load delta MT PL ltac:(lra) HC ltac:(lra) MO AU LD HE IS) as [m' [K [k' [E1 [E2 X1]]]]].
  exists m', K, k'. split; [exact E1|]. split; [exact E2|]. intros d SO. eapply Rle_trans; [apply (X1 d SO)|]. apply Rmult_le_compat_r; [apply total_nn|exact HZ].
Qed.
Lemma c102_convergence_ex : third_error "cell-based-no-smoothing" = 0 /\ 0 <= third_error "cell-based" <= 1 / 1000000000000000 /\
  forall h1 pfn, 0 < h1 -> exists h m Q load, 0 < h <= h1 /\ let p := ex_prop 1 in let u := sampled m dome in
    mindlin_plate unit_square m pfn p h (1 / 2) Q 20 1 4 (1 / 10) /\ mindlin_motion unit_square m 4 2 2 dome u /\ admissible (List.length (nodes m) * 5) (framed m) u /\
    mindlin_loads (tria_shear m) m p (framed m) Q dome 0 load /\ held [0; 1; 2; 3; 4]%nat m (framed m) /\ in_strip (1 / 2) m.
Proof.
  split; [reflexivity|]. split; [apply third_small|]. intros h1 pfn H. destruct (c102_displacements_ex h1 pfn H) as [h [m [Q [load [Hh [_ [_ [A1 [A2 [A3 [A4 [A5 [A6 _]]]]]]]]]]]]].
  exists h, m, Q, load. split; [exact Hh|]. cbv zeta. auto 10.
Qed.
