(** Lemmas behind the property on the work of the loads on computed displacements (C109). *)
(* P: Num Py Mesh Utils CalcK0 AddK0s Spec SpecK0 SpecK0s SpecStab SpecStat SpecConv SpecSol SpecSol2 SpecKorn Ex ExK0 ExK0s ExGrid ExGrid2 ExMindlin *)
From Coq Require Import ZArith Reals List Bool Arith Lra Lia Psatz String.
From Verif Require Import Num Py Mesh Utils CalcK0 AddK0s Spec SpecK0 SpecKG SpecK0s SpecStab SpecStat SpecConv SpecSol SpecSol2 SpecKorn FSum FMat FDict FGeom FWf FRead2 FAsm FTensor FSmooth FStab FStab2 FStab3 FConn FKG FK0s
  FConv FConv2 FSol FSol2 FSol3 FSol4 FKorn FLin2 FLin3 LK0 LKG LK0s LConv LStab LSol LStat LMindlin Ex ExK0 ExK0s ExGrid ExGrid2 ExStab ExMindlin.
Import ListNotations.
Local Open Scope R_scope.
Implicit Types (m : mesh R).

(** the energy of a near displacement *)
Lemma energy_gap : forall (k : matrix R) u v z, (forall a b, form k a b = form k b a) -> (forall a, 0 <= form k a a) -> 0 < z ->
  Rabs (form k v v - form k u u) <= z * form k u u + (1 + / z) * form k (fun i => 1 * v i + -1 * u i) (fun i => 1 * v i + -1 * u i).
Proof.
  intros k u v z SY NN Hz. set (w := fun i => 1 * v i + -1 * u i).
  assert (E : form k w w = form k v v - 2 * form k u v + form k u u).
  { unfold w. rewrite form_lin_l, !form_lin_r, (SY v u). ring. }
  assert (X : form k u w = form k u v - form k u u) by (unfold w; rewrite form_lin_r; ring).
  assert (P1 := NN (fun i => z * u i + -1 * w i)). assert (P2 := NN (fun i => z * u i + 1 * w i)).
  rewrite form_lin_l, !form_lin_r, (SY w u) in P1. rewrite form_lin_l, !form_lin_r, (SY w u) in P2.
  assert (W := NN w). assert (IZ : 0 < / z) by (apply Rinv_0_lt_compat, Hz). assert (ZZ : / z * z = 1) by (field; lra).
  assert (D : form k v v - form k u u = 2 * form k u w + form k w w) by lra. rewrite D.
  apply (Rmult_le_compat_l (/ z)) in P1; [|lra]. apply (Rmult_le_compat_l (/ z)) in P2; [|lra].
  set (a := form k u u) in *. set (b := form k u w) in *. set (q := form k w w) in *.
  replace (/ z * (z * (z * a + -1 * b) + -1 * (z * b + -1 * q))) with (/ z * z * (z * a - 2 * b) + / z * q) in P1 by ring.
  replace (/ z * (z * (z * a + 1 * b) + 1 * (z * b + 1 * q))) with (/ z * z * (z * a + 2 * b) + / z * q) in P2 by ring.
  rewrite ZZ in P1, P2. rewrite Rmult_0_r in P1, P2. apply rb. lra.
Qed.

(** the energy of a sampled motion *)
Lemma motion_energy : forall Om m pfn p h kappa P Q c lam mu th alpha M s b F u method mfa te z, In method cell_methods -> te = third_error method -> 0 < kappa -> 0 <= c -> 0 < th -> 0 <= alpha -> 0 <= M -> 0 <= s -> 0 <= b ->
  mindlin_plate Om m pfn p h kappa Q c lam mu th -> fine Om m h kappa P -> 0 < h <= 1 -> h + te <= z <= 3 -> mindlin_motion Om m M s b F u ->
  let a := 12 * M / kappa in let y := (40 * M + 32 * s + 24 * b) / kappa in
  Rabs (k0_energy m pfn u u + shear_energy (method_strain method m) m pfn alpha mfa u u - (riemann_energy m pfn P F + riemann_shear m pfn Q F)) <=
    (36 * c * a * (4 * s + a) + 2 * (c * c) * (y * (2 * (s + b) + 3 * y) + 8 * alpha / (th * th) * ((s + b) * (s + b)))) * z * total_area m.
Proof.
  intros Om m pfn p h kappa P Q c lam mu th alpha M s b F u method mfa te z MT TE Hk Hc Hth Hal HM Hs Hb [V [OP [SP [SG [SGE [BA [BB [BD [SB FI]]]]]]]]] FE Hh Hz [SM [RB SA]] a y.
  assert (B : bounded c m) by (apply (all_imp m (fun q => q = p)); [intros q ->; auto|exact OP]).
  assert (X1 := energy_near Om m h kappa P (va_wf _ _ V) (va_plate _ _ V) FE (proj1 Hh) Hk pfn c F u M s Hc B HM SM SA).
  assert (X2 := shear_energy_near Om m h kappa Q (va_wf _ _ V) FI (proj1 Hh) Hk (va_plate _ _ V) pfn c th (va_props _ _ V) SB Hc Hth method alpha mfa F u M s b MT Hal HM SM RB SA).
  cbv zeta in X2. unfold err in X1. unfold serr in X2. rewrite <- TE in X2.
  assert (T0 : 0 <= te) by (rewrite TE; apply third_nn). assert (T := total_nn m).
  assert (IK : 0 < / kappa) by (apply Rinv_0_lt_compat, Hk). assert (Zp : 0 < z) by lra.
  assert (A0 : 0 <= a) by (unfold a, Rdiv; apply Rmult_le_pos; lra).
  assert (Y0 : 0 <= y) by (unfold y, Rdiv; apply Rmult_le_pos; lra).
  assert (AH : 12 * M * h / kappa = a * h) by (unfold a; field; lra). rewrite AH in X1. clear AH.
  match type of X2 with _ <= 2 * (c * c) * (?q * _ + _) * _ => set (e := q) in * end.
  assert (AH1 : 0 <= a * h) by (apply Rmult_le_pos; lra).
  assert (AH2 : a * h <= a) by (assert (a * h <= a * 1) by (apply Rmult_le_compat_l; lra); lra).
  assert (AH3 : a * h <= a * z) by (apply Rmult_le_compat_l; lra).
  assert (E1 : 0 <= e <= y * z).
  { unfold e, y, Rdiv. assert (MH : 0 <= M * h) by (apply Rmult_le_pos; lra). assert (MH1 : M * h <= M) by (assert (M * h <= M * 1) by (apply Rmult_le_compat_l; lra); lra).
    assert (U : 0 <= (8 * M + 32 * s + 32 * M * h) * h <= (40 * M + 32 * s) * h).
    { split; [apply Rmult_le_pos; lra|apply Rmult_le_compat_r; lra]. }
    assert (U2 : 0 <= 24 * te * b) by (repeat apply Rmult_le_pos; lra).
    assert (U3 : (40 * M + 32 * s) * h <= (40 * M + 32 * s) * (h + te)) by (apply Rmult_le_compat_l; lra).
    assert (U4 : 24 * b * te <= 24 * b * (h + te)) by (apply Rmult_le_compat_l; lra).
    assert (U5 : (40 * M + 32 * s + 24 * b) * (h + te) <= (40 * M + 32 * s + 24 * b) * z) by (apply Rmult_le_compat_l; lra).
    rewrite <- Rmult_plus_distr_r. split; [apply Rmult_le_pos; lra|].
    replace ((40 * M + 32 * s + 24 * b) * / kappa * z) with ((40 * M + 32 * s + 24 * b) * z * / kappa) by ring. apply Rmult_le_compat_r; lra. }
  assert (E2 : e <= 3 * y) by (assert (y * z <= y * 3) by (apply Rmult_le_compat_l; lra); lra).
  assert (CC : 0 <= c * c) by (apply Rmult_le_pos; lra).
  assert (G1 : 36 * c * (a * h) * (4 * s + a * h) <= 36 * c * a * (4 * s + a) * z).
  { replace (36 * c * (a * h) * (4 * s + a * h)) with (36 * c * ((a * h) * (4 * s + a * h))) by ring.
    replace (36 * c * a * (4 * s + a) * z) with (36 * c * ((a * z) * (4 * s + a))) by ring.
    apply Rmult_le_compat_l; [lra|]. apply Rmult_le_compat; lra. }
  assert (G2 : e * (2 * (s + b) + e) <= y * (2 * (s + b) + 3 * y) * z).
  { replace (y * (2 * (s + b) + 3 * y) * z) with (y * z * (2 * (s + b) + 3 * y)) by ring. apply Rmult_le_compat; lra. }
  assert (TT : 0 < th * th) by (apply Rmult_lt_0_compat; lra).
  assert (G3 : 8 * alpha * (h * h) / (th * th) * ((s + b) * (s + b)) <= 8 * alpha / (th * th) * ((s + b) * (s + b)) * z).
  { replace (8 * alpha * (h * h) / (th * th) * ((s + b) * (s + b))) with (8 * alpha / (th * th) * ((s + b) * (s + b)) * (h * h)) by (field; lra).
    apply Rmult_le_compat_l.
    - apply Rmult_le_pos; [|apply Rmult_le_pos; lra]. unfold Rdiv. apply Rmult_le_pos; [lra|left; apply Rinv_0_lt_compat, TT].
    - assert (h * h <= 1 * h) by (apply Rmult_le_compat_r; lra). lra. }
  replace (k0_energy m pfn u u + shear_energy (method_strain method m) m pfn alpha mfa u u - (riemann_energy m pfn P F + riemann_shear m pfn Q F))
    with ((k0_energy m pfn u u - riemann_energy m pfn P F) + (shear_energy (method_strain method m) m pfn alpha mfa u u - riemann_shear m pfn Q F)) by ring.
  eapply Rle_trans; [apply rb_plus; [exact X1|exact X2]|]. rewrite <- Rmult_plus_distr_r. apply Rmult_le_compat_r; [exact T|].
  match goal with |- _ <= (?p + ?q * (?r + ?t)) * z => replace ((p + q * (r + t)) * z) with (p * z + q * (r * z + t * z)) by ring end.
  apply Rplus_le_compat; [exact G1|]. apply Rmult_le_compat_l; [lra|]. lra.
Qed.

(** The work of the loads on the computed displacements (the deflection under a unit force, for a single force) with a cell-based shear
    method: if the loads belong to a smooth motion F that respects the supports, it is the energy of F as a Mindlin plate, up to the
    fraction h + delta + the error of the constant 1/3 as written in the code, of this energy and of the area times a factor that depends
    on the bounds only. *)
Lemma c109_work : forall kappa c lam mu th alpha M s b, 0 < kappa -> 0 <= c -> 0 < lam -> 0 < mu -> 0 < th -> 0 <= alpha -> 0 <= M -> 0 <= s -> 0 <= b -> 
  exists C, 0 <= C /\ forall method mfa Om m pfn p h P Q F u S load delta, In method cell_methods ->
    mindlin_plate Om m pfn p h kappa Q c lam mu th -> fine Om m h kappa P -> 0 < h <= 1 -> 16 * alpha * (h * h) <= th * th -> 0 <= delta <= 1 ->
    mindlin_motion Om m M s b F u -> admissible (List.length (nodes m) * 5) S u -> mindlin_loads (test_shear method m) m p S Q F delta load -> 
    exists m' K k', calc_k0 m pfn = (m', Ok K) /\ add_k0s lits_src K m' pfn method alpha mfa = (k', Ok tt) /\
      forall d, solves k' S load d ->
        let e := riemann_energy m pfn P F + riemann_shear m pfn Q F in
        Rabs (load_work (mdim k') load d - e) <= (h + delta + third_error method) * (e + C * total_area m).
Proof.
  intros kappa c lam mu th alpha M s b Hk Hc Hl Hmu Hth Hal HM Hs Hb.
  destruct (c101_strains kappa c lam mu th alpha M s b Hk Hc Hl Hmu Hth Hal HM Hs Hb) as [C0 [NC CO]].
  set (a := 12 * M / kappa). set (y := (40 * M + 32 * s + 24 * b) / kappa).
  set (C1 := 36 * c * a * (4 * s + a) + 2 * (c * c) * (y * (2 * (s + b) + 3 * y) + 8 * alpha / (th * th) * ((s + b) * (s + b)))).
  assert (IK : 0 < / kappa) by (apply Rinv_0_lt_compat, Hk).
  assert (A0 : 0 <= a) by (unfold a, Rdiv; apply Rmult_le_pos; lra).
  assert (Y0 : 0 <= y) by (unfold y, Rdiv; apply Rmult_le_pos; lra).
  assert (TT : 0 < th * th) by (apply Rmult_lt_0_compat; lra).
  assert (N1 : 0 <= C1).
  { unfold C1. apply Rplus_le_le_0_compat; [repeat apply Rmult_le_pos; lra|]. apply Rmult_le_pos; [repeat apply Rmult_le_pos; lra|].
    apply Rplus_le_le_0_compat; [apply Rmult_le_pos; lra|]. apply Rmult_le_pos; [|apply Rmult_le_pos; lra]. unfold Rdiv. apply Rmult_le_pos; [lra|left; apply Rinv_0_lt_compat, TT]. }
  exists (4 * C1 + 4 * C0). split; [lra|].
  intros method mfa Om m pfn p h P Q F u S load delta MT PL FE Hh HC Hd MO AU LD.
  destruct (CO method mfa Om m pfn p h Q F u S load delta MT PL Hh HC Hd MO AU LD) as [m' [K [k' [E1 [E2 X]]]]].
  destruct (third_small method) as [T0 T1].
  assert (X2 := motion_energy Om m pfn p h kappa P Q c lam mu th alpha M s b F u method mfa (third_error method) (h + delta + third_error method) MT eq_refl Hk Hc Hth Hal HM Hs Hb PL FE Hh ltac:(lra) MO).
  cbv zeta in X2. fold a y in X2. fold C1 in X2.
  destruct PL as [V [OP [SP [SGE [SH [BA [BB [BD [SB FI]]]]]]]]].
  assert (PP : all_props m pos_def).
  { apply (all_imp m (fun q => q = p)); [|exact OP]. intros q -> e NE. assert (Y := SGE e). assert (Z : 0 < strain_sq e); [|assert (0 < lam * strain_sq e) by (apply Rmult_lt_0_compat; assumption); lra].
    destruct (Rle_lt_dec (strain_sq e) 0) as [Z|]; [|assumption]. exfalso. apply NE. destruct e as [a1 a2 a3 a4 a5 a6]. unfold strain_sq in Z; cbn [exx eyy exy kxx kyy kxy] in Z.
    assert (Q1 := Rle_0_sqr a1). assert (Q2 := Rle_0_sqr a2). assert (Q3 := Rle_0_sqr a3). assert (Q4 := Rle_0_sqr a4). assert (Q5 := Rle_0_sqr a5). assert (Q6 := Rle_0_sqr a6).
    unfold Rsqr in *. f_equal; apply Rsqr_0_uniq; unfold Rsqr; lra. }
  assert (SPP : all_props m shear_pos) by (apply (all_imp m (fun q => q = p)); [intros q ->; exact SP|exact OP]).
  destruct (total_spec method MT m pfn V alpha mfa SPP Hal) as [m1 [K1 [k1 [D1 [D2 [DK FK]]]]]].
  rewrite E1 in D1. injection D1 as <- <-. rewrite E2 in D2. injection D2 as <-.
  exists m', K, k'. split; [exact E1|]. split; [exact E2|]. intros d SO e. destruct (X d SO) as [EN _].
  rewrite <- FK in X2. fold e in X2. set (z := h + delta + third_error method) in *. assert (Zp : 0 < z <= 3) by (unfold z; lra).
  assert (G := energy_gap k' u d z (tot_sym method m pfn alpha mfa k' FK) (fun v => eq_ind_r (fun r => 0 <= r) (total_nonneg method m pfn V alpha mfa PP SPP Hal v) (FK v v)) (proj1 Zp)).
  assert (PS := potential_sol k' S load d SO). unfold potential in PS.
  set (W := load_work (mdim k') load d) in *. assert (WE : form k' d d = W) by lra. rewrite WE in G. clear PS.
  match type of EN with ?q <= _ => set (w := q) in * end. assert (T := total_nn m). set (A := total_area m) in *.
  assert (IZ : 0 < / z) by (apply Rinv_0_lt_compat; lra).
  assert (G2 : (1 + / z) * w <= 4 * C0 * z * A).
  { apply Rle_trans with ((1 + / z) * (C0 * z ^ 2 * A)); [apply Rmult_le_compat_l; lra|].
    replace ((1 + / z) * (C0 * z ^ 2 * A)) with ((1 + z) * (C0 * A * z)) by (field; lra). replace (4 * C0 * z * A) with (4 * (C0 * A * z)) by ring.
    apply Rmult_le_compat_r; [repeat apply Rmult_le_pos; lra|lra]. }
  set (f := form k' u u) in *.
  assert (CA : 0 <= C1 * z * A) by (repeat apply Rmult_le_pos; lra).
  assert (G3 : z * f <= z * e + 3 * (C1 * z * A)).
  { rewrite rb in X2. assert (z * f <= z * (e + C1 * z * A)) by (apply Rmult_le_compat_l; lra). assert (z * (C1 * z * A) <= 3 * (C1 * z * A)) by (apply Rmult_le_compat_r; lra). lra. }
  replace (W - e) with ((W - f) + (f - e)) by ring. eapply Rle_trans; [apply rb_plus; [exact G|exact X2]|].
  replace (z * (e + (4 * C1 + 4 * C0) * A)) with (z * e + 4 * (C1 * z * A) + 4 * C0 * z * A) by ring. lra.
Qed.

(** The grid under loads that belong to the dome. *)
Lemma c109_work_ex : forall h0 pfn, 0 < h0 -> exists h m P Q load, 0 < h <= h0 /\ h <= 1 /\ 16 * 1 * (h * h) <= 1 / 10 * (1 / 10) /\ let p := ex_prop 1 in let u := sampled m dome in
  mindlin_plate unit_square m pfn p h (1 / 2) Q 20 1 4 (1 / 10) /\ fine unit_square m h (1 / 2) P /\ mindlin_motion unit_square m 4 2 2 dome u /\
  admissible (List.length (nodes m) * 5) (framed m) u /\ mindlin_loads (test_shear "cell-based" m) m p (framed m) Q dome 0 load /\ total_area m = 1 /\
  exists m' K k', calc_k0 m pfn = (m', Ok K) /\ add_k0s lits_src K m' pfn "cell-based" 1 false = (k', Ok tt) /\ exists d, solves k' (framed m) load d.
Proof.
  intros h0 pfn H. destruct (grid_fine_h h0 H) as [n [Hn [Hh [H1 HC]]]].
  destruct (c101_loads (grid_mesh n) pfn (ex_prop 1) (framed (grid_mesh n)) (grid_tpoint n) dome "cell-based" (grid_valid n Hn pfn)) as [[load HL] _].
  exists (1 / INR n), (grid_mesh n), (grid_point n), (grid_tpoint n), load. split; [exact Hh|]. split; [exact H1|]. split; [exact HC|]. cbv zeta.
  split; [apply grid_mindlin, Hn|]. split; [apply grid_fine, Hn|]. split; [split; [apply dome_smooth|split; [apply dome_rot|apply sampled_ok]]|]. split; [apply dome_framed|].
  split; [exact HL|]. split; [apply grid_total, Hn|apply grid_solution, Hn].
Qed.

(** The same for loads that work on the true shear strains at the centroids, if Korn's inequality holds for the supported rotations. *)
Lemma c109_natural : forall kappa c lam mu th alpha M s b CK, 0 < kappa -> 0 <= c -> 0 < lam -> 0 < mu -> 0 < th -> 0 <= alpha -> 0 <= M -> 0 <= s -> 0 <= b -> 0 <= CK ->
  exists C, 0 <= C /\ forall method mfa Om m pfn p h P Q F u S load delta, In method cell_methods ->
    mindlin_plate Om m pfn p h kappa Q c lam mu th -> fine Om m h kappa P -> 0 < h <= 1 -> 16 * alpha * (h * h) <= th * th -> 0 <= delta <= 1 ->
    mindlin_motion Om m M s b F u -> admissible (List.length (nodes m) * 5) S u -> mindlin_loads (tria_shear m) m p S Q F delta load -> korn CK m S ->
    exists m' K k', calc_k0 m pfn = (m', Ok K) /\ add_k0s lits_src K m' pfn method alpha mfa = (k', Ok tt) /\
      forall d, solves k' S load d ->
        let e := riemann_energy m pfn P F + riemann_shear m pfn Q F in
        Rabs (load_work (mdim k') load d - e) <= (h + delta + third_error method) * (e + C * total_area m).
Proof.
  intros kappa c lam mu th alpha M s b CK Hk Hc Hl Hmu Hth Hal HM Hs Hb HK.
  destruct (c101_natural kappa c lam mu th alpha M s b CK Hk Hc Hl Hmu Hth Hal HM Hs Hb HK) as [C0 [NC CO]].
  set (a := 12 * M / kappa). set (y := (40 * M + 32 * s + 24 * b) / kappa).
  set (C1 := 36 * c * a * (4 * s + a) + 2 * (c * c) * (y * (2 * (s + b) + 3 * y) + 8 * alpha / (th * th) * ((s + b) * (s + b)))).
  assert (IK : 0 < / kappa) by (apply Rinv_0_lt_compat, Hk).
  assert (A0 : 0 <= a) by (unfold a, Rdiv; apply Rmult_le_pos; lra).
  assert (Y0 : 0 <= y) by (unfold y, Rdiv; apply Rmult_le_pos; lra).
  assert (TT : 0 < th * th) by (apply Rmult_lt_0_compat; lra).
  assert (N1 : 0 <= C1).
  { unfold C1. apply Rplus_le_le_0_compat; [repeat apply Rmult_le_pos; lra|]. apply Rmult_le_pos; [repeat apply Rmult_le_pos; lra|].
    apply Rplus_le_le_0_compat; [apply Rmult_le_pos; lra|]. apply Rmult_le_pos; [|apply Rmult_le_pos; lra]. unfold Rdiv. apply Rmult_le_pos; [lra|left; apply Rinv_0_lt_compat, TT]. }
  exists (4 * C1 + 4 * C0). split; [lra|].
  intros method mfa Om m pfn p h P Q F u S load delta MT PL FE Hh HC Hd MO AU LD KO.
  destruct (CO method mfa Om m pfn p h Q F u S load delta MT PL Hh HC Hd MO AU LD KO) as [m' [K [k' [E1 [E2 X]]]]].
  destruct (third_small method) as [T0 T1].
  assert (X2 := motion_energy Om m pfn p h kappa P Q c lam mu th alpha M s b F u method mfa (third_error method) (h + delta + third_error method) MT eq_refl Hk Hc Hth Hal HM Hs Hb PL FE Hh ltac:(lra) MO).
  cbv zeta in X2. fold a y in X2. fold C1 in X2.
  destruct PL as [V [OP [SP [SGE [SH [BA [BB [BD [SB FI]]]]]]]]].
  assert (PP : all_props m pos_def).
  { apply (all_imp m (fun q => q = p)); [|exact OP]. intros q -> e NE. assert (Y := SGE e). assert (Z : 0 < strain_sq e); [|assert (0 < lam * strain_sq e) by (apply Rmult_lt_0_compat; assumption); lra].
    destruct (Rle_lt_dec (strain_sq e) 0) as [Z|]; [|assumption]. exfalso. apply NE. destruct e as [a1 a2 a3 a4 a5 a6]. unfold strain_sq in Z; cbn [exx eyy exy kxx kyy kxy] in Z.
    assert (Q1 := Rle_0_sqr a1). assert (Q2 := Rle_0_sqr a2). assert (Q3 := Rle_0_sqr a3). assert (Q4 := Rle_0_sqr a4). assert (Q5 := Rle_0_sqr a5). assert (Q6 := Rle_0_sqr a6).
    unfold Rsqr in *. f_equal; apply Rsqr_0_uniq; unfold Rsqr; lra. }
  assert (SPP : all_props m shear_pos) by (apply (all_imp m (fun q => q = p)); [intros q ->; exact SP|exact OP]).
  destruct (total_spec method MT m pfn V alpha mfa SPP Hal) as [m1 [K1 [k1 [D1 [D2 [DK FK]]]]]].
  rewrite E1 in D1. injection D1 as <- <-. rewrite E2 in D2. injection D2 as <-.
  exists m', K, k'. split; [exact E1|]. split; [exact E2|]. intros d SO e. destruct (X d SO) as [EN _].
  rewrite <- FK in X2. fold e in X2. set (z := h + delta + third_error method) in *. assert (Zp : 0 < z <= 3) by (unfold z; lra).
  assert (G := energy_gap k' u d z (tot_sym method m pfn alpha mfa k' FK) (fun v => eq_ind_r (fun r => 0 <= r) (total_nonneg method m pfn V alpha mfa PP SPP Hal v) (FK v v)) (proj1 Zp)).
  assert (PS := potential_sol k' S load d SO). unfold potential in PS.
  set (W := load_work (mdim k') load d) in *. assert (WE : form k' d d = W) by lra. rewrite WE in G. clear PS.
  match type of EN with ?q <= _ => set (w := q) in * end. assert (T := total_nn m). set (A := total_area m) in *.
  assert (IZ : 0 < / z) by (apply Rinv_0_lt_compat; lra).
  assert (G2 : (1 + / z) * w <= 4 * C0 * z * A).
  { apply Rle_trans with ((1 + / z) * (C0 * z ^ 2 * A)); [apply Rmult_le_compat_l; lra|].
    replace ((1 + / z) * (C0 * z ^ 2 * A)) with ((1 + z) * (C0 * A * z)) by (field; lra). replace (4 * C0 * z * A) with (4 * (C0 * A * z)) by ring.
    apply Rmult_le_compat_r; [repeat apply Rmult_le_pos; lra|lra]. }
  set (f := form k' u u) in *.
  assert (CA : 0 <= C1 * z * A) by (repeat apply Rmult_le_pos; lra).
  assert (G3 : z * f <= z * e + 3 * (C1 * z * A)).
  { rewrite rb in X2. assert (z * f <= z * (e + C1 * z * A)) by (apply Rmult_le_compat_l; lra). assert (z * (C1 * z * A) <= 3 * (C1 * z * A)) by (apply Rmult_le_compat_r; lra). lra. }
  replace (W - e) with ((W - f) + (f - e)) by ring. eapply Rle_trans; [apply rb_plus; [exact G|exact X2]|].
  replace (z * (e + (4 * C1 + 4 * C0) * A)) with (z * e + 4 * (C1 * z * A) + 4 * C0 * z * A) by ring. lra.
Qed.

(** The grid under loads that belong to the dome. *)
Lemma c109_natural_ex : forall h0 pfn, 0 < h0 -> exists h m P Q load, 0 < h <= h0 /\ h <= 1 /\ 16 * 1 * (h * h) <= 1 / 10 * (1 / 10) /\ let p := ex_prop 1 in let u := sampled m dome in
  mindlin_plate unit_square m pfn p h (1 / 2) Q 20 1 4 (1 / 10) /\ fine unit_square m h (1 / 2) P /\ mindlin_motion unit_square m 4 2 2 dome u /\
  admissible (List.length (nodes m) * 5) (framed m) u /\ mindlin_loads (tria_shear m) m p (framed m) Q dome 0 load /\ korn 4 m (framed m) /\ total_area m = 1 /\
  exists m' K k', calc_k0 m pfn = (m', Ok K) /\ add_k0s lits_src K m' pfn "cell-based" 1 false = (k', Ok tt) /\ exists d, solves k' (framed m) load d.
Proof.
  intros h0 pfn H. destruct (grid_fine_h h0 H) as [n [Hn [Hh [H1 HC]]]].
  destruct (c101_loads (grid_mesh n) pfn (ex_prop 1) (framed (grid_mesh n)) (grid_tpoint n) dome "cell-based" (grid_valid n Hn pfn)) as [_ [load HL]].
  exists (1 / INR n), (grid_mesh n), (grid_point n), (grid_tpoint n), load. split; [exact Hh|]. split; [exact H1|]. split; [exact HC|]. cbv zeta.
  split; [apply grid_mindlin, Hn|]. split; [apply grid_fine, Hn|]. split; [split; [apply dome_smooth|split; [apply dome_rot|apply sampled_ok]]|]. split; [apply dome_framed|].
  split; [exact HL|]. split; [replace 4 with (2 + 8 * (1 / 2 * (1 / 2))) by field; apply (c101_korn _ pfn); [apply grid_valid, Hn|apply grid_held; [exact Hn|cbn [In]; lia]|apply grid_strip, Hn]|]. split; [apply grid_total, Hn|apply grid_solution, Hn].
Qed.
