(** Lemmas behind the property on the displacements of plates without shear stiffness (C106). *)
(* P: Num Py Mesh Utils CalcK0 Spec SpecK0 SpecK0s SpecStab SpecStat SpecConv SpecSol SpecSol2 SpecKorn SpecPair Ex ExK0 ExK0s ExGrid ExGrid2 ExMindlin ExPair *)
From Coq Require Import ZArith Reals List Bool Arith Lra Lia Psatz String.
From Verif Require Import Num Py Mesh Utils CalcK0 Spec SpecK0 SpecKG SpecK0s SpecStab SpecStat SpecConv SpecSol SpecSol2 SpecKorn SpecPair FSum FMat FWf FTensor FSmooth FStab FStab2 FStab4 FConn FKG FK0s
  FConv FConv2 FSol FSol2 FSol3 FSol4 FKorn LK0 LKG LK0s LConv LStab LSol LMindlin Ex ExK0 ExK0s ExGrid ExGrid2 ExStab ExMindlin ExPair.
Import ListNotations.
Local Open Scope R_scope.

(** The solution of a static problem with the matrix of calc_k0 alone: where the supports hold both displacements in the plane along the
    boundary, those converge; where they hold both rotations, these do.  The integral of the squares of their errors is bounded by
    a multiple of the squares of the mesh size h and of delta, by which the loads miss those of the motion. *)
Lemma c106_pairs : forall cs Om m pfn p h kappa Q c lam M s F u S load delta X, cs = in_plane \/ cs = rotated ->
  valid m pfn -> all_props m (fun q => q = p) -> stiffness_ge lam p -> mat3_bounded c (pA p) -> mat3_bounded c (pB p) -> mat3_bounded c (pD p) ->
  fine_trias Om m h kappa Q -> 0 < h <= 1 -> 0 < kappa -> 0 < lam -> 0 <= c -> 0 <= M -> 0 <= s -> motion_smooth Om M s F -> samples m F u ->
  admissible (List.length (nodes m) * 5) S u -> loads_of m p S Q F delta load -> held cs m S -> in_strip X m ->
  exists m' K, calc_k0 m pfn = (m', Ok K) /\ forall d, solves K S load d ->
    let eta := delta + 204 * M * h / kappa in let L := 2592 / (lam * kappa ^ 4) in
    comp_error cs m Q F d <= (4 * (1 + 4 * (X * X)) * (36 * c * L * eta) ^ 2 + 4 * (2 * (s + M) * h) ^ 2) * total_area m.
Proof.
  intros cs Om m pfn p h kappa Q c lam M s F u S load delta X CS V OP SG BA BB BD FI Hh Hk Hl Hc HM Hs SM SA AU LD HE IS.
  destruct (c96_strains Om m pfn p h kappa Q c lam M s F u S load delta V OP SG BA BB BD FI (proj1 Hh) Hk Hl Hc HM SM SA AU LD) as [m' [K [E CO]]].
  destruct (valid_spec m pfn V) as [m2 [K2 [E2 [DK [FK _]]]]]. rewrite E in E2. injection E2 as <- <-.
  exists m', K. split; [exact E|]. intros d SO eta L. destruct (CO d SO) as [EN _]. cbv zeta in EN. fold eta L in EN. clear CO.
  set (v := fun i => 1 * d i + -1 * u i) in *.
  assert (W := va_wf _ _ V). assert (PLT := va_plate _ _ V).
  assert (AV : admissible (List.length (nodes m) * 5) S v).
  { intros i Hi Si. assert (A := SO i ltac:(rewrite DK; exact Hi)). rewrite Si in A. unfold v. rewrite A, (AU i Hi Si). ring. }
  assert (SK := strains_k0 Om m pfn p h kappa Q lam V OP SG FI (proj1 Hh) Hk Hl v). rewrite <- FK in SK. change (sol_L kappa lam) with L in SK.
  assert (L0 : 0 <= L) by (unfold L, Rdiv; apply Rmult_le_pos; [lra|]; left; apply Rinv_0_lt_compat, Rmult_lt_0_compat; [exact Hl|apply pow_lt, Hk]).
  assert (CK : 0 <= 2 + 8 * (X * X)) by (assert (A := sq_nn X); lra).
  assert (PAIR : forall a b, cs = [a; b] -> (a < 5)%nat -> (b < 5)%nat ->
    Sum (fun t => tarea m t * (tgx m t (comp m v a) ^ 2 + tgy m t (comp m v b) ^ 2 + (tgy m t (comp m v a) + tgx m t (comp m v b)) ^ 2)) (trias_of m) <= strains_sq m v ->
    Sum (fun c => Sum (fun t => tarea m t * tmean t (comp m v c) ^ 2) (trias_of m)) cs <= (2 + 8 * (X * X)) * strains_sq m v).
  { intros a b E1 Ha Hb ST.
    assert (Z : forall j, In j cs -> zero_edge m (comp m v j)) by (apply (held_zero m W S v _ HE AV); intros j; rewrite E1; cbn [In]; lia).
    assert (Z0 := Z a ltac:(rewrite E1; cbn; auto)). assert (Z1 := Z b ltac:(rewrite E1; cbn; auto)).
    assert (KP := korn_pair m W PLT _ _ X Z0 Z1 IS). assert (T := Rmult_le_compat_l _ _ _ CK ST).
    rewrite E1, !Sum_cons, Sum_nil, Rplus_0_r, <- Sum_plus. eapply Rle_trans; [|exact (Rle_trans _ _ _ KP T)]. apply Sum_le. intros t _. rewrite <- Rmult_plus_distr_l. apply Rmult_le_compat_l; [apply area_nn|].
    assert (A1 := pow2_ge_0 (tgx m t (comp m v a))). assert (A2 := pow2_ge_0 (tgy m t (comp m v a))). assert (A3 := pow2_ge_0 (tgx m t (comp m v b))). assert (A4 := pow2_ge_0 (tgy m t (comp m v b))). lra. }
  assert (MB : Sum (fun c => Sum (fun t => tarea m t * tmean t (comp m v c) ^ 2) (trias_of m)) cs <= (2 + 8 * (X * X)) * strains_sq m v).
  { destruct CS as [CS|CS]; [apply (PAIR 0 1)%nat|apply (PAIR 3 4)%nat]; try lia; try exact CS; [apply strain_mem|apply strain_rot]. }
  assert (LT : forall j, In j cs -> (j < 5)%nat) by (intros j Hj; destruct CS as [CS|CS]; rewrite CS in Hj; cbn [In in_plane rotated] in Hj; unfold in_plane, rotated in Hj; cbn [In] in Hj; lia).
  assert (CL : forall r : R, Sum (fun _ : nat => r) cs = 2 * r) by (intros r; destruct CS as [CS|CS]; rewrite CS; unfold in_plane, rotated; rewrite !Sum_cons, Sum_nil; ring).
  clear CS PAIR.
  assert (NR : forall j t, (j < 5)%nat -> In t (trias_of m) -> (tmean t (comp m u j) - fval (motion_comp F j) (fst (Q t)) (snd (Q t))) ^ 2 <= (2 * (s + M) * h) ^ 2).
  { intros j t Hj Ht.
    assert (SMJ : smooth Om M s (motion_comp F j)) by (unfold motion_smooth in SM; destruct j as [|[|[|[|j]]]]; cbn [motion_comp]; tauto).
    destruct FI as [FN FT]. destruct (FT t Ht) as [OQ [NQ _]].
    assert (NV : forall n, vertex t n -> Rabs (comp m u j n - fval (motion_comp F j) (fst (Q t)) (snd (Q t))) <= 2 * (s + M) * h).
    { intros n Vn. assert (Hn := wf_vertices m W t n Ht Vn). assert (On := FN n Hn). destruct (NQ n Vn) as [N1 N2].
      assert (EC : comp m u j n = fval (motion_comp F j) (vx (pos m n)) (vy (pos m n))).
      { destruct (SA n Hn) as [A0 [A1 [A2 [A3 A4]]]]. destruct j as [|[|[|[|[|j]]]]]; cbn [motion_comp]; try assumption; lia. }
      rewrite EC. rewrite (surjective_pairing (Q t)) in OQ.
      destruct (smooth_near Om h (motion_comp F j) M s _ _ _ _ HM SMJ OQ On N1 N2) as [_ B].
      eapply Rle_trans; [exact B|]. assert (H2 : h * h <= h) by (rewrite <- (Rmult_1_r h) at 3; apply Rmult_le_compat_l; lra).
      assert (B2 := Rmult_le_compat_l M _ _ HM H2). lra. }
    assert (A1 := NV (tn1 t) (or_introl eq_refl)). assert (A2 := NV (tn2 t) (or_intror (or_introl eq_refl))). assert (A3 := NV (tn3 t) (or_intror (or_intror eq_refl))).
    set (f0 := fval _ _ _) in *. unfold tmean.
    assert (B : Rabs ((comp m u j (tn1 t) + comp m u j (tn2 t) + comp m u j (tn3 t)) / 3 - f0) <= 2 * (s + M) * h).
    { rewrite rb in A1, A2, A3. rewrite rb. lra. }
    rewrite <- pow2_abs. apply sq_le; [apply Rabs_pos|exact B]. }
  assert (DE : comp_error cs m Q F d <= 2 * Sum (fun c => Sum (fun t => tarea m t * tmean t (comp m v c) ^ 2) (trias_of m)) cs + 2 * (2 * (2 * (s + M) * h) ^ 2 * total_area m)).
  { rewrite <- (CL (2 * (2 * (s + M) * h) ^ 2 * total_area m)), <- Sum_scal, <- Sum_plus. unfold comp_error. apply Sum_le. intros j Hj. unfold total_area. rewrite <- !Sum_scal, <- Sum_plus. apply Sum_le. intros t Ht.
    assert (A := area_nn m t). assert (B := NR j t (LT j Hj) Ht).
    assert (E1 : tmean t (comp m d j) = tmean t (comp m v j) + tmean t (comp m u j)) by (unfold tmean, comp, v; field).
    rewrite E1. set (a := tmean t (comp m v j)). set (a' := tmean t (comp m u j)) in *. set (f0 := fval _ _ _) in *.
    assert (U := pow2_ge_0 (a - (a' - f0))).
    assert (Y : (a + a' - f0) ^ 2 <= 2 * a ^ 2 + 2 * (2 * (s + M) * h) ^ 2) by lra.
    apply (Rmult_le_compat_l _ _ _ A) in Y. lra. }
  assert (E3 := Rmult_le_compat_l _ _ _ L0 EN). assert (E4 := Rmult_le_compat_l _ _ _ CK (Rle_trans _ _ _ SK E3)).
  replace ((2 + 8 * (X * X)) * (L * ((36 * c * eta) ^ 2 * L * total_area m))) with (2 * (1 + 4 * (X * X)) * (36 * c * L * eta) ^ 2 * total_area m) in E4 by ring.
  lra.
Qed.

(** The unit square cut into 2 n^2 triangles and held along its boundary, with the loads that k0 assigns to a motion in the plane with rotations. *)
Lemma c106_pairs_ex : forall n pfn, (0 < n)%nat -> let m := grid_mesh n in let p := ex_prop 1 in let u := sampled m swirl in
  valid m pfn /\ all_props m (fun q => q = p) /\ stiffness_ge 1 p /\ mat3_bounded 20 (pA p) /\ mat3_bounded 20 (pB p) /\ mat3_bounded 20 (pD p) /\
  fine_trias unit_square m (1 / INR n) (1 / 2) (grid_tpoint n) /\ motion_smooth unit_square 4 2 swirl /\ samples m swirl u /\
  admissible (List.length (nodes m) * 5) (framed m) u /\ held in_plane m (framed m) /\ held rotated m (framed m) /\ in_strip (1 / 2) m /\
  exists m' K, calc_k0 m pfn = (m', Ok K) /\ loads_of m p (framed m) (grid_tpoint n) swirl (204 * 4 * (1 / INR n) / (1 / 2)) (mulv K u) /\ solves K (framed m) (mulv K u) u.
Proof.
  intros n pfn H m p u. destruct (c95_fraction_ex n pfn H) as [V [OP [SG [BA [BB [BD _]]]]]].
  split; [exact V|]. split; [exact OP|]. split; [exact SG|]. split; [exact BA|]. split; [exact BB|]. split; [exact BD|].
  split; [apply grid_fine_trias, H|]. split; [apply swirl_smooth|]. split; [apply sampled_ok|]. split; [apply swirl_framed|].
  split; [apply grid_held; [exact H|unfold in_plane; cbn [In]; lia]|]. split; [apply grid_held; [exact H|unfold rotated; cbn [In]; lia]|]. split; [apply grid_strip, H|].
  assert (HN : 0 < 1 / INR n) by (apply Rdiv_lt_0_compat; [lra|]; apply lt_0_INR; exact H).
  destruct (c96_loads unit_square m pfn p (1 / INR n) (1 / 2) (grid_tpoint n) 4 2 swirl u (framed m) V OP (grid_fine_trias n H) HN ltac:(lra) ltac:(lra) swirl_smooth (sampled_ok m swirl)) as [m' [K [E L]]].
  exists m', K. split; [exact E|]. split; [exact L|].
  destruct (valid_spec m pfn V) as [m2 [K2 [E2 [DK _]]]]. rewrite E in E2. injection E2 as <- <-.
  intros i Hi. destruct (framed m i) eqn:Fi; [|reflexivity]. apply (swirl_framed m i); [rewrite <- DK; exact Hi|exact Fi].
Qed.
