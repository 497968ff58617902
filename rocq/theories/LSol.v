(** Lemmas behind the properties on stability and convergence of solutions (C95-C97). *)
(* P: Num Py Mesh Utils CalcK0 CalcKG AddK0s Spec SpecK0 SpecKG SpecK0s SpecStab SpecStat SpecConv SpecSol Ex ExK0 ExK0s ExGrid *)
From Coq Require Import ZArith Reals List Bool Arith Lra Lia Psatz String.
From Verif Require Import Num Py Mesh Utils CalcK0 CalcKG AddK0s Spec SpecK0 SpecKG SpecK0s SpecStab SpecStat SpecConv SpecSol FSum FMat FWf FTensor FSmooth FStab FStab2 FConn FKG FK0s
  FConv FSol FSol2 FLin2 LK0 LKG LK0s LConv Ex ExK0 ExK0s ExGrid.
Import ListNotations.
Local Open Scope R_scope.
Implicit Types (m : mesh R).

(** ** C95 *)

(** Edge smoothing is stable: the energy of a displacement is at least a fixed multiple of the integral of the squares of
    its strains in the linear triangles; the factor depends on the least stiffness of the laminates and the shape of the
    triangles, not on their size or number. *)
Lemma c95_stable : forall m pfn lam kappa, valid m pfn -> all_props m (stiffness_ge lam) -> shapely kappa m -> 0 < lam -> 0 < kappa ->
  exists m' K, calc_k0 m pfn = (m', Ok K) /\ forall u, 8 * lam * kappa ^ 4 * strains_sq m u <= 81 * form K u u.
Proof.
  intros m pfn lam kappa V PP SH Hl Hk. destruct (valid_spec m pfn V) as [m' [K [E [_ [F _]]]]]. exists m', K. split; [exact E|].
  intros u. rewrite F. assert (X := energy_stable m pfn V lam kappa u Hk Hl SH PP). lra.
Qed.

Lemma ex_stiff_ge : stiffness_ge 1 (ex_prop 1).
Proof.
  intros e. unfold strain_sq, dens, quad3, ex_prop; cbn [pA pB pD m00 m01 m02 m11 m12 m22].
  set (a := exx e); set (b := eyy e); set (d := exy e); set (x := kxx e); set (y := kyy e); set (z := kxy e).
  assert (H1 := sq_nn (a + b)). assert (H2 := sq_nn (a + d)). assert (H3 := sq_nn (b + d)). assert (H4 := sq_nn (a + x)). assert (H5 := sq_nn (b + y)).
  assert (H6 := sq_nn (d + z)). assert (H7 := sq_nn (x + y)). assert (H8 := sq_nn (x + z)). assert (H9 := sq_nn (y + z)).
  assert (S1 := sq_nn a). assert (S2 := sq_nn b). assert (S3 := sq_nn d). assert (S4 := sq_nn x). assert (S5 := sq_nn y). assert (S6 := sq_nn z). lra.
Qed.
Lemma all_imp : forall m (P P' : prop R -> Prop), (forall q, P q -> P' q) -> all_props m P -> all_props m P'.
Proof. intros m P P' I [A B]. split; [intros n q E; apply I, (A n q E)|intros t q Ht E; apply I, (B t q Ht E)]. Qed.
Lemma grid_one : forall n, (0 < n)%nat -> all_props (grid_mesh n) (fun q => q = ex_prop 1).
Proof. intros n H. apply with_one; [apply grid_wf, H|reflexivity]. Qed.

(** The unit square cut into 2 n^2 triangles. *)
Lemma c95_stable_ex : forall n pfn, (0 < n)%nat -> let m := grid_mesh n in
  valid m pfn /\ all_props m (stiffness_ge 1) /\ shapely (1 / 8) m.
Proof.
  intros n pfn H m. split; [apply grid_valid, H|]. split.
  - apply (all_imp m (fun q => q = ex_prop 1)); [|apply grid_one, H]. intros q ->. exact ex_stiff_ge.
  - replace (1 / 8) with (1 / 2 / 4) by field. apply (fine_shapely unit_square m (1 / INR n) (1 / 2) (grid_tpoint n)); [apply grid_fine_trias, H|].
    apply Rdiv_lt_0_compat; [lra|]. apply lt_0_INR. exact H.
Qed.

Lemma linear_le : forall m p c u, mat3_bounded c (pA p) -> mat3_bounded c (pB p) -> mat3_bounded c (pD p) -> linear_energy m p u <= 36 * c * strains_sq m u.
Proof.
  intros m p c u A B D. unfold linear_energy, strains_sq. rewrite <- Sum_scal. apply Sum_le. intros t _. assert (AN := area_nn m t).
  set (e := tria_strain m u t). assert (X := dens_bound c _ _ _ e e _ _ A B D (strain_le_sqrt e) (strain_le_sqrt e)).
  replace (36 * c * sqrt (strain_sq e) * sqrt (strain_sq e)) with (36 * c * (sqrt (strain_sq e) * sqrt (strain_sq e))) in X by ring.
  rewrite sqrt_sqrt in X by apply strain_sq_nonneg.
  assert (Y : dens (pA p) (pB p) (pD p) e e <= 36 * c * strain_sq e) by (eapply Rle_trans; [apply Rle_abs|exact X]).
  apply (Rmult_le_compat_l _ _ _ AN) in Y. lra.
Qed.

(** In a plate of one laminate the energy is at least a fraction of the strain energy of the linear triangles (by C67 it is
    at most this strain energy). *)
Lemma c95_fraction : forall m pfn p c lam kappa, valid m pfn -> all_props m (fun q => q = p) -> stiffness_ge lam p ->
  mat3_bounded c (pA p) -> mat3_bounded c (pB p) -> mat3_bounded c (pD p) -> shapely kappa m -> 0 <= c -> 0 < lam -> 0 < kappa ->
  exists m' K, calc_k0 m pfn = (m', Ok K) /\ forall u, lam * kappa ^ 4 * linear_energy m p u <= 365 * c * form K u u.
Proof.
  intros m pfn p c lam kappa V OP SG A B D SH Hc Hl Hk.
  assert (PP : all_props m (stiffness_ge lam)) by (apply (all_imp m (fun q => q = p)); [intros q ->; exact SG|exact OP]).
  destruct (c95_stable m pfn lam kappa V PP SH Hl Hk) as [m' [K [E F]]]. exists m', K. split; [exact E|]. intros u.
  assert (X := F u). assert (Y := linear_le m p c u A B D).
  assert (Z : 0 <= lam * kappa ^ 4) by (apply Rmult_le_pos; [lra|left; apply pow_lt, Hk]).
  apply (Rmult_le_compat_l _ _ _ Z) in Y. apply (Rmult_le_compat_l c) in X; [|exact Hc].
  assert (N : 0 <= form K u u).
  { assert (0 <= strains_sq m u) by (unfold strains_sq; apply Sum_nonneg; intros t _; apply Rmult_le_pos; [apply area_nn|apply strain_sq_nonneg]).
    assert (Q := F u). assert (0 <= lam * kappa ^ 4 * strains_sq m u) by (apply Rmult_le_pos; assumption). lra. }
  assert (CN : 0 <= c * form K u u) by (apply Rmult_le_pos; assumption). lra.
Qed.

Lemma c95_fraction_ex : forall n pfn, (0 < n)%nat -> let m := grid_mesh n in let p := ex_prop 1 in
  valid m pfn /\ all_props m (fun q => q = p) /\ stiffness_ge 1 p /\ mat3_bounded 20 (pA p) /\ mat3_bounded 20 (pB p) /\ mat3_bounded 20 (pD p) /\ shapely (1 / 8) m.
Proof.
  intros n pfn H m p. destruct (c95_stable_ex n pfn H) as [V [_ S]]. split; [exact V|]. split; [apply grid_one, H|]. split; [exact ex_stiff_ge|].
  unfold mat3_bounded, p, ex_prop; cbn [pA pB pD m00 m01 m02 m10 m11 m12 m20 m21 m22].
  split; [|split; [|split; [|exact S]]]; repeat split; apply Rabs_le; lra.
Qed.

(** ** C96 *)

(** The solution of a static problem without shear: if the loads belong to a smooth motion F that respects the supports,
    the energy of the difference to F in the nodes and the integral of the squares of the errors of the strains are bounded
    by a multiple of the square of the mesh size h (and of delta, by which the loads miss those of F). *)
Lemma c96_strains : forall Om m pfn p h kappa Q c lam M s F u S load delta, valid m pfn -> all_props m (fun q => q = p) -> stiffness_ge lam p ->
  mat3_bounded c (pA p) -> mat3_bounded c (pB p) -> mat3_bounded c (pD p) -> fine_trias Om m h kappa Q ->
  0 < h -> 0 < kappa -> 0 < lam -> 0 <= c -> 0 <= M -> motion_smooth Om M s F -> samples m F u -> admissible (List.length (nodes m) * 5) S u ->
  loads_of m p S Q F delta load ->
  exists m' K, calc_k0 m pfn = (m', Ok K) /\ forall d, solves K S load d ->
    let eta := delta + 204 * M * h / kappa in let L := 2592 / (lam * kappa ^ 4) in
    form K (fun i => 1 * d i + -1 * u i) (fun i => 1 * d i + -1 * u i) <= (36 * c * eta) ^ 2 * L * total_area m /\
    strain_error m Q F d <= (2 * (36 * c * L * eta) ^ 2 + 12 * eta ^ 2) * total_area m.
Proof.
  intros Om m pfn p h kappa Q c lam M s F u S load delta V OP SG BA BB BD FI Hh Hk Hl Hc HM SM SA AU [st [ST LD]].
  destruct (valid_spec m pfn V) as [m' [K [E [D [FK _]]]]]. exists m', K. split; [exact E|]. intros d SO eta L.
  split.
  - replace ((36 * c * eta) ^ 2 * L * total_area m) with (36 * c * sol_eta h kappa M delta * (36 * c * sol_eta h kappa M delta) * sol_L kappa lam * total_area m) by (unfold sol_eta, sol_L, eta, L; ring).
    apply (error_energy Om m pfn p h kappa Q c lam M s F u V OP SG BA BB BD FI Hh Hk Hl HM SM SA delta st ST K S load d D FK LD AU SO).
  - apply (error_total Om m pfn p h kappa Q c lam M s F u V OP SG BA BB BD FI Hh Hk Hl HM SM SA delta st ST K S load d D FK LD AU SO).
Qed.

Lemma sides_swap : forall m (W : wf_mesh m) (f : nat * nat -> tria R -> R),
  Sum (fun t => Sum (fun k => f k t) (sides t)) (trias_of m) = Sum (fun k => Sum (f k) (tris_on m k)) (edge_keys m).
Proof.
  intros m W f.
  transitivity (Sum (fun t => Sum (fun k => if mem_key k (sides t) then f k t else 0) (edge_keys m)) (trias_of m)).
  - apply Sum_ext_in. intros t Ht. rewrite <- (Sum_filter_if _ (fun k => mem_key k (sides t)) (fun k => f k t)).
    apply Sum_perm. apply Permutation.NoDup_Permutation.
    + apply FRead2.sides_nodup. apply (wf_distinct m W t Ht).
    + apply NoDup_filter, (wf_edges m W).
    + intros k. rewrite filter_In, mem_key_in. split; [|tauto]. intros H; split; [|exact H]. apply (wf_edge_keys m W). exists t; auto.
  - rewrite <- Sum_swap. apply Sum_ext_in. intros k Hk. unfold tris_on. rewrite Sum_filter_if. apply Sum_ext_in. intros t Ht. rewrite (on_side m W k t Hk Ht). reflexivity.
Qed.


Lemma dens_thirds : forall A B D e1 e2 e3 f,
  dens A B D (Strain ((exx e1 + (exx e2 + (exx e3 + 0))) / 3) ((eyy e1 + (eyy e2 + (eyy e3 + 0))) / 3) ((exy e1 + (exy e2 + (exy e3 + 0))) / 3)
    ((kxx e1 + (kxx e2 + (kxx e3 + 0))) / 3) ((kyy e1 + (kyy e2 + (kyy e3 + 0))) / 3) ((kxy e1 + (kxy e2 + (kxy e3 + 0))) / 3)) f
  = / 3 * (dens A B D e1 f + (dens A B D e2 f + (dens A B D e3 f + 0))).
Proof. intros A B D e1 e2 e3 f. unfold dens, quad3; cbn [exx eyy exy kxx kyy kxy]. field. Qed.

Lemma near_thirds : forall a b c x d, Rabs (a - x) <= d -> Rabs (b - x) <= d -> Rabs (c - x) <= d -> Rabs ((a + (b + (c + 0))) / 3 - x) <= d.
Proof. intros a b c x d H1 H2 H3. rewrite rb in H1, H2, H3. rewrite rb. lra. Qed.

(** Every smooth motion has such loads: the forces that k0 assigns to its displacements in the nodes. *)
Lemma c96_loads : forall Om m pfn p h kappa Q M s F u S, valid m pfn -> all_props m (fun q => q = p) -> fine_trias Om m h kappa Q ->
  0 < h -> 0 < kappa -> 0 <= M -> motion_smooth Om M s F -> samples m F u ->
  exists m' K, calc_k0 m pfn = (m', Ok K) /\ loads_of m p S Q F (204 * M * h / kappa) (mulv K u).
Proof.
  intros Om m pfn p h kappa Q M s F u S V OP FI Hh Hk HM SM SA.
  destruct (valid_spec m pfn V) as [m' [K [E [D [FK _]]]]]. exists m', K. split; [exact E|].
  assert (W := va_wf _ _ V). set (e := smoothed_strain m u).
  set (mn := fun (g : strain -> R) (t : tria R) => Sum (fun k => g (e k)) (sides t) / 3).
  exists (fun t => Strain (mn exx t) (mn eyy t) (mn exy t) (mn kxx t) (mn kyy t) (mn kxy t)). split.
  - intros t Ht.
    assert (N : forall k, In k (sides t) -> near_strain (204 * M * h / kappa) (e k) (true_strain F (Q t))).
    { intros k Hs. assert (Hin : In k (edge_keys m)) by (apply (wf_edge_keys m W); exists t; auto).
      apply (smoothed_near Om m pfn h kappa Q M s F u V FI Hh Hk HM SM SA k t Hin). unfold tris_on. apply filter_In. split; [exact Ht|].
      rewrite (on_side m W k t Hin Ht). apply mem_key_in, Hs. }
    unfold sides in *. cbn [In] in N.
    assert (N1 := N _ (or_introl eq_refl)). assert (N2 := N _ (or_intror (or_introl eq_refl))). assert (N3 := N _ (or_intror (or_intror (or_introl eq_refl)))).
    destruct N1 as [A1 [A2 [A3 [A4 [A5 A6]]]]], N2 as [B1 [B2 [B3 [B4 [B5 B6]]]]], N3 as [C1 [C2 [C3 [C4 [C5 C6]]]]].
    unfold strain_near, mn, sides; cbn [exx eyy exy kxx kyy kxy Sum]. repeat split; apply near_thirds; assumption.
  - intros v _.
    transitivity (form K v u).
    { rewrite form_mulv, D. unfold load_work. apply Sum_ext. intros i. ring. }
    assert (SY : k0_energy m pfn v u = k0_energy m pfn u v) by (unfold k0_energy; apply Sum_ext; intros k; rewrite dens_sym; reflexivity).
    rewrite FK, SY, (k0_split m pfn p u V OP v), <- (sides_swap m W (fun k t => tarea m t / 3 * dens (pA p) (pB p) (pD p) (smoothed_strain m u k) (tria_strain m v t))).
    apply Sum_ext. intros t.
    assert (T := dens_thirds (pA p) (pB p) (pD p) (e (Nat.min (tn1 t) (tn2 t), Nat.max (tn1 t) (tn2 t))) (e (Nat.min (tn2 t) (tn3 t), Nat.max (tn2 t) (tn3 t)))
      (e (Nat.min (tn3 t) (tn1 t), Nat.max (tn3 t) (tn1 t))) (tria_strain m v t)).
    symmetry. etransitivity; [apply (f_equal (Rmult (tarea m t))); exact T|]. unfold sides, Sum, rsum; cbn [map fold_right]. unfold e. field.
Qed.

Lemma own_supports : forall N (u : nat -> R), admissible N (fun i => if Req_EM_T (u i) 0 then true else false) u.
Proof. intros N u i _ H. destruct (Req_EM_T (u i) 0); [assumption|discriminate]. Qed.
Lemma own_solution : forall K (u : nat -> R), solves K (fun i => if Req_EM_T (u i) 0 then true else false) (mulv K u) u.
Proof. intros K u i _. destruct (Req_EM_T (u i) 0); [assumption|reflexivity]. Qed.

(** The grid, with the loads of the example motion; the supports hold all that the motion leaves at rest. *)
Lemma c96_strains_ex : forall n pfn, (0 < n)%nat -> let m := grid_mesh n in let p := ex_prop 1 in let u := sampled m ex_motion in
  let S := fun i => if Req_EM_T (u i) 0 then true else false in
  valid m pfn /\ all_props m (fun q => q = p) /\ stiffness_ge 1 p /\ mat3_bounded 20 (pA p) /\ mat3_bounded 20 (pB p) /\ mat3_bounded 20 (pD p) /\
  fine_trias unit_square m (1 / INR n) (1 / 2) (grid_tpoint n) /\ motion_smooth unit_square 1 2 ex_motion /\ samples m ex_motion u /\
  admissible (List.length (nodes m) * 5) S u /\
  exists m' K, calc_k0 m pfn = (m', Ok K) /\ loads_of m p S (grid_tpoint n) ex_motion (204 * 1 * (1 / INR n) / (1 / 2)) (mulv K u) /\ solves K S (mulv K u) u.
Proof.
  intros n pfn H m p u S. destruct (c95_fraction_ex n pfn H) as [V [OP [SG [BA [BB [BD _]]]]]].
  split; [exact V|]. split; [exact OP|]. split; [exact SG|]. split; [exact BA|]. split; [exact BB|]. split; [exact BD|].
  split; [apply grid_fine_trias, H|]. split; [apply ex_motion_smooth|]. split; [apply sampled_ok|]. split; [apply own_supports|].
  assert (HN : 0 < 1 / INR n) by (apply Rdiv_lt_0_compat; [lra|]; apply lt_0_INR; exact H).
  destruct (c96_loads unit_square m pfn p (1 / INR n) (1 / 2) (grid_tpoint n) 1 2 ex_motion u S V OP (grid_fine_trias n H) HN ltac:(lra) ltac:(lra) ex_motion_smooth (sampled_ok m ex_motion)) as [m' [K [E L]]].
  exists m', K. split; [exact E|]. split; [exact L|apply own_solution].
Qed.

(** The solutions converge under refinement: for every eps there is a mesh size h0 from which on the integral of the squares
    of the errors of the strains, and the energy of the error, are below eps; h0 is the same for all meshes of area at most
    A with triangles of area at least kappa h^2, all laminates between lam and c, all motions with bounded derivatives and all
    loads that miss those of the motion by at most D h. *)
Lemma c96_convergence : forall Om c lam M s kappa A D eps, 0 <= c -> 0 < lam -> 0 <= M -> 0 < kappa -> 0 <= A -> 0 <= D -> 0 < eps ->
  exists h0, 0 < h0 /\ forall m pfn p h Q F u S load delta, 0 < h <= h0 -> valid m pfn -> all_props m (fun q => q = p) -> stiffness_ge lam p ->
    mat3_bounded c (pA p) -> mat3_bounded c (pB p) -> mat3_bounded c (pD p) -> fine_trias Om m h kappa Q -> total_area m <= A ->
    motion_smooth Om M s F -> samples m F u -> admissible (List.length (nodes m) * 5) S u -> 0 <= delta <= D * h -> loads_of m p S Q F delta load ->
    exists m' K, calc_k0 m pfn = (m', Ok K) /\ forall d, solves K S load d ->
      form K (fun i => 1 * d i + -1 * u i) (fun i => 1 * d i + -1 * u i) <= eps /\ strain_error m Q F d <= eps.
Proof.
  intros Om c lam M s kappa A D eps Hc Hl HM Hk HA HD He.
  set (L := 2592 / (lam * kappa ^ 4)). set (B := D + 204 * M / kappa).
  assert (K4 : 0 < lam * kappa ^ 4) by (apply Rmult_lt_0_compat; [exact Hl|apply pow_lt, Hk]).
  assert (LP : 0 <= L) by (unfold L, Rdiv; apply Rmult_le_pos; [lra|left; apply Rinv_0_lt_compat, K4]).
  assert (BP : 0 <= B) by (unfold B, Rdiv; apply Rplus_le_le_0_compat; [exact HD|apply Rmult_le_pos; [lra|left; apply Rinv_0_lt_compat, Hk]]).
  set (C1 := (36 * c) ^ 2 * L). set (C2 := 2 * (36 * c * L) ^ 2 + 12).
  assert (P1 : 0 <= C1) by (unfold C1; apply Rmult_le_pos; [apply pow2_ge_0|exact LP]).
  assert (P2 : 0 <= C2) by (unfold C2; assert (Z := pow2_ge_0 (36 * c * L)); lra).
  assert (BB2 := pow2_ge_0 B).
  assert (CC : 0 <= (C1 + C2) * B ^ 2 * A) by (repeat apply Rmult_le_pos; lra).
  destruct (small_h ((C1 + C2) * B ^ 2 * A) 0 eps CC (Rle_refl 0) He) as [h0 [H0 HH]]. exists h0. split; [exact H0|].
  intros m pfn p h Q F u S load delta Hh V OP SG BA BB BD FI TA SM SA AU HD2 LD. destruct (HH h Hh) as [H1 H2].
  destruct (c96_strains Om m pfn p h kappa Q c lam M s F u S load delta V OP SG BA BB BD FI (proj1 Hh) Hk Hl Hc HM SM SA AU LD) as [m' [K [E R]]].
  exists m', K. split; [exact E|]. intros d SO. destruct (R d SO) as [R1 R2]. cbv zeta in R1, R2. fold L in R1, R2.
  assert (MK : 0 <= 204 * M / kappa) by (unfold Rdiv; apply Rmult_le_pos; [lra|left; apply Rinv_0_lt_compat, Hk]).
  set (eta := delta + 204 * M * h / kappa) in *.
  assert (E0 : 0 <= eta <= B * h).
  { unfold eta. replace (204 * M * h / kappa) with (204 * M / kappa * h) by (field; lra). unfold B.
    assert (0 <= 204 * M / kappa * h) by (apply Rmult_le_pos; lra). lra. }
  assert (E1 : eta ^ 2 <= B ^ 2 * h).
  { apply Rle_trans with ((B * h) ^ 2); [apply pow_incr, E0|]. replace ((B * h) ^ 2) with (B ^ 2 * (h * h)) by ring.
    apply Rmult_le_compat_l; [exact BB2|]. rewrite <- (Rmult_1_r h) at 3. apply Rmult_le_compat_l; lra. }
  assert (T := area_nonneg m). assert (E2 := pow2_ge_0 eta).
  assert (G : forall x, 0 <= x <= C1 + C2 -> x * eta ^ 2 * total_area m <= eps).
  { intros x X. eapply Rle_trans; [|exact H2]. apply Rle_trans with ((C1 + C2) * (B ^ 2 * h) * A).
    - apply Rmult_le_compat; [apply Rmult_le_pos; lra|exact T| |exact TA]. apply Rmult_le_compat; lra.
    - right. ring. }
  split.
  - eapply Rle_trans; [exact R1|]. replace ((36 * c * eta) ^ 2 * L * total_area m) with (C1 * eta ^ 2 * total_area m) by (unfold C1; ring). apply G; lra.
  - eapply Rle_trans; [exact R2|]. replace ((2 * (36 * c * L * eta) ^ 2 + 12 * eta ^ 2) * total_area m) with (C2 * eta ^ 2 * total_area m) by (unfold C2; ring). apply G; lra.
Qed.

(** There are such problems below every mesh size. *)
Lemma c96_convergence_ex : forall h0 pfn, 0 < h0 -> exists h m Q S, let p := ex_prop 1 in let u := sampled m ex_motion in
  0 < h <= h0 /\ valid m pfn /\ all_props m (fun q => q = p) /\ fine_trias unit_square m h (1 / 2) Q /\ total_area m <= 1 /\ samples m ex_motion u /\
  admissible (List.length (nodes m) * 5) S u /\
  exists m' K, calc_k0 m pfn = (m', Ok K) /\ loads_of m p S Q ex_motion (408 * h) (mulv K u) /\ solves K S (mulv K u) u.
Proof.
  intros h0 pfn H. destruct (grid_small h0 H) as [n [Hn Hh]]. destruct (c96_strains_ex n pfn Hn) as [V [OP [_ [_ [_ [_ [FI [_ [SA [AU [m' [K [E [L SO]]]]]]]]]]]]]].
  exists (1 / INR n), (grid_mesh n), (grid_tpoint n). eexists. cbv zeta.
  split; [exact Hh|]. split; [exact V|]. split; [exact OP|]. split; [exact FI|]. split; [rewrite (grid_total n Hn); apply Rle_refl|].
  split; [exact SA|]. split; [exact AU|]. exists m', K. split; [exact E|]. split; [|exact SO].
  replace (408 * (1 / INR n)) with (204 * 1 * (1 / INR n) / (1 / 2)); [exact L|]. field. apply Rgt_not_eq, lt_0_INR, Hn.
Qed.

(** ** C97 *)

(** kG of the solution: the stress stiffness assembled from the computed static solution, in a smooth mode G, is that of the
    membrane forces of the motion F to which the loads belong, up to multiples of the mesh size (and of delta). *)
Lemma c97_work : forall Om m pfn p h kappa P Q c lam M s F G u w S load delta, valid m pfn -> all_props m (fun q => q = p) -> stiffness_ge lam p ->
  mat3_bounded c (pA p) -> mat3_bounded c (pB p) -> mat3_bounded c (pD p) -> fine Om m h kappa P -> fine_trias Om m h kappa Q ->
  0 < h -> 0 < kappa -> 0 < lam -> 0 <= c -> 0 <= M -> motion_smooth Om M s F -> motion_smooth Om M s G -> samples m F u -> samples m G w ->
  admissible (List.length (nodes m) * 5) S u -> 0 < delta -> loads_of m p S Q F delta load ->
  exists m' K, calc_k0 m pfn = (m', Ok K) /\ forall d, List.length d = (List.length (nodes m) * 5)%nat -> solves K S load (vec_of d) ->
    exists KG, calc_kG d m' pfn = Ok KG /\
      let e := 12 * M * h / kappa in let eta := delta + 204 * M * h / kappa in let L := 2592 / (lam * kappa ^ 4) in
      Rabs (form KG w w - riemann_work m pfn P F G) <=
        (12 * c * ((s + e) * (s + e)) * eta * (1 + 36 * c * (36 * c) * L / lam)
         + 4 * (6 * c * e * ((s + e) * (s + e)) + 12 * c * s * (e * (2 * s + e)))) * total_area m.
Proof.
  intros Om m pfn p h kappa P Q c lam M s F G u w S load delta V OP SG BA BB BD FE FI Hh Hk Hl Hc HM SF SG2 SA SW AU DP [st [ST LD]].
  destruct (valid_spec m pfn V) as [m' [K [E [D [FK _]]]]]. exists m', K. split; [exact E|]. intros d LN SO.
  assert (PF : prepared_from m m') by (exists pfn, K; split; assumption). assert (PC := va_props _ _ V).
  destruct (c41_average m m' pfn d PF PC LN) as [KG [EG [_ FG]]]. exists KG. split; [exact EG|]. intros e eta L. rewrite FG.
  assert (B : bounded c m) by (apply (all_imp m (fun q => q = p)); [intros q ->; auto|exact OP]).
  assert (N := work_near Om m h kappa P (va_wf _ _ V) (va_plate _ _ V) FE Hh Hk pfn c F G u w M s Hc B HM SF SA SG2 SW).
  assert (ET : 0 < sol_eta h kappa M delta).
  { unfold sol_eta. apply Rplus_lt_le_0_compat; [exact DP|]. unfold Rdiv. repeat apply Rmult_le_pos; try lra. left; apply Rinv_0_lt_compat, Hk. }
  assert (X := work_error Om m pfn p h kappa Q c lam M s F u V OP SG BA BB BD FI Hh Hk Hl Hc HM SF SA delta st ST K S load (vec_of d) D FK LD AU SO P G w FE SG2 SW ET).
  cbv zeta in N, X. change (sol_eta h kappa M delta) with eta in X. change (sol_L kappa lam) with L in X. fold e in N, X.
  replace (kG_energy m pfn (vec_of d) w w - riemann_work m pfn P F G) with
    ((kG_energy m pfn (vec_of d) w w - kG_energy m pfn u w w) + (kG_energy m pfn u w w - riemann_work m pfn P F G)) by ring.
  rewrite Rmult_plus_distr_r. eapply Rle_trans; [apply Rabs_triang|]. apply Rplus_le_compat; assumption.
Qed.

Lemma mulv_list : forall (K : matrix R) N u i, mdim K = N -> mulv K (vec_of (list_of N u)) i = mulv K u i.
Proof.
  intros K N u i D. unfold mulv. apply Sum_ext_in. intros j Hj. apply in_seq in Hj. rewrite vec_list by lia. reflexivity.
Qed.

(** The grid; the static solution is a list of numbers, as calc_kG expects it, and the mode is the motion itself. *)
Lemma c97_work_ex : forall n pfn, (0 < n)%nat -> let m := grid_mesh n in let p := ex_prop 1 in let u := sampled m ex_motion in
  let N := (List.length (nodes m) * 5)%nat in let S := fun i => if Req_EM_T (u i) 0 then true else false in
  fine unit_square m (1 / INR n) (1 / 2) (grid_point n) /\ 0 < 204 * 1 * (1 / INR n) / (1 / 2) /\
  exists m' K, calc_k0 m pfn = (m', Ok K) /\ loads_of m p S (grid_tpoint n) ex_motion (204 * 1 * (1 / INR n) / (1 / 2)) (mulv K u) /\
    List.length (list_of N u) = N /\ solves K S (mulv K u) (vec_of (list_of N u)).
Proof.
  intros n pfn H m p u N S. destruct (c96_strains_ex n pfn H) as [V [_ [_ [_ [_ [_ [_ [_ [_ [_ [m' [K [E [L SO]]]]]]]]]]]]]].
  split; [apply grid_fine, H|]. split.
  - apply Rdiv_lt_0_compat; [|lra]. apply Rmult_lt_0_compat; [lra|]. apply Rdiv_lt_0_compat; [lra|]. apply lt_0_INR; exact H.
  - exists m', K. split; [exact E|]. split; [exact L|]. split; [apply (proj2 (sampled_list m ex_motion))|].
    assert (D : mdim K = N). { destruct (valid_spec m pfn V) as [m1 [K1 [E1 [D _]]]]. assert (Q := eq_trans (eq_sym E) E1). injection Q as _ <-. exact D. }
    intros i Hi. assert (X := SO i Hi). change (if S i then u i = 0 else mulv K u i = mulv K u i) in X. rewrite (mulv_list K N u i D). destruct (S i); [|reflexivity]. rewrite vec_list by lia. exact X.
Qed.

(** The stress stiffness of the computed solution converges under refinement. *)
Lemma c97_convergence : forall Om c lam M s kappa A D eps, 0 <= c -> 0 < lam -> 0 <= M -> 0 <= s -> 0 < kappa -> 0 <= A -> 0 <= D -> 0 < eps ->
  exists h0, 0 < h0 /\ forall m pfn p h P Q F G u w S load delta, 0 < h <= h0 -> valid m pfn -> all_props m (fun q => q = p) -> stiffness_ge lam p ->
    mat3_bounded c (pA p) -> mat3_bounded c (pB p) -> mat3_bounded c (pD p) -> fine Om m h kappa P -> fine_trias Om m h kappa Q -> total_area m <= A ->
    motion_smooth Om M s F -> motion_smooth Om M s G -> samples m F u -> samples m G w ->
    admissible (List.length (nodes m) * 5) S u -> 0 < delta <= D * h -> loads_of m p S Q F delta load ->
    exists m' K, calc_k0 m pfn = (m', Ok K) /\ forall d, List.length d = (List.length (nodes m) * 5)%nat -> solves K S load (vec_of d) ->
      exists KG, calc_kG d m' pfn = Ok KG /\ Rabs (form KG w w - riemann_work m pfn P F G) <= eps.
Proof.
  intros Om c lam M s kappa A D eps Hc Hl HM Hs Hk HA HD He.
  set (L := 2592 / (lam * kappa ^ 4)). set (B := D + 204 * M / kappa). set (a := 12 * M / kappa).
  assert (K4 : 0 < lam * kappa ^ 4) by (apply Rmult_lt_0_compat; [exact Hl|apply pow_lt, Hk]).
  assert (IK : 0 < / kappa) by (apply Rinv_0_lt_compat, Hk). assert (IL : 0 < / lam) by (apply Rinv_0_lt_compat, Hl).
  assert (LP : 0 <= L) by (unfold L, Rdiv; apply Rmult_le_pos; [lra|left; apply Rinv_0_lt_compat, K4]).
  assert (MK : 0 <= 204 * M / kappa) by (unfold Rdiv; apply Rmult_le_pos; lra).
  assert (BP : 0 <= B) by (unfold B; lra).
  assert (AP : 0 <= a) by (unfold a, Rdiv; apply Rmult_le_pos; lra).
  set (Y := 1 + 36 * c * (36 * c) * L / lam).
  assert (YP : 0 <= Y) by (unfold Y; assert (0 <= 36 * c * (36 * c) * L / lam) by (unfold Rdiv; repeat first [lra|apply Rmult_le_pos]; lra); lra).
  set (C1 := 12 * c * ((s + a) * (s + a)) * Y * B). set (C2 := 24 * c * ((s + a) * (s + a)) * a). set (C3 := 48 * c * s * (2 * s + a) * a).
  assert (P1 : 0 <= C1) by (unfold C1; repeat first [lra|apply Rmult_le_pos]; lra).
  assert (P2 : 0 <= C2) by (unfold C2; repeat first [lra|apply Rmult_le_pos]; lra).
  assert (P3 : 0 <= C3) by (unfold C3; repeat first [lra|apply Rmult_le_pos]; lra).
  assert (CC : 0 <= (C1 + C2 + C3) * A) by (apply Rmult_le_pos; lra).
  destruct (small_h ((C1 + C2 + C3) * A) 0 eps CC (Rle_refl 0) He) as [h0 [H0 HH]]. exists h0. split; [exact H0|].
  intros m pfn p h P Q F G u w S load delta Hh V OP SG BA BB BD FE FI TA SF SG2 SA SW AU HD2 LD. destruct (HH h Hh) as [H1 H2].
  destruct (c97_work Om m pfn p h kappa P Q c lam M s F G u w S load delta V OP SG BA BB BD FE FI (proj1 Hh) Hk Hl Hc HM SF SG2 SA SW AU (proj1 HD2) LD) as [m' [K [E R]]].
  exists m', K. split; [exact E|]. intros d LN SO. destruct (R d LN SO) as [KG [EG R1]]. exists KG. split; [exact EG|]. cbv zeta in R1. fold L Y in R1.
  eapply Rle_trans; [exact R1|]. eapply Rle_trans; [|exact H2]. assert (T := area_nonneg m).
  replace (12 * M * h / kappa) with (a * h) by (unfold a; field; lra). replace (204 * M * h / kappa) with (204 * M / kappa * h) by (field; lra).
  set (e := a * h). set (eta := delta + 204 * M / kappa * h).
  assert (E0 : 0 <= e <= a) by (apply (scale_h h e a); [lra|reflexivity|exact AP]).
  assert (E1 : 0 <= eta <= B * h) by (unfold eta, B; assert (0 <= 204 * M / kappa * h) by (apply Rmult_le_pos; lra); lra).
  assert (SS : 0 <= (s + e) * (s + e) <= (s + a) * (s + a)) by (split; [apply Rmult_le_pos; lra|apply Rmult_le_compat; lra]).
  assert (CS : 0 <= c * ((s + e) * (s + e)) <= c * ((s + a) * (s + a))) by (split; [apply Rmult_le_pos; lra|apply Rmult_le_compat_l; lra]).
  assert (I1 : 0 <= 12 * c * ((s + e) * (s + e)) * eta * Y <= C1 * h).
  { split; [repeat first [lra|apply Rmult_le_pos]; lra|]. replace (C1 * h) with (12 * (c * ((s + a) * (s + a))) * (B * h) * Y) by (unfold C1; ring).
    apply Rmult_le_compat_r; [exact YP|]. apply Rmult_le_compat; lra. }
  assert (I2 : 0 <= 4 * (6 * c * e * ((s + e) * (s + e))) <= C2 * h).
  { split; [repeat first [lra|apply Rmult_le_pos]; lra|]. replace (C2 * h) with (24 * e * (c * ((s + a) * (s + a)))) by (unfold C2, e; ring).
    replace (4 * (6 * c * e * ((s + e) * (s + e)))) with (24 * e * (c * ((s + e) * (s + e)))) by ring. apply Rmult_le_compat_l; lra. }
  assert (I3 : 0 <= 4 * (12 * c * s * (e * (2 * s + e))) <= C3 * h).
  { split; [repeat first [lra|apply Rmult_le_pos]; lra|]. replace (C3 * h) with (48 * c * s * e * (2 * s + a)) by (unfold C3, e; ring).
    replace (4 * (12 * c * s * (e * (2 * s + e)))) with (48 * c * s * e * (2 * s + e)) by ring. apply Rmult_le_compat_l; [repeat first [lra|apply Rmult_le_pos]|]; lra. }
  replace ((C1 + C2 + C3) * A * h * (1 + 0 * h)) with ((C1 * h + C2 * h + C3 * h) * A) by ring.
  apply Rmult_le_compat; lra.
Qed.

(** There are such problems below every mesh size. *)
Lemma c97_convergence_ex : forall h0 pfn, 0 < h0 -> exists h m P Q S, let p := ex_prop 1 in let u := sampled m ex_motion in
  let N := (List.length (nodes m) * 5)%nat in
  0 < h <= h0 /\ valid m pfn /\ all_props m (fun q => q = p) /\ stiffness_ge 1 p /\ fine unit_square m h (1 / 2) P /\ fine_trias unit_square m h (1 / 2) Q /\ total_area m <= 1 /\
  samples m ex_motion u /\ admissible N S u /\
  exists m' K, calc_k0 m pfn = (m', Ok K) /\ loads_of m p S Q ex_motion (408 * h) (mulv K u) /\ solves K S (mulv K u) (vec_of (list_of N u)).
Proof.
  intros h0 pfn H. destruct (grid_small h0 H) as [n [Hn Hh]]. destruct (c96_strains_ex n pfn Hn) as [V [OP [SG [_ [_ [_ [FI [_ [SA [AU _]]]]]]]]]].
  destruct (c97_work_ex n pfn Hn) as [FE [_ [m' [K [E [L [_ SO]]]]]]].
  exists (1 / INR n), (grid_mesh n), (grid_point n), (grid_tpoint n). eexists. cbv zeta.
  split; [exact Hh|]. split; [exact V|]. split; [exact OP|]. split; [exact SG|]. split; [exact FE|]. split; [exact FI|]. split; [rewrite (grid_total n Hn); apply Rle_refl|].
  split; [exact SA|]. split; [exact AU|]. exists m', K. split; [exact E|]. split; [|exact SO].
  replace (408 * (1 / INR n)) with (204 * 1 * (1 / INR n) / (1 / 2)); [exact L|]. field. apply Rgt_not_eq, lt_0_INR, Hn.
Qed.
