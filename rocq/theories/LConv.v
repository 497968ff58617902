(** Lemmas behind the properties on consistency (C76-C78). *)
(* P: Num Py Mesh Utils CalcK0 CalcKG AddK0s Spec SpecK0 SpecKG SpecK0s SpecConv Ex ExK0 ExK0s ExGrid *)
From Coq Require Import ZArith Reals List Bool Arith Lra Lia String.
From Verif Require Import Num Py Mesh Utils CalcK0 CalcKG AddK0s Spec SpecK0 SpecKG SpecK0s SpecConv FSum FWf FConn FKG FK0s
  FConv FConv2 LK0 LKG LK0s Ex ExK0 ExK0s ExGrid.
Import ListNotations.
Local Open Scope R_scope.
Implicit Types (m : mesh R).

Lemma scale_h : forall h e a, 0 < h <= 1 -> e = a * h -> 0 <= a -> 0 <= e <= a.
Proof. intros h e a H -> A. split; [apply Rmult_le_pos; lra|]. rewrite <- (Rmult_1_r a) at 2. apply Rmult_le_compat_l; lra. Qed.

Lemma area_nonneg : forall m, 0 <= total_area m.
Proof. intros m. unfold total_area. apply Sum_nonneg. intros t _. unfold tarea. assert (Y := Rabs_pos (tdet m t)). lra. Qed.

(** ** C76 *)

(** k0 is consistent: for a smooth motion sampled in the nodes, u^T k0 u differs from the Riemann sum of the
    energy density of the motion by at most a multiple of the mesh size h. *)
Lemma c76_energy : forall Om m pfn h kappa P c M s F u, valid m pfn -> bounded c m -> fine Om m h kappa P ->
  0 < h -> 0 < kappa -> 0 <= c -> 0 <= M -> motion_smooth Om M s F -> samples m F u ->
  exists m' K, calc_k0 m pfn = (m', Ok K) /\
    let e := 12 * M * h / kappa in
    Rabs (form K u u - riemann_energy m pfn P F) <= 36 * c * e * (4 * s + e) * total_area m.
Proof.
  intros Om m pfn h kappa P c M s F u V B FI H K C MN SM SA. destruct (valid_spec m pfn V) as [m' [K0 [E [_ [Fm _]]]]].
  exists m', K0. split; [exact E|]. cbv zeta. rewrite Fm.
  apply (energy_near Om m h kappa P (va_wf _ _ V) (va_plate _ _ V) FI H K); assumption.
Qed.

(** The unit square cut into 2 n^2 triangles. *)
Lemma c76_energy_ex : forall n pfn, (0 < n)%nat -> let m := grid_mesh n in
  valid m pfn /\ bounded 20 m /\ fine unit_square m (1 / INR n) (1 / 2) (grid_point n) /\ total_area m = 1 /\
  motion_smooth unit_square 1 2 ex_motion /\ samples m ex_motion (sampled m ex_motion).
Proof.
  intros n pfn H m. split; [apply grid_valid, H|]. split; [apply grid_bounded, H|]. split; [apply grid_fine, H|].
  split; [apply grid_total, H|]. split; [apply ex_motion_smooth|apply sampled_ok].
Qed.

(** The energy converges under refinement: for every eps there is a mesh size h0 from which on the difference is
    below eps, on all meshes of area at most S with triangles of area at least kappa h^2, for all laminates with
    entries up to c and all motions with bounded derivatives. *)
Lemma c76_convergence : forall Om c M s kappa S eps, 0 <= c -> 0 <= M -> 0 <= s -> 0 < kappa -> 0 <= S -> 0 < eps ->
  exists h0, 0 < h0 /\ forall m pfn h P F u, 0 < h <= h0 -> valid m pfn -> bounded c m -> fine Om m h kappa P -> total_area m <= S ->
    motion_smooth Om M s F -> samples m F u ->
    exists m' K, calc_k0 m pfn = (m', Ok K) /\ Rabs (form K u u - riemann_energy m pfn P F) <= eps.
Proof.
  intros Om c M s kappa S eps C MN SN K SS E.
  set (a := 12 * M / kappa). assert (A : 0 <= a) by (unfold a, Rdiv; apply Rmult_le_pos; [lra|apply Rlt_le, Rinv_0_lt_compat, K]).
  assert (EA : forall h, 12 * M * h / kappa = a * h) by (intros h; unfold a; field; lra). clearbody a.
  assert (CC : 0 <= 36 * c * a * (4 * s + a) * S) by (repeat apply Rmult_le_pos; lra).
  destruct (small_h (36 * c * a * (4 * s + a) * S) 0 eps CC (Rle_refl 0) E) as [h0 [H0 HH]]. exists h0. split; [exact H0|].
  intros m pfn h P F u Hh V B FI TA SM SA. destruct (HH h Hh) as [H1 H2].
  destruct (c76_energy Om m pfn h kappa P c M s F u V B FI (proj1 Hh) K C MN SM SA) as [m' [K0 [E0 N]]]. exists m', K0. split; [exact E0|].
  cbv zeta in N. eapply Rle_trans; [exact N|]. eapply Rle_trans; [|exact H2].
  rewrite EA.
  destruct (scale_h h (a * h) a) as [X0 X1]; [lra|reflexivity|exact A|].
  assert (T := area_nonneg m).
  apply Rle_trans with (36 * c * (a * h) * (4 * s + a) * S).
  - apply Rmult_le_compat; [|exact T| |exact TA].
    + repeat apply Rmult_le_pos; lra.
    + apply Rmult_le_compat_l; [repeat apply Rmult_le_pos; lra|lra].
  - replace (36 * c * (a * h) * (4 * s + a) * S) with (36 * c * a * (4 * s + a) * S * h * (1 + 0 * h)) by ring. apply Rle_refl.
Qed.

(** There are valid meshes below every mesh size. *)
Lemma c76_convergence_ex : forall h0 pfn, 0 < h0 -> exists h m P, 0 < h <= h0 /\ valid m pfn /\ bounded 20 m /\ fine unit_square m h (1 / 2) P /\
  total_area m <= 1 /\ motion_smooth unit_square 1 2 ex_motion /\ samples m ex_motion (sampled m ex_motion).
Proof.
  intros h0 pfn H. destruct (grid_small h0 H) as [n [Hn Hh]]. exists (1 / INR n), (grid_mesh n), (grid_point n).
  destruct (c76_energy_ex n pfn Hn) as [V [B [F [T [M S]]]]]. split; [exact Hh|]. split; [exact V|]. split; [exact B|]. split; [exact F|].
  split; [rewrite T; apply Rle_refl|]. split; [exact M|exact S].
Qed.

(** ** C77 *)

(** kG is consistent: the static solution samples the motion F, the mode samples the motion G. *)
Lemma c77_work : forall Om m m' pfn h kappa P c M s F G d u, prepared_from m m' -> props_complete m pfn -> bounded c m -> fine Om m h kappa P ->
  0 < h -> 0 < kappa -> 0 <= c -> 0 <= M -> motion_smooth Om M s F -> motion_smooth Om M s G ->
  List.length d = (List.length (nodes m) * 5)%nat -> samples m F (vec_of d) -> samples m G u ->
  exists KG, calc_kG d m' pfn = Ok KG /\
    let e := 12 * M * h / kappa in
    Rabs (form KG u u - riemann_work m pfn P F G)
      <= 4 * (6 * c * e * ((s + e) * (s + e)) + 12 * c * s * (e * (2 * s + e))) * total_area m.
Proof.
  intros Om m m' pfn h kappa P c M s F G d u PF PC B FI H K C MN SF SG L SA SU.
  destruct (c41_average m m' pfn d PF PC L) as [KG [E [_ Fm]]]. exists KG. split; [exact E|]. cbv zeta. rewrite Fm.
  destruct PF as [pfn0 [K0 [V _]]].
  apply (work_near Om m h kappa P (va_wf _ _ V) (va_plate _ _ V) FI H K); assumption.
Qed.

(** The grid again; the static solution and the mode sample the same motion. *)
Lemma c77_work_ex : forall n pfn, (0 < n)%nat -> let m := grid_mesh n in let N := (List.length (nodes m) * 5)%nat in
  (exists m', prepared_from m m') /\ props_complete m pfn /\ samples m ex_motion (vec_of (list_of N (sampled m ex_motion))) /\
  List.length (list_of N (sampled m ex_motion)) = N.
Proof.
  intros n pfn H m N. assert (V := grid_valid n H pfn). split.
  - destruct (valid_spec _ pfn V) as [m' [K [E _]]]. exists m', pfn, K. split; assumption.
  - split; [exact (va_props _ _ V)|apply sampled_list].
Qed.

(** The work of the membrane forces converges under refinement. *)
Lemma c77_convergence : forall Om c M s kappa S eps, 0 <= c -> 0 <= M -> 0 <= s -> 0 < kappa -> 0 <= S -> 0 < eps ->
  exists h0, 0 < h0 /\ forall m m' pfn h P F G d u, 0 < h <= h0 -> prepared_from m m' -> props_complete m pfn -> bounded c m ->
    fine Om m h kappa P -> total_area m <= S -> motion_smooth Om M s F -> motion_smooth Om M s G ->
    List.length d = (List.length (nodes m) * 5)%nat -> samples m F (vec_of d) -> samples m G u ->
    exists KG, calc_kG d m' pfn = Ok KG /\ Rabs (form KG u u - riemann_work m pfn P F G) <= eps.
Proof.
  intros Om c M s kappa S eps C MN SN K SS E.
  set (a := 12 * M / kappa). assert (A : 0 <= a) by (unfold a, Rdiv; apply Rmult_le_pos; [lra|apply Rlt_le, Rinv_0_lt_compat, K]).
  assert (EA : forall h, 12 * M * h / kappa = a * h) by (intros h; unfold a; field; lra). clearbody a.
  set (Cc := 4 * (6 * c * a * ((s + a) * (s + a)) + 12 * c * s * (a * (2 * s + a))) * S).
  assert (X1 : 0 <= 6 * c * a * ((s + a) * (s + a))) by (repeat apply Rmult_le_pos; lra).
  assert (X2 : 0 <= 12 * c * s * (a * (2 * s + a))) by (repeat apply Rmult_le_pos; lra).
  assert (CC : 0 <= Cc) by (unfold Cc; apply Rmult_le_pos; lra).
  destruct (small_h Cc 0 eps CC (Rle_refl 0) E) as [h0 [H0 HH]]. exists h0. split; [exact H0|].
  intros m m' pfn h P F G d u Hh PF PC B FI TA SF SG L SA SU. destruct (HH h Hh) as [H1 H2].
  destruct (c77_work Om m m' pfn h kappa P c M s F G d u PF PC B FI (proj1 Hh) K C MN SF SG L SA SU) as [KG [E0 N]]. exists KG. split; [exact E0|].
  cbv zeta in N. eapply Rle_trans; [exact N|]. eapply Rle_trans; [|exact H2].
  rewrite EA.
  destruct (scale_h h (a * h) a) as [Y0 Y1]; [lra|reflexivity|exact A|].
  assert (T := area_nonneg m). remember (a * h) as e eqn:Ee.
  assert (Z1 : 6 * c * e * ((s + e) * (s + e)) <= 6 * c * e * ((s + a) * (s + a))).
  { apply Rmult_le_compat_l; [repeat apply Rmult_le_pos; lra|]. apply Rmult_le_compat; lra. }
  assert (Z2 : 12 * c * s * (e * (2 * s + e)) <= 12 * c * s * (e * (2 * s + a))).
  { apply Rmult_le_compat_l; [repeat apply Rmult_le_pos; lra|]. apply Rmult_le_compat_l; lra. }
  assert (Z3 : 0 <= 6 * c * e * ((s + e) * (s + e))) by (repeat apply Rmult_le_pos; lra).
  assert (Z4 : 0 <= 12 * c * s * (e * (2 * s + e))) by (repeat apply Rmult_le_pos; lra).
  apply Rle_trans with (4 * (6 * c * e * ((s + a) * (s + a)) + 12 * c * s * (e * (2 * s + a))) * S).
  - apply Rmult_le_compat; lra.
  - unfold Cc. rewrite Ee. right. ring.
Qed.

(** There are valid meshes below every mesh size. *)
Lemma c77_convergence_ex : forall h0 pfn, 0 < h0 -> exists h m P m', 0 < h <= h0 /\ prepared_from m m' /\ props_complete m pfn /\ bounded 20 m /\
  fine unit_square m h (1 / 2) P /\ total_area m <= 1 /\ samples m ex_motion (sampled m ex_motion) /\
  samples m ex_motion (vec_of (list_of (List.length (nodes m) * 5) (sampled m ex_motion))).
Proof.
  intros h0 pfn H. destruct (grid_small h0 H) as [n [Hn Hh]].
  destruct (c76_energy_ex n pfn Hn) as [V [B [F [T [M S]]]]]. destruct (c77_work_ex n pfn Hn) as [[m' P] [PC [SA _]]].
  exists (1 / INR n), (grid_mesh n), (grid_point n), m'.
  split; [exact Hh|]. split; [exact P|]. split; [exact PC|]. split; [exact B|]. split; [exact F|]. split; [rewrite T; apply Rle_refl|].
  split; [exact S|exact SA].
Qed.

(** ** C78 *)

Lemma third_small : forall method, 0 <= third_error method <= 1 / 1000000000000000.
Proof.
  intros method. unfold third_error. destruct (String.eqb method "cell-based"); [|lra].
  unfold code_third. rewrite Rabs_right; lra.
Qed.

Lemma bounded_thick : forall c th m, 0 < th -> shear_bounded c th m -> thick m.
Proof.
  intros c th m T [H1 H2]. split.
  - intros n p E. specialize (H1 n p E). lra.
  - intros t p Ht E. specialize (H2 t p Ht E). lra.
Qed.

(** add_k0s with one of the cell-based methods is consistent: what it adds for a smooth motion sampled in the
    nodes is the Riemann sum of the energy of the shear strains (w_x + phi_x, w_y + phi_y), up to a multiple of the
    mesh size and, for "cell-based", the decimals in the code, which are less than 1e-15 off. *)
Lemma c78_energy : forall method Om m m' pfn alpha mfa k h kappa P c th M s b F u, In method cell_methods ->
  call_ok m m' pfn alpha k -> shear_bounded c th m -> fine_trias Om m h kappa P ->
  0 < h -> 0 < kappa -> 0 <= c -> 0 < th -> 0 <= M -> motion_smooth Om M s F -> rotations_le Om b F -> samples m F u ->
  0 <= third_error method <= 1 / 1000000000000000 /\
  exists k', add_k0s lits_src k m' pfn method alpha mfa = (k', Ok tt) /\
    let e := (8 * M + 32 * s + 32 * M * h) * h / kappa + 24 * third_error method * b / kappa in
    Rabs (form k' u u - form k u u - riemann_shear m pfn P F)
      <= 2 * (c * c) * (e * (2 * (s + b) + e) + 8 * alpha * (h * h) / (th * th) * ((s + b) * (s + b))) * total_area m.
Proof.
  intros method Om m m' pfn alpha mfa k h kappa P c th M s b F u HM CO SB FI H K C T MN SM RB SA. split; [apply third_small|].
  destruct (cell_methods_add method m m' pfn alpha mfa k HM CO) as [k' [E [_ A]]]. exists k'. split; [exact E|]. cbv zeta.
  rewrite A. replace (form k u u + _ - form k u u) with (shear_energy (method_strain method m) m pfn alpha mfa u u) by ring.
  destruct CO as [[pfn0 [K0 [V _]]] PC _ AL _].
  apply (shear_energy_near Om m h kappa P (va_wf _ _ V) FI H K (va_plate _ _ V) pfn c th PC SB C T); assumption.
Qed.

(** The grid. *)
Lemma c78_energy_ex : forall n pfn, (0 < n)%nat -> let m := grid_mesh n in
  (exists m', call_ok m m' pfn 2 (zeros (List.length (nodes m) * 5))) /\ shear_bounded 20 (1 / 10) m /\
  fine_trias unit_square m (1 / INR n) (1 / 2) (grid_tpoint n) /\ total_area m = 1 /\
  motion_smooth unit_square 1 2 ex_motion /\ rotations_le unit_square 2 ex_motion /\ samples m ex_motion (sampled m ex_motion).
Proof.
  intros n pfn H m. destruct (c77_work_ex n pfn H) as [[m' P] [PC _]].
  assert (SB := grid_shear_bounded n H). split.
  - exists m'. constructor; [exact P|exact PC|apply (bounded_thick 20 (1 / 10)); [lra|exact SB]|lra|reflexivity].
  - split; [exact SB|]. split; [apply grid_fine_trias, H|]. split; [apply grid_total, H|]. split; [apply ex_motion_smooth|].
    split; [apply ex_motion_rot|apply sampled_ok].
Qed.

(** k0 and add_k0s together converge under refinement to the energy of the Mindlin plate, up to d, which comes from
    the decimals in the code: 0 without smoothing, less than 24 b / kappa * 1e-15 with it. *)
Lemma c78_convergence : forall Om method alpha mfa c th M s b kappa S eps, In method cell_methods ->
  0 <= alpha -> 0 <= c -> 0 < th -> 0 <= M -> 0 <= s -> 0 <= b -> 0 < kappa -> 0 <= S -> 0 < eps ->
  exists h0, 0 < h0 /\ forall m pfn h P Q F u, 0 < h <= h0 -> valid m pfn -> bounded c m -> shear_bounded c th m ->
    fine Om m h kappa P -> fine_trias Om m h kappa Q -> total_area m <= S -> motion_smooth Om M s F -> rotations_le Om b F -> samples m F u ->
    exists m' K k', calc_k0 m pfn = (m', Ok K) /\ add_k0s lits_src K m' pfn method alpha mfa = (k', Ok tt) /\
      let d := 24 * third_error method * b / kappa in
      Rabs (form k' u u - (riemann_energy m pfn P F + riemann_shear m pfn Q F)) <= eps + 2 * (c * c) * (d * (2 * (s + b) + d)) * S.
Proof.
  intros Om method alpha mfa c th M s b kappa S eps HM AL C T MN SN BN K SS E.
  destruct (c76_convergence Om c M s kappa S (eps / 2) C MN SN K SS) as [h1 [H1 HH1]]; [lra|].
  destruct (third_small method) as [T0 T1].
  assert (IK : 0 < / kappa) by (apply Rinv_0_lt_compat, K).
  set (d := 24 * third_error method * b / kappa). assert (D : 0 <= d) by (unfold d, Rdiv; repeat apply Rmult_le_pos; lra).
  set (y := (40 * M + 32 * s) / kappa). assert (Y : 0 <= y) by (unfold y, Rdiv; apply Rmult_le_pos; lra).
  set (z := 8 * alpha / (th * th) * ((s + b) * (s + b))).
  assert (TT : 0 < / (th * th)) by (apply Rinv_0_lt_compat; nra).
  assert (Z : 0 <= z) by (unfold z, Rdiv; repeat apply Rmult_le_pos; lra).
  set (Cc := 2 * (c * c) * (y * (2 * (s + b) + y + 2 * d) + z) * S).
  assert (C2 : 0 <= c * c) by nra.
  assert (CC : 0 <= Cc).
  { unfold Cc. assert (0 <= y * (2 * (s + b) + y + 2 * d)) by (apply Rmult_le_pos; lra). repeat apply Rmult_le_pos; lra. }
  destruct (small_h Cc 0 (eps / 2) CC (Rle_refl 0)) as [h2 [H2 HH2]]; [lra|].
  exists (Rmin h1 h2). split; [apply Rmin_pos; assumption|].
  intros m pfn h P Q F u Hh V B SB FI FT TA SM RB SA.
  assert (L1 : 0 < h <= h1) by (split; [lra|eapply Rle_trans; [apply Hh|apply Rmin_l]]).
  assert (L2 : 0 < h <= h2) by (split; [lra|eapply Rle_trans; [apply Hh|apply Rmin_r]]).
  destruct (HH1 m pfn h P F u L1 V B FI TA SM SA) as [m' [K0 [E0 N0]]].
  destruct (valid_result m pfn m' K0 V E0) as [DK _].
  assert (CO : call_ok m m' pfn alpha K0).
  { constructor; [exists pfn, K0; auto|exact (va_props _ _ V)|apply (bounded_thick c th); assumption|exact AL|exact DK]. }
  destruct (c78_energy method Om m m' pfn alpha mfa K0 h kappa Q c th M s b F u HM CO SB FT (proj1 Hh) K C T MN SM RB SA) as [_ [k' [E1 N1]]].
  exists m', K0, k'. split; [exact E0|]. split; [exact E1|]. cbv zeta in *. fold d in N1 |- *.
  destruct (HH2 h L2) as [h1' B2]. assert (AN := area_nonneg m).
  set (x := (8 * M + 32 * s + 32 * M * h) * h / kappa) in *.
  assert (MH : 0 <= M * h) by (apply Rmult_le_pos; lra). assert (MH1 : M * h <= M) by (rewrite <- (Rmult_1_r M) at 2; apply Rmult_le_compat_l; lra).
  assert (X0 : 0 <= x) by (unfold x, Rdiv; repeat apply Rmult_le_pos; lra).
  assert (X1 : x <= y * h).
  { unfold x, y, Rdiv. replace ((40 * M + 32 * s) * / kappa * h) with ((40 * M + 32 * s) * h * / kappa) by ring.
    apply Rmult_le_compat_r; [lra|]. apply Rmult_le_compat_r; lra. }
  assert (X2 : y * h <= y) by (rewrite <- (Rmult_1_r y) at 2; apply Rmult_le_compat_l; lra).
  assert (Q1 : (x + d) * (2 * (s + b) + (x + d)) <= y * (2 * (s + b) + y + 2 * d) * h + d * (2 * (s + b) + d)).
  { replace ((x + d) * (2 * (s + b) + (x + d))) with (x * (2 * (s + b) + x + 2 * d) + d * (2 * (s + b) + d)) by ring.
    apply Rplus_le_compat_r. apply Rle_trans with (y * h * (2 * (s + b) + y + 2 * d)); [apply Rmult_le_compat; lra|right; ring]. }
  assert (Q2 : 8 * alpha * (h * h) / (th * th) * ((s + b) * (s + b)) <= z * h).
  { replace (8 * alpha * (h * h) / (th * th) * ((s + b) * (s + b))) with (z * (h * h)) by (unfold z; field; lra).
    apply Rmult_le_compat_l; [exact Z|]. rewrite <- (Rmult_1_r h) at 3. apply Rmult_le_compat_l; lra. }
  assert (DD : 0 <= d * (2 * (s + b) + d)) by (apply Rmult_le_pos; lra).
  assert (N2 : Rabs (form k' u u - form K0 u u - riemann_shear m pfn Q F) <= eps / 2 + 2 * (c * c) * (d * (2 * (s + b) + d)) * S).
  { eapply Rle_trans; [exact N1|].
    apply Rle_trans with (2 * (c * c) * (y * (2 * (s + b) + y + 2 * d) * h + d * (2 * (s + b) + d) + z * h) * S).
    - apply Rmult_le_compat; [|exact AN| |exact TA].
      + assert (0 <= (x + d) * (2 * (s + b) + (x + d))) by (apply Rmult_le_pos; lra).
        assert (0 <= 8 * alpha * (h * h) / (th * th) * ((s + b) * (s + b))).
        { unfold Rdiv. assert (0 <= h * h) by nra. repeat apply Rmult_le_pos; lra. }
        repeat apply Rmult_le_pos; lra.
      + apply Rmult_le_compat_l; [lra|]. lra.
    - replace (2 * (c * c) * (y * (2 * (s + b) + y + 2 * d) * h + d * (2 * (s + b) + d) + z * h) * S)
        with (Cc * h * (1 + 0 * h) + 2 * (c * c) * (d * (2 * (s + b) + d)) * S) by (unfold Cc; ring). lra. }
  replace (form k' u u - (riemann_energy m pfn P F + riemann_shear m pfn Q F))
    with ((form K0 u u - riemann_energy m pfn P F) + (form k' u u - form K0 u u - riemann_shear m pfn Q F)) by ring.
  assert (N3 := rb_plus _ _ _ _ N0 N2). lra.
Qed.

(** Without smoothing nothing remains; there are valid meshes below every mesh size. *)
Lemma c78_convergence_ex : third_error "cell-based-no-smoothing" = 0 /\
  forall h0 pfn, 0 < h0 -> exists h m P Q, 0 < h <= h0 /\ valid m pfn /\ bounded 20 m /\ shear_bounded 20 (1 / 10) m /\
    fine unit_square m h (1 / 2) P /\ fine_trias unit_square m h (1 / 2) Q /\ total_area m <= 1 /\
    motion_smooth unit_square 1 2 ex_motion /\ rotations_le unit_square 2 ex_motion /\ samples m ex_motion (sampled m ex_motion).
Proof.
  split; [reflexivity|]. intros h0 pfn H. destruct (grid_small h0 H) as [n [Hn Hh]].
  destruct (c76_energy_ex n pfn Hn) as [V [B [F [T [M S]]]]]. destruct (c78_energy_ex n pfn Hn) as [_ [SB [FT [_ [_ [RB _]]]]]].
  exists (1 / INR n), (grid_mesh n), (grid_point n), (grid_tpoint n).
  split; [exact Hh|]. split; [exact V|]. split; [exact B|]. split; [exact SB|]. split; [exact F|]. split; [exact FT|].
  split; [rewrite T; apply Rle_refl|]. split; [exact M|]. split; [exact RB|exact S].
Qed.
