(** Properties proved in LConv.v, generated from it by tools/mkprops.py.
    Nothing but statements: each proof is one lemma of that file. *)
From Coq Require Import ZArith Reals List Bool Arith String.
From Verif Require Import Num Py Mesh Utils CalcK0 CalcKG AddK0s Spec SpecK0 SpecKG SpecK0s SpecConv Ex ExK0 ExK0s ExGrid.
From Verif Require LConv.
Import ListNotations.
Local Open Scope R_scope.

(** k0 is consistent: for a smooth motion sampled in the nodes, u^T k0 u differs from the Riemann sum of the
    energy density of the motion by at most a multiple of the mesh size h. *)
Theorem C76_energy : forall Om m pfn h kappa P c M s F u, valid m pfn -> bounded c m -> fine Om m h kappa P ->
  0 < h -> 0 < kappa -> 0 <= c -> 0 <= M -> motion_smooth Om M s F -> samples m F u ->
  exists m' K, calc_k0 m pfn = (m', Ok K) /\
    let e := 12 * M * h / kappa in
    Rabs (form K u u - riemann_energy m pfn P F) <= 36 * c * e * (4 * s + e) * total_area m.
Proof. exact LConv.c76_energy. Qed.
Print Assumptions C76_energy.

(** The unit square cut into 2 n^2 triangles. *)
Example C76_energy_ex : forall n pfn, (0 < n)%nat -> let m := grid_mesh n in
  valid m pfn /\ bounded 20 m /\ fine unit_square m (1 / INR n) (1 / 2) (grid_point n) /\ total_area m = 1 /\
  motion_smooth unit_square 1 2 ex_motion /\ samples m ex_motion (sampled m ex_motion).
Proof. exact LConv.c76_energy_ex. Qed.

(** The energy converges under refinement: for every eps there is a mesh size h0 from which on the difference is
    below eps, on all meshes of area at most S with triangles of area at least kappa h^2, for all laminates with
    entries up to c and all motions with bounded derivatives. *)
Theorem C76_convergence : forall Om c M s kappa S eps, 0 <= c -> 0 <= M -> 0 <= s -> 0 < kappa -> 0 <= S -> 0 < eps ->
  exists h0, 0 < h0 /\ forall m pfn h P F u, 0 < h <= h0 -> valid m pfn -> bounded c m -> fine Om m h kappa P -> total_area m <= S ->
    motion_smooth Om M s F -> samples m F u ->
    exists m' K, calc_k0 m pfn = (m', Ok K) /\ Rabs (form K u u - riemann_energy m pfn P F) <= eps.
Proof. exact LConv.c76_convergence. Qed.
Print Assumptions C76_convergence.

(** There are valid meshes below every mesh size. *)
Example C76_convergence_ex : forall h0 pfn, 0 < h0 -> exists h m P, 0 < h <= h0 /\ valid m pfn /\ bounded 20 m /\ fine unit_square m h (1 / 2) P /\
  total_area m <= 1 /\ motion_smooth unit_square 1 2 ex_motion /\ samples m ex_motion (sampled m ex_motion).
Proof. exact LConv.c76_convergence_ex. Qed.

(** kG is consistent: the static solution samples the motion F, the mode samples the motion G. *)
Theorem C77_work : forall Om m m' pfn h kappa P c M s F G d u, prepared_from m m' -> props_complete m pfn -> bounded c m -> fine Om m h kappa P ->
  0 < h -> 0 < kappa -> 0 <= c -> 0 <= M -> motion_smooth Om M s F -> motion_smooth Om M s G ->
  List.length d = (List.length (nodes m) * 5)%nat -> samples m F (vec_of d) -> samples m G u ->
  exists KG, calc_kG d m' pfn = Ok KG /\
    let e := 12 * M * h / kappa in
    Rabs (form KG u u - riemann_work m pfn P F G)
      <= 4 * (6 * c * e * ((s + e) * (s + e)) + 12 * c * s * (e * (2 * s + e))) * total_area m.
Proof. exact LConv.c77_work. Qed.
Print Assumptions C77_work.

(** The grid again; the static solution and the mode sample the same motion. *)
Example C77_work_ex : forall n pfn, (0 < n)%nat -> let m := grid_mesh n in let N := (List.length (nodes m) * 5)%nat in
  (exists m', prepared_from m m') /\ props_complete m pfn /\ samples m ex_motion (vec_of (list_of N (sampled m ex_motion))) /\
  List.length (list_of N (sampled m ex_motion)) = N.
Proof. exact LConv.c77_work_ex. Qed.

(** The work of the membrane forces converges under refinement. *)
Theorem C77_convergence : forall Om c M s kappa S eps, 0 <= c -> 0 <= M -> 0 <= s -> 0 < kappa -> 0 <= S -> 0 < eps ->
  exists h0, 0 < h0 /\ forall m m' pfn h P F G d u, 0 < h <= h0 -> prepared_from m m' -> props_complete m pfn -> bounded c m ->
    fine Om m h kappa P -> total_area m <= S -> motion_smooth Om M s F -> motion_smooth Om M s G ->
    List.length d = (List.length (nodes m) * 5)%nat -> samples m F (vec_of d) -> samples m G u ->
    exists KG, calc_kG d m' pfn = Ok KG /\ Rabs (form KG u u - riemann_work m pfn P F G) <= eps.
Proof. exact LConv.c77_convergence. Qed.
Print Assumptions C77_convergence.

(** There are valid meshes below every mesh size. *)
Example C77_convergence_ex : forall h0 pfn, 0 < h0 -> exists h m P m', 0 < h <= h0 /\ prepared_from m m' /\ props_complete m pfn /\ bounded 20 m /\
  fine unit_square m h (1 / 2) P /\ total_area m <= 1 /\ samples m ex_motion (sampled m ex_motion) /\
  samples m ex_motion (vec_of (list_of (List.length (nodes m) * 5) (sampled m ex_motion))).
Proof. exact LConv.c77_convergence_ex. Qed.

(** add_k0s with one of the cell-based methods is consistent: what it adds for a smooth motion sampled in the
    nodes is the Riemann sum of the energy of the shear strains (w_x + phi_x, w_y + phi_y), up to a multiple of the
    mesh size and, for "cell-based", the decimals in the code, which are less than 1e-15 off. *)
Theorem C78_energy : forall method Om m m' pfn alpha mfa k h kappa P c th M s b F u, In method cell_methods ->
  call_ok m m' pfn alpha k -> shear_bounded c th m -> fine_trias Om m h kappa P ->
  0 < h -> 0 < kappa -> 0 <= c -> 0 < th -> 0 <= M -> motion_smooth Om M s F -> rotations_le Om b F -> samples m F u ->
  0 <= third_error method <= 1 / 1000000000000000 /\
  exists k', add_k0s lits_src k m' pfn method alpha mfa = (k', Ok tt) /\
    let e := (8 * M + 32 * s + 32 * M * h) * h / kappa + 24 * third_error method * b / kappa in
    Rabs (form k' u u - form k u u - riemann_shear m pfn P F)
      <= 2 * (c * c) * (e * (2 * (s + b) + e) + 8 * alpha * (h * h) / (th * th) * ((s + b) * (s + b))) * total_area m.
Proof. exact LConv.c78_energy. Qed.
Print Assumptions C78_energy.

(** The grid. *)
Example C78_energy_ex : forall n pfn, (0 < n)%nat -> let m := grid_mesh n in
  (exists m', call_ok m m' pfn 2 (zeros (List.length (nodes m) * 5))) /\ shear_bounded 20 (1 / 10) m /\
  fine_trias unit_square m (1 / INR n) (1 / 2) (grid_tpoint n) /\ total_area m = 1 /\
  motion_smooth unit_square 1 2 ex_motion /\ rotations_le unit_square 2 ex_motion /\ samples m ex_motion (sampled m ex_motion).
Proof. exact LConv.c78_energy_ex. Qed.

(** k0 and add_k0s together converge under refinement to the energy of the Mindlin plate, up to d, which comes from
    the decimals in the code: 0 without smoothing, less than 24 b / kappa * 1e-15 with it. *)
Theorem C78_convergence : forall Om method alpha mfa c th M s b kappa S eps, In method cell_methods ->
  0 <= alpha -> 0 <= c -> 0 < th -> 0 <= M -> 0 <= s -> 0 <= b -> 0 < kappa -> 0 <= S -> 0 < eps ->
  exists h0, 0 < h0 /\ forall m pfn h P Q F u, 0 < h <= h0 -> valid m pfn -> bounded c m -> shear_bounded c th m ->
    fine Om m h kappa P -> fine_trias Om m h kappa Q -> total_area m <= S -> motion_smooth Om M s F -> rotations_le Om b F -> samples m F u ->
    exists m' K k', calc_k0 m pfn = (m', Ok K) /\ add_k0s lits_src K m' pfn method alpha mfa = (k', Ok tt) /\
      let d := 24 * third_error method * b / kappa in
      Rabs (form k' u u - (riemann_energy m pfn P F + riemann_shear m pfn Q F)) <= eps + 2 * (c * c) * (d * (2 * (s + b) + d)) * S.
Proof. exact LConv.c78_convergence. Qed.
Print Assumptions C78_convergence.

(** Without smoothing nothing remains; there are valid meshes below every mesh size. *)
Example C78_convergence_ex : third_error "cell-based-no-smoothing" = 0 /\
  forall h0 pfn, 0 < h0 -> exists h m P Q, 0 < h <= h0 /\ valid m pfn /\ bounded 20 m /\ shear_bounded 20 (1 / 10) m /\
    fine unit_square m h (1 / 2) P /\ fine_trias unit_square m h (1 / 2) Q /\ total_area m <= 1 /\
    motion_smooth unit_square 1 2 ex_motion /\ rotations_le unit_square 2 ex_motion /\ samples m ex_motion (sampled m ex_motion).
Proof. exact LConv.c78_convergence_ex. Qed.
