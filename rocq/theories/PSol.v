(** Properties proved in LSol.v, generated from it by tools/mkprops.py.
    Nothing but statements: each proof is one lemma of that file. *)
From Coq Require Import ZArith Reals List Bool Arith Psatz String.
From Verif Require Import Num Py Mesh Utils CalcK0 CalcKG AddK0s Spec SpecK0 SpecKG SpecK0s SpecStab SpecStat SpecConv SpecSol Ex ExK0 ExK0s ExGrid.
From Verif Require LSol.
Import ListNotations.
Local Open Scope R_scope.

(** Edge smoothing is stable: the energy of a displacement is at least a fixed multiple of the integral of the squares of
    its strains in the linear triangles; the factor depends on the least stiffness of the laminates and the shape of the
    triangles, not on their size or number. *)
Theorem C95_stable : forall m pfn lam kappa, valid m pfn -> all_props m (stiffness_ge lam) -> shapely kappa m -> 0 < lam -> 0 < kappa ->
  exists m' K, calc_k0 m pfn = (m', Ok K) /\ forall u, 8 * lam * kappa ^ 4 * strains_sq m u <= 81 * form K u u.
Proof. exact LSol.c95_stable. Qed.
Print Assumptions C95_stable.

(** The unit square cut into 2 n^2 triangles. *)
Example C95_stable_ex : forall n pfn, (0 < n)%nat -> let m := grid_mesh n in
  valid m pfn /\ all_props m (stiffness_ge 1) /\ shapely (1 / 8) m.
Proof. exact LSol.c95_stable_ex. Qed.

(** In a plate of one laminate the energy is at least a fraction of the strain energy of the linear triangles (by C67 it is
    at most this strain energy). *)
Theorem C95_fraction : forall m pfn p c lam kappa, valid m pfn -> all_props m (fun q => q = p) -> stiffness_ge lam p ->
  mat3_bounded c (pA p) -> mat3_bounded c (pB p) -> mat3_bounded c (pD p) -> shapely kappa m -> 0 <= c -> 0 < lam -> 0 < kappa ->
  exists m' K, calc_k0 m pfn = (m', Ok K) /\ forall u, lam * kappa ^ 4 * linear_energy m p u <= 365 * c * form K u u.
Proof. exact LSol.c95_fraction. Qed.
Print Assumptions C95_fraction.

Example C95_fraction_ex : forall n pfn, (0 < n)%nat -> let m := grid_mesh n in let p := ex_prop 1 in
  valid m pfn /\ all_props m (fun q => q = p) /\ stiffness_ge 1 p /\ mat3_bounded 20 (pA p) /\ mat3_bounded 20 (pB p) /\ mat3_bounded 20 (pD p) /\ shapely (1 / 8) m.
Proof. exact LSol.c95_fraction_ex. Qed.

(** The solution of a static problem without shear: if the loads belong to a smooth motion F that respects the supports,
    the energy of the difference to F in the nodes and the integral of the squares of the errors of the strains are bounded
    by a multiple of the square of the mesh size h (and of delta, by which the loads miss those of F). *)
Theorem C96_strains : forall Om m pfn p h kappa Q c lam M s F u S load delta, valid m pfn -> all_props m (fun q => q = p) -> stiffness_ge lam p ->
  mat3_bounded c (pA p) -> mat3_bounded c (pB p) -> mat3_bounded c (pD p) -> fine_trias Om m h kappa Q ->
  0 < h -> 0 < kappa -> 0 < lam -> 0 <= c -> 0 <= M -> motion_smooth Om M s F -> samples m F u -> admissible (List.length (nodes m) * 5) S u ->
  loads_of m p S Q F delta load ->
  exists m' K, calc_k0 m pfn = (m', Ok K) /\ forall d, solves K S load d ->
    let eta := delta + 204 * M * h / kappa in let L := 2592 / (lam * kappa ^ 4) in
    form K (fun i => 1 * d i + -1 * u i) (fun i => 1 * d i + -1 * u i) <= (36 * c * eta) ^ 2 * L * total_area m /\
    strain_error m Q F d <= (2 * (36 * c * L * eta) ^ 2 + 12 * eta ^ 2) * total_area m.
Proof. exact LSol.c96_strains. Qed.
Print Assumptions C96_strains.

(** Every smooth motion has such loads: the forces that k0 assigns to its displacements in the nodes. *)
Theorem C96_loads : forall Om m pfn p h kappa Q M s F u S, valid m pfn -> all_props m (fun q => q = p) -> fine_trias Om m h kappa Q ->
  0 < h -> 0 < kappa -> 0 <= M -> motion_smooth Om M s F -> samples m F u ->
  exists m' K, calc_k0 m pfn = (m', Ok K) /\ loads_of m p S Q F (204 * M * h / kappa) (mulv K u).
Proof. exact LSol.c96_loads. Qed.
Print Assumptions C96_loads.

(** The grid, with the loads of the example motion; the supports hold all that the motion leaves at rest. *)
Example C96_strains_ex : forall n pfn, (0 < n)%nat -> let m := grid_mesh n in let p := ex_prop 1 in let u := sampled m ex_motion in
  let S := fun i => if Req_EM_T (u i) 0 then true else false in
  valid m pfn /\ all_props m (fun q => q = p) /\ stiffness_ge 1 p /\ mat3_bounded 20 (pA p) /\ mat3_bounded 20 (pB p) /\ mat3_bounded 20 (pD p) /\
  fine_trias unit_square m (1 / INR n) (1 / 2) (grid_tpoint n) /\ motion_smooth unit_square 1 2 ex_motion /\ samples m ex_motion u /\
  admissible (List.length (nodes m) * 5) S u /\
  exists m' K, calc_k0 m pfn = (m', Ok K) /\ loads_of m p S (grid_tpoint n) ex_motion (204 * 1 * (1 / INR n) / (1 / 2)) (mulv K u) /\ solves K S (mulv K u) u.
Proof. exact LSol.c96_strains_ex. Qed.

(** The solutions converge under refinement: for every eps there is a mesh size h0 from which on the integral of the squares
    of the errors of the strains, and the energy of the error, are below eps; h0 is the same for all meshes of area at most
    A with triangles of area at least kappa h^2, all laminates between lam and c, all motions with bounded derivatives and all
    loads that miss those of the motion by at most D h. *)
Theorem C96_convergence : forall Om c lam M s kappa A D eps, 0 <= c -> 0 < lam -> 0 <= M -> 0 < kappa -> 0 <= A -> 0 <= D -> 0 < eps ->
  exists h0, 0 < h0 /\ forall m pfn p h Q F u S load delta, 0 < h <= h0 -> valid m pfn -> all_props m (fun q => q = p) -> stiffness_ge lam p ->
    mat3_bounded c (pA p) -> mat3_bounded c (pB p) -> mat3_bounded c (pD p) -> fine_trias Om m h kappa Q -> total_area m <= A ->
    motion_smooth Om M s F -> samples m F u -> admissible (List.length (nodes m) * 5) S u -> 0 <= delta <= D * h -> loads_of m p S Q F delta load ->
    exists m' K, calc_k0 m pfn = (m', Ok K) /\ forall d, solves K S load d ->
      form K (fun i => 1 * d i + -1 * u i) (fun i => 1 * d i + -1 * u i) <= eps /\ strain_error m Q F d <= eps.
Proof. exact LSol.c96_convergence. Qed.
Print Assumptions C96_convergence.

(** There are such problems below every mesh size. *)
Example C96_convergence_ex : forall h0 pfn, 0 < h0 -> exists h m Q S, let p := ex_prop 1 in let u := sampled m ex_motion in
  0 < h <= h0 /\ valid m pfn /\ all_props m (fun q => q = p) /\ fine_trias unit_square m h (1 / 2) Q /\ total_area m <= 1 /\ samples m ex_motion u /\
  admissible (List.length (nodes m) * 5) S u /\
  exists m' K, calc_k0 m pfn = (m', Ok K) /\ loads_of m p S Q ex_motion (408 * h) (mulv K u) /\ solves K S (mulv K u) u.
Proof. exact LSol.c96_convergence_ex. Qed.

(** kG of the solution: the stress stiffness assembled from the computed static solution, in a smooth mode G, is that of the
    membrane forces of the motion F to which the loads belong, up to multiples of the mesh size (and of delta). *)
Theorem C97_work : forall Om m pfn p h kappa P Q c lam M s F G u w S load delta, valid m pfn -> all_props m (fun q => q = p) -> stiffness_ge lam p ->
  mat3_bounded c (pA p) -> mat3_bounded c (pB p) -> mat3_bounded c (pD p) -> fine Om m h kappa P -> fine_trias Om m h kappa Q ->
  0 < h -> 0 < kappa -> 0 < lam -> 0 <= c -> 0 <= M -> motion_smooth Om M s F -> motion_smooth Om M s G -> samples m F u -> samples m G w ->
  admissible (List.length (nodes m) * 5) S u -> 0 < delta -> loads_of m p S Q F delta load ->
  exists m' K, calc_k0 m pfn = (m', Ok K) /\ forall d, List.length d = (List.length (nodes m) * 5)%nat -> solves K S load (vec_of d) ->
    exists KG, calc_kG d m' pfn = Ok KG /\
      let e := 12 * M * h / kappa in let eta := delta + 204 * M * h / kappa in let L := 2592 / (lam * kappa ^ 4) in
      Rabs (form KG w w - riemann_work m pfn P F G) <=
        (12 * c * ((s + e) * (s + e)) * eta * (1 + 36 * c * (36 * c) * L / lam)
         + 4 * (6 * c * e * ((s + e) * (s + e)) + 12 * c * s * (e * (2 * s + e)))) * total_area m.
Proof. exact LSol.c97_work. Qed.
Print Assumptions C97_work.

(** The grid; the static solution is a list of numbers, as calc_kG expects it, and the mode is the motion itself. *)
Example C97_work_ex : forall n pfn, (0 < n)%nat -> let m := grid_mesh n in let p := ex_prop 1 in let u := sampled m ex_motion in
  let N := (List.length (nodes m) * 5)%nat in let S := fun i => if Req_EM_T (u i) 0 then true else false in
  fine unit_square m (1 / INR n) (1 / 2) (grid_point n) /\ 0 < 204 * 1 * (1 / INR n) / (1 / 2) /\
  exists m' K, calc_k0 m pfn = (m', Ok K) /\ loads_of m p S (grid_tpoint n) ex_motion (204 * 1 * (1 / INR n) / (1 / 2)) (mulv K u) /\
    List.length (list_of N u) = N /\ solves K S (mulv K u) (vec_of (list_of N u)).
Proof. exact LSol.c97_work_ex. Qed.

(** The stress stiffness of the computed solution converges under refinement. *)
Theorem C97_convergence : forall Om c lam M s kappa A D eps, 0 <= c -> 0 < lam -> 0 <= M -> 0 <= s -> 0 < kappa -> 0 <= A -> 0 <= D -> 0 < eps ->
  exists h0, 0 < h0 /\ forall m pfn p h P Q F G u w S load delta, 0 < h <= h0 -> valid m pfn -> all_props m (fun q => q = p) -> stiffness_ge lam p ->
    mat3_bounded c (pA p) -> mat3_bounded c (pB p) -> mat3_bounded c (pD p) -> fine Om m h kappa P -> fine_trias Om m h kappa Q -> total_area m <= A ->
    motion_smooth Om M s F -> motion_smooth Om M s G -> samples m F u -> samples m G w ->
    admissible (List.length (nodes m) * 5) S u -> 0 < delta <= D * h -> loads_of m p S Q F delta load ->
    exists m' K, calc_k0 m pfn = (m', Ok K) /\ forall d, List.length d = (List.length (nodes m) * 5)%nat -> solves K S load (vec_of d) ->
      exists KG, calc_kG d m' pfn = Ok KG /\ Rabs (form KG w w - riemann_work m pfn P F G) <= eps.
Proof. exact LSol.c97_convergence. Qed.
Print Assumptions C97_convergence.

(** There are such problems below every mesh size. *)
Example C97_convergence_ex : forall h0 pfn, 0 < h0 -> exists h m P Q S, let p := ex_prop 1 in let u := sampled m ex_motion in
  let N := (List.length (nodes m) * 5)%nat in
  0 < h <= h0 /\ valid m pfn /\ all_props m (fun q => q = p) /\ stiffness_ge 1 p /\ fine unit_square m h (1 / 2) P /\ fine_trias unit_square m h (1 / 2) Q /\ total_area m <= 1 /\
  samples m ex_motion u /\ admissible N S u /\
  exists m' K, calc_k0 m pfn = (m', Ok K) /\ loads_of m p S Q ex_motion (408 * h) (mulv K u) /\ solves K S (mulv K u) (vec_of (list_of N u)).
Proof. exact LSol.c97_convergence_ex. Qed.
