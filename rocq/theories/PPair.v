(** Properties proved in LPair.v, generated from it by tools/mkprops.py.
    Nothing but statements: each proof is one lemma of that file. *)
From Coq Require Import ZArith Reals List Bool Arith Psatz String.
From Verif Require Import Num Py Mesh Utils CalcK0 Spec SpecK0 SpecK0s SpecStab SpecStat SpecConv SpecSol SpecSol2 SpecKorn SpecPair Ex ExK0 ExK0s ExGrid ExGrid2 ExMindlin ExPair.
From Verif Require LPair.
Import ListNotations.
Local Open Scope R_scope.

(** The solution of a static problem with the matrix of calc_k0 alone: where the supports hold both displacements in the plane along the
    boundary, those converge; where they hold both rotations, these do.  The integral of the squares of their errors is bounded by
    a multiple of the squares of the mesh size h and of delta, by which the loads miss those of the motion. *)
Theorem C106_pairs : forall cs Om m pfn p h kappa Q c lam M s F u S load delta X, cs = in_plane \/ cs = rotated ->
  valid m pfn -> all_props m (fun q => q = p) -> stiffness_ge lam p -> mat3_bounded c (pA p) -> mat3_bounded c (pB p) -> mat3_bounded c (pD p) ->
  fine_trias Om m h kappa Q -> 0 < h <= 1 -> 0 < kappa -> 0 < lam -> 0 <= c -> 0 <= M -> 0 <= s -> motion_smooth Om M s F -> samples m F u ->
  admissible (List.length (nodes m) * 5) S u -> loads_of m p S Q F delta load -> held cs m S -> in_strip X m ->
  exists m' K, calc_k0 m pfn = (m', Ok K) /\ forall d, solves K S load d ->
    let eta := delta + 204 * M * h / kappa in let L := 2592 / (lam * kappa ^ 4) in
    comp_error cs m Q F d <= (4 * (1 + 4 * (X * X)) * (36 * c * L * eta) ^ 2 + 4 * (2 * (s + M) * h) ^ 2) * total_area m.
Proof. exact LPair.c106_pairs. Qed.
Print Assumptions C106_pairs.

(** The unit square cut into 2 n^2 triangles and held along its boundary, with the loads that k0 assigns to a motion in the plane with rotations. *)
Example C106_pairs_ex : forall n pfn, (0 < n)%nat -> let m := grid_mesh n in let p := ex_prop 1 in let u := sampled m swirl in
  valid m pfn /\ all_props m (fun q => q = p) /\ stiffness_ge 1 p /\ mat3_bounded 20 (pA p) /\ mat3_bounded 20 (pB p) /\ mat3_bounded 20 (pD p) /\
  fine_trias unit_square m (1 / INR n) (1 / 2) (grid_tpoint n) /\ motion_smooth unit_square 4 2 swirl /\ samples m swirl u /\
  admissible (List.length (nodes m) * 5) (framed m) u /\ held in_plane m (framed m) /\ held rotated m (framed m) /\ in_strip (1 / 2) m /\
  exists m' K, calc_k0 m pfn = (m', Ok K) /\ loads_of m p (framed m) (grid_tpoint n) swirl (204 * 4 * (1 / INR n) / (1 / 2)) (mulv K u) /\ solves K (framed m) (mulv K u) u.
Proof. exact LPair.c106_pairs_ex. Qed.
