(** Properties proved in LDouble.v, generated from it by tools/mkprops.py.
    Nothing but statements: each proof is one lemma of that file. *)
From Coq Require Import ZArith Reals List Bool Arith Psatz String FunctionalExtensionality.
From Verif Require Import Num Float Py Mesh Utils CalcK0 AddK0s Spec SpecK0 SpecK0s SpecStab SpecStat SpecConv SpecSol SpecSol2 SpecKorn SpecRound SpecRound2 SpecRound6 SpecCond Ex ExK0 ExK0s ExGrid ExGrid2 ExMindlin ExFloat ExDouble.
From Verif Require LDouble.
Import ListNotations.
Local Open Scope R_scope.

(** Displacements of a plate held along its boundary, computed with the matrix in double precision by whatever solver: the integral of
    the squares of their errors has the bound of C102 (mesh size h, error delta of the loads, constant 1/3 as written in the code) plus
    a multiple of the squares of what the solver leaves of the loads and of the rounding errors [eps] of a row of the matrix times the
    length of the computed vector, divided by h.  The factors depend on the bounds and the width of the plate only. *)
Theorem C105_displacements : forall kappa c lam mu th alpha M s b X, 0 < kappa -> 0 <= c -> 0 < lam -> 0 < mu -> 0 < th -> 0 <= alpha -> 0 <= M -> 0 <= s -> 0 <= b ->
  exists C C1, 0 <= C /\ 0 <= C1 /\ forall method mfa Om (md : mesh double) ad hd rho kd sd pfn p h Q F u S load delta N eps, In method cell_methods ->
    let m := mesh_val md in let n := (List.length (nodes md) * 5)%nat in
    k0_scale md hd rho kd sd -> shear_scale md sd ad -> val ad = alpha -> row_sums n (plate_bound md method hd rho kd sd) eps ->
    mindlin_plate Om m pfn p h kappa Q c lam mu th -> 0 < h <= 1 -> 16 * alpha * (h * h) <= th * th -> 0 <= delta <= 1 ->
    mindlin_motion Om m M s b F u -> admissible n S u -> mindlin_loads (tria_shear m) m p S Q F delta load ->
    held [0; 1; 2; 3; 4]%nat m S -> in_strip X m -> all_used m -> valence_le N m ->
    exists m' k0 k, calc_k0 md pfn = (m', Ok k0) /\ add_k0s lits_src k0 m' pfn method ad mfa = (k, Ok tt) /\ mdim k = n /\
      forall x, admissible n S x ->
        disp_error m Q F x <= C * (h + delta + third_error method) ^ 2 * total_area m +
          C1 * INR N * ((len n (residual (matrix_val k) S load x) + eps * len n x) / h) ^ 2.
Proof. exact LDouble.c105_displacements. Qed.
Print Assumptions C105_displacements.

(** The unit square cut into four triangles that meet in its centre, everything but the centre held, with loads that belong to a dome:
    the rounding errors of a row of the matrix are less than 1/500. *)
Example C105_displacements_ex : forall pfn, exists load, let m := mesh_val star in let p := prop_val (fprop (dz 1)) in
  k0_scale star 1 4 1 64 /\ shear_scale star 64 (dz 0) /\ val (dz 0) = 0 /\ (List.length (nodes star) * 5 = 25)%nat /\
  row_sums 25 (plate_bound star "cell-based" 1 4 1 64) (/ 500) /\
  mindlin_plate unit_square m pfn p (1 / 2) 1 (centroid m) 20 1 3 (9 / 100) /\
  mindlin_motion unit_square m 4 2 2 dome (sampled m dome) /\ admissible 25 cornered (sampled m dome) /\
  mindlin_loads (tria_shear m) m p cornered (centroid m) dome 0 load /\
  held [0; 1; 2; 3; 4]%nat m cornered /\ in_strip (1 / 2) m /\ all_used m /\ valence_le 4 m.
Proof. exact LDouble.c105_displacements_ex. Qed.

(** The matrix in double precision resists every displacement that respects the supports with a stiffness of at least C h^2 minus the
    rounding errors of a row.  If they are smaller, every load has exactly one solution.  The factor depends on the bounds and the width of
    the plate only. *)
Theorem C105_stiff : forall kappa c lam mu th alpha X, 0 < kappa -> 0 <= c -> 0 < lam -> 0 < mu -> 0 < th -> 0 <= alpha ->
  exists C, 0 < C /\ forall method mfa Om (md : mesh double) ad hd rho kd sd pfn p h Q S eps, In method cell_methods ->
    let m := mesh_val md in let n := (List.length (nodes md) * 5)%nat in
    k0_scale md hd rho kd sd -> shear_scale md sd ad -> val ad = alpha -> row_sums n (plate_bound md method hd rho kd sd) eps ->
    mindlin_plate Om m pfn p h kappa Q c lam mu th -> 0 < h <= 1 -> 16 * alpha * (h * h) <= th * th ->
    held [0; 1; 2; 3; 4]%nat m S -> in_strip X m -> all_used m ->
    exists m' k0 k, calc_k0 md pfn = (m', Ok k0) /\ add_k0s lits_src k0 m' pfn method ad mfa = (k, Ok tt) /\ mdim k = n /\
      stiffness_at_least (matrix_val k) S (C * h ^ 2 - eps) /\
      (eps < C * h ^ 2 -> forall load, exists d, only_solution (matrix_val k) S load d).
Proof. exact LDouble.c105_stiff. Qed.
Print Assumptions C105_stiff.

Example C105_stiff_ex : forall pfn, let m := mesh_val star in
  k0_scale star 1 4 1 64 /\ shear_scale star 64 (dz 0) /\ val (dz 0) = 0 /\ (List.length (nodes star) * 5 = 25)%nat /\
  row_sums 25 (plate_bound star "cell-based" 1 4 1 64) (/ 500) /\
  mindlin_plate unit_square m pfn (prop_val (fprop (dz 1))) (1 / 2) 1 (centroid m) 20 1 3 (9 / 100) /\
  held [0; 1; 2; 3; 4]%nat m cornered /\ in_strip (1 / 2) m /\ all_used m.
Proof. exact LDouble.c105_stiff_ex. Qed.
