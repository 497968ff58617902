(** Properties proved in LDouble2.v, generated from it by tools/mkprops.py.
    Nothing but statements: each proof is one lemma of that file. *)
From Coq Require Import ZArith Reals List Bool Arith Psatz String FunctionalExtensionality.
From Verif Require Import Num Float Py Mesh Utils CalcK0 AddK0s CalcKG Spec SpecK0 SpecKG SpecK0s SpecStab SpecStat SpecConv SpecSol SpecSol2 SpecKorn SpecRound SpecRound2 SpecRound3 SpecRound6 SpecCond SpecBuck Ex ExK0 ExK0s ExGrid ExGrid2 ExMindlin ExFloat ExDouble.
From Verif Require LDouble2.
Import ListNotations.
Local Open Scope R_scope.

(** The buckling problem with both matrices in double precision, of a plate held along its boundary whose membrane forces are at most [f]: as
    long as the load factor [a] times [f] is less than [C1], and the rounding errors of the rows are less than [(1 - |a| f / C1) C2 h^2], the plate is stable
    and [a] is not the load factor of a buckling mode.  [C1] and [C2] depend on the bounds and the width of the plate only. *)
Theorem C107_buckling : forall kappa c lam mu th alpha X, 0 < kappa -> 0 <= c -> 0 < lam -> 0 < mu -> 0 < th -> 0 <= alpha ->
  exists C1 C2, 0 < C1 /\ 0 < C2 /\ forall method mfa Om (md : mesh double) ad hd rho kd sd w d pfn p h Q S f eps epsG, In method cell_methods ->
    let m := mesh_val md in let n := (List.length (nodes md) * 5)%nat in
    k0_scale md hd rho kd sd -> shear_scale md sd ad -> val ad = alpha -> kG_scale md hd sd w d -> List.length d = n ->
    row_sums n (plate_bound md method hd rho kd sd) eps -> row_sums n (kG_bound md rho kd sd w) epsG ->
    mindlin_plate Om m pfn p h kappa Q c lam mu th -> 0 < h <= 1 -> 16 * alpha * (h * h) <= th * th ->
    held [0; 1; 2; 3; 4]%nat m S -> in_strip X m -> all_used m -> 0 <= f -> forces_le f m pfn (map val d) ->
    exists m' k0 k g, calc_k0 md pfn = (m', Ok k0) /\ add_k0s lits_src k0 m' pfn method ad mfa = (k, Ok tt) /\ calc_kG d m' pfn = Ok g /\ mdim k = n /\ mdim g = n /\
      forall a, Rabs a * f < C1 -> eps + Rabs a * epsG < (1 - Rabs a * f / C1) * (C2 * h ^ 2) ->
        (forall v, admissible n S v -> nonzero n v -> 0 < form (matrix_val k) v v + a * form (matrix_val g) v v) /\
        (forall x, buckling_mode (matrix_val k) (matrix_val g) S a 0 x (fun _ => 0) -> ~ nonzero n x).
Proof. exact LDouble2.c107_buckling. Qed.
Print Assumptions C107_buckling.

(** The square of C105, shortened in the direction of x. *)
Example C107_buckling_ex : forall pfn, let m := mesh_val star in
  k0_scale star 1 4 1 64 /\ shear_scale star 64 (dz 0) /\ val (dz 0) = 0 /\ kG_scale star 1 64 1 spress /\ List.length spress = 25%nat /\ (List.length (nodes star) * 5 = 25)%nat /\
  row_sums 25 (plate_bound star "cell-based" 1 4 1 64) (/ 500) /\ row_sums 25 (kG_bound star 4 1 64 1) 4 /\
  mindlin_plate unit_square m pfn (prop_val (fprop (dz 1))) (1 / 2) 1 (centroid m) 20 1 3 (9 / 100) /\
  held [0; 1; 2; 3; 4]%nat m cornered /\ in_strip (1 / 2) m /\ all_used m /\ forces_le 11 m pfn (map val spress).
Proof. exact LDouble2.c107_buckling_ex. Qed.
