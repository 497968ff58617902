(** Properties proved in LBuck.v, generated from it by tools/mkprops.py.
    Nothing but statements: each proof is one lemma of that file. *)
From Coq Require Import ZArith Reals List Bool Arith Psatz String.
From Verif Require Import Num Py Mesh Utils CalcK0 AddK0s CalcKG Spec SpecK0 SpecKG SpecK0s SpecStab SpecStat SpecMono SpecConv SpecSol SpecSol2 SpecKorn SpecRound6 SpecCond SpecBuck Ex ExK0 ExK0s ExGrid ExGrid2 ExMindlin ExCond.
From Verif Require LBuck.
Import ListNotations.
Local Open Scope R_scope.

(** The stress stiffness matrix of a plate held along its boundary is at most [f / C] times the stiffness matrix, where no membrane force is larger
    than [f] and [C] depends only on the bounds of the laminate, the shape of the triangles and the width of the plate. *)
Theorem C104_work : forall kappa c lam mu th alpha X, 0 < kappa -> 0 <= c -> 0 < lam -> 0 < mu -> 0 < th -> 0 <= alpha ->
  exists C, 0 < C /\ forall method mfa Om m pfn p h Q S d f, In method cell_methods ->
    mindlin_plate Om m pfn p h kappa Q c lam mu th -> 0 < h <= 1 -> 16 * alpha * (h * h) <= th * th ->
    held [0; 1; 2; 3; 4]%nat m S -> in_strip X m ->
    List.length d = (List.length (nodes m) * 5)%nat -> 0 <= f -> forces_le f m pfn d ->
    exists m' K k' KG, calc_k0 m pfn = (m', Ok K) /\ add_k0s lits_src K m' pfn method alpha mfa = (k', Ok tt) /\ calc_kG d m' pfn = Ok KG /\
      forall v, admissible (mdim k') S v -> C * Rabs (form KG v v) <= f * form k' v v.
Proof. exact LBuck.c104_work. Qed.
Print Assumptions C104_work.

Example C104_work_ex : forall h0 pfn, 0 < h0 -> exists h m Q d, 0 < h <= h0 /\ h <= 1 /\ 16 * 1 * (h * h) <= 1 / 10 * (1 / 10) /\
  mindlin_plate unit_square m pfn (ex_prop 1) h (1 / 2) Q 20 1 4 (1 / 10) /\ held [0; 1; 2; 3; 4]%nat m (framed m) /\ in_strip (1 / 2) m /\ all_used m /\
  List.length d = (List.length (nodes m) * 5)%nat /\ forces_le 10 m pfn d.
Proof. exact LBuck.c104_work_ex. Qed.

(** No load factor of a plate held along its boundary is smaller than [C / f], whatever the size of the mesh: smaller loads leave the plate stable. *)
Theorem C104_buckling : forall kappa c lam mu th alpha X, 0 < kappa -> 0 <= c -> 0 < lam -> 0 < mu -> 0 < th -> 0 <= alpha ->
  exists C, 0 < C /\ forall method mfa Om m pfn p h Q S d f, In method cell_methods ->
    mindlin_plate Om m pfn p h kappa Q c lam mu th -> 0 < h <= 1 -> 16 * alpha * (h * h) <= th * th ->
    held [0; 1; 2; 3; 4]%nat m S -> in_strip X m -> all_used m ->
    List.length d = (List.length (nodes m) * 5)%nat -> 0 <= f -> forces_le f m pfn d ->
    exists m' K k' KG, calc_k0 m pfn = (m', Ok K) /\ add_k0s lits_src K m' pfn method alpha mfa = (k', Ok tt) /\ calc_kG d m' pfn = Ok KG /\
      (forall a x, buckling_mode k' KG S a 0 x (fun _ => 0) -> nonzero (mdim k') x -> C <= Rabs a * f) /\
      (forall a, critical_factor k' KG S a -> C <= a * f) /\
      (forall a v, Rabs a * f < C -> admissible (mdim k') S v -> nonzero (mdim k') v -> 0 < form k' v v + a * form KG v v).
Proof. exact LBuck.c104_buckling. Qed.
Print Assumptions C104_buckling.

Example C104_buckling_ex : forall h0 pfn, 0 < h0 -> exists h m Q d, 0 < h <= h0 /\ h <= 1 /\ 16 * 1 * (h * h) <= 1 / 10 * (1 / 10) /\
  mindlin_plate unit_square m pfn (ex_prop 1) h (1 / 2) Q 20 1 4 (1 / 10) /\ held [0; 1; 2; 3; 4]%nat m (framed m) /\ in_strip (1 / 2) m /\ all_used m /\
  List.length d = (List.length (nodes m) * 5)%nat /\ forces_le 10 m pfn d.
Proof. exact LBuck.c104_buckling_ex. Qed.
