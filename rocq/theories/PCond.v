(** Properties proved in LCond.v, generated from it by tools/mkprops.py.
    Nothing but statements: each proof is one lemma of that file. *)
From Coq Require Import ZArith Reals List Bool Arith Psatz String FunctionalExtensionality.
From Verif Require Import Num Py Mesh Utils CalcK0 AddK0s Spec SpecK0 SpecK0s SpecStab SpecStat SpecConv SpecSol SpecSol2 SpecKorn SpecRound6 SpecCond Ex ExK0 ExK0s ExGrid ExGrid2 ExMindlin ExCond.
From Verif Require LCond.
Import ListNotations.
Local Open Scope R_scope.

(** A plate held along its boundary resists every displacement with a stiffness of at least [C h^2], where [C] depends only on the
    bounds of the laminate, the shape of the triangles and the width of the plate. *)
Theorem C103_stiff : forall kappa c lam mu th alpha X, 0 < kappa -> 0 <= c -> 0 < lam -> 0 < mu -> 0 < th -> 0 <= alpha ->
  exists C, 0 < C /\ forall method mfa Om m pfn p h Q S, In method cell_methods ->
    mindlin_plate Om m pfn p h kappa Q c lam mu th -> 0 < h <= 1 -> 16 * alpha * (h * h) <= th * th ->
    held [0; 1; 2; 3; 4]%nat m S -> in_strip X m -> all_used m ->
    exists m' K k', calc_k0 m pfn = (m', Ok K) /\ add_k0s lits_src K m' pfn method alpha mfa = (k', Ok tt) /\ stiffness_at_least k' S (C * h ^ 2).
Proof. exact LCond.c103_stiff. Qed.
Print Assumptions C103_stiff.

Example C103_stiff_ex : forall h0 pfn, 0 < h0 -> exists h m Q, 0 < h <= h0 /\ h <= 1 /\ 16 * 1 * (h * h) <= 1 / 10 * (1 / 10) /\
  mindlin_plate unit_square m pfn (ex_prop 1) h (1 / 2) Q 20 1 4 (1 / 10) /\ held [0; 1; 2; 3; 4]%nat m (framed m) /\ in_strip (1 / 2) m /\ all_used m /\ valence_le 8 m.
Proof. exact LCond.c103_stiff_ex. Qed.

(** No displacement is resisted with a stiffness of more than [C N], where [N] triangles at most meet in a node, whatever the size
    of the mesh and the supports. *)
Theorem C103_bounded : forall kappa c lam mu th alpha, 0 < kappa -> 0 <= c -> 0 < lam -> 0 < mu -> 0 < th -> 0 <= alpha ->
  exists C, 0 <= C /\ forall method mfa Om m pfn p h Q N, In method cell_methods ->
    mindlin_plate Om m pfn p h kappa Q c lam mu th -> 0 < h <= 1 -> 16 * alpha * (h * h) <= th * th -> valence_le N m ->
    exists m' K k', calc_k0 m pfn = (m', Ok K) /\ add_k0s lits_src K m' pfn method alpha mfa = (k', Ok tt) /\ stiffness_at_most k' (C * INR N).
Proof. exact LCond.c103_bounded. Qed.
Print Assumptions C103_bounded.

Example C103_bounded_ex : forall h0 pfn, 0 < h0 -> exists h m Q, 0 < h <= h0 /\ h <= 1 /\ 16 * 1 * (h * h) <= 1 / 10 * (1 / 10) /\
  mindlin_plate unit_square m pfn (ex_prop 1) h (1 / 2) Q 20 1 4 (1 / 10) /\ valence_le 8 m.
Proof. exact LCond.c103_bounded_ex. Qed.

(** Only the laminate, the shape of the triangles and the width of the plate bound how many times [1 / h^2] the largest stiffness is larger
    than the smallest. *)
Theorem C103_condition : forall kappa c lam mu th alpha X, 0 < kappa -> 0 <= c -> 0 < lam -> 0 < mu -> 0 < th -> 0 <= alpha ->
  exists C, 0 <= C /\ forall method mfa Om m pfn p h Q S N, In method cell_methods ->
    mindlin_plate Om m pfn p h kappa Q c lam mu th -> 0 < h <= 1 -> 16 * alpha * (h * h) <= th * th ->
    held [0; 1; 2; 3; 4]%nat m S -> in_strip X m -> all_used m -> valence_le N m ->
    exists m' K k' lo hi, calc_k0 m pfn = (m', Ok K) /\ add_k0s lits_src K m' pfn method alpha mfa = (k', Ok tt) /\
      stiffness_at_least k' S lo /\ stiffness_at_most k' hi /\ 0 < lo /\ hi <= C * INR N / h ^ 2 * lo.
Proof. exact LCond.c103_condition. Qed.
Print Assumptions C103_condition.

Example C103_condition_ex : forall h0 pfn, 0 < h0 -> exists h m Q, 0 < h <= h0 /\ h <= 1 /\ 16 * 1 * (h * h) <= 1 / 10 * (1 / 10) /\
  mindlin_plate unit_square m pfn (ex_prop 1) h (1 / 2) Q 20 1 4 (1 / 10) /\ held [0; 1; 2; 3; 4]%nat m (framed m) /\ in_strip (1 / 2) m /\ all_used m /\ valence_le 8 m.
Proof. exact LCond.c103_condition_ex. Qed.

(** Every load has one solution, and errors in the loads change it by at most their length divided by [C h^2]. *)
Theorem C103_loads : forall kappa c lam mu th alpha X, 0 < kappa -> 0 <= c -> 0 < lam -> 0 < mu -> 0 < th -> 0 <= alpha ->
  exists C, 0 < C /\ forall method mfa Om m pfn p h Q S, In method cell_methods ->
    mindlin_plate Om m pfn p h kappa Q c lam mu th -> 0 < h <= 1 -> 16 * alpha * (h * h) <= th * th ->
    held [0; 1; 2; 3; 4]%nat m S -> in_strip X m -> all_used m ->
    exists m' K k', calc_k0 m pfn = (m', Ok K) /\ add_k0s lits_src K m' pfn method alpha mfa = (k', Ok tt) /\
      (forall load, exists d, only_solution k' S load d) /\
      forall load1 load2 d1 d2, solves k' S load1 d1 -> solves k' S load2 d2 ->
        C * h ^ 2 * len (mdim k') (fun i => d1 i - d2 i) <= len (mdim k') (fun i => load1 i - load2 i).
Proof. exact LCond.c103_loads. Qed.
Print Assumptions C103_loads.

Example C103_loads_ex : forall h0 pfn, 0 < h0 -> exists h m Q, 0 < h <= h0 /\ h <= 1 /\ 16 * 1 * (h * h) <= 1 / 10 * (1 / 10) /\
  mindlin_plate unit_square m pfn (ex_prop 1) h (1 / 2) Q 20 1 4 (1 / 10) /\ held [0; 1; 2; 3; 4]%nat m (framed m) /\ in_strip (1 / 2) m /\ all_used m /\ valence_le 8 m.
Proof. exact LCond.c103_loads_ex. Qed.
