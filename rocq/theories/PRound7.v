(** Properties proved in LRound7.v, generated from it by tools/mkprops.py.
    Nothing but statements: each proof is one lemma of that file. *)
From Coq Require Import ZArith Reals List Bool Arith.
From Verif Require Import Num Float Py Mesh Utils Vec Spec SpecUtils SpecRound SpecRound7 ExFloat ExRound7.
From Verif Require LRound7.
Import ListNotations.
Local Open Scope R_scope.

(** area_of_polygon returns in double precision, and the result differs from the area by at most
    n + 5 roundings of the products that are added. *)
Theorem C92_area : forall ps o, polygon_scale ps ->
  exists a, area_of_polygon (map fst ps) (map snd ps) = Ok a /\ finite a /\ 0 <= val a /\
    Rabs (val a - Rabs (enclosed o (map corner_val ps)) / 2) <= (INR (length ps) + 5) * roundoff * products_sum (map corner_val ps).
Proof. exact LRound7.c92_area. Qed.
Print Assumptions C92_area.

(** unitvec: every component is right up to n + 4 roundings, zeros stay zeros, and the length of
    the result is one up to n + 4 roundings. *)
Theorem C92_unit : forall v, vector_scale v ->
  length (unitvec_array v) = length v /\
  (forall i, (i < length v)%nat -> let a := nth i v (nofZ 0) in let b := nth i (unitvec_array v) (nofZ 0) in
    finite b /\ Rabs (val b - val a / length2 (map val v)) <= (INR (length v) + 4) * roundoff * (Rabs (val a) / length2 (map val v)) /\ (val a = 0 -> val b = 0) /\ (0 < val a -> 0 < val b) /\ (val a < 0 -> val b < 0)) /\
  Rabs (length2 (map val (unitvec_array v)) - 1) <= (INR (length v) + 4) * roundoff.
Proof. exact LRound7.c92_unit. Qed.
Print Assumptions C92_unit.

(** A quadrilateral whose corners are not doubles before rounding *)
Example C92_area_ex : polygon_scale fpolygon /\ length fpolygon = 4%nat.
Proof. exact LRound7.c92_area_ex. Qed.

Example C92_unit_ex : vector_scale fvector /\ length fvector = 4%nat.
Proof. exact LRound7.c92_unit_ex. Qed.
