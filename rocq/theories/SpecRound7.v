(** Polygons and unit vectors in double precision. *)
From Coq Require Import ZArith Reals List Bool Arith.
From Verif Require Import Num Float Py Mesh Spec SpecUtils SpecRound.
Import ListNotations.
Local Open Scope R_scope.

Definition corner_val (p : double * double) : point := (val (fst p), val (snd p)).
(** corner [i] of a closed polygon *)
Definition corner (ps : list point) (i : Z) : point := nth (Z.to_nat (i mod Z.of_nat (List.length ps))) ps (0, 0).
(** half the sum of the absolute values of the products of x with the differences of y *)
Definition products_sum (ps : list point) : R :=
  Sum (fun k => Rabs (fst (corner ps (Z.of_nat k)) * (snd (corner ps (Z.of_nat k + 1)) - snd (corner ps (Z.of_nat k - 1))))) (seq 0 (List.length ps)) / 2.
(** zero, or neither extremely small nor extremely large *)
Definition between (e : nat) (x : R) : Prop := x = 0 \/ / 2 ^ e <= Rabs x <= 2 ^ e.
Record polygon_scale (ps : list (double * double)) : Prop := {
  po_many : List.length ps <> 1%nat;
  po_few : (Z.of_nat (List.length ps) <= 33554432)%Z;
  po_finite : forall p, In p ps -> finite (fst p) /\ finite (snd p);
  po_x : forall p, In p ps -> between 400 (val (fst p));
  po_y : forall i, between 400 (snd (corner (map corner_val ps) (i + 1)) - snd (corner (map corner_val ps) (i - 1)))
}.
Record vector_scale (v : list double) : Prop := {
  ve_few : (Z.of_nat (List.length v) <= 33554432)%Z;
  ve_size : forall a, In a v -> finite a /\ between 300 (val a);
  ve_nonzero : exists a, In a v /\ val a <> 0
}.
