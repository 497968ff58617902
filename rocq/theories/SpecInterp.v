(** Notions used to state the properties of the interpolation. *)
From Coq Require Import ZArith Reals List Bool Arith Permutation.
From Verif Require Import Num Py Mesh Interp Spec.
Import ListNotations.
Local Open Scope R_scope.

(** [v] gives the coordinates (or values) of [K] points: an array of length K, or one number
    for all of them *)
Definition points (K : nat) (v : nval R) : Prop :=
  match v with Scalar _ => True | Array l => length l = K end.
(** the one of point [k] *)
Definition value (v : nval R) (k : nat) : R :=
  match v with Scalar a => a | Array l => nth k l 0 end.
Definition is_array (v : nval R) : Prop := match v with Array _ => True | Scalar _ => False end.

(** node [m] *)
Definition at_ (xs : list R) (m : nat) : R := nth m xs 0.

Definition has_shape (F : ndarray R) (dims : list nat) : Prop := shape F = dims.

(** the polynomial with coefficients [c i j] for x^i y^j, i < M, j < N *)
Definition poly2 (M N : nat) (c : nat -> nat -> R) (x y : R) : R :=
  Sum (fun i => Sum (fun j => c i j * x ^ i * y ^ j) (seq 0 N)) (seq 0 M).
Definition poly3 (M N P : nat) (c : nat -> nat -> nat -> R) (x y z : R) : R :=
  Sum (fun i => Sum (fun j => Sum (fun k => c i j k * x ^ i * y ^ j * z ^ k) (seq 0 P)) (seq 0 N)) (seq 0 M).

(** [s] is a permutation of 0 .. M-1; the nodes reordered by it *)
Definition is_perm (M : nat) (s : list nat) : Prop := Permutation s (seq 0 M).
Definition reorder (s : list nat) (xs : list R) : list R := map (at_ xs) s.
(** image of [m] *)
Definition img (s : list nat) (m : nat) : nat := nth m s 0%nat.

(** at least two different nodes *)
Definition two_nodes (xs : list R) : Prop := exists a b, In a xs /\ In b xs /\ a <> b.
