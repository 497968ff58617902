(** Interpolation in double precision. *)
From Coq Require Import ZArith Reals List Bool Arith.
From Verif Require Import Num Float Py Mesh Interp Spec SpecInterp SpecRound.
Import ListNotations.
Local Open Scope R_scope.

Definition nval_val (v : nval double) : nval R := match v with Scalar a => Scalar (val a) | Array l => Array (map val l) end.
Definition ndarray_val (F : ndarray double) : ndarray R := NdArray (shape F) (fun i => val (fget F i)).
(** the number of point [k] *)
Definition at_point (v : nval double) (k : nat) : double := match v with Scalar a => a | Array l => nth k l (nofZ 0) end.

(** the m-th Lagrange polynomial of the nodes [xs] at [x] *)
Definition lagrange (xs : list R) (m : nat) (x : R) : R :=
  fold_right Rmult 1 (map (fun i => (x - at_ xs i) / (at_ xs m - at_ xs i)) (filter (fun i => negb (Nat.eqb i m)) (seq 0 (List.length xs)))).
(** sum of the absolute values of the terms of the interpolation *)
Definition terms_sum (xs ys : list R) (F : ndarray R) (x y : R) : R :=
  Sum (fun m => Sum (fun n => Rabs (lagrange xs m x * lagrange ys n y * fget F [m; n])) (seq 0 (List.length ys))) (seq 0 (List.length xs)).

(** the point [x] and the nodes [xs]: different ones are at distances from [d] to 2^e [d] *)
Record spread (xs : list double) (x : double) (d : R) (e : nat) : Prop := {
  sp_finite : forall a, In a (x :: xs) -> finite a;
  sp_d : 0 < d;
  sp_max : 2 ^ e * d <= 2 ^ 1000;
  sp_dist : forall a b, In a (x :: xs) -> In b (x :: xs) -> val a = val b \/ d <= Rabs (val a - val b) <= 2 ^ e * d
}.
(** the values are zero or neither extremely small nor extremely large *)
Definition field_size (F : ndarray double) (M N : nat) : Prop :=
  forall m n, (m < M)%nat -> (n < N)%nat -> finite (fget F [m; n]) /\ (val (fget F [m; n]) = 0 \/ / 2 ^ 400 <= Rabs (val (fget F [m; n])) <= 2 ^ 400).

(** what the interpolation is given *)
Record interp_scale (K : nat) (x y : nval double) (xs ys : list double) (F : ndarray double) (dx dy : R) (e : nat) : Prop := {
  in_x : points K (nval_val x);
  in_y : points K (nval_val y);
  in_xs : NoDup (map val xs);
  in_ys : NoDup (map val ys);
  in_shape : shape F = [List.length xs; List.length ys];
  in_field : field_size F (List.length xs) (List.length ys);
  in_dx : forall k, (k < K)%nat -> spread xs (at_point x k) dx e;
  in_dy : forall k, (k < K)%nat -> spread ys (at_point y k) dy e;
  in_few : (1 <= e)%nat /\ (e * (List.length xs + List.length ys) <= 500)%nat
}.
(** number of roundings *)
Definition interp_count (M N : nat) : nat := (4 * (M + N) + M * N + 3)%nat.
