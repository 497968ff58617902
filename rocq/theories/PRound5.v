(** Properties proved in LRound5.v, generated from it by tools/mkprops.py.
    Nothing but statements: each proof is one lemma of that file. *)
From Coq Require Import ZArith Reals List Bool Arith.
From Verif Require Import Num Float Py Mesh Interp Spec SpecInterp SpecRound SpecRound5 ExFloat ExInterp2.
From Verif Require LRound5.
Import ListNotations.
Local Open Scope R_scope.

(** interpolate_lagrange_2D in doubles, compared with exact arithmetic on the same nodes, points and values: the result at every point is
    finite and differs by at most the number of roundings times 2^-53 times the sum of the absolute values of the terms. *)
Theorem C89_error : forall K x y xs ys F dx dy e, interp_scale K x y xs ys F dx dy e ->
  exists v V, interpolate_lagrange_2D x y xs ys F = Ok v /\
    interpolate_lagrange_2D (nval_val x) (nval_val y) (map val xs) (map val ys) (ndarray_val F) = Ok V /\
    points K (nval_val v) /\ points K V /\
    forall k, (k < K)%nat -> finite (at_point v k) /\
      Rabs (val (at_point v k) - value V k)
      <= INR (interp_count (length xs) (length ys)) * roundoff * terms_sum (map val xs) (map val ys) (ndarray_val F) (val (at_point x k)) (val (at_point y k)).
Proof. exact LRound5.c89_error. Qed.
Print Assumptions C89_error.

(** The nodal values are reproduced exactly, without any rounding error. *)
Theorem C89_nodal : forall K x y xs ys F dx dy e, interp_scale K x y xs ys F dx dy e ->
  exists v, interpolate_lagrange_2D x y xs ys F = Ok v /\
    forall k m n, (k < K)%nat -> (m < length xs)%nat -> (n < length ys)%nat ->
      val (at_point x k) = at_ (map val xs) m -> val (at_point y k) = at_ (map val ys) n -> val (at_point v k) = val (fget F [m; n]).
Proof. exact LRound5.c89_nodal. Qed.
Print Assumptions C89_nodal.

(** Fields that are a polynomial up to errors [g] of the nodal values: the result is the polynomial up to the errors of the nodal values,
    weighted with the Lagrange polynomials, and the rounding errors. *)
Theorem C89_polynomial : forall K x y xs ys F dx dy e c (g : nat -> nat -> R), interp_scale K x y xs ys F dx dy e ->
  (forall m n, (m < length xs)%nat -> (n < length ys)%nat ->
    Rabs (val (fget F [m; n]) - poly2 (length xs) (length ys) c (at_ (map val xs) m) (at_ (map val ys) n)) <= g m n) ->
  exists v, interpolate_lagrange_2D x y xs ys F = Ok v /\
    forall k, (k < K)%nat -> let X := val (at_point x k) in let Y := val (at_point y k) in
      Rabs (val (at_point v k) - poly2 (length xs) (length ys) c X Y)
      <= Sum (fun m => Sum (fun n => Rabs (lagrange (map val xs) m X * lagrange (map val ys) n Y) * g m n) (seq 0 (length ys))) (seq 0 (length xs)) +
         INR (interp_count (length xs) (length ys)) * roundoff * terms_sum (map val xs) (map val ys) (ndarray_val F) X Y.
Proof. exact LRound5.c89_polynomial. Qed.
Print Assumptions C89_polynomial.

(** Six nodes and two points, the second one a node. *)
Example C89_error_ex : interp_scale 2 fpx fpy fxs fys ffield (1 / 16) (1 / 16) 4 /\ interp_count (length fxs) (length fys) = 29%nat.
Proof. exact LRound5.c89_error_ex. Qed.

Example C89_nodal_ex : interp_scale 2 fpx fpy fxs fys ffield (1 / 16) (1 / 16) 4 /\ val (at_point fpx 1) = at_ (map val fxs) 1 /\ val (at_point fpy 1) = at_ (map val fys) 0 /\ val (fget ffield [1; 0]%nat) <> 0.
Proof. exact LRound5.c89_nodal_ex. Qed.

(** The field is (x - 3 y + 3) / 7 up to its rounding. *)
Example C89_polynomial_ex : interp_scale 2 fpx fpy fxs fys ffield (1 / 16) (1 / 16) 4 /\
  forall m n, (m < length fxs)%nat -> (n < length fys)%nat -> Rabs (val (fget ffield [m; n]) - poly2 (length fxs) (length fys) fcoef (at_ (map val fxs) m) (at_ (map val fys) n)) <= roundoff.
Proof. exact LRound5.c89_polynomial_ex. Qed.
