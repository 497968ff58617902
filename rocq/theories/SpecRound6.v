(** Static and buckling problems with the matrices in double precision. *)
From Coq Require Import ZArith Reals List Bool Arith.
From Verif Require Import Num Py Mesh Utils Spec SpecStab SpecStat.
Import ListNotations.
Local Open Scope R_scope.

(** Euclidean length of the first [n] entries *)
Definition len (n : nat) (u : nat -> R) : R := sqrt (Sum (fun i => u i * u i) (seq 0 n)).

(** every displacement that respects the supports is resisted with a stiffness of at least [mu] *)
Definition stiffness_at_least (K : matrix R) (S : nat -> bool) (mu : R) : Prop :=
  forall u, admissible (mdim K) S u -> mu * (len (mdim K) u)^2 <= form K u u.

(** no row of [b] has a sum of more than [eps] *)
Definition row_sums (n : nat) (b : nat -> nat -> R) (eps : R) : Prop := forall i, (i < n)%nat -> Sum (fun j => b i j) (seq 0 n) <= eps.

(** what is left of the loads in the free degrees of freedom *)
Definition residual (K : matrix R) (S : nat -> bool) (load d : nat -> R) (i : nat) : R := if S i then 0 else mulv K d i - load i.

(** the only solution *)
Definition only_solution (K : matrix R) (S : nat -> bool) (load d : nat -> R) : Prop :=
  solves K S load d /\ forall d', solves K S load d' -> forall i, (i < mdim K)%nat -> d' i = d i.
