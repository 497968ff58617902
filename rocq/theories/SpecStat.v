(** Notions used to state the properties of solutions of static and buckling problems. *)
From Coq Require Import Reals List Bool Arith String.
From Verif Require Import Num Py Mesh Utils Spec SpecK0 SpecK0s SpecStab.
Import ListNotations.
Local Open Scope R_scope.

(** work of the forces [load] on the displacements [v] *)
Definition load_work (n : nat) (load v : nat -> R) : R := Sum (fun i => load i * v i) (seq 0 n).

(** [v] respects the supports *)
Definition admissible (n : nat) (S : nat -> bool) (v : nat -> R) : Prop := forall i, (i < n)%nat -> S i = true -> v i = 0.

(** strain energy minus work of the loads *)
Definition potential (K : matrix R) (load v : nat -> R) : R := form K v v / 2 - load_work (mdim K) load v.

(** [p2] is at least as stiff as [p1], of the same thickness *)
Definition stiffer (p1 p2 : prop R) : Prop :=
  (forall e, dens (pA p1) (pB p1) (pD p1) e e <= dens (pA p2) (pB p2) (pD p2) e e) /\ ph p2 = ph p1 /\
  pk13 p1 <= pk13 p2 /\ pk23 p1 <= pk23 p2 /\ e00 (pE p1) <= e00 (pE p2) /\ e11 (pE p1) <= e11 (pE p2).

(** x + i y is a buckling mode for the load factor a + i b: it respects the supports and in
    all other degrees of freedom (K + (a + i b) KG) (x + i y) = 0 *)
Definition buckling_mode (K KG : matrix R) (S : nat -> bool) (a b : R) (x y : nat -> R) : Prop :=
  admissible (mdim K) S x /\ admissible (mdim K) S y /\
  forall i, (i < mdim K)%nat -> S i = false ->
    mulv K x i + (a * mulv KG x i - b * mulv KG y i) = 0 /\ mulv K y i + (a * mulv KG y i + b * mulv KG x i) = 0.

Definition nonzero (n : nat) (x : nat -> R) : Prop := exists i, (i < n)%nat /\ x i <> 0.
