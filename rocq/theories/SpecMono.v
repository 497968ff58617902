(** Notions used to compare the answers of static and buckling problems. *)
From Coq Require Import Reals List Bool Arith String.
From Verif Require Import Num Py Mesh Utils Spec SpecK0 SpecK0s SpecStab SpecStat.
Import ListNotations.
Local Open Scope R_scope.

(** [a] is the smallest positive load factor *)
Definition critical_factor (K KG : matrix R) (S : nat -> bool) (a : R) : Prop :=
  0 < a /\ (exists x, nonzero (mdim K) x /\ buckling_mode K KG S a 0 x (fun _ => 0)) /\
  forall b x, 0 < b < a -> buckling_mode K KG S b 0 x (fun _ => 0) -> ~ nonzero (mdim K) x.

(** [S'] supports everything that [S] supports *)
Definition more_supports (n : nat) (S S' : nat -> bool) : Prop := forall i, (i < n)%nat -> S i = true -> S' i = true.

(** at least as stiff, with the same membrane and coupling stiffness *)
Definition stiffer_bending (p1 p2 : prop R) : Prop := stiffer p1 p2 /\ pA p2 = pA p1 /\ pB p2 = pB p1.
