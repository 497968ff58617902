(** Notions used to state how well conditioned the stiffness matrix is. *)
From Coq Require Import Reals List Bool Arith String.
From Verif Require Import Num Py Mesh Utils Spec SpecK0 SpecStat SpecRound6.
Import ListNotations.
Local Open Scope R_scope.

(** every node is a vertex of a triangle *)
Definition all_used (m : mesh R) : Prop := forall n, In n (node_keys m) -> exists t, In t (trias_of m) /\ vertex t n.

(** no node is a vertex of more than [N] triangles *)
Definition has_vertex (t : tria R) (n : nat) : bool := Nat.eqb n (tn1 t) || Nat.eqb n (tn2 t) || Nat.eqb n (tn3 t).
Definition valence_le (N : nat) (m : mesh R) : Prop :=
  forall n, In n (node_keys m) -> (List.length (filter (fun t => has_vertex t n) (trias_of m)) <= N)%nat.

(** no displacement is resisted with a stiffness of more than [mu] *)
Definition stiffness_at_most (K : matrix R) (mu : R) : Prop := forall u, form K u u <= mu * (len (mdim K) u) ^ 2.
