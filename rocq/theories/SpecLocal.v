(** Notions used to state that entries of the matrices depend on the neighbourhood only. *)
From Coq Require Import Reals List Bool Arith.
From Verif Require Import Num Py Mesh Utils Spec SpecK0.
Import ListNotations.
Local Open Scope R_scope.

(** same corners, in the same order, and same laminate *)
Definition same_tria (t t' : tria R) : Prop := tn1 t = tn1 t' /\ tn2 t = tn2 t' /\ tn3 t = tn3 t' /\ tprop t = tprop t'.
(** same position and same laminate of the node *)
Definition same_node (m m' : mesh R) (n : nat) : Prop := pos m n = pos m' n /\ nodeprop m n = nodeprop m' n.

(** the smoothing domain of the edge [k] has the nodes [a] and [b] *)
Definition couples (m : mesh R) (k : nat * nat) (a b : nat) : Prop := In k (edge_keys m) /\ on_domain m k a /\ on_domain m k b.
(** around the edge [k] the plates [m] and [m'] are the same *)
Definition same_domain (m m' : mesh R) (k : nat * nat) : Prop :=
  Forall2 same_tria (tris_on m k) (tris_on m' k) /\ forall n, on_domain m k n -> same_node m m' n.
(** the plates are the same around all edges that couple [a] and [b] *)
Definition same_coupling (m m' : mesh R) (a b : nat) : Prop :=
  (forall k, couples m k a b <-> couples m' k a b) /\ forall k, couples m k a b -> same_domain m m' k.

(** the triangles with the vertices [a] and [b] *)
Definition trias_with (m : mesh R) (a b : nat) : list (tria R) := filter (fun t => is_vertex a t && is_vertex b t) (trias_of m).
(** the plates are the same in all triangles with the vertices [a] and [b] *)
Definition same_trias (m m' : mesh R) (a b : nat) : Prop :=
  Forall2 same_tria (trias_with m a b) (trias_with m' a b) /\
  forall t n, In t (trias_with m a b) -> vertex t n -> same_node m m' n.
