(** Scales of the edge-based shear stiffness of a plate of doubles. *)
From Coq Require Import ZArith Reals List Bool Arith String.
From Verif Require Import Num Float Py Mesh Utils Spec SpecRound SpecRound2.
Import ListNotations.
Local Open Scope R_scope.

(** what the edge-based method reads besides: the coupling stiffness between the two shear directions, and the difference between
    the z of an end and the y of a centroid, since line 160 of the method takes the z of the first node for its y *)
Record edge_fine (m : mesh double) (h rho s : R) : Prop := {
  ef_E01 : forall p, (exists n, nodeprop m n = Some p) \/ (exists t, In t (trias_of m) /\ tprop t = Some p) ->
    finite (e01 (pE p)) /\ Rabs (val (e01 (pE p))) <= s;
  ef_z : forall t a b, In t (trias_of m) -> vertex t a -> vertex t b ->
    Rabs (vz (pos (mesh_val m) a) - vy (pos (mesh_val m) b)) <= rho * h
}.

(** bound of the error that the edge-based method adds to an entry that is at most [x] before *)
Definition edge_bound {T} (m : mesh T) (h rho kappa s x : R) (i j : nat) : R :=
  let c := INR (shared m (node_at m i) (node_at m j)) in
  524288 * (kappa * roundoff) * (rho * rho * rho * rho * rho * rho) * s * h ^ rotations i j * c ^ 2 + 2 * c * roundoff * x.
(** bound of the error of calc_k0 followed by the edge-based method *)
Definition plate_edge_bound {T} (m : mesh T) (h rho kappa s : R) (i j : nat) : R :=
  k0_bound m rho kappa s i j + edge_bound m h rho kappa s (k0_size m rho s i j + k0_bound m rho kappa s i j) i j.
