(** Membrane forces of a bounded size. *)
From Coq Require Import Reals List Bool Arith.
From Verif Require Import Num Py Mesh Utils Spec SpecK0 SpecKG.
Import ListNotations.
Local Open Scope R_scope.

(** no membrane force of the displacements [d] is larger than [f] *)
Definition forces_le (f : R) (m : mesh R) (pfn : bool) (d : list R) : Prop := forall k, In k (edge_keys m) ->
  let N := membrane (edge_stiffness m pfn pA k) (edge_stiffness m pfn pB k) (smoothed_strain m (vec_of d) k) in
  Rabs (vx N) <= f /\ Rabs (vy N) <= f /\ Rabs (vz N) <= f.
