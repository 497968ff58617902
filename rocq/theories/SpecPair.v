(** Notions used to state the convergence of some of the displacements. *)
From Coq Require Import Reals List Bool Arith.
From Verif Require Import Num Py Mesh Utils Spec SpecK0 SpecK0s SpecStab SpecConv SpecSol SpecSol2 SpecKorn.
Import ListNotations.
Local Open Scope R_scope.

(** integral of the square of the difference between the components [cs] of the displacement [d] and those of the motion [F] *)
Definition comp_error (cs : list nat) (m : mesh R) (Q : tria R -> R * R) (F : motion) (d : nat -> R) : R :=
  Sum (fun c => Sum (fun t => tarea m t * (tmean t (comp m d c) - fval (motion_comp F c) (fst (Q t)) (snd (Q t))) ^ 2) (trias_of m)) cs.
(** displacements in the plane, and rotations *)
Definition in_plane : list nat := [0; 1]%nat.
Definition rotated : list nat := [3; 4]%nat.
