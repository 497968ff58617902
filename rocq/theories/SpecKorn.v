(** Notions used to state the convergence of the displacements of plates held along their boundary. *)
From Coq Require Import Reals List Bool Arith String.
From Verif Require Import Num Py Mesh Utils Spec SpecK0 SpecK0s SpecStab SpecStat SpecConv SpecSol SpecSol2.
Import ListNotations.
Local Open Scope R_scope.

(** the supports hold the degrees of freedom [c] of all nodes of edges that belong to one triangle only *)
Definition held (c : list nat) (m : mesh R) (S : nat -> bool) : Prop :=
  forall k n j, In k (edge_keys m) -> List.length (tris_on m k) = 1%nat -> n = fst k \/ n = snd k -> In j c -> S (rank m n * 5 + j)%nat = true.

(** the plate lies in a strip of the width 2 X *)
Definition in_strip (X : R) (m : mesh R) : Prop := exists x0, forall n, In n (node_keys m) -> Rabs (vx (pos m n) - x0) <= X.

(** the components of a motion *)
Definition motion_comp (F : motion) (c : nat) : scalar :=
  match c with 0 => fu F | 1 => fv F | 2 => fw F | 3 => ffx F | _ => ffy F end%nat.

(** integral of the square of the difference between the displacements and rotations [d] and those of the motion [F] *)
Definition disp_error (m : mesh R) (Q : tria R -> R * R) (F : motion) (d : nat -> R) : R :=
  Sum (fun c => Sum (fun t => tarea m t * (tmean t (comp m d c) - fval (motion_comp F c) (fst (Q t)) (snd (Q t))) ^ 2) (trias_of m)) (seq 0 5).
