(** Nodes, points and a field in double precision. *)
From Coq Require Import ZArith Reals List.
From Verif Require Import Num Py Interp Float ExFloat.
Import ListNotations.
Local Open Scope num_scope.

Definition fxs : list double := Eval vm_compute in [dz 0; dz 1 / dz 3; dz 1].
Definition fys : list double := Eval vm_compute in [dz 1; dz 0].
(** the second point is the node (1, 0) *)
Definition fpx : nval double := Eval vm_compute in Array [dz 1 / dz 10; dz 1 / dz 3].
Definition fpy : nval double := Eval vm_compute in Array [dz 7 / dz 10; dz 1].
(** (x - 3 y + 3) / 7 *)
Definition ffield : ndarray double :=
  NdArray [3%nat; 2%nat] (fun ij => match ij with [i; j] => (nth i fxs (dz 0) - dz 3 * nth j fys (dz 0) + dz 3) / dz 7 | _ => dz 0 end).
Definition fcoef (i j : nat) : R := match i, j with 0, 0 => 3 / 7 | 1, 0 => 1 / 7 | 0, 1 => - (3 / 7) | _, _ => 0 end%R%nat.
