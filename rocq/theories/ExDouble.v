(** The unit square in double precision, cut into four triangles that meet in its centre, with one laminate. *)
From Coq Require Import ZArith Reals List Bool Arith.
From Verif Require Import Num Py Mesh CalcK0 Ops Spec Float ExFloat.
Import ListNotations.
Local Open Scope num_scope.

Definition spoints : list (list double) := [[dz 0; dz 0]; [dz 1; dz 0]; [dz 1; dz 1]; [dz 0; dz 1]; [#1 / #2; #1 / #2]].
Definition ssimplices : list (list Z) := [[0; 1; 4]; [1; 2; 4]; [2; 3; 4]; [3; 0; 4]]%Z.
Definition sread : mesh double := Eval vm_compute in
  match read_delaunay spoints ssimplices with Ok m => m | Raise _ => {| nodes := []; elements := []; edges := [] |} end.
Definition sops : list (op double) :=
  map (fun i => OpTriaProp i (Some (fprop (dz 1)))) [1; 2; 3; 4]%nat ++ map (fun i => OpNodeProp i (Some (fprop (dz 1)))) [1; 2; 3; 4; 5]%nat.
Definition star : mesh double := Eval vm_compute in run sops sread.

(** everything but the centre is held *)
Definition cornered (i : nat) : bool := Nat.ltb i 20.
(** the centroids *)
Definition centroid (m : mesh R) (t : tria R) : R * R :=
  ((vx (pos m (tn1 t)) + vx (pos m (tn2 t)) + vx (pos m (tn3 t))) / 3, (vy (pos m (tn1 t)) + vy (pos m (tn2 t)) + vy (pos m (tn3 t))) / 3)%R.
(** that square shortened in the direction of x *)
Definition spress : list double := flat_map (fun n => [- vx (nxyz (snd n)); #0; #0; #0; #0]) (nodes star).
