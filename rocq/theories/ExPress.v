(** The plate of two triangles under pressure. *)
From Coq Require Import ZArith List Arith.
From Verif Require Import Num Py Mesh Float ExFloat.
Import ListNotations.
Local Open Scope num_scope.

(** compression along x by its full length *)
Definition fpress : list double := flat_map (fun n => [- vx (nxyz (snd n)); #0; #0; #0; #0]) (nodes fwarped).
(** everything is supported but the deflection of node 3 *)
Definition held (i : nat) : bool := negb (Nat.eqb i 12).
