(** The plate of [fwarped] at the height of its third node. *)
From Coq Require Import ZArith List.
From Verif Require Import Num Py Mesh CalcK0 Ops Float ExFloat.
Import ListNotations.
Local Open Scope num_scope.

Definition flevel_moves : list (op double) :=
  [OpMove 1 (V3 (#1 / #7) (#1 / #9) (#10 / #3)); OpMove 2 (V3 (#37 / #9) (#1 / #11) (#10 / #3));
   OpMove 3 (V3 (#41 / #10) (#10 / #3) (#10 / #3)); OpMove 4 (V3 (#3 / #11) (#22 / #7) (#10 / #3))].
Definition flevel : mesh double := Eval vm_compute in run flevel_moves fmesh.
