(** A polygon and a vector in double precision. *)
From Coq Require Import ZArith List.
From Verif Require Import Num Py Float ExFloat.
Import ListNotations.
Local Open Scope num_scope.

(** a quadrilateral with corners that are not doubles before rounding *)
Definition fpolygon : list (double * double) := Eval vm_compute in
  [(dz 1 / dz 3, dz 0); (dz 4, dz 1 / dz 10); (dz 7 / dz 2, dz 3); (dz 0, dz 11 / dz 5)].
Definition fvector : list double := Eval vm_compute in [dz 1 / dz 3; dz 0; dz (-2) / dz 7; dz 5].
