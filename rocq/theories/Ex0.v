(** A concrete mesh used to show that the hypotheses of the theorems are met: a 4 x 3
    rectangle cut into four triangles of both orientations around an inner point, plus a
    node that belongs to no triangle. *)
From Coq Require Import ZArith Reals List.
From Verif Require Import Num Py Mesh.
Import ListNotations.
Local Open Scope R_scope.
Implicit Types (m : mesh R).

Definition ex_points : list (list R) := [[0; 0]; [4; 0]; [4; 3; 0]; [0; 3]; [1; 1]; [9; 9]].
Definition ex_simplices : list (list Z) := [[0; 1; 4]; [2; 1; 4]; [4; 2; 3]; [3; -2; 0]]%Z.

Definition ex_read : mesh R := Eval lazy -[IZR] in
  match read_delaunay ex_points ex_simplices with Ok m => m | Raise _ => {| nodes := []; elements := []; edges := [] |} end.

Lemma ex_reads : read_delaunay ex_points ex_simplices = Ok ex_read.
Proof. lazy -[IZR]. reflexivity. Qed.

(** the same as a deck, with other node and element ids *)
Definition ex_grids : list (nat * vec3 R) :=
  [(10%nat, V3 0 0 0); (20%nat, V3 4 0 0); (25%nat, V3 4 3 0); (7%nat, V3 0 3 0); (1%nat, V3 1 1 0)].
Definition ex_cards : list (nat * card) :=
  [(3, Ctria3 10 20 1); (1, Ctria3 25 20 1); (8, Ctria3 1 25 7); (2, Ctria3 7 1 10)]%nat.
