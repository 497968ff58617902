(** The unrolled statements of the cell-based method without smoothing as a
    bilinear form. *)
From Coq Require Import ZArith Reals List Bool Arith Lra Lia.
From Verif Require Import Num Py Mesh Utils GenCellNS Spec FSum FMat FTensor.
Import ListNotations.
Local Open Scope R_scope.
Implicit Types (m : mesh R).

(** area-integrated shear strains of unit displacements in a triangle (p1, p2, p3)
    with [a, b = p2 - p1], [c, d = p3 - p1] (discrete shear gap) *)
Definition dsg_w1 (a b c d : R) : R * R := ((b - d) / 2, (c - a) / 2).
Definition dsg_w2 (a b c d : R) : R * R := (d / 2, - c / 2).
Definition dsg_w3 (a b c d : R) : R * R := (- b / 2, a / 2).
Definition dsg_x1 (Ac a b c d : R) : R * R := (Ac / 2, 0).
Definition dsg_x2 (a b c d : R) : R * R := (a * d / 4, - (a * c) / 4).
Definition dsg_x3 (a b c d : R) : R * R := (- (b * c) / 4, a * c / 4).
Definition dsg_y1 (Ac a b c d : R) : R * R := (0, Ac / 2).
Definition dsg_y2 (a b c d : R) : R * R := (b * d / 4, - (b * c) / 4).
Definition dsg_y3 (a b c d : R) : R * R := (- (b * d) / 4, a * d / 4).

Definition cellns_units (i1 i2 i3 : Z) (Ac a b c d : R) : list (Z * (R * R)) :=
  unit_shears i1 (dsg_w1 a b c d) (dsg_x1 Ac a b c d) (dsg_y1 Ac a b c d)
  ++ unit_shears i2 (dsg_w2 a b c d) (dsg_x2 a b c d) (dsg_y2 a b c d)
  ++ unit_shears i3 (dsg_w3 a b c d) (dsg_x3 a b c d) (dsg_y3 a b c d).

Lemma cellns_entries_tensor : forall i1 i2 i3 Ac E44 E45 E55 a b c d, Ac <> 0 ->
  cellns_entries i1 i2 i3 Ac E44 E45 E55 a b c d
  = tensor (fun x y => / Ac * quad2 E44 E45 E55 x y) (cellns_units i1 i2 i3 Ac a b c d).
Proof.
  intros. unfold cellns_entries. rnum.
  unfold cellns_units, unit_shears, dsg_w1, dsg_w2, dsg_w3, dsg_x1, dsg_x2, dsg_x3, dsg_y1, dsg_y2, dsg_y3.
  cbn [tensor flat_map map app fst snd].
  repeat (apply cons_eq3; [unfold quad2; cbn [fst snd]; field; exact H|]).
  reflexivity.
Qed.
