(** The unrolled statements of the cell-based method as a bilinear form. *)
From Coq Require Import ZArith Reals List Bool Arith Lra Lia.
From Verif Require Import Num Py Mesh Utils GenCell Spec FSum FMat FTensor.
Import ListNotations.
Local Open Scope R_scope.
Implicit Types (m : mesh R).

(** area-integrated shear strains of a unit displacement of a vertex that is the
    first end (f) of one sub-triangle and the second end (s) of another; [sbd], [sca],
    [sA] are the sums of [b - d], [c - a] and of the areas over the sub-triangles *)
Definition cell_units1 (l6 sbd sca sA : R) (i : Z) (af bf cf df as_ bs cs ds : R)
  : list (Z * (R * R)) :=
  unit_shears i
    ((df - bs) / 2 + l6 * sbd, (as_ - cf) / 2 + l6 * sca)
    (l6 * sA + (af * df - bs * cs) / 4, (as_ * cs - af * cf) / 4)
    ((bf * df - bs * ds) / 4, l6 * sA + (as_ * ds - bf * cf) / 4).

Definition cell_units (l6 : R) (i1 i2 i3 : Z)
  (Ac1 Ac2 Ac3 a1 b1 c1 d1 a2 b2 c2 d2 a3 b3 c3 d3 : R) : list (Z * (R * R)) :=
  let sbd := (b1 - d1) + (b2 - d2) + (b3 - d3) in
  let sca := (c1 - a1) + (c2 - a2) + (c3 - a3) in
  let sA := Ac1 + Ac2 + Ac3 in
  cell_units1 l6 sbd sca sA i1 a1 b1 c1 d1 a3 b3 c3 d3
  ++ cell_units1 l6 sbd sca sA i2 a2 b2 c2 d2 a1 b1 c1 d1
  ++ cell_units1 l6 sbd sca sA i3 a3 b3 c3 d3 a2 b2 c2 d2.

Section Cell.
  Variable L : lits R.
  Variables Ac Ac1 Ac2 Ac3 : R.
  Hypothesis H : Ac <> 0.
  Hypothesis H1 : Ac1 <> 0.
  Hypothesis H2 : Ac2 <> 0.
  Hypothesis H3 : Ac3 <> 0.

  Lemma cell_entries_tensor : forall i1 i2 i3 E44 E45 E55 a1 b1 c1 d1 a2 b2 c2 d2 a3 b3 c3 d3,
    cell_entries L i1 i2 i3 Ac Ac1 Ac2 Ac3 E44 E45 E55 a1 b1 c1 d1 a2 b2 c2 d2 a3 b3 c3 d3
    = tensor (fun x y => / Ac * quad2 E44 E45 E55 x y)
        (cell_units (l6 L) i1 i2 i3 Ac1 Ac2 Ac3 a1 b1 c1 d1 a2 b2 c2 d2 a3 b3 c3 d3).
  Proof.
    intros. unfold cell_entries.
    cbn [nofZ nadd nsub nmul ndiv nopp NumR].
    unfold cell_units, cell_units1, unit_shears.
    cbn [tensor flat_map map app fst snd].
    generalize (l6 L); intros l.
    repeat (apply cons_eq3; [unfold quad2; cbn [fst snd]; field; repeat split; assumption|]).
    reflexivity.
  Qed.
End Cell.
