(** The unrolled statements of the edge-based method, edge with two triangles, as a
    bilinear form.  The decimals must stand for exact fractions here. *)
From Coq Require Import ZArith Reals List Bool Arith Lra Lia.
From Verif Require Import Num Py Mesh Utils GenEdgeI Spec FSum FMat FTensor.
Import ListNotations.
Local Open Scope R_scope.
Implicit Types (m : mesh R).

(** sub-triangles (centroid1, n1, n2) with [a1, b1 = n1 - centroid1],
    [c1, d1 = n2 - centroid1] and (n1, centroid2, n2) with [a2, b2 = centroid2 - n1],
    [c2, d2 = n2 - n1] *)
Definition edgei_units (i1 i2 i3 i4 : Z)
  (Ac1 Ac2 a1 b1 c1 d1 a2 b2 c2 d2 : R) : list (Z * (R * R)) :=
  unit_shears i1 (d1 / 2 + 1/6 * (b1 - d1) + ((b2 - d2) / 2 + 1/6 * d2),
                  - c1 / 2 + 1/6 * (c1 - a1) + ((c2 - a2) / 2 - 1/6 * c2))
                 (1/6 * Ac1 + a1 * d1 / 4 + (Ac2 / 2 + 1/12 * a2 * d2),
                  - (a1 * c1) / 4 - 1/12 * a2 * c2)
                 (b1 * d1 / 4 + 1/12 * b2 * d2,
                  1/6 * Ac1 - b1 * c1 / 4 + (Ac2 / 2 - 1/12 * b2 * c2))
  ++ unit_shears i2 (- b1 / 2 + 1/6 * (b1 - d1) + (- b2 / 2 + 1/6 * d2),
                     a1 / 2 + 1/6 * (c1 - a1) + (a2 / 2 - 1/6 * c2))
                 (1/6 * Ac1 - b1 * c1 / 4 + (- (b2 * c2) / 4 + 1/12 * a2 * d2),
                  a1 * c1 / 4 + (a2 * c2 / 4 - 1/12 * a2 * c2))
                 (- (b1 * d1) / 4 + (- (b2 * d2) / 4 + 1/12 * b2 * d2),
                  1/6 * Ac1 + a1 * d1 / 4 + (a2 * d2 / 4 - 1/12 * b2 * c2))
  ++ unit_shears i3 (1/6 * (b1 - d1), 1/6 * (c1 - a1)) (1/6 * Ac1, 0) (0, 1/6 * Ac1)
  ++ unit_shears i4 (1/6 * d2, - (1/6 * c2))
                 (1/12 * a2 * d2, - (1/12 * a2 * c2)) (1/12 * b2 * d2, - (1/12 * b2 * c2)).

Section EdgeI.
  Variables Ac Ac1 Ac2 : R.
  Hypothesis H : Ac <> 0.
  Hypothesis H1 : Ac1 <> 0.
  Hypothesis H2 : Ac2 <> 0.

  Lemma edgei_entries_tensor : forall i1 i2 i3 i4 E44 E45 E55 a1 b1 c1 d1 a2 b2 c2 d2,
    edgei_entries lits_frac i1 i2 i3 i4 Ac Ac1 Ac2 E44 E45 E55 a1 b1 c1 d1 a2 b2 c2 d2
    = tensor (fun x y => / Ac * quad2 E44 E45 E55 x y)
        (edgei_units i1 i2 i3 i4 Ac1 Ac2 a1 b1 c1 d1 a2 b2 c2 d2).
  Proof.
    intros. unfold edgei_entries, lits_frac. cbn [l6 l12 l24 l36 l72]. rnum.
    unfold edgei_units, unit_shears.
    cbn [tensor flat_map map app fst snd].
    repeat (apply cons_eq3; [unfold quad2; cbn [fst snd]; field; repeat split; assumption|]).
    reflexivity.
  Qed.
End EdgeI.
