(** The unrolled statements of the edge-based method, edge with one triangle, as a
    bilinear form.  The decimals must stand for exact fractions here. *)
From Coq Require Import ZArith Reals List Bool Arith Lra Lia.
From Verif Require Import Num Py Mesh Utils GenEdgeB Spec FSum FMat FTensor.
Import ListNotations.
Local Open Scope R_scope.
Implicit Types (m : mesh R).

(** sub-triangle (centroid, n1, n2), [a, b = n1 - centroid], [c, d = n2 - centroid] *)
Definition edgeb_units (l6 : R) (i1 i2 i3 : Z) (Ac a b c d : R) : list (Z * (R * R)) :=
  unit_shears i1 (d / 2 + l6 * (b - d), - c / 2 + l6 * (c - a))
                 (l6 * Ac + a * d / 4, - (a * c) / 4)
                 (b * d / 4, l6 * Ac - b * c / 4)
  ++ unit_shears i2 (- b / 2 + l6 * (b - d), a / 2 + l6 * (c - a))
                 (l6 * Ac - b * c / 4, a * c / 4)
                 (- (b * d) / 4, l6 * Ac + a * d / 4)
  ++ unit_shears i3 (l6 * (b - d), l6 * (c - a)) (l6 * Ac, 0) (0, l6 * Ac).

Lemma edgeb_entries_tensor : forall L i1 i2 i3 Ac E44 E45 E55 a b c d, Ac <> 0 ->
  l36 L = l6 L * l6 L -> l24 L = l6 L / 4 ->
  edgeb_entries L i1 i2 i3 Ac E44 E45 E55 a b c d
  = tensor (fun x y => / Ac * quad2 E44 E45 E55 x y) (edgeb_units (l6 L) i1 i2 i3 Ac a b c d).
Proof.
  intros L i1 i2 i3 Ac E44 E45 E55 a b c d H H36 H24.
  unfold edgeb_entries. rewrite H36, H24. rnum.
  unfold edgeb_units, unit_shears.
  cbn [tensor flat_map map app fst snd].
  generalize (l6 L); intros l. clear H36 H24.
  repeat (apply cons_eq3; [unfold quad2; cbn [fst snd]; field; exact H|]).
  reflexivity.
Qed.
