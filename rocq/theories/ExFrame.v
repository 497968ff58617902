(** Coordinate systems and laminates for the theorems on coordinates. *)
From Coq Require Import ZArith Reals List Bool Arith Lra.
From Verif Require Import Num Py Mesh Utils Spec SpecK0 SpecKG SpecFrame Ex ExK0.
Import ListNotations.
Local Open Scope R_scope.
Implicit Types (m : mesh R).

(** turned by a quarter, twice as large, shifted *)
Definition quarter : frame := Frame 0 (-1) 1 0 2 7 (-3) 1.
(** turned by the angle with cosine 3/5 and sine 4/5, shifted *)
Definition slanted : frame := Frame (3/5) (-4/5) (4/5) (3/5) 1 7 (-3) 1.
(** the reflection y -> -y *)
Definition mirror : frame := Frame 1 0 0 (-1) 1 0 0 0.
(** only shifted and three times as large *)
Definition zoom : frame := Frame 1 0 0 1 3 7 (-3) 1.

(** a laminate turned by a quarter *)
Definition quarter3 (M : mat3 R) : mat3 R :=
  M3 (m11 M) (m10 M) (- m12 M) (m01 M) (m00 M) (- m02 M) (- m21 M) (- m20 M) (m22 M).
Definition quarter_prop (p : prop R) : prop R := {|
  pA := quarter3 (pA p); pB := quarter3 (pB p); pD := quarter3 (pD p); pE := pE p; ph := ph p; pk13 := pk13 p; pk23 := pk23 p |}.

(** a laminate without preferred direction *)
Definition iso_prop (c : R) : prop R := {|
  pA := M3 (10*c) (4*c) 0 (4*c) (10*c) 0 0 0 (3*c);
  pB := M3 (2*c) (1*c) 0 (1*c) (2*c) 0 0 0 (c/2);
  pD := M3 (30*c) (10*c) 0 (10*c) (30*c) 0 0 0 (10*c);
  pE := M2 (5*c) 0 0 (5*c); ph := 1/10; pk13 := 5/6; pk23 := 5/6 |}.

Lemma frames_ortho : orthonormal quarter /\ orthonormal slanted /\ orthonormal mirror /\ orthonormal zoom.
Proof. unfold orthonormal; cbn; repeat split; lra. Qed.

Lemma quarter_same : forall c, same_laminate quarter (ex_prop c) (quarter_prop (ex_prop c)).
Proof. intros c e f. unfold dens, quad3, turn_strain, turn_xx, turn_yy, turn_xy; cbn. field. Qed.
Lemma quarter_forces : forall c, same_forces quarter (ex_prop c) (quarter_prop (ex_prop c)).
Proof. intros c s. unfold membrane, turn_force, turn_strain, turn_xx, turn_yy, turn_xy; cbn. f_equal; field. Qed.

Lemma iso_same : forall F c, orthonormal F -> same_laminate F (iso_prop c) (iso_prop c).
Proof.
  intros F c [H1 [H2 [H3 _]]] e f. 
  assert (Q : forall a b M x1 x2 x3 y1 y2 y3, M = M3 (a + b) a 0 a (a + b) 0 0 0 (b / 2) ->
    quad3 M (turn_xx F x1 x2 (x3 / 2)) (turn_yy F x1 x2 (x3 / 2)) (2 * turn_xy F x1 x2 (x3 / 2))
      (turn_xx F y1 y2 (y3 / 2)) (turn_yy F y1 y2 (y3 / 2)) (2 * turn_xy F y1 y2 (y3 / 2)) = quad3 M x1 x2 x3 y1 y2 y3).
  { intros a b M x1 x2 x3 y1 y2 y3 ->. unfold quad3, turn_xx, turn_yy, turn_xy; cbn [m00 m01 m02 m11 m12 m22].
    set (q := fxx F) in *. set (r := fxy F) in *. set (s := fyx F) in *. set (t := fyy F) in *.
    transitivity (a * (x1 * (q * q + s * s) + x2 * (r * r + t * t) + x3 * (q * r + s * t)) * (y1 * (q * q + s * s) + y2 * (r * r + t * t) + y3 * (q * r + s * t))
      + b * (x1 * y1 * ((q * q + s * s) * (q * q + s * s)) + x2 * y2 * ((r * r + t * t) * (r * r + t * t))
        + (x1 * y2 + x2 * y1) * ((q * r + s * t) * (q * r + s * t)) + (x1 * y3 + x3 * y1) * ((q * q + s * s) * (q * r + s * t))
        + (x2 * y3 + x3 * y2) * ((r * r + t * t) * (q * r + s * t))
        + x3 * y3 * ((q * q + s * s) * (r * r + t * t) + (q * r + s * t) * (q * r + s * t)) / 2)).
    - field.
    - rewrite H1, H2, H3. field. }
  unfold dens, turn_strain; cbn [exx eyy exy kxx kyy kxy].
  rewrite (Q (4 * c) (6 * c) (pA (iso_prop c))) by (cbn; f_equal; field).
  rewrite !(Q (1 * c) (1 * c) (pB (iso_prop c))) by (cbn; f_equal; field).
  rewrite (Q (10 * c) (20 * c) (pD (iso_prop c))) by (cbn; f_equal; field). reflexivity.
Qed.
