(** Properties proved in LUtils.v, generated from it by tools/mkprops.py.
    Nothing but statements: each proof is one lemma of that file. *)
From Coq Require Import ZArith Reals List Bool Arith String Ascii.
From Verif Require Import Num Py Mesh Utils Vec Logger Spec SpecUtils.
From Verif Require LUtils.
Import ListNotations.
Local Open Scope R_scope.

(** For any number of vertices but one, the result is half the absolute value of the signed area enclosed,
    whatever point [o] the triangles are taken from. *)
Theorem C14_area : forall ps o, List.length ps <> 1%nat -> polygon_area ps = Ok (Rabs (enclosed o ps) / 2).
Proof. exact LUtils.c14_area. Qed.
Print Assumptions C14_area.

(** A single vertex raises IndexError. *)
Theorem C14_single : forall p, polygon_area [p] = Raise IndexError.
Proof. exact LUtils.c14_single. Qed.
Print Assumptions C14_single.

(** The area is not negative. *)
Theorem C14_nonneg : forall ps a, polygon_area ps = Ok a -> 0 <= a.
Proof. exact LUtils.c14_nonneg. Qed.
Print Assumptions C14_nonneg.

(** Triangles *)
Theorem C14_triangle : forall p q r, polygon_area [p; q; r] = Ok (Rabs (twice_area p q r) / 2).
Proof. exact LUtils.c14_triangle. Qed.
Print Assumptions C14_triangle.

(** Any starting vertex *)
Theorem C14_start : forall l1 l2, polygon_area (l1 ++ l2) = polygon_area (l2 ++ l1).
Proof. exact LUtils.c14_start. Qed.
Print Assumptions C14_start.

(** Either direction *)
Theorem C14_direction : forall ps, polygon_area (rev ps) = polygon_area ps.
Proof. exact LUtils.c14_direction. Qed.
Print Assumptions C14_direction.

(** Translations *)
Theorem C14_translate : forall d ps, polygon_area (map (translate d) ps) = polygon_area ps.
Proof. exact LUtils.c14_translate. Qed.
Print Assumptions C14_translate.

(** Linear maps multiply the area by the absolute value of the determinant. *)
Theorem C14_linear : forall a b c d ps s, polygon_area ps = Ok s ->
  polygon_area (map (linear a b c d) ps) = Ok (Rabs (a * d - b * c) * s).
Proof. exact LUtils.c14_linear. Qed.
Print Assumptions C14_linear.

(** Repeating the first vertex at the end *)
Theorem C14_close : forall p ps, ps <> [] -> polygon_area (p :: ps ++ [p]) = polygon_area (p :: ps).
Proof. exact LUtils.c14_close. Qed.
Print Assumptions C14_close.

(** Cutting along a diagonal: the enclosed signed areas of the two parts add up. *)
Theorem C14_cut : forall o p q l1 l2, enclosed o (p :: l1 ++ q :: l2) = enclosed o (p :: l1 ++ [q]) + enclosed o (q :: l2 ++ [p]).
Proof. exact LUtils.c14_cut. Qed.
Print Assumptions C14_cut.

(** The pentagon (0,0) (4,0) (4,3) (2,5) (0,3): 12 + 4. *)
Example C14_ex : polygon_area [(0, 0); (4, 0); (4, 3); (2, 5); (0, 3)] = Ok 16.
Proof. exact LUtils.c14_ex. Qed.

(** For a non-zero vector the result has length 1 and is a positive multiple of it. *)
Theorem C15_unit : forall v, (exists a, In a v /\ a <> 0) ->
  length2 (unitvec_array v) = 1 /\ exists k, 0 < k /\ unitvec_array v = map (Rmult k) v.
Proof. exact LUtils.c15_unit. Qed.
Print Assumptions C15_unit.

(** The three-component version used by the rest of the model is the same function. *)
Theorem C15_three : forall v : vec3 R, unitvec_array [vx v; vy v; vz v] = [vx (unitvec v); vy (unitvec v); vz (unitvec v)].
Proof. exact LUtils.c15_three. Qed.
Print Assumptions C15_three.

(** (3, 4) becomes (3/5, 4/5). *)
Example C15_unit_ex : (exists a, In a [3; 4] /\ a <> 0) /\ unitvec_array [3; 4] = [3 / 5; 4 / 5].
Proof. exact LUtils.c15_unit_ex. Qed.

(** Each of the three functions returns the message with its prefix, prints nothing if silent and one
    line otherwise: [level] tabs and the returned message. *)
Theorem C54_log : forall m level silent out f prefix,
  In (f, prefix) [(log_msg, ""%string); (log_warn, "WARNING: "%string); (log_error, "ERROR: "%string)] ->
  snd (f m level silent out) = (prefix ++ m)%string /\
  (silent = true -> fst (f m level silent out) = out) /\
  (silent = false -> exists t, only_tabs (Z.to_nat level) t /\ fst (f m level silent out) = (out ++ [(t ++ prefix ++ m)%string])%list).
Proof. exact LUtils.c54_log. Qed.
Print Assumptions C54_log.

(** A warning at level 2. *)
Example C54_log_ex : log_warn "mesh" 2 false [] =
  ([String (ascii_of_nat 9) (String (ascii_of_nat 9) "WARNING: mesh")], "WARNING: mesh"%string).
Proof. exact LUtils.c54_log_ex. Qed.
