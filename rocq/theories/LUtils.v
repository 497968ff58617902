(** Lemmas behind the properties of utils.py and logger.py (C14, C15, C54). *)
(* P: Num Py Mesh Utils Vec Logger Spec SpecUtils *)
From Coq Require Import ZArith Reals List Bool Arith Lra Lia String Ascii.
From Verif Require Import Num Py Mesh Utils Vec Logger Spec SpecUtils FSum FGeom.
Import ListNotations.
Local Open Scope R_scope.

Definition up (p : point) : vec3 R := V3 (fst p) (snd p) 0.
Lemma polygon_points : forall ps, polygon_area ps = area_of_points (map up ps).
Proof. intros. unfold polygon_area, area_of_points. rewrite !map_map. reflexivity. Qed.

Lemma combine_cons2 : forall A (p q : A) l e, combine (p :: q :: l) (tl (p :: q :: l) ++ [e]) = (p, q) :: combine (q :: l) (tl (q :: l) ++ [e]).
Proof. reflexivity. Qed.
Lemma enclosed_path : forall o l p q,
  Sum (fun s => twice_area o (fst s) (snd s)) (combine (p :: l) (tl (p :: l) ++ [q]))
  = path (up p) (map up l) (up q) - (fst o * (snd q - snd p) - snd o * (fst q - fst p)).
Proof.
  intros o; induction l as [|r l IH]; intros p q.
  - cbn [combine tl app map path]. rewrite Sum_cons, Sum_nil. unfold twice_area, crs, up; cbn. ring.
  - rewrite combine_cons2, Sum_cons, IH. cbn [map path]. unfold twice_area, crs, up; cbn. ring.
Qed.
Lemma enclosed_shoelace : forall o ps, enclosed o ps = shoelace (map up ps).
Proof.
  intros o [|p l]; [reflexivity|]. unfold enclosed, sides. cbn [firstn map shoelace].
  rewrite enclosed_path. ring.
Qed.

(** ** C14 *)

(** For any number of vertices but one, the result is half the absolute value of the signed area enclosed,
    whatever point [o] the triangles are taken from. *)
Lemma c14_area : forall ps o, List.length ps <> 1%nat -> polygon_area ps = Ok (Rabs (enclosed o ps) / 2).
Proof.
  intros ps o H. rewrite polygon_points, area_of_points_shoelace by (rewrite map_length; exact H).
  rewrite enclosed_shoelace. reflexivity.
Qed.
(** A single vertex raises IndexError. *)
Lemma c14_single : forall p, polygon_area [p] = Raise IndexError.
Proof. intros [x y]. reflexivity. Qed.
(** The area is not negative. *)
Lemma c14_nonneg : forall ps a, polygon_area ps = Ok a -> 0 <= a.
Proof.
  intros ps a H. destruct (Nat.eq_dec (List.length ps) 1) as [E|N].
  - destruct ps as [|p [|q ps]]; try discriminate.
  - rewrite (c14_area ps (0, 0) N) in H. injection H as <-. assert (X := Rabs_pos (enclosed (0, 0) ps)). lra.
Qed.
(** Triangles *)
Lemma c14_triangle : forall p q r, polygon_area [p; q; r] = Ok (Rabs (twice_area p q r) / 2).
Proof.
  intros p q r. rewrite (c14_area _ p) by (cbn; lia). do 3 f_equal.
  unfold enclosed, sides. cbn [tl firstn app combine]. rewrite !Sum_cons, Sum_nil. unfold twice_area; cbn [fst snd]. ring.
Qed.
(** Any starting vertex *)
Lemma c14_start : forall l1 l2, polygon_area (l1 ++ l2) = polygon_area (l2 ++ l1).
Proof.
  intros l1 l2. destruct (Nat.eq_dec (List.length (l1 ++ l2)) 1) as [E|N].
  - destruct l1 as [|p [|? ?]], l2 as [|q [|? ?]]; cbn in E; try lia; reflexivity.
  - rewrite !(c14_area _ (0, 0)) by (rewrite app_length in *; lia). rewrite !enclosed_shoelace, !map_app, shoelace_rotate. reflexivity.
Qed.
(** Either direction *)
Lemma c14_direction : forall ps, polygon_area (rev ps) = polygon_area ps.
Proof.
  intros ps. destruct (Nat.eq_dec (List.length ps) 1) as [E|N].
  - destruct ps as [|p [|? ?]]; try discriminate. reflexivity.
  - rewrite !(c14_area _ (0, 0)) by (rewrite ?rev_length; exact N). rewrite !enclosed_shoelace, map_rev, shoelace_rev, Rabs_Ropp. reflexivity.
Qed.
(** Translations *)
Lemma c14_translate : forall d ps, polygon_area (map (translate d) ps) = polygon_area ps.
Proof.
  intros d ps. destruct (Nat.eq_dec (List.length ps) 1) as [E|N].
  - destruct ps as [|p [|? ?]]; try discriminate. reflexivity.
  - rewrite !(c14_area _ (0, 0)) by (rewrite ?map_length; exact N). rewrite !enclosed_shoelace.
    replace (map up (map (translate d) ps)) with (map (fun r => vadd r (up d)) (map up ps)); [rewrite shoelace_translate; reflexivity|].
    rewrite !map_map. apply map_ext. intros p. unfold vadd, up, translate; cbn; rnum. f_equal. ring.
Qed.
(** Linear maps multiply the area by the absolute value of the determinant. *)
Lemma c14_linear : forall a b c d ps s, polygon_area ps = Ok s ->
  polygon_area (map (linear a b c d) ps) = Ok (Rabs (a * d - b * c) * s).
Proof.
  intros a b c d ps s H. destruct (Nat.eq_dec (List.length ps) 1) as [E|N].
  - destruct ps as [|p [|? ?]]; try discriminate.
  - rewrite (c14_area _ (0, 0)) in H by exact N. injection H as <-. rewrite (c14_area _ (0, 0)) by (rewrite map_length; exact N).
    rewrite !enclosed_shoelace. f_equal.
    replace (shoelace (map up (map (linear a b c d) ps))) with ((a * d - b * c) * shoelace (map up ps)); [rewrite Rabs_mult; field|].
    set (M := M3 a b 0 c d 0 0 0 0 : mat3 R).
    replace (map up (map (linear a b c d) ps)) with (map (m3mulv M) (map up ps)).
    + destruct (map up ps) as [|p l]; [cbn; ring|]. cbn [map shoelace]. rewrite path_linear by reflexivity. reflexivity.
    + rewrite !map_map. apply map_ext. intros p. unfold m3mulv, M, up, linear; cbn; rnum. f_equal; ring.
Qed.
(** Repeating the first vertex at the end *)
Lemma c14_close : forall p ps, ps <> [] -> polygon_area (p :: ps ++ [p]) = polygon_area (p :: ps).
Proof.
  intros p ps H. assert (L : (0 < List.length ps)%nat) by (destruct ps; [contradiction|cbn; lia]).
  rewrite !(c14_area _ (0, 0)) by (cbn; rewrite ?app_length; cbn; lia). rewrite !enclosed_shoelace. cbn [map]. rewrite map_app. cbn [map].
  rewrite shoelace_close. reflexivity.
Qed.
(** Cutting along a diagonal: the enclosed signed areas of the two parts add up. *)
Lemma c14_cut : forall o p q l1 l2, enclosed o (p :: l1 ++ q :: l2) = enclosed o (p :: l1 ++ [q]) + enclosed o (q :: l2 ++ [p]).
Proof.
  intros. rewrite !enclosed_shoelace. cbn [map]. rewrite !map_app. cbn [map shoelace]. rewrite !path_app. cbn [path].
  rewrite (crs_anti (up p) (up q)). ring.
Qed.
(** The pentagon (0,0) (4,0) (4,3) (2,5) (0,3): 12 + 4. *)
Lemma c14_ex : polygon_area [(0, 0); (4, 0); (4, 3); (2, 5); (0, 3)] = Ok 16.
Proof.
  rewrite (c14_area _ (0, 0)) by (cbn; lia). f_equal. unfold enclosed, sides. cbn [tl firstn app combine].
  rewrite !Sum_cons, Sum_nil. unfold twice_area; cbn [fst snd]. rewrite Rabs_right; lra.
Qed.

(** ** C15 *)

Lemma sumsq_acc : forall v s, fold_left (fun s a => s + a * a) v s = s + Sum (fun a => a * a) v.
Proof. induction v as [|a v IH]; intros s; cbn [fold_left]; [rewrite Sum_nil; ring|]. rewrite IH, Sum_cons. ring. Qed.
Lemma norm_length2 : forall v, norm_array v = length2 v.
Proof. intros v. unfold norm_array, sumsq, length2. rnum. rewrite sumsq_acc. f_equal. ring. Qed.
Lemma sumsq_nonneg : forall v, 0 <= Sum (fun a => a * a) v.
Proof. intros v. apply Sum_nonneg. intros; nra. Qed.
Lemma length2_pos : forall v, (exists a, In a v /\ a <> 0) -> 0 < length2 v.
Proof.
  intros v [a [I N]]. unfold length2. apply sqrt_lt_R0. induction v as [|b v IH]; [destruct I|]. rewrite Sum_cons. assert (X := sumsq_nonneg v).
  destruct I as [->|I]; [|specialize (IH I); nra]. assert (0 < a * a) by (apply Rsqr_pos_lt; exact N). lra.
Qed.

(** For a non-zero vector the result has length 1 and is a positive multiple of it. *)
Lemma c15_unit : forall v, (exists a, In a v /\ a <> 0) ->
  length2 (unitvec_array v) = 1 /\ exists k, 0 < k /\ unitvec_array v = map (Rmult k) v.
Proof.
  intros v H. assert (L := length2_pos v H). unfold unitvec_array. rewrite norm_length2. rnum. split.
  - unfold length2 at 1. rewrite Sum_map. rewrite (Sum_ext _ _ (fun a => / (length2 v * length2 v) * (a * a))) by (intros; field; lra).
    rewrite Sum_scal. assert (Q : length2 v * length2 v = Sum (fun a => a * a) v) by (unfold length2; apply sqrt_sqrt, sumsq_nonneg).
    rewrite <- Q, Rinv_l by nra. apply sqrt_1.
  - exists (/ length2 v). split; [apply Rinv_0_lt_compat, L|]. apply map_ext. intros a. field. lra.
Qed.
(** The three-component version used by the rest of the model is the same function. *)
Lemma c15_three : forall v : vec3 R, unitvec_array [vx v; vy v; vz v] = [vx (unitvec v); vy (unitvec v); vz (unitvec v)].
Proof.
  intros [x y z]. unfold unitvec_array, unitvec, norm_array, sumsq, norm, vdivs, dot; cbn; rnum.
  replace (0 + x * x + y * y + z * z) with (x * x + y * y + z * z) by ring. reflexivity.
Qed.
(** (3, 4) becomes (3/5, 4/5). *)
Lemma c15_unit_ex : (exists a, In a [3; 4] /\ a <> 0) /\ unitvec_array [3; 4] = [3 / 5; 4 / 5].
Proof.
  split; [exists 3; cbn; split; [auto|lra]|]. unfold unitvec_array. rewrite norm_length2. unfold length2. rewrite !Sum_cons, Sum_nil.
  replace (3 * 3 + (4 * 4 + 0)) with (5 * 5) by ring. rewrite sqrt_square by lra. reflexivity.
Qed.

(** ** C54 *)

Lemma ntabs_only : forall n, only_tabs n (ntabs n).
Proof. induction n; cbn; auto. Qed.

(** Each of the three functions returns the message with its prefix, prints nothing if silent and one
    line otherwise: [level] tabs and the returned message. *)
Lemma c54_log : forall m level silent out f prefix,
  In (f, prefix) [(log_msg, ""%string); (log_warn, "WARNING: "%string); (log_error, "ERROR: "%string)] ->
  snd (f m level silent out) = (prefix ++ m)%string /\
  (silent = true -> fst (f m level silent out) = out) /\
  (silent = false -> exists t, only_tabs (Z.to_nat level) t /\ fst (f m level silent out) = (out ++ [(t ++ prefix ++ m)%string])%list).
Proof.
  intros m level silent out f prefix H.
  assert (T := ntabs_only (Z.to_nat level)).
  destruct H as [E|[E|[E|[]]]]; injection E as <- <-; (split; [reflexivity|]); (split; [intros ->; reflexivity|]); intros ->;
    exists (tabs level); (split; [exact T|reflexivity]).
Qed.
(** A warning at level 2. *)
Lemma c54_log_ex : log_warn "mesh" 2 false [] =
  ([String (ascii_of_nat 9) (String (ascii_of_nat 9) "WARNING: mesh")], "WARNING: mesh"%string).
Proof. reflexivity. Qed.
