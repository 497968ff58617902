(** Lemmas behind the property on the rounding errors of the interpolation (C89). *)
(* P: Num Float Py Mesh Interp Spec SpecInterp SpecRound SpecRound5 ExFloat ExInterp2 *)
From Coq Require Import ZArith Reals List Bool Arith Lra Lia.
From Flocq Require Import Core.
From Verif Require Import Num Float Py Mesh Interp Spec SpecInterp SpecRound SpecRound5 FSum FInterp FFloat FRound3 FRel FInterp2 FInterp3 FRound13 LInterp LRound ExFloat ExInterp2.
Import ListNotations.
Local Open Scope R_scope.

Lemma value_at : forall K v k, points K (nval_val v) -> (k < K)%nat -> value (nval_val v) k = val (at_point v k).
Proof. intros K v k P L. apply (value_val K); [apply pts_val, P|exact L]. Qed.
Lemma terms_eq : forall K x y xs ys F dx dy e k (h : R -> R), interp_scale K x y xs ys F dx dy e ->
  Sum (fun m => Sum (fun n => h (gbasis 0 m (at_ (map val xs) m) (map val xs) (val (at_point x k)) * gbasis 0 n (at_ (map val ys) n) (map val ys) (val (at_point y k)) * val (fget F [m; n]))) (seq 0 (length ys))) (seq 0 (length xs))
  = Sum (fun m => Sum (fun n => h (lagrange (map val xs) m (val (at_point x k)) * lagrange (map val ys) n (val (at_point y k)) * val (fget F [m; n]))) (seq 0 (length ys))) (seq 0 (length xs)).
Proof.
  intros K x y xs ys F dx dy e k h IS. apply Sum_ext_in. intros m Hm. apply Sum_ext_in. intros n Hn. apply in_seq in Hm, Hn.
  rewrite !gbasis_lagrange; rewrite ?map_length; try lia; [reflexivity|apply (in_ys _ _ _ _ _ _ _ _ _ IS)|apply (in_xs _ _ _ _ _ _ _ _ _ IS)].
Qed.

(** ** C89 *)

(** interpolate_lagrange_2D in doubles, compared with exact arithmetic on the same nodes, points and values: the result at every point is
    finite and differs by at most the number of roundings times 2^-53 times the sum of the absolute values of the terms. *)
Lemma c89_error : forall K x y xs ys F dx dy e, interp_scale K x y xs ys F dx dy e ->
  exists v V, interpolate_lagrange_2D x y xs ys F = Ok v /\
    interpolate_lagrange_2D (nval_val x) (nval_val y) (map val xs) (map val ys) (ndarray_val F) = Ok V /\
    points K (nval_val v) /\ points K V /\
    forall k, (k < K)%nat -> finite (at_point v k) /\
      Rabs (val (at_point v k) - value V k)
      <= INR (interp_count (length xs) (length ys)) * roundoff * terms_sum (map val xs) (map val ys) (ndarray_val F) (val (at_point x k)) (val (at_point y k)).
Proof.
  intros K x y xs ys F dx dy e IS. destruct (interp2_pts K x y xs ys F dx dy e IS) as [v [E [P V]]].
  destruct (interp2_points K (nval_val x) (nval_val y) (map val xs) (map val ys) (ndarray_val F) (in_x _ _ _ _ _ _ _ _ _ IS) (in_y _ _ _ _ _ _ _ _ _ IS)) as [W [EW [PW [_ VW]]]].
  { cbn [ndarray_val shape]. rewrite !map_length. apply (in_shape _ _ _ _ _ _ _ _ _ IS). }
  exists v, W. split; [exact E|]. split; [exact EW|]. split; [apply pts_val, P|]. split; [exact PW|]. intros k Hk. destruct (V k Hk) as [[Fv [B _]] _]. split; [exact Fv|].
  rewrite (VW k Hk), (value_at K x k (in_x _ _ _ _ _ _ _ _ _ IS) Hk), (value_at K y k (in_y _ _ _ _ _ _ _ _ _ IS) Hk). rewrite !map_length. cbn [ndarray_val fget].
  assert (EX := terms_eq K x y xs ys F dx dy e k (fun r => r) IS). cbv beta in EX. rewrite EX in B. rewrite (terms_eq K x y xs ys F dx dy e k Rabs IS) in B.
  replace (Sum (fun m => Sum (fun n => basis (at_ (map val xs) m) (map val xs) (val (at_point x k)) * basis (at_ (map val ys) n) (map val ys) (val (at_point y k)) * val (fget F [m; n])) (seq 0 (length ys))) (seq 0 (length xs)))
    with (Sum (fun m => Sum (fun n => lagrange (map val xs) m (val (at_point x k)) * lagrange (map val ys) n (val (at_point y k)) * val (fget F [m; n])) (seq 0 (length ys))) (seq 0 (length xs))).
  - eapply Rle_trans; [exact B|]. unfold terms_sum. rewrite !map_length. cbn [ndarray_val fget]. apply Rmult_le_compat_r.
    + apply Sum_nonneg. intros m _. apply Sum_nonneg. intros n _. apply Rabs_pos.
    + unfold interp_count. replace (4 * (length xs + length ys) + length xs * length ys + 3)%nat with (S (4 * (length xs + length ys) + 2 + length xs * length ys)) by lia.
      apply gam_lin. destruct (in_few _ _ _ _ _ _ _ _ _ IS) as [A C]. assert (L1 : (length xs <= 500)%nat) by nia. assert (L2 : (length ys <= 500)%nat) by nia. nia.
  - apply Sum_ext_in. intros m Hm. apply Sum_ext_in. intros n Hn. apply in_seq in Hm, Hn.
    rewrite !basis_lagrange; rewrite ?map_length; try lia; [reflexivity|apply (in_ys _ _ _ _ _ _ _ _ _ IS)|apply (in_xs _ _ _ _ _ _ _ _ _ IS)].
Qed.

(** The nodal values are reproduced exactly, without any rounding error. *)
Lemma c89_nodal : forall K x y xs ys F dx dy e, interp_scale K x y xs ys F dx dy e ->
  exists v, interpolate_lagrange_2D x y xs ys F = Ok v /\
    forall k m n, (k < K)%nat -> (m < length xs)%nat -> (n < length ys)%nat ->
      val (at_point x k) = at_ (map val xs) m -> val (at_point y k) = at_ (map val ys) n -> val (at_point v k) = val (fget F [m; n]).
Proof.
  intros K x y xs ys F dx dy e IS. destruct (interp2_pts K x y xs ys F dx dy e IS) as [v [E [P V]]]. exists v. split; [exact E|].
  intros k m n Hk Hm Hn Ex Ey. apply (proj2 (V k Hk)). auto.
Qed.

(** Fields that are a polynomial up to errors [g] of the nodal values: the result is the polynomial up to the errors of the nodal values,
    weighted with the Lagrange polynomials, and the rounding errors. *)
Lemma c89_polynomial : forall K x y xs ys F dx dy e c (g : nat -> nat -> R), interp_scale K x y xs ys F dx dy e ->
  (forall m n, (m < length xs)%nat -> (n < length ys)%nat ->
    Rabs (val (fget F [m; n]) - poly2 (length xs) (length ys) c (at_ (map val xs) m) (at_ (map val ys) n)) <= g m n) ->
  exists v, interpolate_lagrange_2D x y xs ys F = Ok v /\
    forall k, (k < K)%nat -> let X := val (at_point x k) in let Y := val (at_point y k) in
      Rabs (val (at_point v k) - poly2 (length xs) (length ys) c X Y)
      <= Sum (fun m => Sum (fun n => Rabs (lagrange (map val xs) m X * lagrange (map val ys) n Y) * g m n) (seq 0 (length ys))) (seq 0 (length xs)) +
         INR (interp_count (length xs) (length ys)) * roundoff * terms_sum (map val xs) (map val ys) (ndarray_val F) X Y.
Proof.
  intros K x y xs ys F dx dy e c g IS HF. destruct (c89_error K x y xs ys F dx dy e IS) as [v [V [E [EV [_ [_ B]]]]]]. exists v. split; [exact E|]. intros k Hk X Y.
  set (G := NdArray (shape F) (fun ij => match ij with [m; n] => poly2 (length xs) (length ys) c (at_ (map val xs) m) (at_ (map val ys) n) | _ => 0 end)).
  destruct (c09_exact K (nval_val x) (nval_val y) (map val xs) (map val ys) G c (in_x _ _ _ _ _ _ _ _ _ IS) (in_y _ _ _ _ _ _ _ _ _ IS) (in_xs _ _ _ _ _ _ _ _ _ IS) (in_ys _ _ _ _ _ _ _ _ _ IS)) as [W [EW VW]].
  { unfold has_shape. cbn [G shape]. rewrite !map_length. apply (in_shape _ _ _ _ _ _ _ _ _ IS). }
  { intros m n _ _. rewrite !map_length. reflexivity. }
  assert (SF : shape (ndarray_val F) = [length (map val xs); length (map val ys)]) by (cbn [ndarray_val shape]; rewrite !map_length; apply (in_shape _ _ _ _ _ _ _ _ _ IS)).
  destruct (interp2_points K _ _ _ _ _ (in_x _ _ _ _ _ _ _ _ _ IS) (in_y _ _ _ _ _ _ _ _ _ IS) SF) as [V' [E1 [_ [_ F1]]]]. rewrite EV in E1. injection E1 as <-.
  destruct (interp2_points K _ _ _ _ G (in_x _ _ _ _ _ _ _ _ _ IS) (in_y _ _ _ _ _ _ _ _ _ IS) SF) as [W' [E2 [_ [_ F2]]]]. rewrite EW in E2. injection E2 as <-.
  specialize (B k Hk). destruct B as [_ B]. specialize (VW k Hk). rewrite !map_length, (value_at K x k (in_x _ _ _ _ _ _ _ _ _ IS) Hk), (value_at K y k (in_y _ _ _ _ _ _ _ _ _ IS) Hk) in VW. fold X Y in VW, B. rewrite <- VW.
  specialize (F1 k Hk). specialize (F2 k Hk). rewrite (value_at K x k (in_x _ _ _ _ _ _ _ _ _ IS) Hk), (value_at K y k (in_y _ _ _ _ _ _ _ _ _ IS) Hk), !map_length in F1, F2. fold X Y in F1, F2.
  assert (D : Rabs (value V k - value W k) <= Sum (fun m => Sum (fun n => Rabs (lagrange (map val xs) m X * lagrange (map val ys) n Y) * g m n) (seq 0 (length ys))) (seq 0 (length xs))).
  { rewrite F1, F2. unfold Rminus. rewrite <- (Rmult_1_l (Sum _ (seq 0 (length xs)))) at 1. 
    match goal with |- Rabs (1 * ?a + - ?b) <= _ => replace (1 * a + - b) with (a + -1 * b) by ring end.
    rewrite <- Sum_scal, <- Sum_plus. apply Sum_abs_le. intros m Hm. rewrite <- Sum_scal, <- Sum_plus. apply Sum_abs_le. intros n Hn. apply in_seq in Hm, Hn. cbn [ndarray_val fget G].
    rewrite !basis_lagrange; rewrite ?map_length; try lia; [|apply (in_ys _ _ _ _ _ _ _ _ _ IS)|apply (in_xs _ _ _ _ _ _ _ _ _ IS)].
    match goal with |- Rabs (?a * ?b + -1 * (?a * ?c)) <= _ => replace (a * b + -1 * (a * c)) with (a * (b - c)) by ring end.
    rewrite Rabs_mult. apply Rmult_le_compat_l; [apply Rabs_pos|]. apply HF; lia. }
  apply abs_split in B, D. apply abs_join; lra.
Qed.

Ltac each H := cbn [In] in H; repeat (destruct H as [<-|H]); try (destruct H).
Lemma dist_cases : forall a b d r, 0 < d -> (a = b \/ d <= a - b <= r \/ d <= b - a <= r) -> a = b \/ d <= Rabs (a - b) <= r.
Proof. intros a b d r D [H|[H|H]]; [left; exact H|right; rewrite Rabs_right by lra; exact H|right; rewrite Rabs_left by lra; lra]. Qed.
Lemma f_spread_x : forall k, (k < 2)%nat -> spread fxs (at_point fpx k) (1 / 16) 4.
Proof.
  intros k Hk. assert (C : k = 0%nat \/ k = 1%nat) by lia.
  destruct C as [-> | ->]; (match goal with |- spread ?l ?a _ _ => let v := eval vm_compute in l in change l with v; let w := eval vm_compute in a in change a with w end); constructor;
    try (intros a H; each H; (exact I || reflexivity)); try lra; try (eapply Rle_trans; [|apply (Rle_pow 2 0 1000); [lra|lia]]; cbn [pow]; lra).
  all: intros a b Ha Hb; apply dist_cases; [lra|]; cbn [pow]; each Ha; each Hb; dval; try (left; lra); right; (left; lra) || (right; lra).
Qed.
Lemma f_spread_y : forall k, (k < 2)%nat -> spread fys (at_point fpy k) (1 / 16) 4.
Proof.
  intros k Hk. assert (C : k = 0%nat \/ k = 1%nat) by lia.
  destruct C as [-> | ->]; (match goal with |- spread ?l ?a _ _ => let v := eval vm_compute in l in change l with v; let w := eval vm_compute in a in change a with w end); constructor;
    try (intros a H; each H; (exact I || reflexivity)); try lra; try (eapply Rle_trans; [|apply (Rle_pow 2 0 1000); [lra|lia]]; cbn [pow]; lra).
  all: intros a b Ha Hb; apply dist_cases; [lra|]; cbn [pow]; each Ha; each Hb; dval; try (left; lra); right; (left; lra) || (right; lra).
Qed.
Lemma f_field : forall m n, (m < 3)%nat -> (n < 2)%nat -> finite (fget ffield [m; n]) /\ (0 <= val (fget ffield [m; n]) <= 1) /\ (val (fget ffield [m; n]) = 0 \/ 1 / 32 <= val (fget ffield [m; n])) /\
  Rabs (val (fget ffield [m; n]) - poly2 3 2 fcoef (at_ (map val fxs) m) (at_ (map val fys) n)) <= roundoff.
Proof.
  intros m n Hm Hn. assert (C : m = 0%nat \/ m = 1%nat \/ m = 2%nat) by lia. assert (D : n = 0%nat \/ n = 1%nat) by lia. unfold roundoff.
  let v := eval vm_compute in fxs in change fxs with v. let v := eval vm_compute in fys in change fys with v.
  destruct C as [-> |[-> | ->]], D as [-> | ->]; (match goal with |- context [fget ffield ?l] => let v := eval vm_compute in (fget ffield l) in change (fget ffield l) with v end);
    (split; [exact I || reflexivity|]); unfold poly2, Sum, fcoef, at_; cbn [seq map nth fold_right pow]; dval; (split; [lra|]); (split; [(left; lra) || (right; lra)|]); apply Rabs_le; unfold rsum; cbn [fold_right]; lra.
Qed.
Lemma f_nodup : NoDup (map val fxs) /\ NoDup (map val fys).
Proof.
  split; (match goal with |- context [map val ?l] => let v := eval vm_compute in l in change l with v end); cbn [map]; dval; repeat constructor; cbn [In]; lra.
Qed.
Lemma f_scale : interp_scale 2 fpx fpy fxs fys ffield (1 / 16) (1 / 16) 4.
Proof.
  constructor.
  - reflexivity.
  - reflexivity.
  - apply f_nodup.
  - apply f_nodup.
  - reflexivity.
  - intros m n Hm Hn. destruct (f_field m n Hm Hn) as [A [B [C _]]]. split; [exact A|]. destruct C as [C|C]; [left; exact C|right]. rewrite Rabs_right by lra. split.
    + eapply Rle_trans; [|exact C]. apply Rle_trans with (/ 2 ^ 5); [|cbn [pow]; lra]. apply Rinv_le_contravar; [cbn [pow]; lra|apply Rle_pow; [lra|lia]].
    + eapply Rle_trans; [|apply (Rle_pow 2 0 400); [lra|lia]]. cbn [pow]. lra.
  - exact f_spread_x.
  - exact f_spread_y.
  - cbn [fxs fys length]. lia.
Qed.
(** Six nodes and two points, the second one a node. *)
Lemma c89_error_ex : interp_scale 2 fpx fpy fxs fys ffield (1 / 16) (1 / 16) 4 /\ interp_count (length fxs) (length fys) = 29%nat.
Proof. split; [exact f_scale|reflexivity]. Qed.
Lemma c89_nodal_ex : interp_scale 2 fpx fpy fxs fys ffield (1 / 16) (1 / 16) 4 /\ val (at_point fpx 1) = at_ (map val fxs) 1 /\ val (at_point fpy 1) = at_ (map val fys) 0 /\ val (fget ffield [1; 0]%nat) <> 0.
Proof.
  split; [exact f_scale|]. split; [reflexivity|]. split; [reflexivity|]. match goal with |- context [fget ffield ?l] => let v := eval vm_compute in (fget ffield l) in change (fget ffield l) with v end. dval. lra.
Qed.

(** The field is (x - 3 y + 3) / 7 up to its rounding. *)
Lemma c89_polynomial_ex : interp_scale 2 fpx fpy fxs fys ffield (1 / 16) (1 / 16) 4 /\
  forall m n, (m < length fxs)%nat -> (n < length fys)%nat -> Rabs (val (fget ffield [m; n]) - poly2 (length fxs) (length fys) fcoef (at_ (map val fxs) m) (at_ (map val fys) n)) <= roundoff.
Proof. split; [exact f_scale|]. intros m n Hm Hn. apply (f_field m n Hm Hn). Qed.
