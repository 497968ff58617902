(** Relative errors of products, quotients, sums and differences of doubles. *)
From Coq Require Import ZArith Reals List Bool Arith Lra Lia.
From Flocq Require Import Core Relative Plus_error BinarySingleNaN.
From Verif Require Import Num Float Py Mesh SpecRound FFloat FRound3.
Import ListNotations.
Local Open Scope R_scope.

Local Instance Hp : Prec_gt_0 53 := eq_refl _.

Definition fmt (x : R) : Prop := generic_format radix2 (FLT_exp (-1074) 53) x.
Lemma val_fmt : forall x, finite x -> fmt (val x).
Proof. intros x F. destruct (finite_B x F) as [b [<- _]]. rewrite val_B. apply (generic_format_B2R 53 1024). Qed.
Lemma rnd_fmt : forall x, fmt x -> rnd x = x.
Proof. intros x F. apply round_generic; [apply valid_rnd_N|exact F]. Qed.

(** [t] is a product of [n] factors 1 + e and 1 / (1 + e) with |e| <= roundoff *)
Definition fac (n : nat) (t : R) : Prop := / (1 + roundoff) ^ n <= t <= (1 + roundoff) ^ n.
Lemma u1 : 1 < 1 + roundoff.
Proof. unfold roundoff. lra. Qed.
Lemma upow : forall n, 1 <= (1 + roundoff) ^ n.
Proof. intros n. apply pow_R1_Rle. left. apply u1. Qed.
Lemma fac_pos : forall n t, fac n t -> 0 < t.
Proof. intros n t [A _]. eapply Rlt_le_trans; [|exact A]. apply Rinv_0_lt_compat. assert (H := upow n). lra. Qed.
Lemma fac_1 : forall n, fac n 1.
Proof. intros n. assert (H := upow n). split; [|exact H]. apply Rle_trans with (/ 1); [apply Rinv_le_contravar; lra|rewrite Rinv_1; lra]. Qed.
Lemma fac_mul : forall n m s t, fac n s -> fac m t -> fac (n + m) (s * t).
Proof.
  intros n m s t S T. assert (PS := fac_pos _ _ S). assert (PT := fac_pos _ _ T). assert (Hn := upow n). assert (Hm := upow m).
  destruct S as [S1 S2], T as [T1 T2]. unfold fac. rewrite pow_add. split.
  - rewrite Rinv_mult. apply Rmult_le_compat; [left; apply Rinv_0_lt_compat; lra|left; apply Rinv_0_lt_compat; lra|exact S1|exact T1].
  - apply Rmult_le_compat; lra.
Qed.
Lemma fac_inv : forall n t, fac n t -> fac n (/ t).
Proof.
  intros n t T. assert (P := fac_pos _ _ T). assert (H := upow n). destruct T as [A B]. split.
  - apply Rinv_le_contravar; lra.
  - rewrite <- (Rinv_inv ((1 + roundoff) ^ n)). apply Rinv_le_contravar; [apply Rinv_0_lt_compat; lra|exact A].
Qed.
Lemma fac_le : forall n m t, (n <= m)%nat -> fac n t -> fac m t.
Proof.
  intros n m t L [A B]. assert (H := upow n). assert (X : (1 + roundoff) ^ n <= (1 + roundoff) ^ m) by (apply Rle_pow; [left; apply u1|exact L]).
  split; [|lra]. eapply Rle_trans; [|exact A]. apply Rinv_le_contravar; lra.
Qed.
(** error of such a factor *)
Definition gam (n : nat) : R := (1 + roundoff) ^ n - 1.
Lemma gam_pos : forall n, 0 <= gam n.
Proof. intros n. unfold gam. assert (H := upow n). lra. Qed.
Lemma gam_le : forall n m, (n <= m)%nat -> gam n <= gam m.
Proof. intros n m L. unfold gam. assert (X : (1 + roundoff) ^ n <= (1 + roundoff) ^ m) by (apply Rle_pow; [left; apply u1|exact L]). lra. Qed.
Lemma fac_err : forall n t, fac n t -> Rabs (t - 1) <= gam n.
Proof.
  intros n t [A B]. unfold gam. assert (H := upow n). set (a := (1 + roundoff) ^ n) in *. apply abs_join; [|lra].
  assert (X : 2 - a <= / a); [|lra]. apply (Rmult_le_reg_r a); [lra|]. rewrite Rinv_l by lra. assert (S := Rle_0_sqr (a - 1)). unfold Rsqr in S. lra.
Qed.
Lemma gam_lin : forall n, (Z.of_nat n <= 67108864)%Z -> gam n <= INR (S n) * roundoff.
Proof.
  intros n L. assert (G : forall k, (k <= n)%nat -> gam k <= INR k * roundoff * (1 + INR k * roundoff)).
  { assert (UP : 0 < roundoff) by (unfold roundoff; lra). induction k as [|k IH]; intros Hk; [unfold gam; cbn; lra|].
    assert (I := IH ltac:(lia)). replace (gam (S k)) with (gam k + roundoff * (gam k + 1)) by (unfold gam; cbn [pow]; ring).
    assert (KP := pos_INR k). rewrite S_INR. set (x := INR k) in *.
    assert (XL : x * roundoff <= 1 / 2).
    { assert (x <= 67108864) by (unfold x; rewrite INR_IZR_INZ; apply IZR_le; lia). unfold roundoff. lra. }
    assert (E : x * roundoff * (1 + x * roundoff) <= 2 * (x * roundoff)).
    { assert (0 <= x * roundoff) by (apply Rmult_le_pos; lra). nra. }
    assert (I2 : roundoff * gam k <= roundoff * (2 * (x * roundoff))) by (apply Rmult_le_compat_l; lra).
    apply Rle_trans with (x * roundoff * (1 + x * roundoff) + roundoff * (2 * (x * roundoff)) + roundoff); [lra|]. assert (0 <= roundoff * roundoff) by (apply Rmult_le_pos; lra).
    replace ((x + 1) * roundoff * (1 + (x + 1) * roundoff)) with (x * roundoff * (1 + x * roundoff) + roundoff * (2 * (x * roundoff)) + roundoff + roundoff * roundoff) by ring. lra. }
  eapply Rle_trans; [apply (G n (Nat.le_refl n))|]. rewrite S_INR.
  assert (NL : INR n <= 67108864) by (rewrite INR_IZR_INZ; apply IZR_le; exact L). assert (NP := pos_INR n).
  assert (X : INR n * (INR n * roundoff) <= 1).
  { apply Rle_trans with (67108864 * (67108864 * roundoff)); [|unfold roundoff; lra].
    apply Rmult_le_compat; [exact NP|apply Rmult_le_pos; [exact NP|unfold roundoff; lra]|exact NL|apply Rmult_le_compat_r; [unfold roundoff; lra|exact NL]]. }
  replace (INR n * roundoff * (1 + INR n * roundoff)) with (roundoff * (INR n + INR n * (INR n * roundoff))) by ring.
  rewrite (Rmult_comm (INR n + 1)). apply Rmult_le_compat_l; [unfold roundoff|]; lra.
Qed.

Lemma eps_fac : forall e, Rabs e <= u_ro radix2 53 / (1 + u_ro radix2 53) -> fac 1 (1 + e).
Proof.
  intros e. unfold u_ro. change (bpow radix2 (- (53) + 1)) with (/ 4503599627370496). replace (/ 2 * / 4503599627370496) with roundoff by (unfold roundoff; lra).
  intros E. assert (X : roundoff / (1 + roundoff) = 1 - / (1 + roundoff)) by (field; assert (U := u1); lra). apply abs_split in E. unfold fac. rewrite pow_1.
  assert (Y : roundoff / (1 + roundoff) <= roundoff).
  { apply (Rmult_le_reg_r (1 + roundoff)); [assert (U := u1); lra|]. unfold Rdiv. rewrite Rmult_assoc, Rinv_l by (assert (U := u1); lra). unfold roundoff. lra. }
  lra.
Qed.
Lemma rnd_sum : forall x y, fmt x -> fmt y -> exists t, fac 1 t /\ rnd (x + y) = (x + y) * t.
Proof.
  intros x y X Y. destruct (FLT_plus_error_N_ex radix2 (-1074) 53 (fun x => negb (Z.even x)) x y X Y) as [e [E H]]. exists (1 + e). split; [apply eps_fac, E|exact H].
Qed.
(** zero, or of moderate size *)
Definition sz (e : Z) (x : R) : Prop := x = 0 \/ bpow radix2 (- e) <= Rabs x <= bpow radix2 e.
Lemma sz_mul : forall e f x y, sz e x -> sz f y -> sz (e + f) (x * y).
Proof.
  intros e f x y [->|[A B]] [->|[C D]]; try (left; ring). right. rewrite Rabs_mult. replace (- (e + f))%Z with (- e + - f)%Z by lia. rewrite !bpow_plus.
  assert (P1 := bpow_gt_0 radix2 (- e)). assert (P2 := bpow_gt_0 radix2 (- f)). split; apply Rmult_le_compat; lra.
Qed.
Lemma sz_le : forall e f x, (e <= f)%Z -> sz e x -> sz f x.
Proof. intros e f x L [->|[A B]]; [left; reflexivity|right]. split; eapply Rle_trans; [|exact A|exact B|]; apply bpow_le; lia. Qed.
Lemma sz_abs : forall e x, sz e x -> Rabs x <= bpow radix2 e.
Proof. intros e x [->|[_ B]]; [rewrite Rabs_R0; apply bpow_ge_0|exact B]. Qed.
Lemma rnd_mid : forall x, sz 1000 x -> exists t, fac 1 t /\ rnd x = x * t.
Proof.
  intros x [->|[A B]]; [exists 1; split; [apply fac_1|rewrite rnd_0; ring]|].
  destruct (relative_error_N_FLX'_ex radix2 53 Hp (fun x => negb (Z.even x)) x) as [e [E H]]. exists (1 + e). split; [apply eps_fac, E|]. rewrite <- H. unfold rnd. apply round_FLT_FLX.
  eapply Rle_trans; [|exact A]. apply bpow_le. lia.
Qed.

(** [y] has the value [X] up to [n] roundings *)
Definition rl (n : nat) (y : double) (X : R) : Prop := finite y /\ exists t, fac n t /\ val y = X * t.
Lemma rl_le : forall n m y X, (n <= m)%nat -> rl n y X -> rl m y X.
Proof. intros n m y X L [F [t [T E]]]. split; [exact F|]. exists t. split; [apply (fac_le n); assumption|exact E]. Qed.
Lemma rl_val : forall n y, finite y -> rl n y (val y).
Proof. intros n y F. split; [exact F|]. exists 1. split; [apply fac_1|ring]. Qed.
Lemma rl_zero : forall n y, rl n y 0 -> val y = 0.
Proof. intros n y [_ [t [_ E]]]. rewrite E. ring. Qed.
Lemma rl_err : forall n y X, rl n y X -> Rabs (val y - X) <= gam n * Rabs X.
Proof. intros n y X [_ [t [T E]]]. rewrite E. replace (X * t - X) with ((t - 1) * X) by ring. rewrite Rabs_mult. apply Rmult_le_compat_r; [apply Rabs_pos|apply fac_err, T]. Qed.
Lemma fac_sz : forall n t e x, fac n t -> gam n <= 1 -> sz e x -> sz (e + 1) (x * t).
Proof.
  intros n t e x T G H. apply sz_mul; [exact H|]. right. assert (P := fac_pos _ _ T). rewrite Rabs_right by lra. unfold gam in G. assert (U := upow n). destruct T as [A B].
  change (bpow radix2 (- (1))) with (/ 2). change (bpow radix2 1) with 2. split; [|lra]. eapply Rle_trans; [|exact A]. apply Rinv_le_contravar; lra.
Qed.

Lemma rl_sub : forall x y, finite x -> finite y -> Rabs (val x - val y) <= bpow radix2 1000 -> rl 1 (nsub x y) (val x - val y).
Proof.
  intros x y X Y L. destruct (fl_sub x y X Y L) as [F E]. split; [exact F|]. rewrite E. apply rnd_sum; [apply val_fmt, X|]. apply generic_format_opp, val_fmt, Y.
Qed.
Lemma rl_mul : forall n m x y X Y, rl n x X -> rl m y Y -> sz 990 (X * Y) -> gam (n + m) <= 1 -> rl (S (n + m)) (nmul x y) (X * Y).
Proof.
  intros n m x y X Y [Fx [s [S E]]] [Fy [t [T E']]] H G. assert (ST := fac_mul _ _ _ _ S T).
  assert (P : val x * val y = X * Y * (s * t)) by (rewrite E, E'; ring).
  assert (Z : sz 1000 (val x * val y)) by (rewrite P; apply (sz_le (990 + 1)); [lia|]; apply (fac_sz (n + m)); assumption).
  destruct (fl_mul x y Fx Fy (sz_abs _ _ Z)) as [F V]. split; [exact F|]. destruct (rnd_mid _ Z) as [r [R1 R2]]. exists (s * t * r). split.
  - replace (Datatypes.S (n + m)) with (n + m + 1)%nat by lia. apply fac_mul; assumption.
  - rewrite V, R2, P. ring.
Qed.
Lemma rl_div : forall n m x y X Y, rl n x X -> rl m y Y -> Y <> 0 -> sz 990 (X / Y) -> gam (n + m) <= 1 -> rl (S (n + m)) (ndiv x y) (X / Y).
Proof.
  intros n m x y X Y [Fx [s [S E]]] [Fy [t [T E']]] NY H G. assert (ST := fac_mul _ _ _ _ S (fac_inv _ _ T)). assert (TP := fac_pos _ _ T).
  assert (P : val x / val y = X / Y * (s * / t)) by (rewrite E, E'; field; split; [lra|exact NY]).
  assert (Z : sz 1000 (val x / val y)) by (rewrite P; apply (sz_le (990 + 1)); [lia|]; apply (fac_sz (n + m)); assumption).
  assert (NV : val y <> 0) by (rewrite E'; apply Rmult_integral_contrapositive_currified; [exact NY|lra]).
  destruct (fl_div x y Fx Fy NV (sz_abs _ _ Z)) as [F V]. split; [exact F|]. destruct (rnd_mid _ Z) as [r [R1 R2]]. exists (s * / t * r). split.
  - replace (Datatypes.S (n + m)) with (n + m + 1)%nat by lia. apply fac_mul; assumption.
  - rewrite V, R2, P. ring.
Qed.

(** [y] differs from [X] by at most [n] roundings of numbers that add up to [B] in absolute value *)
Definition nr (n : nat) (y : double) (X B : R) : Prop := finite y /\ Rabs (val y - X) <= gam n * B /\ Rabs X <= B.
Lemma nr_le : forall n m y X B, (n <= m)%nat -> nr n y X B -> nr m y X B.
Proof.
  intros n m y X B L [F [E A]]. split; [exact F|]. split; [|exact A]. eapply Rle_trans; [exact E|]. apply Rmult_le_compat_r; [|apply gam_le, L]. eapply Rle_trans; [apply Rabs_pos|exact A].
Qed.
Lemma nr_add : forall n y X B t T, nr n y X B -> rl n t T -> gam n <= 1 -> B + Rabs T <= bpow radix2 990 -> nr (S n) (nadd y t) (X + T) (B + Rabs T).
Proof.
  intros n y X B t T [Fy [Ey By]] HT G L. assert (Et := rl_err _ _ _ HT). destruct HT as [Ft _]. set (C := B + Rabs T) in *.
  assert (CP : 0 <= C) by (unfold C; assert (P1 := Rabs_pos X); assert (P2 := Rabs_pos T); lra).
  assert (E1 : Rabs (val y + val t - (X + T)) <= gam n * C).
  { replace (val y + val t - (X + T)) with ((val y - X) + (val t - T)) by ring. eapply Rle_trans; [apply Rabs_triang|]. unfold C. lra. }
  assert (XC : Rabs (X + T) <= C) by (eapply Rle_trans; [apply Rabs_triang|]; unfold C; lra).
  assert (YC : Rabs (val y + val t) <= (1 + gam n) * C).
  { replace (val y + val t) with ((val y + val t - (X + T)) + (X + T)) by ring. eapply Rle_trans; [apply Rabs_triang|]. lra. }
  assert (LE : Rabs (val y + val t) <= bpow radix2 1000).
  { eapply Rle_trans; [exact YC|]. apply Rle_trans with (2 * bpow radix2 990); [apply Rmult_le_compat; assert (GP := gam_pos n); lra|]. change 2 with (bpow radix2 1). rewrite <- bpow_plus. apply bpow_le. lia. }
  destruct (fl_add y t Fy Ft LE) as [F V]. split; [exact F|]. split; [|exact XC]. destruct (rnd_sum _ _ (val_fmt _ Fy) (val_fmt _ Ft)) as [r [R1 R2]]. rewrite V, R2.
  apply fac_err in R1. assert (R1' : Rabs (r - 1) <= roundoff) by (eapply Rle_trans; [exact R1|]; unfold gam; lra).
  replace ((val y + val t) * r - (X + T)) with ((val y + val t - (X + T)) + (r - 1) * (val y + val t)) by ring. eapply Rle_trans; [apply Rabs_triang|]. rewrite Rabs_mult.
  assert (Q : Rabs (r - 1) * Rabs (val y + val t) <= roundoff * ((1 + gam n) * C)) by (apply Rmult_le_compat; try apply Rabs_pos; assumption).
  replace (gam (S n) * C) with (gam n * C + roundoff * ((1 + gam n) * C)) by (unfold gam; cbn [pow]; ring). lra.
Qed.
