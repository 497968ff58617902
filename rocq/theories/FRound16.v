(** Relative rounding errors of positive quantities. *)
From Coq Require Import ZArith Reals List Bool Arith Lra Lia QArith Qreals.
From Flocq Require Import Core.
From Verif Require Import Num Float Py Mesh Utils CalcK0 Spec SpecRound FFloat FTree FRound FRound2 FRound3 FRound4 FRound5.
Import ListNotations.
Local Open Scope R_scope.

(** a range without underflow or overflow *)
Definition mid_range (x : R) : Prop := bpow radix2 (-390) <= x <= bpow radix2 390.
Lemma mid_pos : forall x, mid_range x -> 0 < x.
Proof. intros x [H _]. assert (B := bpow_gt_0 radix2 (-390)). lra. Qed.

Section Rel.
  Variable eps : R.
  Hypothesis E0 : roundoff <= eps.
  Hypothesis E1 : eps <= / 1048576.

  Definition relr (c x X : R) : Prop := 0 < X /\ 0 <= c <= 200 /\ Rabs (x - X) <= c * eps * X.
  Definition rel (c : R) (x : double) (X : R) : Prop := finite x /\ relr c (val x) X.

  Lemma eps_pos : 0 < eps. Proof. unfold roundoff in E0. lra. Qed.
  Lemma rel_small : forall c x X, relr c x X -> 999 / 1000 * X <= x <= 1001 / 1000 * X.
  Proof.
    intros c x X [P [C D]]. apply abs_split in D. assert (EP := eps_pos).
    assert (c * eps <= 200 * / 1048576) by (apply Rmult_le_compat; lra).
    assert (c * eps * X <= 200 * / 1048576 * X) by (apply Rmult_le_compat_r; lra). lra.
  Qed.
  Lemma relr_mono : forall c c' x X, relr c x X -> c <= c' <= 200 -> relr c' x X.
  Proof.
    intros c c' x X [P [C D]] L. split; [exact P|]. split; [lra|]. eapply Rle_trans; [exact D|]. assert (EP := eps_pos).
    apply Rmult_le_compat_r; [lra|]. apply Rmult_le_compat_r; lra.
  Qed.
  Lemma rel_mono : forall c c' x X, rel c x X -> c <= c' <= 200 -> rel c' x X.
  Proof. intros c c' x X [F H] L. split; [exact F|]. apply (relr_mono c); assumption. Qed.
  Lemma rel_exact : forall x, finite x -> 0 < val x -> rel 0 x (val x).
  Proof. intros x F P. split; [exact F|]. split; [exact P|]. split; [lra|]. replace (val x - val x) with 0 by ring. rewrite Rabs_R0. lra. Qed.

  Lemma relr_round : forall c z X, relr c z X -> mid_range X -> c <= 198 -> relr (c + 3 / 2) (rnd z) X.
  Proof.
    intros c z X H M L. assert (S := rel_small _ _ _ H). destruct H as [P [C D]]. split; [exact P|]. split; [lra|].
    assert (RE := rnd_err z). assert (ES := eta_small). assert (UP : 0 < roundoff) by (unfold roundoff; lra).
    assert (B : bpow radix2 (-400) <= X) by (eapply Rle_trans; [|apply M]; apply bpow_le; lia).
    assert (W : roundoff * / 8 * bpow radix2 (-400) <= roundoff * / 8 * X) by (apply Rmult_le_compat_l; lra).
    rewrite (Rabs_right z) in RE by lra. assert (W2 : roundoff * z <= roundoff * (1001 / 1000 * X)) by (apply Rmult_le_compat_l; lra).
    assert (W3 : roundoff * X <= eps * X) by (apply Rmult_le_compat_r; lra).
    apply abs_split in RE, D. apply abs_join; lra.
  Qed.
  Lemma relr_mul : forall c1 c2 x y X Y, relr c1 x X -> relr c2 y Y -> c1 + c2 <= 199 -> relr (c1 + c2 + 1 / 2) (x * y) (X * Y).
  Proof.
    intros c1 c2 x y X Y [P1 [C1 D1]] [P2 [C2 D2]] L. split; [apply Rmult_lt_0_compat; assumption|]. split; [lra|]. assert (EP := eps_pos).
    replace (x * y - X * Y) with ((x - X) * Y + X * (y - Y) + (x - X) * (y - Y)) by ring.
    assert (A1 : Rabs ((x - X) * Y) <= c1 * eps * X * Y) by (rewrite Rabs_mult, (Rabs_right Y) by lra; apply Rmult_le_compat_r; lra).
    assert (A2 : Rabs (X * (y - Y)) <= c2 * eps * (X * Y)). { rewrite Rabs_mult, (Rabs_right X) by lra. eapply Rle_trans; [apply Rmult_le_compat_l; [lra|exact D2]|]. right; ring. }
    assert (A3 : Rabs ((x - X) * (y - Y)) <= 1 / 2 * eps * (X * Y)).
    { rewrite Rabs_mult. eapply Rle_trans; [apply Rmult_le_compat; [apply Rabs_pos|apply Rabs_pos|exact D1|exact D2]|].
      replace (c1 * eps * X * (c2 * eps * Y)) with (c1 * (c2 * eps) * eps * (X * Y)) by ring. apply Rmult_le_compat_r; [left; apply Rmult_lt_0_compat; assumption|]. apply Rmult_le_compat_r; [lra|].
      assert (c2 * eps <= 200 * / 1048576) by (apply Rmult_le_compat; lra). assert (0 <= c2 * eps) by (apply Rmult_le_pos; lra).
      assert (c1 * (c2 * eps) <= 200 * (200 * / 1048576)) by (apply Rmult_le_compat; lra). lra. }
    apply abs_split in A1, A2, A3. apply abs_join; lra.
  Qed.
  Lemma relr_inv : forall c x X, relr c x X -> c <= 199 -> relr (c + 1 / 4) (/ x) (/ X).
  Proof.
    intros c x X H L. assert (S := rel_small _ _ _ H). destruct H as [P [C D]]. split; [apply Rinv_0_lt_compat, P|]. split; [lra|]. assert (EP := eps_pos).
    replace (/ x - / X) with ((X - x) * (/ x * / X)) by (field; lra). rewrite Rabs_mult, Rabs_minus_sym.
    assert (IX : 0 < / X) by (apply Rinv_0_lt_compat; lra). assert (Ix : 0 < / x) by (apply Rinv_0_lt_compat; lra).
    rewrite (Rabs_right (/ x * / X)) by (apply Rle_ge, Rmult_le_pos; lra).
    assert (IB : X * / x <= 1 + / 4096).
    { apply Rmult_le_reg_r with x; [lra|]. rewrite Rmult_assoc, Rinv_l by lra. rewrite Rmult_1_r.
      assert (c * eps <= 200 * / 1048576) by (apply Rmult_le_compat; lra). assert (c * eps * X <= 200 * / 1048576 * X) by (apply Rmult_le_compat_r; lra). apply abs_split in D. lra. }
    eapply Rle_trans; [apply Rmult_le_compat_r; [apply Rmult_le_pos; lra|exact D]|].
    replace (c * eps * X * (/ x * / X)) with (c * eps * (X * / x) * / X) by ring. apply Rmult_le_compat_r; [lra|].
    assert (0 <= c * eps) by (apply Rmult_le_pos; lra). assert (c * eps * (X * / x) <= c * eps * (1 + / 4096)) by (apply Rmult_le_compat_l; lra).
    assert (c * eps <= 199 * eps) by (apply Rmult_le_compat_r; lra). lra.
  Qed.
  Lemma relr_add : forall c x y X Y, relr c x X -> relr c y Y -> relr c (x + y) (X + Y).
  Proof. intros c x y X Y [P1 [C1 D1]] [P2 [C2 D2]]. split; [lra|]. split; [lra|]. apply abs_split in D1, D2. apply abs_join; lra. Qed.
  Lemma relr_sqrt : forall c x X, relr c x X -> relr c (sqrt x) (sqrt X).
  Proof.
    intros c x X H. assert (S := rel_small _ _ _ H). destruct H as [P [C D]]. assert (SP := sqrt_lt_R0 X P). split; [exact SP|]. split; [lra|]. assert (EP := eps_pos).
    assert (Sx := sqrt_pos x). assert (Q1 : sqrt X * sqrt X = X) by (apply sqrt_sqrt; lra). assert (Q2 : sqrt x * sqrt x = x) by (apply sqrt_sqrt; lra).
    apply Rmult_le_reg_r with (sqrt X); [exact SP|]. replace (c * eps * sqrt X * sqrt X) with (c * eps * X) by (rewrite (Rmult_assoc (c * eps)), Q1; reflexivity).
    eapply Rle_trans; [|exact D]. replace (x - X) with ((sqrt x - sqrt X) * (sqrt x + sqrt X)) by (replace ((sqrt x - sqrt X) * (sqrt x + sqrt X)) with (sqrt x * sqrt x - sqrt X * sqrt X) by ring; rewrite Q1, Q2; reflexivity).
    rewrite Rabs_mult. apply Rmult_le_compat_l; [apply Rabs_pos|]. rewrite Rabs_right; lra.
  Qed.

  Lemma mid_1000 : forall c x X, relr c x X -> mid_range X -> Rabs x <= bpow radix2 1000.
  Proof.
    intros c x X H M. assert (S := rel_small _ _ _ H). assert (P := mid_pos X M). rewrite Rabs_right by lra.
    assert (2 * bpow radix2 390 <= bpow radix2 1000) by (replace 2 with (bpow radix2 1) by reflexivity; rewrite <- bpow_plus; apply bpow_le; lia). destruct M as [_ M]. lra.
  Qed.

  Lemma rel_mul : forall c1 c2 x y X Y, rel c1 x X -> rel c2 y Y -> mid_range (X * Y) -> c1 + c2 <= 190 -> rel (c1 + c2 + 2) (nmul x y) (X * Y).
  Proof.
    intros c1 c2 x y X Y [F1 H1] [F2 H2] M L. assert (H := relr_mul _ _ _ _ _ _ H1 H2 ltac:(lra)).
    destruct (fl_mul x y F1 F2 (mid_1000 _ _ _ H M)) as [F V]. split; [exact F|]. rewrite V. replace (c1 + c2 + 2) with (c1 + c2 + 1 / 2 + 3 / 2) by field.
    apply relr_round; [exact H|exact M|lra].
  Qed.
  Lemma rel_div : forall c1 c2 x y X Y, rel c1 x X -> rel c2 y Y -> mid_range (X / Y) -> c1 + c2 <= 190 -> rel (c1 + c2 + 5 / 2) (ndiv x y) (X / Y).
  Proof.
    intros c1 c2 x y X Y [F1 H1] [F2 H2] M L. assert (C1 := proj1 (proj2 H1)). assert (C2 := proj1 (proj2 H2)). assert (S := rel_small _ _ _ H2). assert (P := proj1 H2).
    assert (H := relr_mul _ _ _ _ _ _ H1 (relr_inv _ _ _ H2 ltac:(lra)) ltac:(lra)).
    destruct (fl_div x y F1 F2) as [F V]; [lra|apply (mid_1000 _ _ _ H M)|]. split; [exact F|]. rewrite V. 
    apply (relr_mono (c1 + (c2 + 1 / 4) + 1 / 2 + 3 / 2)); [|lra]. apply relr_round; [exact H|exact M|lra].
  Qed.
  Lemma rel_add : forall c x y X Y, rel c x X -> rel c y Y -> mid_range (X + Y) -> c <= 190 -> rel (c + 2) (nadd x y) (X + Y).
  Proof.
    intros c x y X Y [F1 H1] [F2 H2] M L. assert (H := relr_add _ _ _ _ _ H1 H2). destruct (fl_add x y F1 F2 (mid_1000 _ _ _ H M)) as [F V]. split; [exact F|]. rewrite V.
    assert (C := proj1 (proj2 H1)). apply (relr_mono (c + 3 / 2)); [|lra]. apply relr_round; [exact H|exact M|lra].
  Qed.
  Lemma rel_sqrt : forall c x X, rel c x X -> mid_range (sqrt X) -> c <= 190 -> rel (c + 2) (nsqrt x) (sqrt X).
  Proof.
    intros c x X [F1 H1] M L. assert (S := rel_small _ _ _ H1). assert (P := proj1 H1). destruct (fl_sqrt x F1) as [F V]; [lra|]. split; [exact F|]. rewrite V.
    assert (C := proj1 (proj2 H1)). apply (relr_mono (c + 3 / 2)); [|lra]. apply relr_round; [apply relr_sqrt, H1|exact M|lra].
  Qed.
  Lemma rel_max : forall c x y X Y, rel c x X -> rel c y Y -> rel c (nmax2 x y) (Rmax X Y).
  Proof.
    intros c x y X Y [F1 [P1 [C D1]]] [F2 [P2 [_ D2]]]. assert (EP := eps_pos). assert (CE : 0 <= c * eps) by (apply Rmult_le_pos; lra).
    assert (M1 := Rmax_l X Y). assert (M2 := Rmax_r X Y).
    assert (U1 : c * eps * X <= c * eps * Rmax X Y) by (apply Rmult_le_compat_l; assumption). assert (U2 : c * eps * Y <= c * eps * Rmax X Y) by (apply Rmult_le_compat_l; assumption).
    apply abs_split in D1, D2. unfold nmax2. destruct (nltb x y) eqn:B.
    - split; [exact F2|]. split; [lra|]. split; [exact C|]. apply fl_ltb in B; [|exact F1|exact F2]. unfold Rmax in *. destruct (Rle_dec X Y); apply abs_join; lra.
    - split; [exact F1|]. split; [lra|]. split; [exact C|]. assert (NB : ~ val x < val y) by (intros Z; apply (fl_ltb x y F1 F2) in Z; congruence). unfold Rmax in *. destruct (Rle_dec X Y); apply abs_join; lra.
  Qed.
  Lemma rel_const : forall z, (0 < z <= 2 ^ 53)%Z -> rel 0 (nofZ z) (IZR z).
  Proof.
    intros z H. destruct (fl_ofZ z ltac:(lia)) as [F V]. rewrite <- V. apply rel_exact; [exact F|]. rewrite V. apply IZR_lt. lia.
  Qed.
  Lemma rel_third : rel 5 (ndiv (nofZ 1) (nofZ 3)) (1 / 3).
  Proof.
    apply (rel_mono (0 + 0 + 5 / 2)); [|lra]. apply rel_div; [apply (rel_const 1); lia|apply (rel_const 3); lia| |lra].
    split; [apply Rle_trans with (bpow radix2 (-2)); [apply bpow_le; lia|cbn; lra]|apply Rle_trans with (bpow radix2 0); [cbn; lra|apply bpow_le; lia]].
  Qed.
End Rel.
