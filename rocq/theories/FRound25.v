(** Rounding errors of the shear stiffness of an edge domain. *)
From Coq Require Import ZArith Reals List Bool Arith Lra Lia QArith Qreals.
From Flocq Require Import Core.
From Verif Require Import Num Float Py Mesh Utils CalcK0 AddK0s Spec SpecRound SpecRound2 FFloat FTree FK0e FRound FRound2 FRound3 FRound4 FRound5 FRound6 FRound14 FRound16 FRound17 FRound18.
Import ListNotations.
Local Open Scope R_scope.

Definition gb2 : fb := Fb 1 0 490 1 0 0.
Definition kbb : fb := Fb (Qmake 33 32) 0 150 1 0 0.
Definition ebb : fb := Fb (Qmake 33 32) 0 150 1 0 1.
Definition shb2 : fb := Fb (Qmake 9 8) 0 860 1 0 1.
Definition prod3 : expr := nmul (EV 2) (nmul (EV 0) (EV 1)).
Definition p3_leaf (i : nat) : fb := match i with 0%nat => kbb | 1%nat => ebb | _ => gb2 end.
Definition w_ (p q : Z) : expr := ndiv (nofZ p) (nofZ q).
Definition ln3 : expr := AddK0s.lin3 (w_ 4 9) (w_ 4 9) (w_ 1 9) (EV 0) (EV 1) (EV 2).
Definition ln4 : expr := AddK0s.lin4 (w_ 5 12) (w_ 5 12) (w_ 1 12) (w_ 1 12) (EV 0) (EV 1) (EV 2) (EV 3).
Definition lnA : expr := nadd (nmul (EV 0) (EV 2)) (nmul (EV 1) (EV 3)).
Definition numb (q : nat) : fb := Fb 1 0 65 0 2 q.
Definition nA_leaf (q : nat) (i : nat) : fb := match i with 0%nat | 1%nat => garb3 | _ => Fb 1 0 0 0 0 q end.

Section Stiff.
  Variables h rho s kappa : R.
  Hypothesis SL : scales h rho s (kappa * roundoff).
  Let delta := kappa * roundoff.
  Let eps := delta * rho.
  Notation rel := (rel eps).
  Notation relr := (relr eps).
  Let E0 : roundoff <= eps := eps_low h rho s kappa SL.
  Let E1 : eps <= / 1048576 := eps_high h rho s kappa SL.
  Let EP : 0 < eps. Proof. unfold roundoff in E0. lra. Qed.

  (** ** The correction factor *)
  Definition ratio (al l t : R) : R := t * t / (t * t + al * (l * l)).
  Lemma ratio_bd : forall al l t, 0 <= al -> 0 < t -> 0 < ratio al l t <= 1.
  Proof.
    intros al l t A T. unfold ratio. assert (TT : 0 < t * t) by (apply Rmult_lt_0_compat; assumption). assert (LL : 0 <= al * (l * l)) by (apply Rmult_le_pos; [exact A|apply Rle_0_sqr]).
    split; [apply Rdiv_lt_0_compat; lra|]. apply Rmult_le_reg_r with (t * t + al * (l * l)); [lra|]. unfold Rdiv. rewrite Rmult_assoc, Rinv_l by lra. lra.
  Qed.
  Lemma ratio_lip : forall al l t L T a b, 0 <= al -> relr a l L -> relr b t T -> Rabs (ratio al l t - ratio al L T) <= 201 / 100 * (a + b) * eps.
  Proof.
    intros al l t L T a b A HL HT. assert (SLL := rel_small eps E0 E1 _ _ _ HL). assert (STT := rel_small eps E0 E1 _ _ _ HT).
    destruct HL as [LP [CL DL]]. destruct HT as [TP [CT DT]].
    assert (tp : 0 < t) by lra. assert (lp : 0 < l) by lra.
    set (D := T * T + al * (L * L)). set (d := t * t + al * (l * l)).
    assert (QT : 0 < T * T) by (apply Rmult_lt_0_compat; assumption). assert (qt : 0 < t * t) by (apply Rmult_lt_0_compat; assumption).
    assert (QL : 0 <= al * (L * L)) by (apply Rmult_le_pos; [exact A|apply Rle_0_sqr]). assert (ql : 0 <= al * (l * l)) by (apply Rmult_le_pos; [exact A|apply Rle_0_sqr]).
    assert (DP : 0 < D) by (unfold D; lra). assert (dp : 0 < d) by (unfold d; lra). assert (DD : 0 < D * d) by (apply Rmult_lt_0_compat; assumption).
    replace (ratio al l t - ratio al L T) with (al * ((t * L - T * l) * (t * L + T * l)) / (D * d)) by (unfold ratio, D, d; field; split; unfold D, d in *; lra).
    unfold Rdiv. rewrite Rabs_mult, Rabs_inv, (Rabs_right (D * d)) by lra.
    apply Rmult_le_reg_r with (D * d); [exact DD|]. rewrite Rmult_assoc, Rinv_l by lra. rewrite Rmult_1_r.
    rewrite !Rabs_mult, (Rabs_right al) by lra.
    assert (N1 : Rabs (t * L - T * l) <= (a + b) * eps * (T * L)).
    { replace (t * L - T * l) with ((t - T) * L - T * (l - L)) by ring.
      assert (B1 : Rabs ((t - T) * L) <= b * eps * (T * L)) by (rewrite Rabs_mult, (Rabs_right L) by lra; eapply Rle_trans; [apply Rmult_le_compat_r; [lra|exact DT]|right; ring]).
      assert (B2 : Rabs (T * (l - L)) <= a * eps * (T * L)) by (rewrite Rabs_mult, (Rabs_right T) by lra; eapply Rle_trans; [apply Rmult_le_compat_l; [lra|exact DL]|right; ring]).
      apply abs_split in B1, B2. apply abs_join; lra. }
    assert (TL : 0 < T * L) by (apply Rmult_lt_0_compat; assumption). assert (P1 : 0 < t * L + T * l) by (assert (0 < t * L) by (apply Rmult_lt_0_compat; assumption); assert (0 < T * l) by (apply Rmult_lt_0_compat; assumption); lra).
    rewrite (Rabs_right (t * L + T * l)) by lra.
    apply Rle_trans with (al * ((a + b) * eps * (T * L) * (t * L + T * l))).
    { apply Rmult_le_compat_l; [exact A|]. apply Rmult_le_compat_r; [lra|exact N1]. }
    assert (AB : 0 <= (a + b) * eps) by (apply Rmult_le_pos; lra).
    apply Rle_trans with ((a + b) * eps * (201 / 100 * (D * d))); [|right; field].
    replace (al * ((a + b) * eps * (T * L) * (t * L + T * l))) with ((a + b) * eps * (al * (L * L) * (T * t) + T * T * (al * (L * l)))) by ring.
    apply Rmult_le_compat_l; [exact AB|].
    assert (X1 : T * t <= 1002 / 1000 * (t * t)) by (replace (1002 / 1000 * (t * t)) with (1002 / 1000 * t * t) by ring; apply Rmult_le_compat_r; lra).
    assert (X2 : L * l <= 1002 / 1000 * (l * l)) by (replace (1002 / 1000 * (l * l)) with (1002 / 1000 * l * l) by ring; apply Rmult_le_compat_r; lra).
    assert (Y1 : al * (L * L) * (T * t) <= al * (L * L) * (1002 / 1000 * (t * t))) by (apply Rmult_le_compat_l; assumption).
    assert (Y2 : T * T * (al * (L * l)) <= T * T * (al * (1002 / 1000 * (l * l)))) by (apply Rmult_le_compat_l; [lra|]; apply Rmult_le_compat_l; assumption).
    assert (Z1 : D * d = T * T * (t * t) + T * T * (al * (l * l)) + al * (L * L) * (t * t) + al * (L * L) * (al * (l * l))) by (unfold D, d; ring).
    assert (Z2 : 0 <= T * T * (t * t)) by (apply Rmult_le_pos; lra). assert (Z3 : 0 <= al * (L * L) * (al * (l * l))) by (apply Rmult_le_pos; lra).
    assert (Z4 : 0 <= T * T * (al * (l * l))) by (apply Rmult_le_pos; lra). assert (Z5 : 0 <= al * (L * L) * (t * t)) by (apply Rmult_le_pos; lra). lra.
  Qed.

  Variable alpha : double.
  Hypothesis FA : finite alpha.
  Hypothesis VA : val alpha = 0 \/ in64 (val alpha).
  Lemma al_pos : 0 <= val alpha.
  Proof. destruct VA as [->|H]; [lra|]. apply rng_in64, rng_pos in H. lra. Qed.

  Definition corI (l t : double) : double := ndiv (sq t) (nadd (sq t) (nmul alpha (sq l))).

  Lemma rng_rel : forall c x X a b, relr c x X -> rng a b X -> rng (a - 1) (b + 1) x.
  Proof.
    intros c x X a b H G. assert (S := rel_small eps E0 E1 _ _ _ H). assert (P := rng_pos _ _ _ G). destruct G as [G1 G2]. unfold Z.sub.
    assert (B1 : bpow radix2 (a + Z.opp 1) = bpow radix2 a * / 2) by (rewrite bpow_plus; f_equal; cbn; lra). assert (B2 : bpow radix2 (b + 1) = bpow radix2 b * 2) by (rewrite bpow_plus; f_equal).
    assert (BP := bpow_gt_0 radix2 a). unfold rng. rewrite B1, B2. lra.
  Qed.

  Lemma corB_self : forall l t, finite l -> finite t -> rng (-85) 67 (val l) -> rng (-65) 65 (val t) -> rel 15 (corF alpha l t) (ratio (val alpha) (val l) (val t)).
  Proof.
    intros l t Fl Ft GL GT. assert (LP := rng_pos _ _ _ GL). assert (TP := rng_pos _ _ _ GT).
    assert (RL := rel_exact eps l Fl LP). assert (RT := rel_exact eps t Ft TP).
    assert (GLL := rng_mul _ _ _ _ _ _ GL GL). assert (GTT := rng_mul _ _ _ _ _ _ GT GT). cbn [Z.add] in GLL, GTT.
    assert (RLL := rel_mul eps E0 E1 _ _ _ _ _ _ RL RL (rng_mid _ _ _ GLL ltac:(lia) ltac:(lia)) ltac:(lra)).
    assert (RTT := rel_mul eps E0 E1 _ _ _ _ _ _ RT RT (rng_mid _ _ _ GTT ltac:(lia) ltac:(lia)) ltac:(lra)).
    assert (O1 := rel_const eps 1 ltac:(lia)). set (L := val l) in *. set (H := val t) in *.
    assert (TT : 0 < H * H) by (apply Rmult_lt_0_compat; assumption).
    destruct VA as [V0|VA'].
    - assert (CR : ratio (val alpha) L H = 1) by (unfold ratio; rewrite V0; field; lra). assert (SLL := rel_small eps E0 E1 _ _ _ (proj2 RLL)). assert (STT := rel_small eps E0 E1 _ _ _ (proj2 RTT)).
      destruct (fl_mul alpha (nmul l l) FA (proj1 RLL)) as [F1 W1]; [rewrite V0, Rmult_0_l, Rabs_R0; left; apply bpow_gt_0|]. rewrite V0, Rmult_0_l, rnd_0 in W1.
      destruct (fl_div _ (nmul t t) F1 (proj1 RTT)) as [F2 W2]; [lra|rewrite W1; unfold Rdiv; rewrite Rmult_0_l, Rabs_R0; left; apply bpow_gt_0|].
      rewrite W1 in W2. unfold Rdiv in W2. rewrite Rmult_0_l, rnd_0 in W2.
      destruct (fl_ofZ 1 ltac:(lia)) as [F3 W3]. assert (B1 : 1 <= bpow radix2 1000) by (change 1 with (bpow radix2 0); apply bpow_le; lia).
      destruct (fl_add (nofZ 1) _ F3 F2) as [F4 W4]; [rewrite W2, W3, Rplus_0_r, Rabs_R1; exact B1|]. rewrite W2, Rplus_0_r, (rnd_val _ F3), W3 in W4.
      destruct (fl_div (nofZ 1) _ F3 F4) as [F5 W5]; [rewrite W4; lra|rewrite W3, W4; unfold Rdiv; rewrite Rinv_1, Rmult_1_r, Rabs_R1; exact B1|].
      rewrite W4 in W5. unfold Rdiv in W5. rewrite Rinv_1, Rmult_1_r, (rnd_val _ F3), W3 in W5.
      rewrite CR. split; [exact F5|]. unfold corF, sq. rewrite W5. split; [lra|]. split; [lra|]. unfold Rminus. rewrite Rplus_opp_r, Rabs_R0. apply Rmult_le_pos; [|lra]. apply Rmult_le_pos; lra.
    - assert (GA := rng_in64 _ VA'). assert (AP := rng_pos _ _ _ GA).
      assert (GN := rng_mul _ _ _ _ _ _ GA GLL). cbn [Z.add] in GN.
      assert (RN := rel_mul eps E0 E1 _ _ _ _ _ _ (rel_exact eps alpha FA AP) RLL (rng_mid _ _ _ GN ltac:(lia) ltac:(lia)) ltac:(lra)).
      assert (GF := rng_div _ _ _ _ _ _ GN GTT). cbn in GF.
      assert (RF := rel_div eps E0 E1 _ _ _ _ _ _ RN RTT (rng_mid _ _ _ GF ltac:(lia) ltac:(lia)) ltac:(lra)).
      assert (GS := rng_1p _ _ _ GF ltac:(lia)). cbn in GS.
      assert (RS := rel_add eps E0 E1 _ _ _ _ _ (rel_mono eps E0 _ (0 + (0 + 0 + 2) + 2 + (0 + 0 + 2) + 5 / 2) _ _ O1 ltac:(lra)) RF (rng_mid _ _ _ GS ltac:(lia) ltac:(lia)) ltac:(lra)).
      assert (GD := rng_div _ _ _ _ _ _ rng_one GS). cbn in GD.
      assert (RD := rel_div eps E0 E1 _ _ _ _ _ _ O1 RS (rng_mid _ _ _ GD ltac:(lia) ltac:(lia)) ltac:(lra)).
      assert (LL : 0 <= val alpha * (L * L)) by (apply Rmult_le_pos; [lra|apply Rle_0_sqr]).
      replace (ratio (val alpha) L H) with (1 / (1 + val alpha * (L * L) / (H * H))) by (unfold ratio; field; split; lra).
      apply (rel_mono eps E0 _ 15 _ _ RD); lra.
  Qed.
  Lemma corI_self : forall l t, finite l -> finite t -> rng (-85) 67 (val l) -> rng (-65) 65 (val t) -> rel 15 (corI l t) (ratio (val alpha) (val l) (val t)).
  Proof.
    intros l t Fl Ft GL GT. assert (LP := rng_pos _ _ _ GL). assert (TP := rng_pos _ _ _ GT).
    assert (RL := rel_exact eps l Fl LP). assert (RT := rel_exact eps t Ft TP).
    assert (GLL := rng_mul _ _ _ _ _ _ GL GL). assert (GTT := rng_mul _ _ _ _ _ _ GT GT). cbn [Z.add] in GLL, GTT.
    assert (RLL := rel_mul eps E0 E1 _ _ _ _ _ _ RL RL (rng_mid _ _ _ GLL ltac:(lia) ltac:(lia)) ltac:(lra)).
    assert (RTT := rel_mul eps E0 E1 _ _ _ _ _ _ RT RT (rng_mid _ _ _ GTT ltac:(lia) ltac:(lia)) ltac:(lra)).
    set (L := val l) in *. set (H := val t) in *. assert (TT : 0 < H * H) by (apply Rmult_lt_0_compat; assumption).
    destruct VA as [V0|VA'].
    - assert (CR : ratio (val alpha) L H = 1) by (unfold ratio; rewrite V0; field; lra). assert (STT := rel_small eps E0 E1 _ _ _ (proj2 RTT)).
      destruct (fl_mul alpha (nmul l l) FA (proj1 RLL)) as [F1 W1]; [rewrite V0, Rmult_0_l, Rabs_R0; left; apply bpow_gt_0|]. rewrite V0, Rmult_0_l, rnd_0 in W1.
      assert (MT := mid_1000 eps E0 E1 _ _ _ (proj2 RTT) (rng_mid _ _ _ GTT ltac:(lia) ltac:(lia))).
      destruct (fl_add (nmul t t) _ (proj1 RTT) F1) as [F4 W4]; [rewrite W1, Rplus_0_r; exact MT|]. rewrite W1, Rplus_0_r, (rnd_val _ (proj1 RTT)) in W4.
      assert (B1 : 1 <= bpow radix2 1000) by (change 1 with (bpow radix2 0); apply bpow_le; lia).
      assert (Q1 : val (nmul t t) / val (nmul t t) = 1) by (field; lra).
      destruct (fl_div (nmul t t) _ (proj1 RTT) F4) as [F5 W5]; [rewrite W4; lra|rewrite W4, Q1, Rabs_R1; exact B1|].
      destruct (fl_ofZ 1 ltac:(lia)) as [F3 W3]. rewrite W4, Q1 in W5. replace (rnd 1) with 1 in W5 by (rewrite <- W3 at 2; rewrite (rnd_val _ F3); symmetry; exact W3).
      rewrite CR. split; [exact F5|]. unfold corI, sq. rewrite W5. split; [lra|]. split; [lra|]. unfold Rminus. rewrite Rplus_opp_r, Rabs_R0. apply Rmult_le_pos; [|lra]. apply Rmult_le_pos; lra.
    - assert (GA := rng_in64 _ VA'). assert (AP := rng_pos _ _ _ GA).
      assert (GN := rng_mul _ _ _ _ _ _ GA GLL). cbn [Z.add] in GN.
      assert (RN := rel_mul eps E0 E1 _ _ _ _ _ _ (rel_exact eps alpha FA AP) RLL (rng_mid _ _ _ GN ltac:(lia) ltac:(lia)) ltac:(lra)).
      assert (LL := rng_pos _ _ _ GN).
      assert (GS : rng (-130) 199 (H * H + val alpha * (L * L))).
      { destruct (rng_le _ _ (-130) 130 _ GTT ltac:(lia) ltac:(lia)) as [T1 T2]. destruct (rng_le _ _ (-240) 198 _ GN ltac:(lia) ltac:(lia)) as [N1 N2]. split; [lra|]. replace 199%Z with (1 + 198)%Z by lia. rewrite bpow_plus. replace (bpow radix2 1) with 2 by reflexivity.
        assert (bpow radix2 130 <= bpow radix2 198) by (apply bpow_le; lia). lra. }
      assert (RS := rel_add eps E0 E1 _ _ _ _ _ (rel_mono eps E0 _ (0 + (0 + 0 + 2) + 2) _ _ RTT ltac:(lra)) RN (rng_mid _ _ _ GS ltac:(lia) ltac:(lia)) ltac:(lra)).
      assert (GD := rng_div _ _ _ _ _ _ GTT GS). cbn in GD.
      assert (RD := rel_div eps E0 E1 _ _ _ _ _ _ RTT RS (rng_mid _ _ _ GD ltac:(lia) ltac:(lia)) ltac:(lra)).
      apply (rel_mono eps E0 _ 15 _ _ RD); lra.
  Qed.
  Lemma cor_lip : forall g l L t H, rel 92 l L -> rel 143 t H -> rel 15 g (ratio (val alpha) (val l) (val t)) -> nearF h rho s delta gb2 g (ratio (val alpha) L H).
  Proof.
    intros g l L t H [_ RL] [_ RT] [Fg [_ [_ Dg]]]. assert (STT := rel_small eps E0 E1 _ _ _ RT).
    assert (LIP := ratio_lip (val alpha) _ _ _ _ _ _ al_pos RL RT). assert (TP := proj1 RT).
    destruct (ratio_bd (val alpha) (val l) (val t) al_pos ltac:(lra)) as [B1 B2]. destruct (ratio_bd (val alpha) L H al_pos TP) as [B3 B4].
    assert (R1 := sl_rho _ _ _ _ SL). assert (DP := d_pos _ _ _ _ SL). fold delta in DP.
    split; [exact Fg|]. unfold near, gb2; cbn [fv frv fd frd fh fs pow]. unfold sc; cbn [fh fs pow powerRZ].
    replace (Q2R 490) with 490 by (unfold Q2R; cbn; lra). rewrite Q2R_1. split; [lia|]. split; [lra|]. split; [lra|]. split; [rewrite Rabs_right; lra|].
    assert (X : 15 * eps * ratio (val alpha) (val l) (val t) <= 15 * eps * 1) by (apply Rmult_le_compat_l; lra).
    apply Rle_trans with (490 * eps); [|unfold eps; right; ring]. apply abs_split in Dg, LIP. apply abs_join; lra.
  Qed.
  Lemma corB_near : forall l L t H, rel 92 l L -> rng (-84) 66 L -> rel 143 t H -> rng (-64) 64 H -> nearF h rho s delta gb2 (corF alpha l t) (corR alpha L H).
  Proof.
    intros l L t H RL GL RT GT. assert (LP := rng_pos _ _ _ GL). assert (TP := rng_pos _ _ _ GT).
    assert (TT : 0 < H * H) by (apply Rmult_lt_0_compat; assumption). assert (LL : 0 <= val alpha * (L * L)) by (apply Rmult_le_pos; [apply al_pos|apply Rle_0_sqr]).
    replace (corR alpha L H) with (ratio (val alpha) L H) by (unfold ratio, corR; field; split; lra).
    apply (cor_lip _ l L t H RL RT). apply corB_self; [apply RL|apply RT|apply (rng_rel 92 _ L (-84) 66 (proj2 RL) GL)|apply (rng_rel 143 _ H (-64) 64 (proj2 RT) GT)].
  Qed.
  Lemma corI_near : forall l L t H, rel 92 l L -> rng (-84) 66 L -> rel 143 t H -> rng (-64) 64 H -> nearF h rho s delta gb2 (corI l t) (ratio (val alpha) L H).
  Proof.
    intros l L t H RL GL RT GT. apply (cor_lip _ l L t H RL RT). apply corI_self; [apply RL|apply RT|apply (rng_rel 92 _ L (-84) 66 (proj2 RL) GL)|apply (rng_rel 143 _ H (-64) 64 (proj2 RT) GT)].
  Qed.

  (** ** Products and minima *)
  Lemma fke_near : forall k K e E f F, nearF h rho s delta kbb k K -> nearF h rho s delta ebb e E -> nearF h rho s delta gb2 f F ->
    nearF h rho s delta shb2 (nmul f (nmul k e)) (F * (K * E)).
  Proof.
    intros k K e E f F HK HE HF.
    assert (HV : forall i, nearF h rho s delta (p3_leaf i) (nth i [k; e] f) (nth i [K; E] F)) by (intros [|[|[|i]]]; assumption).
    exact (within_ok h rho s delta SL p3_leaf noinv _ _ HV (noinv_ok _ _ _ _ _ _) prod3 shb2 ltac:(vm_compute; reflexivity)).
  Qed.
  Lemma min_near : forall b x y X Y, nearF h rho s delta b x X -> nearF h rho s delta b y Y -> nearF h rho s delta b (nmin2 x y) (nmin2 X Y).
  Proof.
    intros b x y X Y [F1 [P1 [P2 [P3 [A1 D1]]]]] [F2 [_ [_ [_ [A2 D2]]]]]. rewrite nmin2_Rmin. unfold nmin2.
    set (e := delta * _ * _ * _) in *. destruct (nltb y x) eqn:B.
    - split; [exact F2|]. apply fl_ltb in B; [|exact F2|exact F1]. split; [exact P1|]. split; [exact P2|]. split; [exact P3|]. fold e. unfold Rmin. destruct (Rle_dec X Y); (split; [assumption|]); apply abs_split in D1, D2; apply abs_join; lra.
    - split; [exact F1|]. assert (NB : ~ val y < val x) by (intros Z; apply (fl_ltb y x F2 F1) in Z; congruence). split; [exact P1|]. split; [exact P2|]. split; [exact P3|]. fold e. unfold Rmin. destruct (Rle_dec X Y); (split; [assumption|]); apply abs_split in D1, D2; apply abs_join; lra.
  Qed.

  (** ** Weighted means *)
  Lemma self_b : forall q x, finite x -> Rabs (val x) <= s ^ q -> nearF h rho s delta (Fb 1 0 0 0 0 q) x (val x).
  Proof. intros q x F B. split; [exact F|]. apply (near_self _ _ _ _ SL); cbn [fv frv fd frd]; try lia; rewrite ?Q2R_1, ?RMicromega.Q2R_0; try lra. unfold sc; cbn [fh fs]. cbn [powerRZ pow]. lra. Qed.
  Lemma lin_near : forall tree q, (tree = ln3 \/ tree = ln4 \/ tree = EV 0) -> (q = 0 \/ q = 1)%nat -> forall a b c d, (forall x, In x [a; b; c; d] -> finite x /\ Rabs (val x) <= s ^ q) ->
    nearF h rho s delta (Fb (Qmake 33 32) 0 150 1 0 q) (evalG L0F (fun i => nth i [a; b; c] d) tree) (evalG L0R (fun i => nth i [val a; val b; val c] (val d)) tree).
  Proof.
    intros tree q HT HQ a b c d H.
    apply (within_ok h rho s delta SL (fun _ => Fb 1 0 0 0 0 q) noinv).
    - intros i. assert (G : forall x, In x [a; b; c; d] -> nearF h rho s delta (Fb 1 0 0 0 0 q) x (val x)) by (intros x Hx; destruct (H x Hx); apply self_b; assumption).
      destruct i as [|[|[|[|i]]]]; cbn [nth]; apply G; cbn; tauto.
    - apply noinv_ok.
    - destruct HQ as [-> | ->]; destruct HT as [-> | [-> | ->]]; vm_compute; reflexivity.
  Qed.

  Lemma wt_rel : forall p q, (0 < p <= q)%Z -> (q <= 12)%Z -> rel 3 (ndiv (nofZ p) (nofZ q)) (IZR p / IZR q).
  Proof.
    intros p q P Q. apply (rel_mono eps E0 (0 + 0 + 5 / 2)); [|lra]. apply (rel_div eps E0 E1); [apply (rel_const eps p); lia|apply (rel_const eps q); lia| |lra].
    assert (1 <= IZR p) by (apply IZR_le; lia). assert (IZR p <= IZR q) by (apply IZR_le; lia). assert (IZR q <= 12) by (apply IZR_le; lia).
    apply (rng_mid (-4) 0); [|lia|lia]. split.
    - cbn. apply Rmult_le_reg_r with (IZR q); [lra|]. unfold Rdiv. rewrite Rmult_assoc, Rinv_l by lra. lra.
    - cbn. apply Rmult_le_reg_r with (IZR q); [lra|]. unfold Rdiv. rewrite Rmult_assoc, Rinv_l by lra. lra.
  Qed.
  Lemma mean3 : forall a b c A B C, rel 0 a A -> rel 0 b B -> rel 0 c C -> rng (-64) 64 A -> rng (-64) 64 B -> rng (-64) 64 C ->
    rel 143 (AddK0s.lin3 (ndiv (nofZ 4) (nofZ 9)) (ndiv (nofZ 4) (nofZ 9)) (ndiv (nofZ 1) (nofZ 9)) a b c) (4 / 9 * A + 4 / 9 * B + 1 / 9 * C) /\ rng (-64) 64 (4 / 9 * A + 4 / 9 * B + 1 / 9 * C).
  Proof.
    intros a b c A B C RA RB RC GA GB GC. assert (T4 := wt_rel 4 9 ltac:(lia) ltac:(lia)). assert (T1 := wt_rel 1 9 ltac:(lia) ltac:(lia)). unfold AddK0s.lin3.
    assert (LO := bpow_gt_0 radix2 (-64)). assert (EL : bpow radix2 (-68) = / 16 * bpow radix2 (-64)) by (replace (-68)%Z with (-4 + -64)%Z by lia; rewrite bpow_plus; cbn; lra).
    destruct GA as [A1 A2], GB as [B1 B2], GC as [C1 C2].
    assert (M : forall X, / 16 * bpow radix2 (-64) <= X <= bpow radix2 64 -> mid_range X) by (intros X HX; apply (rng_mid (-68) 64); [split; lra|lia|lia]).
    assert (TA := rel_mul eps E0 E1 _ _ _ _ _ _ T4 RA (M (4 / 9 * A) ltac:(lra)) ltac:(lra)).
    assert (TB := rel_mul eps E0 E1 _ _ _ _ _ _ T4 RB (M (4 / 9 * B) ltac:(lra)) ltac:(lra)).
    assert (TC := rel_mul eps E0 E1 _ _ _ _ _ _ T1 RC (M (1 / 9 * C) ltac:(lra)) ltac:(lra)).
    assert (S1 := rel_add eps E0 E1 _ _ _ _ _ TA TB (M (4 / 9 * A + 4 / 9 * B) ltac:(lra)) ltac:(lra)).
    assert (S2 := rel_add eps E0 E1 _ _ _ _ _ S1 (rel_mono eps E0 _ (3 + 0 + 2 + 2) _ _ TC ltac:(lra)) (M (4 / 9 * A + 4 / 9 * B + 1 / 9 * C) ltac:(lra)) ltac:(lra)).
    split; [|split; lra]. apply (rel_mono eps E0 _ 143 _ _ S2). lra.
  Qed.
  Lemma mean4 : forall a b c d A B C D, rel 0 a A -> rel 0 b B -> rel 0 c C -> rel 0 d D -> rng (-64) 64 A -> rng (-64) 64 B -> rng (-64) 64 C -> rng (-64) 64 D ->
    rel 143 (AddK0s.lin4 (ndiv (nofZ 5) (nofZ 12)) (ndiv (nofZ 5) (nofZ 12)) (ndiv (nofZ 1) (nofZ 12)) (ndiv (nofZ 1) (nofZ 12)) a b c d) (5 / 12 * A + 5 / 12 * B + 1 / 12 * C + 1 / 12 * D) /\
    rng (-64) 64 (5 / 12 * A + 5 / 12 * B + 1 / 12 * C + 1 / 12 * D).
  Proof.
    intros a b c d A B C D RA RB RC RD GA GB GC GD. assert (T4 := wt_rel 5 12 ltac:(lia) ltac:(lia)). assert (T1 := wt_rel 1 12 ltac:(lia) ltac:(lia)). unfold AddK0s.lin4.
    assert (LO := bpow_gt_0 radix2 (-64)). assert (EL : bpow radix2 (-68) = / 16 * bpow radix2 (-64)) by (replace (-68)%Z with (-4 + -64)%Z by lia; rewrite bpow_plus; cbn; lra).
    destruct GA as [A1 A2], GB as [B1 B2], GC as [C1 C2], GD as [D1 D2].
    assert (M : forall X, / 16 * bpow radix2 (-64) <= X <= bpow radix2 64 -> mid_range X) by (intros X HX; apply (rng_mid (-68) 64); [split; lra|lia|lia]).
    assert (TA := rel_mul eps E0 E1 _ _ _ _ _ _ T4 RA (M (5 / 12 * A) ltac:(lra)) ltac:(lra)).
    assert (TB := rel_mul eps E0 E1 _ _ _ _ _ _ T4 RB (M (5 / 12 * B) ltac:(lra)) ltac:(lra)).
    assert (TC := rel_mul eps E0 E1 _ _ _ _ _ _ T1 RC (M (1 / 12 * C) ltac:(lra)) ltac:(lra)).
    assert (TD := rel_mul eps E0 E1 _ _ _ _ _ _ T1 RD (M (1 / 12 * D) ltac:(lra)) ltac:(lra)).
    assert (S1 := rel_add eps E0 E1 _ _ _ _ _ TA TB (M (5 / 12 * A + 5 / 12 * B) ltac:(lra)) ltac:(lra)).
    assert (S2 := rel_add eps E0 E1 _ _ _ _ _ S1 (rel_mono eps E0 _ (3 + 0 + 2 + 2) _ _ TC ltac:(lra)) (M (5 / 12 * A + 5 / 12 * B + 1 / 12 * C) ltac:(lra)) ltac:(lra)).
    assert (S3 := rel_add eps E0 E1 _ _ _ _ _ S2 (rel_mono eps E0 _ (3 + 0 + 2 + 2 + 2) _ _ TD ltac:(lra)) (M (5 / 12 * A + 5 / 12 * B + 1 / 12 * C + 1 / 12 * D) ltac:(lra)) ltac:(lra)).
    split; [|split; lra]. apply (rel_mono eps E0 _ 143 _ _ S3). lra.
  Qed.

  (** ** Means weighted by the areas *)
  Section Areas.
    Variables (ac a1 a2 : double) (A A1 A2 : R).
    Hypothesis Fa : finite ac.
    Hypothesis Da : Rabs (val ac - A) <= 30 * (delta * (h * h)).
    Hypothesis F1 : finite a1.
    Hypothesis D1 : Rabs (val a1 - A1) <= 30 * (delta * (h * h)).
    Hypothesis F2 : finite a2.
    Hypothesis D2 : Rabs (val a2 - A2) <= 30 * (delta * (h * h)).
    Hypothesis SA : A = A1 + A2.
    Hypothesis L1 : h * h <= 3 * (rho * A1).
    Hypothesis L2 : h * h <= 3 * (rho * A2).
    Hypothesis U1 : A1 <= h * h / 3.
    Hypothesis U2 : A2 <= h * h / 3.

    Let HP := h_pos _ _ _ _ SL.
    Let R1 := sl_rho _ _ _ _ SL.
    Let DP : 0 < delta := d_pos _ _ _ _ SL.
    Lemma hh_pos : 0 < h * h. Proof. apply Rmult_lt_0_compat; exact HP. Qed.
    Lemma area_pos : forall X, h * h <= 3 * (rho * X) -> 0 < X.
    Proof. intros X HX. assert (P := hh_pos). apply Rmult_lt_reg_l with rho; lra. Qed.
    Lemma area_rel : forall c x X, finite x -> Rabs (val x - X) <= 30 * (delta * (h * h)) -> 30 * (h * h) <= c * (rho * X) -> h * h <= 3 * (rho * X) -> 0 <= c <= 200 -> rel c x X.
    Proof.
      intros c x X Fx Dx LX L3 C. assert (XP := area_pos X L3). split; [exact Fx|]. split; [exact XP|]. split; [exact C|]. eapply Rle_trans; [exact Dx|].
      apply Rle_trans with (delta * (30 * (h * h))); [right; ring|]. apply Rle_trans with (delta * (c * (rho * X))); [apply Rmult_le_compat_l; lra|]. unfold eps. right; ring.
    Qed.
    Let P1 : 0 < A1 := area_pos A1 L1.
    Let P2 : 0 < A2 := area_pos A2 L2.

    Lemma div_near : forall q x X, (q = 0 \/ q = 1)%nat -> nearF h rho s delta (numb q) x X -> Rabs X <= A * s ^ q ->
      nearF h rho s delta (Fb (Qmake 33 32) 0 150 1 0 q) (ndiv x ac) (X / A).
    Proof.
      intros q x X HQ [Fx [_ [_ [_ [_ BX]]]]] VX. assert (AP : 0 < A) by lra. assert (HH := hh_pos).
      unfold numb, sc in BX; cbn [fv frv fd frd fh fs pow] in BX. change (powerRZ h 2) with (h * (h * 1)) in BX. replace (Q2R 65) with 65 in BX by (unfold Q2R; cbn; lra).
      set (S := s ^ q) in *.
      assert (GS : rng (-64) 64 S).
      { assert (SG : rng (-64) 64 s) by apply (rng_in64 _ (sl_s _ _ _ _ SL)). unfold S. destruct HQ as [-> | ->]; [apply (rng_le 0 0); [apply rng_one|lia|lia]|rewrite pow_1; exact SG]. }
      assert (SP := rng_pos _ _ _ GS).
      assert (RA := area_rel 46 ac A Fa Da ltac:(rewrite SA; lra) ltac:(rewrite SA; lra) ltac:(lra)). assert (SM := rel_small eps E0 E1 _ _ _ (proj2 RA)).
      set (a := val ac) in *. assert (ap : 0 < a) by lra.
      assert (DH : delta * (h * h) <= 3 / 2 * (eps * A)) by (unfold eps; apply Rle_trans with (delta * (3 / 2 * (rho * A))); [apply Rmult_le_compat_l; [lra|]; rewrite SA; lra|right; ring]).
      assert (DHS : delta * (h * h) * S <= 3 / 2 * (eps * A) * S) by (apply Rmult_le_compat_r; lra).
      assert (BX' : Rabs (val x - X) <= 65 * (delta * (h * h) * S)) by (eapply Rle_trans; [exact BX|]; right; ring).
      assert (ESA : 0 < eps * S) by (apply Rmult_lt_0_compat; assumption). assert (ASP : 0 < A * S) by (apply Rmult_lt_0_compat; assumption).
      assert (Q : Rabs (val x / a - X / A) <= 145 * (eps * S)).
      { replace (val x / a - X / A) with (((val x - X) * A + X * (A - a)) / (a * A)) by (field; lra). unfold Rdiv. rewrite Rabs_mult, Rabs_inv, (Rabs_right (a * A)) by (apply Rle_ge, Rmult_le_pos; lra).
        apply Rmult_le_reg_r with (a * A); [apply Rmult_lt_0_compat; lra|]. rewrite Rmult_assoc, Rinv_l by (apply Rgt_not_eq, Rmult_lt_0_compat; lra). rewrite Rmult_1_r.
        assert (Y1 : Rabs ((val x - X) * A) <= 65 * (3 / 2 * (eps * A) * S) * A) by (rewrite Rabs_mult, (Rabs_right A) by lra; apply Rmult_le_compat_r; lra).
        assert (Y2 : Rabs (X * (A - a)) <= A * S * (30 * (3 / 2 * (eps * A)))).
        { rewrite Rabs_mult. apply Rmult_le_compat; [apply Rabs_pos|apply Rabs_pos|exact VX|]. rewrite Rabs_minus_sym. lra. }
        apply Rle_trans with (285 / 2 * (eps * S) * (A * A)); [|].
        - replace (285 / 2 * (eps * S) * (A * A)) with (65 * (3 / 2 * (eps * A) * S) * A + A * S * (30 * (3 / 2 * (eps * A)))) by field. apply abs_split in Y1, Y2. apply abs_join; lra.
        - replace (145 * (eps * S) * (a * A)) with (145 * a * (eps * S * A)) by ring. replace (285 / 2 * (eps * S) * (A * A)) with (285 / 2 * A * (eps * S * A)) by field. apply Rmult_le_compat_r; [apply Rmult_le_pos; lra|lra]. }
      assert (XA : Rabs (X / A) <= S).
      { unfold Rdiv. rewrite Rabs_mult, Rabs_inv, (Rabs_right A) by lra. apply Rmult_le_reg_r with A; [exact AP|]. rewrite Rmult_assoc, Rinv_l by lra. lra. }
      assert (EPS : eps * S <= / 1048576 * S) by (apply Rmult_le_compat_r; lra).
      assert (XV : Rabs (val x / a) <= 2 * S) by (apply abs_split in Q, XA; apply abs_join; lra).
      assert (B2 : 2 * S <= bpow radix2 1000) by (apply Rle_trans with (2 * bpow radix2 64); [destruct GS; lra|]; replace 2 with (bpow radix2 1) by reflexivity; rewrite <- bpow_plus; apply bpow_le; lia).
      destruct (fl_div x ac Fx Fa) as [FD VD]; [fold a; lra|fold a; lra|]. fold a in VD.
      split; [exact FD|]. unfold near, sc; cbn [fv frv fd frd fh fs pow]. fold S. change (powerRZ h 0) with 1. replace (Q2R 150) with 150 by (unfold Q2R; cbn; lra). replace (Q2R (Qmake 33 32)) with (33 / 32) by (unfold Q2R; cbn; lra).
      split; [lia|]. split; [lra|]. split; [lra|]. split; [lra|].
      rewrite VD. assert (RE := rnd_err (val x / a)).
      assert (W1 : roundoff * Rabs (val x / a) <= eps * (2 * S)) by (apply Rmult_le_compat; try lra; [unfold roundoff; lra|apply Rabs_pos]).
      assert (ET : eta <= eps * S).
      { eapply Rle_trans; [exact eta_small|]. assert (bpow radix2 (-400) <= S) by (eapply Rle_trans; [|apply GS]; apply bpow_le; lia). assert (0 < bpow radix2 (-400)) by apply bpow_gt_0.
        apply Rmult_le_compat; unfold roundoff in *; lra. }
      apply Rle_trans with (150 * (eps * S)); [|unfold eps; right; ring]. apply abs_split in RE, Q. apply abs_join; lra.
    Qed.
    Lemma meanA_near : forall q x y, (q = 0 \/ q = 1)%nat -> (forall z, In z [x; y] -> finite z /\ Rabs (val z) <= s ^ q) ->
      nearF h rho s delta (Fb (Qmake 33 32) 0 150 1 0 q) (ndiv (nadd (nmul a1 x) (nmul a2 y)) ac) ((A1 * val x + A2 * val y) / A).
    Proof.
      intros q x y HQ H. destruct (H x (or_introl eq_refl)) as [Fx Bx]. destruct (H y (or_intror (or_introl eq_refl))) as [Fy By]. apply div_near; [exact HQ| |].
      - assert (HV : forall i, nearF h rho s delta (nA_leaf q i) (nth i [a1; a2; x] y) (nth i [A1; A2; val x] (val y))).
        { intros [|[|[|[|i]]]]; cbn [nth nA_leaf]; try (apply area3_near; [assumption|assumption|lra]); apply self_b; assumption. }
        refine (within_ok h rho s delta SL (nA_leaf q) noinv _ _ HV (noinv_ok _ _ _ _ _ _) lnA (numb q) _). destruct HQ as [-> | ->]; vm_compute; reflexivity.
      - set (S := s ^ q) in *. rewrite SA.
        assert (Y1 : Rabs (A1 * val x) <= A1 * S) by (rewrite Rabs_mult, (Rabs_right A1) by lra; apply Rmult_le_compat_l; lra).
        assert (Y2 : Rabs (A2 * val y) <= A2 * S) by (rewrite Rabs_mult, (Rabs_right A2) by lra; apply Rmult_le_compat_l; lra).
        apply abs_split in Y1, Y2. apply abs_join; lra.
    Qed.
    Lemma area_rng : forall X, h * h <= 3 * (rho * X) -> X <= h * h -> rng (-147) 128 X.
    Proof.
      intros X LX UX. assert (HR := h_rng h rho s kappa SL). assert (RR := rho_rng h rho s kappa SL). assert (H2 := rng_mul _ _ _ _ _ _ HR HR). assert (D := rng_div _ _ _ _ _ _ H2 RR). cbn [Z.add Z.sub Z.opp] in D, H2.
      assert (Q : / 4 * (h * h / rho) <= X) by (apply Rmult_le_reg_l with (3 * rho); [lra|]; replace (3 * rho * (/ 4 * (h * h / rho))) with (3 / 4 * (h * h)) by (field; lra); assert (P := hh_pos); lra).
      destruct (rng_le _ _ (-145) 128 _ D ltac:(lia) ltac:(lia)) as [G1 _]. destruct (rng_le _ _ (-128) 128 _ H2 ltac:(lia) ltac:(lia)) as [_ G2]. split; [|lra]. eapply Rle_trans; [|exact Q]. replace (-147)%Z with (-2 + -145)%Z by lia. rewrite bpow_plus. replace (bpow radix2 (-2)) with (/ 4) by (cbn; lra). apply Rmult_le_compat_l; [lra|exact G1].
    Qed.
    Lemma meanA_rel : forall x y X Y, rel 0 x X -> rel 0 y Y -> rng (-64) 64 X -> rng (-64) 64 Y -> rel 143 (ndiv (nadd (nmul a1 x) (nmul a2 y)) ac) ((A1 * X + A2 * Y) / A) /\ rng (-64) 64 ((A1 * X + A2 * Y) / A).
    Proof.
      intros x y X Y RX RY GX GY. assert (HH := hh_pos).
      assert (R1' := area_rel 90 a1 A1 F1 D1 ltac:(lra) L1 ltac:(lra)). assert (R2' := area_rel 90 a2 A2 F2 D2 ltac:(lra) L2 ltac:(lra)).
      assert (RA := area_rel 45 ac A Fa Da ltac:(rewrite SA; lra) ltac:(rewrite SA; lra) ltac:(lra)).
      assert (G1 := area_rng A1 L1 ltac:(lra)). assert (G2 := area_rng A2 L2 ltac:(lra)). assert (GA := area_rng A ltac:(rewrite SA; lra) ltac:(rewrite SA; lra)).
      assert (GP1 := rng_mul _ _ _ _ _ _ G1 GX). assert (GP2 := rng_mul _ _ _ _ _ _ G2 GY). cbn [Z.add] in GP1, GP2.
      assert (M1 := rel_mul eps E0 E1 _ _ _ _ _ _ R1' RX (rng_mid _ _ _ GP1 ltac:(lia) ltac:(lia)) ltac:(lra)).
      assert (M2 := rel_mul eps E0 E1 _ _ _ _ _ _ R2' RY (rng_mid _ _ _ GP2 ltac:(lia) ltac:(lia)) ltac:(lra)).
      assert (GS : rng (-211) 193 (A1 * X + A2 * Y)).
      { assert (Q1 := rng_pos _ _ _ GP1). assert (Q2 := rng_pos _ _ _ GP2). destruct (rng_le _ _ (-211) 192 _ GP1 ltac:(lia) ltac:(lia)) as [X1 X2]. destruct (rng_le _ _ (-211) 192 _ GP2 ltac:(lia) ltac:(lia)) as [Y1 Y2]. split; [lra|].
        replace 193%Z with (1 + 192)%Z by lia. rewrite bpow_plus. replace (bpow radix2 1) with 2 by reflexivity. lra. }
      assert (RS := rel_add eps E0 E1 _ _ _ _ _ M1 M2 (rng_mid _ _ _ GS ltac:(lia) ltac:(lia)) ltac:(lra)).
      assert (AP : 0 < A) by lra.
      assert (GQ : rng (-64) 64 ((A1 * X + A2 * Y) / A)).
      { destruct GX as [X1 X2]. destruct GY as [Y1 Y2].
        assert (Z1 : A1 * bpow radix2 (-64) <= A1 * X <= A1 * bpow radix2 64) by (split; apply Rmult_le_compat_l; lra). assert (Z2 : A2 * bpow radix2 (-64) <= A2 * Y <= A2 * bpow radix2 64) by (split; apply Rmult_le_compat_l; lra).
        split; (apply Rmult_le_reg_r with A; [exact AP|]); unfold Rdiv; rewrite Rmult_assoc, Rinv_l, Rmult_1_r by lra; rewrite SA; lra. }
      split; [|exact GQ]. apply (rel_mono eps E0 (90 + 0 + 2 + 2 + 45 + 5 / 2)); [|lra]. apply (rel_div eps E0 E1); [exact RS|exact RA|apply (rng_mid _ _ _ GQ); lia|lra].
    Qed.
  End Areas.
End Stiff.
