(** Rounding errors of the shear stiffness of a triangle. *)
From Coq Require Import ZArith Reals List Bool Arith Lra Lia QArith Qreals.
From Flocq Require Import Core.
From Verif Require Import Num Float Py Mesh Utils CalcK0 AddK0s Spec SpecRound SpecRound2 FFloat FTree FRound FRound2 FRound3 FRound4 FRound5 FRound6 FRound14 FRound16 FRound17.
Import ListNotations.
Local Open Scope R_scope.

Definition gb : fb := Fb 1 0 99 1 0 0.
Definition kb : fb := Fb 1 0 0 0 0 0.
Definition exb1 : fb := Fb 1 0 0 0 0 1.
Definition third_ : expr := ndiv (nofZ 1) (nofZ 3).
Definition st1 : expr := nmul (EV 6) (nmul (EV 0) (EV 3)).
Definition st3 : expr := nmul (EV 6) (nmul (AddK0s.lin3 third_ third_ third_ (EV 0) (EV 1) (EV 2)) (AddK0s.lin3 third_ third_ third_ (EV 3) (EV 4) (EV 5))).
Definition st_leaf (i : nat) : fb := match i with 0%nat | 1%nat | 2%nat => kb | 3%nat | 4%nat | 5%nat => exb1 | _ => gb end.

Section Stiff.
  Variables h rho s kappa : R.
  Hypothesis SL : scales h rho s (kappa * roundoff).
  Let delta := kappa * roundoff.
  Let eps := delta * rho.
  Notation rel := (rel eps).
  Let E0 : roundoff <= eps := eps_low h rho s kappa SL.
  Let E1 : eps <= / 1048576 := eps_high h rho s kappa SL.

  Variable alpha : double.
  Hypothesis FA : finite alpha.
  Hypothesis VA : val alpha = 0 \/ in64 (val alpha).

  Definition corF (l t : double) : double := ndiv (nofZ 1) (nadd (nofZ 1) (ndiv (nmul alpha (sq l)) (sq t))).
  Definition corR (l t : R) : R := 1 / (1 + val alpha * (l * l) / (t * t)).

  Lemma cor_near : forall l L t H, rel 32 l L -> rng (-84) 66 L -> rel 11 t H -> rng (-64) 64 H ->
    nearF h rho s delta gb (corF l t) (corR L H).
  Proof.
    intros l L t H RL GL RT GT. assert (LP := rng_pos _ _ _ GL). assert (TP := rng_pos _ _ _ GT).
    assert (R1 := sl_rho _ _ _ _ SL). assert (DP := d_pos _ _ _ _ SL). fold delta in DP.
    assert (GLL := rng_mul _ _ _ _ _ _ GL GL). assert (GTT := rng_mul _ _ _ _ _ _ GT GT). cbn [Z.add] in GLL, GTT.
    assert (RLL := rel_mul eps E0 E1 _ _ _ _ _ _ RL RL (rng_mid _ _ _ GLL ltac:(lia) ltac:(lia)) ltac:(lra)).
    assert (RTT := rel_mul eps E0 E1 _ _ _ _ _ _ RT RT (rng_mid _ _ _ GTT ltac:(lia) ltac:(lia)) ltac:(lra)).
    assert (O1 := rel_const eps 1 ltac:(lia)).
    assert (FIN : forall g, rel 99 g (corR L H) -> 0 < corR L H <= 1 -> nearF h rho s delta gb g (corR L H)).
    { intros g [F [_ [_ B]]] [GP G1]. split; [exact F|]. unfold near, gb; cbn [fv frv fd frd fh fs pow]. unfold sc; cbn [fh fs pow powerRZ].
      replace (Q2R 99) with 99 by (unfold Q2R; cbn; lra). rewrite Q2R_1. split; [lia|]. split; [lra|]. split; [lra|]. split; [rewrite Rabs_right; lra|].
      eapply Rle_trans; [exact B|]. assert (EP : 0 < eps) by (unfold roundoff in E0; lra).
      apply Rle_trans with (99 * eps * 1); [apply Rmult_le_compat_l; lra|]. unfold eps. right; ring. }
    destruct VA as [V0|VA'].
    - assert (CR : corR L H = 1) by (unfold corR; rewrite V0; field; lra). assert (SLL := rel_small eps E0 E1 _ _ _ (proj2 RLL)). assert (STT := rel_small eps E0 E1 _ _ _ (proj2 RTT)).
      destruct GLL as [_ BL].
      destruct (fl_mul alpha (nmul l l) FA (proj1 RLL)) as [F1 W1]; [rewrite V0, Rmult_0_l, Rabs_R0; left; apply bpow_gt_0|]. rewrite V0, Rmult_0_l, rnd_0 in W1.
      assert (TT : 0 < H * H) by (apply Rmult_lt_0_compat; assumption).
      destruct (fl_div _ (nmul t t) F1 (proj1 RTT)) as [F2 W2]; [lra|rewrite W1; unfold Rdiv; rewrite Rmult_0_l, Rabs_R0; left; apply bpow_gt_0|].
      rewrite W1 in W2. unfold Rdiv in W2. rewrite Rmult_0_l, rnd_0 in W2.
      destruct (fl_ofZ 1 ltac:(lia)) as [F3 W3]. assert (B1 : 1 <= bpow radix2 1000) by (change 1 with (bpow radix2 0); apply bpow_le; lia).
      destruct (fl_add (nofZ 1) _ F3 F2) as [F4 W4]; [rewrite W2, W3, Rplus_0_r, Rabs_R1; exact B1|]. rewrite W2, Rplus_0_r, (rnd_val _ F3), W3 in W4.
      destruct (fl_div (nofZ 1) _ F3 F4) as [F5 W5]; [rewrite W4; lra|rewrite W3, W4; unfold Rdiv; rewrite Rinv_1, Rmult_1_r, Rabs_R1; exact B1|].
      rewrite W4 in W5. unfold Rdiv in W5. rewrite Rinv_1, Rmult_1_r, (rnd_val _ F3), W3 in W5.
      apply FIN; [|rewrite CR; lra]. split; [exact F5|]. rewrite CR. unfold corF, sq. rewrite W5. split; [lra|]. split; [lra|]. unfold Rminus. rewrite Rplus_opp_r, Rabs_R0. apply Rmult_le_pos; [|lra]. apply Rmult_le_pos; unfold roundoff in E0; lra.
    - assert (GA := rng_in64 _ VA'). assert (AP := rng_pos _ _ _ GA).
      assert (GN := rng_mul _ _ _ _ _ _ GA GLL). cbn [Z.add] in GN.
      assert (RN := rel_mul eps E0 E1 _ _ _ _ _ _ (rel_exact eps alpha FA AP) RLL (rng_mid _ _ _ GN ltac:(lia) ltac:(lia)) ltac:(lra)).
      assert (GF := rng_div _ _ _ _ _ _ GN GTT). cbn in GF.
      assert (RF := rel_div eps E0 E1 _ _ _ _ _ _ RN RTT (rng_mid _ _ _ GF ltac:(lia) ltac:(lia)) ltac:(lra)).
      assert (GS := rng_1p _ _ _ GF ltac:(lia)). cbn in GS.
      assert (RS := rel_add eps E0 E1 _ _ _ _ _ (rel_mono eps E0 _ (0 + (32 + 32 + 2) + 2 + (11 + 11 + 2) + 5 / 2) _ _ O1 ltac:(lra)) RF (rng_mid _ _ _ GS ltac:(lia) ltac:(lia)) ltac:(lra)).
      assert (GD := rng_div _ _ _ _ _ _ rng_one GS). cbn in GD.
      assert (RD := rel_div eps E0 E1 _ _ _ _ _ _ O1 RS (rng_mid _ _ _ GD ltac:(lia) ltac:(lia)) ltac:(lra)).
      destruct GS as [GS _]. change (bpow radix2 0) with 1 in GS.
      apply FIN; [apply (rel_mono eps E0 _ 99 _ _ RD); lra|]. unfold corR. split; [apply (proj1 (proj2 RD))|].
      unfold Rdiv at 1. rewrite Rmult_1_l. apply Rle_trans with (/ 1); [apply Rinv_le; [lra|exact GS]|rewrite Rinv_1; lra].
  Qed.

  (** three stiffnesses *)
  Lemma st_near : forall tree, (tree = st1 \/ tree = st3) -> forall (a b c x y z g : double) G,
    (forall k, In k [a; b; c] -> finite k /\ Rabs (val k) <= 1) -> (forall e, In e [x; y; z] -> finite e /\ Rabs (val e) <= s) -> nearF h rho s delta gb g G ->
    nearF h rho s delta shb (evalG L0F (fun i => nth i [a; b; c; x; y; z] g) tree) (evalG L0R (fun i => nth i [val a; val b; val c; val x; val y; val z] G) tree).
  Proof.
    intros tree HT a b c x y z g G HK HE HG.
    assert (KN : forall k, In k [a; b; c] -> nearF h rho s delta kb k (val k)).
    { intros k Hk. destruct (HK k Hk) as [F B]. split; [exact F|]. apply (near_self _ _ _ _ SL); unfold kb; cbn [fv frv fd frd]; try lia; rewrite ?Q2R_1, ?RMicromega.Q2R_0; try lra. unfold sc; cbn. lra. }
    assert (EN : forall e, In e [x; y; z] -> nearF h rho s delta exb1 e (val e)).
    { intros e He. destruct (HE e He) as [F B]. split; [exact F|]. apply (near_self _ _ _ _ SL); unfold exb1; cbn [fv frv fd frd]; try lia; rewrite ?Q2R_1, ?RMicromega.Q2R_0; try lra. unfold sc; cbn. lra. }
    apply (within_ok h rho s delta SL st_leaf noinv).
    - intros i. unfold st_leaf. destruct i as [|[|[|[|[|[|i]]]]]]; cbn [nth]; try (apply KN; cbn; tauto); try (apply EN; cbn; tauto). destruct i; cbn [nth]; exact HG.
    - apply noinv_ok.
    - destruct HT as [-> | ->]; vm_compute; reflexivity.
  Qed.

  Definition prop_fine (p : prop double) : Prop :=
    (forall x, In x [pk13 p; pk23 p] -> finite x /\ Rabs (val x) <= 1) /\
    (forall x, In x [e00 (pE p); e11 (pE p)] -> finite x /\ Rabs (val x) <= s) /\
    finite (ph p) /\ in64 (val (ph p)).

  Lemma thick_rel : forall p, prop_fine p -> rel 0 (ph p) (val (ph p)) /\ rng (-64) 64 (val (ph p)).
  Proof.
    intros p [_ [_ [F V]]]. assert (G := rng_in64 _ V). split; [|exact G]. apply rel_exact; [exact F|]. apply (rng_pos _ _ _ G).
  Qed.
  Lemma mean_rel : forall a b c A B C, rel 0 a A -> rel 0 b B -> rel 0 c C -> rng (-64) 64 A -> rng (-64) 64 B -> rng (-64) 64 C ->
    rel 11 (AddK0s.lin3 (ndiv (nofZ 1) (nofZ 3)) (ndiv (nofZ 1) (nofZ 3)) (ndiv (nofZ 1) (nofZ 3)) a b c) (1 / 3 * A + 1 / 3 * B + 1 / 3 * C) /\
    rng (-64) 64 (1 / 3 * A + 1 / 3 * B + 1 / 3 * C).
  Proof.
    intros a b c A B C RA RB RC GA GB GC. assert (T := rel_third eps E0 E1). unfold AddK0s.lin3.
    assert (LO := bpow_gt_0 radix2 (-64)). assert (EL : bpow radix2 (-66) = / 4 * bpow radix2 (-64)) by (replace (-66)%Z with (-2 + -64)%Z by lia; rewrite bpow_plus; cbn; lra).
    destruct GA as [A1 A2], GB as [B1 B2], GC as [C1 C2].
    assert (M : forall X, / 4 * bpow radix2 (-64) <= X <= bpow radix2 64 -> mid_range X) by (intros X HX; apply (rng_mid (-66) 64); [split; lra|lia|lia]).
    assert (TA := rel_mul eps E0 E1 _ _ _ _ _ _ T RA (M (1 / 3 * A) ltac:(lra)) ltac:(lra)).
    assert (TB := rel_mul eps E0 E1 _ _ _ _ _ _ T RB (M (1 / 3 * B) ltac:(lra)) ltac:(lra)).
    assert (TC := rel_mul eps E0 E1 _ _ _ _ _ _ T RC (M (1 / 3 * C) ltac:(lra)) ltac:(lra)).
    assert (S1 := rel_add eps E0 E1 _ _ _ _ _ TA TB (M (1 / 3 * A + 1 / 3 * B) ltac:(lra)) ltac:(lra)).
    assert (S2 := rel_add eps E0 E1 _ _ _ _ _ S1 (rel_mono eps E0 _ (5 + 0 + 2 + 2) _ _ TC ltac:(lra)) (M (1 / 3 * A + 1 / 3 * B + 1 / 3 * C) ltac:(lra)) ltac:(lra)).
    split; [|split; lra]. apply (rel_mono eps E0 _ 11 _ _ S2). lra.
  Qed.

  Lemma tria_near : forall pfn (t : tria double) (n1 n2 n3 : node double),
    (pfn = true -> forall n, In n [n1; n2; n3] -> exists p, nprop n = Some p /\ prop_fine p) -> (pfn = false -> exists p, tprop t = Some p /\ prop_fine p) ->
    exists x X, tria_shear pfn t n1 n2 n3 = Ok x /\ tria_shear pfn (tria_val t) (node_val n1) (node_val n2) (node_val n3) = Ok X /\
      forall l L, rel 32 l L -> rng (-84) 66 L -> exists e44 e55 E44 E55, shear_stiffness x alpha l = (e44, nofZ 0, e55) /\
        shear_stiffness X (val alpha) L = (E44, nofZ 0, E55) /\ nearF h rho s delta shb e44 E44 /\ nearF h rho s delta shb e55 E55.
  Proof.
    intros pfn t n1 n2 n3 HN HT. destruct pfn.
    - destruct (HN eq_refl n1 ltac:(cbn; auto)) as [p1 [Q1 F1]]. destruct (HN eq_refl n2 ltac:(cbn; auto)) as [p2 [Q2 F2]]. destruct (HN eq_refl n3 ltac:(cbn; auto)) as [p3 [Q3 F3]].
      unfold tria_shear. cbn [nprop node_val]. rewrite Q1, Q2, Q3. cbn [option_map get_or bind]. eexists; eexists. split; [reflexivity|]. split; [reflexivity|].
      intros l L RL GL. destruct (thick_rel p1 F1) as [T1 G1]. destruct (thick_rel p2 F2) as [T2 G2]. destruct (thick_rel p3 F3) as [T3 G3].
      destruct (mean_rel _ _ _ _ _ _ T1 T2 T3 G1 G2 G3) as [TM GM]. assert (CN := cor_near _ _ _ _ RL GL TM GM).
      unfold shear_stiffness. do 4 eexists. split; [reflexivity|]. split; [reflexivity|].
      destruct F1 as [A1 [B1 _]]. destruct F2 as [A2 [B2 _]]. destruct F3 as [A3 [B3 _]].
      split.
      + refine (st_near st3 (or_intror eq_refl) (pk23 p1) (pk23 p2) (pk23 p3) (e00 (pE p1)) (e00 (pE p2)) (e00 (pE p3)) _ _ _ _ CN).
        * intros k [<-|[<-|[<-|[]]]]; [apply A1|apply A2|apply A3]; cbn; auto.
        * intros k [<-|[<-|[<-|[]]]]; [apply B1|apply B2|apply B3]; cbn; auto.
      + refine (st_near st3 (or_intror eq_refl) (pk13 p1) (pk13 p2) (pk13 p3) (e11 (pE p1)) (e11 (pE p2)) (e11 (pE p3)) _ _ _ _ CN).
        * intros k [<-|[<-|[<-|[]]]]; [apply A1|apply A2|apply A3]; cbn; auto.
        * intros k [<-|[<-|[<-|[]]]]; [apply B1|apply B2|apply B3]; cbn; auto.
    - destruct (HT eq_refl) as [p [Q F]]. unfold tria_shear. cbn [tprop tria_val]. rewrite Q. cbn [option_map get_or bind]. eexists; eexists. split; [reflexivity|]. split; [reflexivity|].
      intros l L RL GL. destruct (thick_rel p F) as [T1 G1]. assert (CN := cor_near _ _ _ _ RL GL (rel_mono eps E0 _ 11 _ _ T1 ltac:(lra)) G1).
      unfold shear_stiffness. do 4 eexists. split; [reflexivity|]. split; [reflexivity|]. destruct F as [A1 [B1 _]].
      split.
      + refine (st_near st1 (or_introl eq_refl) (pk23 p) (pk23 p) (pk23 p) (e00 (pE p)) (e00 (pE p)) (e00 (pE p)) _ _ _ _ CN).
        * intros k [<-|[<-|[<-|[]]]]; apply A1; cbn; auto.
        * intros k [<-|[<-|[<-|[]]]]; apply B1; cbn; auto.
      + refine (st_near st1 (or_introl eq_refl) (pk13 p) (pk13 p) (pk13 p) (e11 (pE p)) (e11 (pE p)) (e11 (pE p)) _ _ _ _ CN).
        * intros k [<-|[<-|[<-|[]]]]; apply A1; cbn; auto.
        * intros k [<-|[<-|[<-|[]]]]; apply B1; cbn; auto.
  Qed.
End Stiff.
