(** Rounding errors of the Lagrange interpolation. *)
From Coq Require Import ZArith Reals List Bool Arith Lra Lia Floats.SpecFloat.
From Flocq Require Import Core BinarySingleNaN.
From Verif Require Import Num Float Py Mesh Interp Spec SpecInterp SpecRound SpecRound5 FSum FInterp FFloat FRound3 FRel.
Import ListNotations.
Local Open Scope R_scope.

Lemma fl_eqb : forall x y, finite x -> finite y -> neqb x y = true <-> val x = val y.
Proof.
  intros x y X Y. destruct (finite_B x X) as [a [<- A]]. destruct (finite_B y Y) as [b [<- B]]. rewrite !val_B in *.
  cbn [neqb NumF]. unfold SFeqb. change (SFcompare (B2SF a) (B2SF b)) with (Bcompare a b). rewrite Bcompare_correct by assumption.
  destruct (Rcompare_spec (B2R a) (B2R b)); split; intros; try reflexivity; try discriminate; lra.
Qed.
Lemma pow2_bpow : forall n, 2 ^ n = bpow radix2 (Z.of_nat n).
Proof. intros n. rewrite bpow_powerRZ, <- pow_powerRZ. reflexivity. Qed.
Lemma inv2_bpow : forall n, / 2 ^ n = bpow radix2 (- Z.of_nat n).
Proof. intros n. rewrite bpow_opp, pow2_bpow. reflexivity. Qed.
Lemma one : finite (nofZ 1) /\ val (nofZ 1) = 1.
Proof. apply fl_ofZ. cbn. lia. Qed.
Lemma zero : finite (nofZ 0) /\ val (nofZ 0) = 0.
Proof. apply fl_ofZ. cbn. lia. Qed.
Lemma rnd_1 : rnd 1 = 1.
Proof. rewrite <- (proj2 one). apply rnd_fmt, val_fmt, one. Qed.

(** ** numpy values *)

Definition pts (K : nat) (v : nval double) : Prop := match v with Scalar _ => True | Array l => List.length l = K end.
Lemma pts_val : forall K v, points K (nval_val v) <-> pts K v.
Proof. intros K [a|l]; cbn; [tauto|]. rewrite map_length. tauto. Qed.
Lemma value_val : forall K v k, pts K v -> (k < K)%nat -> value (nval_val v) k = val (at_point v k).
Proof. intros K [a|l] k P L; [reflexivity|]. cbn in *. rewrite (nth_indep _ 0 (val (nofZ 0))) by (rewrite map_length; lia). apply (map_nth val). Qed.
Lemma bcast_pts : forall op K a b, pts K a -> pts K b ->
  exists c, bcast op a b = Ok c /\ pts K c /\ forall k, (k < K)%nat -> at_point c k = op (at_point a k) (at_point b k).
Proof.
  intros op K a b Ha Hb. destruct a as [u|l], b as [v|l']; cbn [pts bcast] in *.
  - exists (Scalar (op u v)). cbn. auto.
  - exists (Array (map (op u) l')). cbn [pts at_point]. rewrite map_length. repeat split; auto.
    intros k Hk. rewrite (nth_indep _ (nofZ 0) (op u (nofZ 0))) by (rewrite map_length; lia). apply (map_nth (op u)).
  - exists (Array (map (fun u => op u v) l)). cbn [pts at_point]. rewrite map_length. repeat split; auto.
    intros k Hk. rewrite (nth_indep _ (nofZ 0) (op (nofZ 0) v)) by (rewrite map_length; lia). apply (map_nth (fun u => op u v)).
  - rewrite Ha, Hb, Nat.eqb_refl. eexists. split; [reflexivity|]. cbn [pts at_point].
    rewrite map_length, combine_length. split; [lia|]. intros k Hk.
    rewrite (nth_indep _ (nofZ 0) (op (fst (nofZ 0, nofZ 0)) (snd (nofZ 0, nofZ 0)))) by (rewrite map_length, combine_length; lia).
    rewrite (map_nth (fun p => op (fst p) (snd p)) _ (nofZ 0, nofZ 0)), combine_nth by lia. reflexivity.
Qed.
Lemma bcast_in_pts : forall op K a b, pts K a -> pts K b ->
  exists c, bcast_in op a b = Ok c /\ pts K c /\ forall k, (k < K)%nat -> at_point c k = op (at_point a k) (at_point b k).
Proof.
  intros op K a b Ha Hb. destruct (bcast_pts op K a b Ha Hb) as [c [E [P V]]]. exists c. split; [|auto].
  unfold bcast_in. rewrite E. cbn [bind]. destruct a as [u|l], c as [w|l']; try reflexivity. cbn in *. rewrite Ha, P, Nat.eqb_refl. reflexivity.
Qed.

(** ** a factor *)

Section Spread.
  Variables (xs : list double) (x : double) (d : R) (e : nat).
  Hypothesis SP : spread xs x d e.

  Lemma dist_max : forall a b, In a (x :: xs) -> In b (x :: xs) -> Rabs (val a - val b) <= bpow radix2 1000.
  Proof.
    intros a b Ha Hb. destruct (sp_dist _ _ _ _ SP a b Ha Hb) as [->|[_ L]].
    - replace (val b - val b) with 0 by ring. rewrite Rabs_R0. apply bpow_ge_0.
    - eapply Rle_trans; [exact L|]. replace (bpow radix2 1000) with (2 ^ 1000); [apply (sp_max _ _ _ _ SP)|apply (pow2_bpow 1000)].
  Qed.
  Lemma test : forall a b, In a (x :: xs) -> In b (x :: xs) -> (neqb (nsub a b) (nofZ 0) = true <-> val a - val b = 0).
  Proof.
    intros a b Ha Hb. destruct (rl_sub a b (sp_finite _ _ _ _ SP a Ha) (sp_finite _ _ _ _ SP b Hb) (dist_max a b Ha Hb)) as [F [t [T E]]].
    rewrite (fl_eqb _ _ F (proj1 zero)), (proj2 zero), E. assert (P := fac_pos _ _ T). split; intros H; [|rewrite H; ring].
    destruct (Rmult_integral _ _ H) as [Q|Q]; [exact Q|lra].
  Qed.
  Lemma quot_sz : forall a b, In a (x :: xs) -> In b (x :: xs) -> val a <> val b -> sz (Z.of_nat e) ((val x - val b) / (val a - val b)).
  Proof.
    intros a b Ha Hb N. destruct (sp_dist _ _ _ _ SP a b Ha Hb) as [Q|[A1 A2]]; [contradiction|].
    destruct (sp_dist _ _ _ _ SP x b (or_introl eq_refl) Hb) as [->|[X1 X2]]; [left; unfold Rdiv; ring|right].
    assert (D := sp_d _ _ _ _ SP). assert (AP : 0 < Rabs (val a - val b)) by lra. assert (NA : Rabs (val a - val b) <> 0) by lra.
    assert (EQ : Rabs ((val x - val b) / (val a - val b)) = Rabs (val x - val b) / Rabs (val a - val b)).
    { unfold Rdiv. rewrite Rabs_mult, Rabs_inv. reflexivity. }
    rewrite EQ, <- pow2_bpow, <- inv2_bpow. assert (E0 : 0 < 2 ^ e) by (apply pow_lt; lra). split.
    - apply (Rmult_le_reg_r (Rabs (val a - val b))); [exact AP|]. unfold Rdiv. rewrite Rmult_assoc, Rinv_l, Rmult_1_r by exact NA.
      apply Rle_trans with (/ 2 ^ e * (2 ^ e * d)); [apply Rmult_le_compat_l; [left; apply Rinv_0_lt_compat, E0|exact A2]|]. rewrite <- Rmult_assoc, Rinv_l by lra. lra.
    - apply (Rmult_le_reg_r (Rabs (val a - val b))); [exact AP|]. unfold Rdiv. rewrite Rmult_assoc, Rinv_l, Rmult_1_r by exact NA.
      eapply Rle_trans; [exact X2|]. apply Rmult_le_compat_l; lra.
  Qed.
  Hypothesis E500 : (e <= 500)%nat.
  Lemma gam2 : gam (1 + 1) <= 1.
  Proof. eapply Rle_trans; [apply gam_lin; cbn; lia|]. cbn [INR Nat.add]. unfold roundoff. lra. Qed.
  Lemma quot_rl : forall a b, In a (x :: xs) -> In b (x :: xs) -> val a <> val b ->
    rl 3 (ndiv (nsub x b) (nsub a b)) ((val x - val b) / (val a - val b)) /\ (val x = val a -> val (ndiv (nsub x b) (nsub a b)) = 1).
  Proof.
    intros a b Ha Hb N. assert (Hx : In x (x :: xs)) by (left; reflexivity). assert (NZ : val a - val b <> 0) by lra.
    assert (R1 := rl_sub x b (sp_finite _ _ _ _ SP x Hx) (sp_finite _ _ _ _ SP b Hb) (dist_max x b Hx Hb)).
    assert (R2 := rl_sub a b (sp_finite _ _ _ _ SP a Ha) (sp_finite _ _ _ _ SP b Hb) (dist_max a b Ha Hb)).
    assert (Z : sz 990 ((val x - val b) / (val a - val b))) by (apply (sz_le (Z.of_nat e)); [lia|apply quot_sz; assumption]).
    split; [apply (rl_div 1 1); [exact R1|exact R2|exact NZ|exact Z|apply gam2]|]. intros EQ.
    destruct (fl_sub x b (sp_finite _ _ _ _ SP x Hx) (sp_finite _ _ _ _ SP b Hb) (dist_max x b Hx Hb)) as [F1 V1].
    destruct (fl_sub a b (sp_finite _ _ _ _ SP a Ha) (sp_finite _ _ _ _ SP b Hb) (dist_max a b Ha Hb)) as [F2 V2].
    assert (V : val (nsub x b) = val (nsub a b)) by (rewrite V1, V2, EQ; reflexivity).
    assert (NV : val (nsub a b) <> 0) by (intros Q; apply NZ; apply (test a b Ha Hb); apply (fl_eqb _ _ F2 (proj1 zero)); rewrite Q, (proj2 zero); reflexivity).
    assert (O : val (nsub x b) / val (nsub a b) = 1) by (rewrite V; field; exact NV).
    destruct (fl_div _ _ F1 F2 NV) as [_ E]; [rewrite O, Rabs_R1; change 1 with (bpow radix2 0); apply bpow_le; lia|]. rewrite E, O. apply rnd_1.
  Qed.
End Spread.

(** ** a Lagrange polynomial *)

Section Lag.
  Variables (K : nat) (x : nval double) (xs : list double) (d : R) (e : nat).
  Hypothesis PX : pts K x.
  Hypothesis SP : forall k, (k < K)%nat -> spread xs (at_point x k) d e.
  Variable M : nat.
  Hypothesis EM : (e * M <= 500)%nat.
  Hypothesis MM : (M <= 500)%nat.

  Lemma gamM : forall n, (n <= 4 * M + 4)%nat -> gam n <= 1.
  Proof.
    intros n L. eapply Rle_trans; [apply gam_lin; lia|]. assert (I : INR (S n) <= 3000) by (rewrite INR_IZR_INZ; apply IZR_le; lia). unfold roundoff. lra.
  Qed.
  Lemma lag_loop_pts : forall m xm nodes i fx j, In xm xs -> incl nodes xs -> (j + List.length nodes <= M)%nat -> pts K fx ->
    exists c, lag_loop x m xm i nodes fx = Ok c /\ pts K c /\ forall k F, (k < K)%nat -> rl (4 * j) (at_point fx k) F -> sz (Z.of_nat (e * j)) F ->
      (val (at_point x k) = val xm -> val (at_point fx k) = 1) ->
      rl (4 * (j + List.length nodes)) (at_point c k) (F * gbasis i m (val xm) (map val nodes) (val (at_point x k))) /\
      sz (Z.of_nat (e * (j + List.length nodes))) (F * gbasis i m (val xm) (map val nodes) (val (at_point x k))) /\
      (val (at_point x k) = val xm -> val (at_point c k) = 1).
  Proof.
    intros m xm. induction nodes as [|b nodes IH]; intros i fx j Hm Hn Hj Pf.
    - exists fx. cbn [lag_loop map gbasis List.length]. rewrite Nat.add_0_r. split; [reflexivity|]. split; [exact Pf|]. intros k F Hk A B C. rewrite Rmult_1_r. auto.
    - cbn [lag_loop map gbasis List.length] in *. unfold factor.
      assert (Hb : In b xs) by (apply Hn; left; reflexivity). assert (Hn' : incl nodes xs) by (intros q Hq; apply Hn; right; exact Hq).
      assert (SKIP : exists c, lag_loop x m xm (S i) nodes fx = Ok c /\ pts K c /\ forall k F, (k < K)%nat -> rl (4 * j) (at_point fx k) F -> sz (Z.of_nat (e * j)) F ->
        (val (at_point x k) = val xm -> val (at_point fx k) = 1) ->
        rl (4 * (j + S (List.length nodes))) (at_point c k) (F * (1 * gbasis (S i) m (val xm) (map val nodes) (val (at_point x k)))) /\
        sz (Z.of_nat (e * (j + S (List.length nodes)))) (F * (1 * gbasis (S i) m (val xm) (map val nodes) (val (at_point x k)))) /\
        (val (at_point x k) = val xm -> val (at_point c k) = 1)).
      { destruct (IH (S i) fx j Hm Hn' ltac:(lia) Pf) as [c [Ec [Pc Vc]]]. exists c. split; [exact Ec|]. split; [exact Pc|]. intros k F Hk A B C.
        destruct (Vc k F Hk A B C) as [V1 [V2 V3]]. rewrite Rmult_1_l. split; [eapply rl_le; [|exact V1]; lia|]. split; [eapply sz_le; [|exact V2]; apply inj_le, Nat.mul_le_mono_l; lia|exact V3]. }
      destruct (Nat.eqb i m); cbn [negb andb]; [exact SKIP|].
      destruct (Nat.eq_dec K 0) as [K0|K1].
      { (* no point *)
        destruct (negb _).
        - destruct (bcast_pts nsub K x (Scalar b) PX Logic.I) as [a1 [E1 [P1 _]]]. destruct (bcast_pts ndiv K a1 (Scalar (nsub xm b)) P1 Logic.I) as [a2 [E2 [P2 _]]].
          destruct (bcast_in_pts nmul K fx a2 Pf P2) as [a3 [E3 [P3 _]]]. rewrite E1; cbn [bind]. rewrite E2; cbn [bind]. rewrite E3; cbn [bind].
          destruct (IH (S i) a3 j Hm Hn' ltac:(lia) P3) as [c [Ec [Pc _]]]. exists c. split; [exact Ec|]. split; [exact Pc|]. intros k F Hk. lia.
        - destruct (IH (S i) fx j Hm Hn' ltac:(lia) Pf) as [c [Ec [Pc _]]]. exists c. split; [exact Ec|]. split; [exact Pc|]. intros k F Hk. lia. }
      assert (T := test xs _ d e (SP 0%nat ltac:(lia)) xm b (or_intror Hm) (or_intror Hb)).
      destruct (Req_EM_T (val xm - val b) 0) as [Z|N].
      { rewrite (proj2 T Z). cbn [negb]. exact SKIP. }
      destruct (neqb (nsub xm b) (nofZ 0)) eqn:Q; [exfalso; apply N, T; reflexivity|]. cbn [negb].
      destruct (bcast_pts nsub K x (Scalar b) PX Logic.I) as [a1 [E1 [P1 V1]]]. destruct (bcast_pts ndiv K a1 (Scalar (nsub xm b)) P1 Logic.I) as [a2 [E2 [P2 V2]]].
      destruct (bcast_in_pts nmul K fx a2 Pf P2) as [a3 [E3 [P3 V3]]]. rewrite E1; cbn [bind]. rewrite E2; cbn [bind]. rewrite E3; cbn [bind].
      destruct (IH (S i) a3 (S j) Hm Hn' ltac:(lia) P3) as [c [Ec [Pc Vc]]]. exists c. split; [exact Ec|]. split; [exact Pc|]. intros k F Hk A B C.
      specialize (V1 k Hk). specialize (V2 k Hk). specialize (V3 k Hk). cbn [at_point] in V1, V2. rewrite V1 in V2. rewrite V2 in V3. clear V1 V2.
      assert (E5 : (e <= 500)%nat).
      { eapply Nat.le_trans; [|exact EM]. destruct M as [|M']; [lia|]. rewrite Nat.mul_succ_r. lia. }
      assert (NV : val xm <> val b) by lra.
      destruct (quot_rl xs _ d e (SP k Hk) E5 xm b (or_intror Hm) (or_intror Hb) NV) as [R1 R2]. assert (SQ := quot_sz xs _ d e (SP k Hk) xm b (or_intror Hm) (or_intror Hb) NV).
      set (q := ndiv (nsub (at_point x k) b) (nsub xm b)) in *. set (X := (val (at_point x k) - val b) / (val xm - val b)) in *.
      assert (SJ : sz (Z.of_nat (e * S j)) (F * X)) by (replace (Z.of_nat (e * S j)) with (Z.of_nat (e * j) + Z.of_nat e)%Z by lia; apply sz_mul; assumption).
      assert (EJ : (e * S j <= 500)%nat) by (eapply Nat.le_trans; [|exact EM]; apply Nat.mul_le_mono_l; lia).
      assert (RJ : rl (4 * S j) (at_point a3 k) (F * X)).
      { rewrite V3. replace (4 * S j)%nat with (S (4 * j + 3)) by lia. apply rl_mul; [exact A|exact R1|eapply sz_le; [|exact SJ]; lia|apply gamM; lia]. }
      assert (CJ : val (at_point x k) = val xm -> val (at_point a3 k) = 1).
      { intros EQ. rewrite V3. destruct (fl_mul (at_point fx k) q (proj1 A) (proj1 R1)) as [_ E]; rewrite (C EQ), (R2 EQ), Rmult_1_l in *;
          [rewrite Rabs_R1; change 1 with (bpow radix2 0); apply bpow_le; lia|rewrite E; apply rnd_1]. }
      destruct (Vc k (F * X) Hk RJ SJ CJ) as [W1 [W2 W3]]. rewrite <- Rmult_assoc. replace (j + S (List.length nodes))%nat with (S j + List.length nodes)%nat by lia. auto.
  Qed.
  Lemma lag_pts : forall m xm, In xm xs -> List.length xs = M ->
    exists c, lag x m xm xs = Ok c /\ pts K c /\ forall k, (k < K)%nat ->
      rl (4 * M) (at_point c k) (gbasis 0 m (val xm) (map val xs) (val (at_point x k))) /\
      sz (Z.of_nat (e * M)) (gbasis 0 m (val xm) (map val xs) (val (at_point x k))) /\
      (val (at_point x k) = val xm -> val (at_point c k) = 1).
  Proof.
    intros m xm Hm L. destruct (lag_loop_pts m xm xs 0 (Scalar (nofZ 1)) 0 Hm (incl_refl _) ltac:(cbn; lia) Logic.I) as [c [E [P V]]]. exists c. split; [exact E|]. split; [exact P|].
    intros k Hk. assert (R1 : rl 0 (nofZ 1) 1) by (assert (Q := rl_val 0 _ (proj1 one)); rewrite (proj2 one) in Q; exact Q).
    assert (S1 : sz (Z.of_nat (e * 0)) 1) by (right; rewrite Nat.mul_0_r, Rabs_R1; cbn; lra).
    destruct (V k 1 Hk R1 S1) as [V1 [V2 V3]]; [intros _; apply one|]. rewrite Rmult_1_l, Nat.add_0_l, L in *. auto.
  Qed.
End Lag.
