(** Rounding errors of area_of_polygon and of unitvec. *)
From Coq Require Import ZArith Reals List Bool Arith Lra Lia.
From Flocq Require Import Core Relative BinarySingleNaN.
From Verif Require Import Num Float Py Mesh Utils Vec Spec SpecUtils SpecRound FSum FGeom FFloat FRound3 LUtils.
From Verif Require Import FRel FInterp2 SpecRound7.
Import ListNotations.
Local Open Scope R_scope.

Lemma between_sz : forall e x, between e x -> sz (Z.of_nat e) x.
Proof. intros e x [->|[A B]]; [left; reflexivity|right]. rewrite inv2_bpow in A. rewrite pow2_bpow in B. split; assumption. Qed.
Lemma gam_small : forall n, (Z.of_nat n <= 67108864)%Z -> gam n <= 1.
Proof.
  intros n L. eapply Rle_trans; [apply gam_lin, L|]. assert (I : INR (S n) <= 67108865) by (rewrite INR_IZR_INZ; apply IZR_le; lia). unfold roundoff. lra.
Qed.
Lemma cyc_map : forall A B (f : A -> B) d l i, cyc (f d) (map f l) i = f (cyc d l i).
Proof. intros. unfold cyc. rewrite map_length. apply map_nth. Qed.
Lemma cyc_in : forall A (d : A) l i, l <> [] -> In (cyc d l i) l.
Proof.
  intros A d l i N. unfold cyc. apply nth_In. destruct l as [|a l]; [contradiction|]. assert (H := Z.mod_pos_bound i (Z.of_nat (length (a :: l)))). cbn [length] in *. lia.
Qed.

Section Polygon.
  Variable ps : list (double * double).
  Hypothesis PS : polygon_scale ps.
  Let x := map fst ps.
  Let y := map snd ps.
  Let n := length ps.
  Let X (i : Z) : R := fst (corner (map corner_val ps) i).
  Let Y (i : Z) : R := snd (corner (map corner_val ps) i).
  Let z0 : double := nofZ 0.
  Let p0 : double * double := (z0, z0).

  Lemma pv0 : corner_val p0 = (0, 0).
  Proof. unfold corner_val, p0, z0; cbn [fst snd]. rewrite (proj2 zero). reflexivity. Qed.
  Lemma corner_cyc : forall i, corner (map corner_val ps) i = corner_val (cyc p0 ps i).
  Proof. intros i. rewrite <- cyc_map, pv0. reflexivity. Qed.
  Lemma x_cyc : forall i, val (cyc z0 x i) = X i.
  Proof. intros i. unfold X. rewrite corner_cyc. unfold x. change z0 with (fst p0). rewrite cyc_map. reflexivity. Qed.
  Lemma y_cyc : forall i, val (cyc z0 y i) = Y i.
  Proof. intros i. unfold Y. rewrite corner_cyc. unfold y. change z0 with (snd p0). rewrite cyc_map. reflexivity. Qed.
  Lemma cyc_fin : forall i, ps <> [] -> finite (cyc z0 x i) /\ finite (cyc z0 y i) /\ sz 400 (X i).
  Proof.
    intros i NE. assert (H := cyc_in _ p0 ps i NE). destruct (po_finite _ PS _ H) as [A B]. assert (E1 : cyc z0 x i = fst (cyc p0 ps i)) by exact (cyc_map _ _ fst p0 ps i). assert (E2 : cyc z0 y i = snd (cyc p0 ps i)) by exact (cyc_map _ _ snd p0 ps i). rewrite E1, E2.
    split; [exact A|]. split; [exact B|]. change 400%Z with (Z.of_nat 400). apply between_sz. unfold X. rewrite corner_cyc. apply (po_x _ PS), H.
  Qed.
  Let term (i : Z) : R := X i * (Y (i + 1) - Y (i - 1)).
  Lemma term_sz : forall i, ps <> [] -> sz 800 (term i).
  Proof.
    intros i NE. change 800%Z with (400 + 400)%Z. apply sz_mul; [apply (cyc_fin i NE)|]. change 400%Z with (Z.of_nat 400). apply between_sz, (po_y _ PS).
  Qed.
  Lemma term_rl : forall i, ps <> [] -> rl 2 (nmul (cyc z0 x i) (nsub (cyc z0 y (i + 1)) (cyc z0 y (i - 1)))) (term i).
  Proof.
    intros i NE. destruct (cyc_fin i NE) as [A [_ SX]]. destruct (cyc_fin (i + 1) NE) as [_ [B _]]. destruct (cyc_fin (i - 1) NE) as [_ [C _]].
    unfold term. rewrite <- x_cyc, <- !y_cyc. change 2%nat with (S (0 + 1)). apply rl_mul; [apply rl_val, A| | |].
    - apply rl_sub; [exact B|exact C|]. rewrite !y_cyc. apply Rle_trans with (bpow radix2 400); [|apply bpow_le; lia]. apply sz_abs. change 400%Z with (Z.of_nat 400). apply between_sz, (po_y _ PS).
    - rewrite x_cyc, !y_cyc. apply (sz_le 800); [lia|]. apply term_sz, NE.
    - apply gam_small. cbn. lia.
  Qed.
  Lemma loop_nr : forall is j s S B, ps <> [] -> (j + length is <= n)%nat -> (forall i, In i is -> (1 - Z.of_nat n <= i < Z.of_nat n - 1)%Z) ->
    nr (j + 2) s S B -> B <= INR j * bpow radix2 800 ->
    exists a, area_loop x y is s = Ok a /\ nr (j + length is + 2) a (S + Sum term is) (B + Sum (fun i => Rabs (term i)) is) /\ B + Sum (fun i => Rabs (term i)) is <= INR (j + length is) * bpow radix2 800.
  Proof.
    induction is as [|i is IH]; intros j s S0 B NE L I H HB; cbn [length] in *.
    - exists s. rewrite !Sum_nil, !Rplus_0_r, !Nat.add_0_r. split; [reflexivity|]. split; assumption.
    - assert (Hi := I i (or_introl eq_refl)). assert (T := sz_abs _ _ (term_sz i NE)). cbn [area_loop].
      assert (LX : length x = n) by (unfold x; rewrite map_length; reflexivity). assert (LY : length y = n) by (unfold y; rewrite map_length; reflexivity).
      rewrite (py_get_cyc _ z0 x), !(py_get_cyc _ z0 y) by (rewrite ?LX, ?LY; lia). cbn [bind].
      assert (B2 : B + Rabs (term i) <= INR (j + 1) * bpow radix2 800) by (rewrite plus_INR; cbn [INR]; lra).
      destruct (IH (j + 1)%nat (nadd s (nmul (cyc z0 x i) (nsub (cyc z0 y (i + 1)) (cyc z0 y (i - 1))))) (S0 + term i) (B + Rabs (term i)) NE) as [a [E [N BB]]].
      + lia.
      + intros k K. apply I. right. exact K.
      + replace (j + 1 + 2)%nat with (S (j + 2)) by lia. apply nr_add; [exact H|apply (rl_le 2); [lia|apply term_rl, NE]|apply gam_small; assert (F := po_few _ PS); fold n in F; lia|].
        eapply Rle_trans; [exact B2|]. apply Rle_trans with (bpow radix2 26 * bpow radix2 800); [|rewrite <- bpow_plus; apply bpow_le; lia]. apply Rmult_le_compat_r; [apply bpow_ge_0|].
        change (bpow radix2 26) with 67108864. rewrite INR_IZR_INZ. apply IZR_le. assert (F := po_few _ PS); fold n in F. lia.
      + exact B2.
      + exists a. split; [exact E|]. rewrite !Sum_cons. replace (j + S (length is))%nat with (j + 1 + length is)%nat by lia. rewrite <- !Rplus_assoc. split; assumption.
  Qed.

  Let area2 : R := Sum term (zrange (-1) n).
  Let B2 : R := Sum (fun i => Rabs (term i)) (zrange (-1) n).
  Lemma zrange_length : forall k a, length (zrange a k) = k.
  Proof. induction k as [|k IH]; intros a; cbn; [reflexivity|]. rewrite IH. reflexivity. Qed.
  Lemma B2_cases : ps <> [] -> (area2 = 0 /\ B2 = 0) \/ bpow radix2 (-800) <= B2.
  Proof.
    intros NE. unfold area2, B2. induction (zrange (-1) n) as [|i is IH]; [left; rewrite !Sum_nil; auto|]. rewrite !Sum_cons.
    assert (P : 0 <= Sum (fun i => Rabs (term i)) is) by (apply Sum_nonneg; intros; apply Rabs_pos). assert (Q := Rabs_pos (term i)).
    destruct (term_sz i NE) as [Z|[A _]]; [|right; change (- (800))%Z with (-800)%Z in A; lra]. rewrite Z, Rabs_R0. destruct IH as [[I1 I2]|I]; [left|right]; lra.
  Qed.

  Lemma empty_or : ps = [] \/ ps <> [] /\ (2 <= n)%nat.
  Proof. assert (M := po_many _ PS). unfold n in *. destruct ps as [|p [|q l]]; [left; reflexivity|cbn in M; lia|right; split; [discriminate|cbn; lia]]. Qed.
  Lemma area_rounded : exists a, area_of_polygon x y = Ok a /\ finite a /\ 0 <= val a /\ Rabs (val a - Rabs area2 / 2) <= (INR n + 5) * roundoff * (B2 / 2).
  Proof.
    assert (F2 : finite (nofZ 2) /\ val (nofZ 2) = 2) by (apply fl_ofZ; cbn; lia). destruct F2 as [F2 V2]. destruct zero as [F0 V0].
    unfold area_of_polygon. assert (LX : length x = n) by (unfold x; rewrite map_length; reflexivity). rewrite LX.
    assert (SUM : exists a, area_loop x y (zrange (-1) n) (nofZ 0) = Ok a /\ nr (n + 2) a area2 B2 /\ B2 <= INR n * bpow radix2 800).
    { destruct empty_or as [E|[NE L]].
      - assert (N0 : n = 0%nat) by (unfold n; rewrite E; reflexivity). unfold area2, B2. rewrite N0. cbn [zrange area_loop INR]. rewrite !Sum_nil. exists (nofZ 0). split; [reflexivity|]. split; [|lra].
        split; [exact F0|]. rewrite V0, Rminus_0_r, Rabs_R0. lra.
      - destruct (loop_nr (zrange (-1) n) 0 (nofZ 0) 0 0 NE) as [a [E [N BB]]].
        + rewrite zrange_length. lia.
        + intros i I. apply in_zrange in I. lia.
        + split; [exact F0|]. rewrite V0, Rminus_0_r, Rabs_R0. lra.
        + cbn [INR]. lra.
        + exists a. rewrite zrange_length, !Rplus_0_l in *. cbn [Nat.add] in *. split; [exact E|]. split; assumption. }
    destruct SUM as [a [E [[FA [EA AB]] BL]]]. change (#0)%num with (nofZ 0 : double). rewrite E. cbn [bind]. exists (ndiv (nabs a) (nofZ 2)). split; [reflexivity|].
    destruct (fl_abs a FA) as [FB VB]. set (N := INR n) in *. assert (NP : 0 <= N) by apply pos_INR.
    assert (FEW : N <= 33554432) by (unfold N; rewrite INR_IZR_INZ; apply IZR_le; exact (po_few _ PS)).
    assert (BP : 0 <= B2) by (eapply Rle_trans; [apply Rabs_pos|exact AB]).
    assert (G : gam (n + 2) <= (N + 3) * roundoff).
    { eapply Rle_trans; [apply gam_lin; assert (F := po_few _ PS); fold n in F; lia|]. right. rewrite S_INR, plus_INR. cbn [INR]. fold N. ring. }
    set (g := gam (n + 2)) in *. assert (GP : 0 <= g) by apply gam_pos. assert (G1 : (N + 3) * roundoff <= / 2) by (unfold roundoff; lra).
    assert (D1 : Rabs (Rabs (val a) - Rabs area2) <= g * B2) by (eapply Rle_trans; [apply Rabs_triang_inv2|exact EA]).
    assert (VL : Rabs (val a) <= (1 + g) * B2) by (apply abs_split in D1; lra).
    assert (VP := Rabs_pos (val a)). 
    assert (VL2 : Rabs (Rabs (val a) / 2) <= B2). { rewrite Rabs_right by lra. assert (g * B2 <= 1 * B2) by (apply Rmult_le_compat_r; lra). lra. }
    destruct (fl_div (nabs a) (nofZ 2) FB F2) as [FR VR].
    { rewrite V2. lra. }
    { rewrite VB, V2. eapply Rle_trans; [exact VL2|]. eapply Rle_trans; [exact BL|]. apply Rle_trans with (bpow radix2 26 * bpow radix2 800); [|rewrite <- bpow_plus; apply bpow_le; lia].
      apply Rmult_le_compat_r; [apply bpow_ge_0|]. change (bpow radix2 26) with 67108864. lra. }
    split; [exact FR|]. rewrite VR, VB, V2. set (v := Rabs (val a)) in *. split; [rewrite <- rnd_0; apply round_le; [apply FLT_exp_valid; reflexivity|apply valid_rnd_N|lra]|].
    assert (R : Rabs (rnd (v / 2) - v / 2) <= roundoff * (v / 2) + / 4 * (roundoff * B2) / 2).
    { destruct empty_or as [E0|[NE L]].
      - assert (Z : v = 0). { assert (B0 : B2 = 0) by (unfold B2, n; rewrite E0; reflexivity). rewrite B0 in VL. lra. }
        rewrite Z. replace (0 / 2) with 0 by field. rewrite rnd_0, Rminus_0_r, Rabs_R0. assert (0 <= roundoff * B2) by (apply Rmult_le_pos; [unfold roundoff; lra|exact BP]). lra.
      - destruct (B2_cases NE) as [[_ B0]|BG].
        + assert (Z : v = 0) by (rewrite B0 in VL; lra). rewrite Z, B0. replace (0 / 2) with 0 by field. rewrite rnd_0, Rminus_0_r, Rabs_R0. lra.
        + eapply Rle_trans; [apply rnd_err|]. rewrite (Rabs_right (v / 2)) by lra. apply Rplus_le_compat_l. unfold eta.
          apply Rle_trans with (/ 8 * (bpow radix2 (-53) * bpow radix2 (-800))).
          * rewrite <- bpow_plus. change (/ 2) with (bpow radix2 (-1)). change (/ 8) with (bpow radix2 (-3)). rewrite <- !bpow_plus. apply bpow_le. lia.
          * change (bpow radix2 (-53)) with (/ 9007199254740992). unfold roundoff. lra. }
    replace (rnd (v / 2) - Rabs area2 / 2) with ((rnd (v / 2) - v / 2) + (v - Rabs area2) / 2) by field. eapply Rle_trans; [apply Rabs_triang|].
    assert (D2 : Rabs ((v - Rabs area2) / 2) <= g * B2 / 2) by (unfold Rdiv; rewrite Rabs_mult, (Rabs_right (/ 2)) by lra; lra).
    assert (D3 : g * B2 <= (N + 3) * roundoff * B2) by (apply Rmult_le_compat_r; assumption).
    assert (D4 : roundoff * (v / 2) <= roundoff * (3 / 4 * B2)). { apply Rmult_le_compat_l; [unfold roundoff; lra|]. assert (g * B2 <= / 2 * B2) by (apply Rmult_le_compat_r; lra). lra. }
    assert (0 <= roundoff * B2) by (apply Rmult_le_pos; [unfold roundoff; lra|exact BP]).
    replace ((N + 5) * roundoff * (B2 / 2)) with ((N + 3) * roundoff * B2 / 2 + roundoff * B2) by field. lra.
  Qed.

  Lemma X_per : forall i, X (i + Z.of_nat n) = X i.
  Proof. intros i. rewrite <- !x_cyc. replace (Z.of_nat n) with (Z.of_nat (length x)) by (unfold x; rewrite map_length; reflexivity). rewrite cyc_periodic. reflexivity. Qed.
  Lemma Y_per : forall i, Y (i + Z.of_nat n) = Y i.
  Proof. intros i. rewrite <- !y_cyc. replace (Z.of_nat n) with (Z.of_nat (length y)) by (unfold y; rewrite map_length; reflexivity). rewrite cyc_periodic. reflexivity. Qed.
  Lemma B2_sum : B2 / 2 = products_sum (map corner_val ps).
  Proof.
    unfold products_sum. f_equal. rewrite map_length. fold n. unfold B2. rewrite <- periodic_window1.
    - change (-1 + 1)%Z with 0%Z. rewrite (Sum_zrange_seq n (fun i => Rabs (term i))). reflexivity.
    - intros i. unfold term. rewrite X_per. replace (i + Z.of_nat n + 1)%Z with (i + 1 + Z.of_nat n)%Z by lia. replace (i + Z.of_nat n - 1)%Z with (i - 1 + Z.of_nat n)%Z by lia. rewrite !Y_per. reflexivity.
  Qed.
  Lemma area2_enclosed : forall o, Rabs area2 / 2 = Rabs (enclosed o (map corner_val ps)) / 2.
  Proof.
    intros o. assert (H := c14_area (map corner_val ps) o). rewrite map_length in H. specialize (H (po_many _ PS)). unfold polygon_area, area_of_polygon in H. rewrite !map_length in H. fold n in H.
    rewrite area_loop_sum in H.
    - cbn [bind] in H. injection H as H. rewrite <- H. unfold area2. rnum. rewrite Rplus_0_l. apply (f_equal (fun s => Rabs s / 2)). apply Sum_ext. intros i. unfold term, X, Y.
      assert (EX : forall j, cyc 0 (map fst (map corner_val ps)) j = fst (corner (map corner_val ps) j)) by (intros j; apply (cyc_map _ _ fst (0, 0))).
      assert (EY : forall j, cyc 0 (map snd (map corner_val ps)) j = snd (corner (map corner_val ps) j)) by (intros j; apply (cyc_map _ _ snd (0, 0))).
      rewrite EX, !EY. reflexivity.
    - rewrite !map_length. reflexivity.
    - intros i I. apply in_zrange in I. rewrite !map_length. fold n. destruct empty_or as [E|[_ L]]; [|lia]. unfold n in *. rewrite E in *. cbn in *. lia.
  Qed.
End Polygon.

(** *** Unit vectors *)
Lemma fac_mean : forall n a b s t, 0 <= a -> 0 <= b -> fac n s -> fac n t -> exists r, fac n r /\ a * s + b * t = (a + b) * r.
Proof.
  intros n a b s t A B [S1 S2] [T1 T2]. destruct (Req_dec (a + b) 0) as [Z|NZ].
  - exists 1. split; [apply fac_1|]. replace a with 0 by lra. replace b with 0 by lra. ring.
  - exists ((a * s + b * t) / (a + b)). assert (P : 0 < a + b) by lra. split; [|field; lra]. split; apply (Rmult_le_reg_r (a + b)); try exact P.
    + unfold Rdiv. rewrite Rmult_assoc, Rinv_l by lra. nra.
    + unfold Rdiv. rewrite Rmult_assoc, Rinv_l by lra. nra.
Qed.
Lemma rl_add : forall n x y X Y, rl n x X -> rl n y Y -> 0 <= X -> 0 <= Y -> X + Y <= bpow radix2 990 -> gam n <= 1 -> rl (S n) (nadd x y) (X + Y).
Proof.
  intros n x y X Y [Fx [s [S E]]] [Fy [t [T E']]] PX PY L G. destruct (fac_mean n X Y s t PX PY S T) as [r [R ER]]. assert (RP := fac_pos _ _ R).
  assert (VS : val x + val y = (X + Y) * r) by (rewrite E, E'; exact ER).
  destruct (fl_add x y Fx Fy) as [F V].
  { rewrite VS. rewrite Rabs_right by (apply Rle_ge, Rmult_le_pos; lra). apply Rle_trans with (bpow radix2 990 * bpow radix2 1); [|rewrite <- bpow_plus; apply bpow_le; lia].
    apply Rmult_le_compat; try lra. change (bpow radix2 1) with 2. destruct R as [_ R]. unfold gam in G. lra. }
  split; [exact F|]. destruct (rnd_sum _ _ (val_fmt _ Fx) (val_fmt _ Fy)) as [q [Q EQ]]. exists (r * q). split.
  - replace (Datatypes.S n) with (n + 1)%nat by lia. apply fac_mul; assumption.
  - rewrite V, EQ, VS. ring.
Qed.
Lemma fac_sqrt : forall n t, fac n t -> fac n (sqrt t).
Proof.
  intros n t T. assert (P := fac_pos _ _ T). assert (SP := sqrt_lt_R0 t P). assert (SS := sqrt_sqrt t (Rlt_le _ _ P)). assert (U := upow n). destruct T as [A B].
  set (a := (1 + roundoff) ^ n) in *. assert (IP : 0 < / a) by (apply Rinv_0_lt_compat; lra). assert (I1 : / a <= 1) by (rewrite <- Rinv_1; apply Rinv_le_contravar; lra). split.
  - fold a. destruct (Rle_dec 1 (sqrt t)); nra.
  - fold a. destruct (Rle_dec (sqrt t) 1); nra.
Qed.
Lemma rl_sqrt : forall n x X, rl n x X -> 0 < X -> gam n <= 1 -> bpow radix2 (-990) <= sqrt X <= bpow radix2 990 -> rl (S n) (nsqrt x) (sqrt X).
Proof.
  intros n x X [Fx [s [S E]]] P G L. assert (SP := fac_pos _ _ S). assert (VP : 0 < val x) by (rewrite E; apply Rmult_lt_0_compat; assumption).
  destruct (fl_sqrt x Fx VP) as [F V]. split; [exact F|]. assert (E2 : sqrt (val x) = sqrt X * sqrt s) by (rewrite E; apply sqrt_mult; lra).
  assert (Z : sz 1000 (sqrt (val x))).
  { rewrite E2. apply (sz_le (990 + 1)); [lia|]. apply (fac_sz n); [apply fac_sqrt, S|exact G|]. right. rewrite Rabs_right by (apply Rle_ge, sqrt_pos). exact L. }
  destruct (rnd_mid _ Z) as [q [Q EQ]]. exists (sqrt s * q). split.
  - replace (Datatypes.S n) with (n + 1)%nat by lia. apply fac_mul; [apply fac_sqrt, S|exact Q].
  - rewrite V, EQ, E2. ring.
Qed.

Section Unit.
  Variable v : list double.
  Hypothesis VS : vector_scale v.
  Let n := length v.
  Let V := map val v.

  Lemma comp_sz : forall a, In a v -> finite a /\ sz 300 (val a).
  Proof. intros a H. destruct (ve_size _ VS a H) as [F B]. split; [exact F|]. exact (between_sz 300 _ B). Qed.
  Lemma sumsq_rl : forall l j s S, incl l v -> (j + length l <= n)%nat -> rl (j + 1) s S -> 0 <= S <= INR j * bpow radix2 600 ->
    rl (j + length l + 1) (fold_left (fun s a => s + a * a)%num l s) (S + Sum (fun a => a * a) (map val l)) /\ S + Sum (fun a => a * a) (map val l) <= INR (j + length l) * bpow radix2 600.
  Proof.
    induction l as [|a l IH]; intros j s S0 I L H HS; cbn [length map fold_left] in *.
    - rewrite Sum_nil, Rplus_0_r, Nat.add_0_r. split; [exact H|lra].
    - destruct (comp_sz a (I a (or_introl eq_refl))) as [F Z]. assert (ZZ := sz_mul _ _ _ _ Z Z). change (300 + 300)%Z with 600%Z in ZZ. assert (FW := ve_few _ VS). fold n in FW.
      assert (PA : 0 <= val a * val a) by nra. assert (LA := sz_abs _ _ ZZ). rewrite Rabs_right in LA by lra.
      assert (B : S0 + val a * val a <= INR (j + 1) * bpow radix2 600) by (rewrite plus_INR; cbn [INR]; lra).
      rewrite Sum_cons, <- Rplus_assoc. replace (j + Datatypes.S (length l))%nat with (j + 1 + length l)%nat by lia. apply IH; [intros b Hb; apply I; right; exact Hb|lia| |lra].
      replace (j + 1 + 1)%nat with (Datatypes.S (j + 1)) by lia. apply rl_add; [exact H| |lra|exact PA| |apply gam_small; lia].
      + apply (rl_le (Datatypes.S (0 + 0))); [lia|]. apply rl_mul; [apply rl_val, F|apply rl_val, F|apply (sz_le 600); [lia|exact ZZ]|]. unfold gam. cbn. lra.
      + eapply Rle_trans; [exact B|]. apply Rle_trans with (bpow radix2 26 * bpow radix2 600); [|rewrite <- bpow_plus; apply bpow_le; lia]. apply Rmult_le_compat_r; [apply bpow_ge_0|].
        change (bpow radix2 26) with 67108864. rewrite INR_IZR_INZ. apply IZR_le. lia.
  Qed.
  Lemma len_range : bpow radix2 (-300) <= length2 V <= bpow radix2 313.
  Proof.
    unfold length2. split.
    - destruct (ve_nonzero _ VS) as [a [I NZ]]. destruct (comp_sz a I) as [_ [Z|[A _]]]; [contradiction|]. apply Rle_trans with (Rabs (val a)); [exact A|]. rewrite <- sqrt_Rsqr_abs. apply sqrt_le_1_alt. unfold Rsqr.
      assert (IV : In (val a) V) by (apply in_map, I). clear - IV. induction V as [|b l IH]; [destruct IV|]. rewrite Sum_cons. assert (P := sumsq_nonneg l). destruct IV as [->|IV]; [lra|]. specialize (IH IV). nra.
    - destruct (sumsq_rl v 0 (nofZ 0) 0) as [_ B].
      + apply incl_refl.
      + cbn; unfold n; lia.
      + destruct zero as [F E]. rewrite <- E. apply rl_val, F.
      + cbn [INR]. lra.
      + rewrite Rplus_0_l in B. cbn [Nat.add] in B. fold V in B. apply Rle_trans with (sqrt (bpow radix2 313 * bpow radix2 313)); [|rewrite sqrt_square; [lra|apply bpow_ge_0]]. apply sqrt_le_1_alt. eapply Rle_trans; [exact B|].
        rewrite <- bpow_plus. apply Rle_trans with (bpow radix2 26 * bpow radix2 600); [|rewrite <- bpow_plus; apply bpow_le; lia]. apply Rmult_le_compat_r; [apply bpow_ge_0|].
        change (bpow radix2 26) with 67108864. rewrite INR_IZR_INZ. apply IZR_le. assert (FW := ve_few _ VS). lia.
  Qed.
  Lemma norm_rl : rl (n + 2) (norm_array v) (length2 V).
  Proof.
    destruct (sumsq_rl v 0 (nofZ 0) 0) as [H _].
    - apply incl_refl.
    - cbn; unfold n; lia.
    - destruct zero as [F E]. rewrite <- E. apply rl_val, F.
    - cbn [INR]. lra.
    - rewrite Rplus_0_l in H. cbn [Nat.add] in H. fold n in H. fold V in H. unfold norm_array. replace (n + 2)%nat with (S (n + 1)) by lia. assert (FW := ve_few _ VS). fold n in FW. apply rl_sqrt.
      + exact H.
      + destruct (Rle_lt_or_eq_dec _ _ (sumsq_nonneg V)) as [P|Z]; [exact P|]. assert (L := len_range). unfold length2 in L. rewrite <- Z, sqrt_0 in L. assert (Q := bpow_gt_0 radix2 (-300)). lra.
      + apply gam_small. lia.
      + assert (L := len_range). unfold length2 in L. split; eapply Rle_trans; [|apply L|apply L|]; apply bpow_le; lia.
  Qed.
  Lemma unit_rl : forall a, In a v -> rl (n + 3) (ndiv a (norm_array v)) (val a / length2 V).
  Proof.
    intros a I. destruct (comp_sz a I) as [F Z]. assert (L := len_range). assert (LP := bpow_gt_0 radix2 (-300)). assert (FW := ve_few _ VS). fold n in FW.
    replace (n + 3)%nat with (S (0 + (n + 2))) by lia. apply rl_div; [apply rl_val, F|apply norm_rl|lra| |apply gam_small; lia].
    apply (sz_le (300 + 313)); [lia|]. unfold Rdiv. apply sz_mul; [exact Z|]. right. rewrite Rabs_right by (left; apply Rinv_0_lt_compat; lra). rewrite bpow_opp. split.
    - apply Rinv_le_contravar; lra.
    - apply Rle_trans with (/ bpow radix2 (-300)); [apply Rinv_le_contravar; lra|]. rewrite <- bpow_opp. apply bpow_le. lia.
  Qed.
End Unit.
