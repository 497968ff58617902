(** Rounding errors of areas, lengths, orientations and shear stiffnesses of triangles. *)
From Coq Require Import ZArith Reals List Bool Arith Lra Lia QArith Qreals.
From Flocq Require Import Core.
From Verif Require Import Num Float Py Mesh Utils CalcK0 AddK0s Spec SpecRound FFloat FTree FRound FRound2 FRound3 FRound4 FRound5 FRound6 FRound14 FRound16.
Import ListNotations.
Local Open Scope R_scope.

Definition rng (a b : Z) (x : R) : Prop := bpow radix2 a <= x <= bpow radix2 b.
Lemma rng_pos : forall a b x, rng a b x -> 0 < x.
Proof. intros a b x [H _]. assert (X := bpow_gt_0 radix2 a). lra. Qed.
Lemma rng_mul : forall a b c d x y, rng a b x -> rng c d y -> rng (a + c) (b + d) (x * y).
Proof.
  intros a b c d x y H1 H2. assert (P1 := rng_pos _ _ _ H1). assert (P2 := rng_pos _ _ _ H2). assert (X := bpow_gt_0 radix2 a). assert (Y := bpow_gt_0 radix2 c). destruct H1, H2.
  split; rewrite bpow_plus; apply Rmult_le_compat; lra.
Qed.
Lemma rng_inv : forall a b x, rng a b x -> rng (- b) (- a) (/ x).
Proof.
  intros a b x H. assert (P := rng_pos _ _ _ H). assert (X := bpow_gt_0 radix2 a). destruct H as [H1 H2]. split; rewrite bpow_opp; apply Rinv_le; assumption.
Qed.
Lemma rng_div : forall a b c d x y, rng a b x -> rng c d y -> rng (a - d) (b - c) (x / y).
Proof. intros. apply (rng_mul a b (- d) (- c)); [assumption|apply rng_inv; assumption]. Qed.
Lemma rng_le : forall a b c d x, rng a b x -> (c <= a)%Z -> (b <= d)%Z -> rng c d x.
Proof. intros a b c d x [H1 H2] A B. assert (bpow radix2 c <= bpow radix2 a) by (apply bpow_le, A). assert (bpow radix2 b <= bpow radix2 d) by (apply bpow_le, B). split; lra. Qed.
Lemma rng_mid : forall a b x, rng a b x -> (-390 <= a)%Z -> (b <= 390)%Z -> mid_range x.
Proof. intros a b x H A B. destruct (rng_le a b (-390) 390 x H A B). split; assumption. Qed.
Lemma rng_one : rng 0 0 1. Proof. split; cbn; lra. Qed.
Lemma rng_1p : forall a b x, rng a b x -> (0 <= b)%Z -> rng 0 (b + 1) (1 + x).
Proof.
  intros a b x H B. assert (P := rng_pos _ _ _ H). destruct H as [_ H]. assert (bpow radix2 0 <= bpow radix2 b) by (apply bpow_le, B). change (bpow radix2 0) with 1 in *. split; [change (bpow radix2 0) with 1; lra|].
  rewrite bpow_plus. replace (bpow radix2 1) with 2 by reflexivity. lra.
Qed.
Lemma rng_in64 : forall x, in64 x -> rng (-64) 64 x.
Proof. intros x [A B]. split; cbn; lra. Qed.

Section Geo.
  Variables h rho s kappa : R.
  Hypothesis SL : scales h rho s (kappa * roundoff).
  Hypothesis K1 : 1 <= kappa.
  Hypothesis KX : in64 (kappa * h).
  Let delta := kappa * roundoff.
  Let eps := delta * rho.
  Notation clv := (clv h kappa).
  Notation exact := (exact h kappa).

  Lemma eps_low : roundoff <= eps.
  Proof.
    unfold eps. assert (D := sl_delta _ _ _ _ SL). fold delta in D. assert (R1 := sl_rho _ _ _ _ SL). assert (UP : 0 < roundoff) by (unfold roundoff; lra).
    rewrite <- (Rmult_1_r roundoff). apply Rmult_le_compat; lra.
  Qed.
  Lemma eps_high : eps <= / 1048576. Proof. exact (delta_rho h rho s kappa SL). Qed.
  Notation rel := (rel eps).

  Lemma h_rng : rng (-64) 64 h. Proof. apply rng_in64, SL. Qed.
  Lemma rho_rng : rng 0 17 rho.
  Proof. assert (R1 := sl_rho _ _ _ _ SL). assert (R2 := rho_max rho _ (sl_delta _ _ _ _ SL) (sl_small _ _ _ _ SL)). split; cbn; lra. Qed.

  (** ** Signs *)
  Lemma sign_near : forall (u v : vec3 double) (a b c d : R),
    nearF h rho s delta vecb (vx u) a -> nearF h rho s delta vecb (vy u) b -> nearF h rho s delta (Fb 0 0 5 0 1 0) (vz u) 0 ->
    nearF h rho s delta vecb (vx v) c -> nearF h rho s delta vecb (vy v) d -> nearF h rho s delta (Fb 0 0 5 0 1 0) (vz v) 0 ->
    2 * (h * h) <= 3 * (rho * Rabs (a * d - b * c)) ->
    nltb (dot (cross u v) ZGLOBAL) (nofZ 0) = (if Rlt_dec (a * d - b * c) 0 then true else false).
  Proof.
    intros u v a b c d VX VY VZ WX WY WZ F.
    assert (HP := h_pos _ _ _ _ SL). assert (R1 := sl_rho _ _ _ _ SL). assert (DP := d_pos _ _ _ _ SL). fold delta in DP.
    assert (SM := eps_high). unfold eps in SM.
    set (rF := fun i => nth i [vx u; vy u; vz u; vx v; vy v; vz v] (nofZ 0)).
    set (rR := fun i => nth i [a; b; 0; c; d; 0] 0).
    assert (HV : forall i, nearF h rho s delta (or_leaf i) (rF i) (rR i)).
    { intros [|[|[|[|[|[|i]]]]]]; try assumption. unfold rF, rR, or_leaf. rewrite !nth_overflow by (cbn; lia).
      apply (nearF_le _ _ _ _ SL (Fb 0 0 0 0 1 0)); [reflexivity|]. apply (zero_near _ _ _ _ SL); reflexivity || (cbn; lia). }
    assert (N := within_ok h rho s delta SL or_leaf noinv rF rR HV (noinv_ok _ _ _ _ _ _) or_tree (Fb 2 0 30 0 2 0) ltac:(vm_compute; reflexivity)).
    destruct N as [FN [_ [_ [_ [_ EN]]]]]. change (evalG L0F rF or_tree) with (dot (cross u v) ZGLOBAL) in *.
    set (x := dot (cross u v) ZGLOBAL) in *.
    assert (ER : evalG L0R rR or_tree = a * d - b * c).
    { unfold or_tree, dot, cross, ZGLOBAL. cbn [vx vy vz evalG rR nth nadd nmul nsub nofZ NumE]. rnum. unfold rR; cbn [nth]. ring. }
    rewrite ER in EN. unfold sc in EN. cbn [fd frd fh fs pow] in EN. change (powerRZ h 2) with (h * (h * 1)) in EN. 
    change (Q2R 30) with (30 * / 1) in EN. set (D := a * d - b * c) in *.
    assert (HH : 0 < h * h) by (apply Rmult_lt_0_compat; assumption).
    assert (DL : 30 * (delta * (h * h)) < Rabs D).
    { apply Rmult_lt_reg_l with rho; [lra|]. replace (rho * (30 * (delta * (h * h)))) with (30 * (delta * rho) * (h * h)) by ring.
      apply Rlt_le_trans with (2 / 3 * (h * h)); [apply Rmult_lt_compat_r; lra|]. lra. }
    destruct (fl_ofZ 0 ltac:(lia)) as [F0 V0].
    assert (LE : Rabs (val x - D) < Rabs D) by (eapply Rle_lt_trans; [exact EN|]; lra).
    destruct (Rlt_dec D 0) as [N|N].
    - apply fl_ltb; [exact FN|exact F0|]. rewrite V0. unfold Rabs in LE. repeat destruct (Rcase_abs _) in LE; lra.
    - apply not_true_is_false. intros B. apply fl_ltb in B; [|exact FN|exact F0]. rewrite V0 in B. unfold Rabs in LE. repeat destruct (Rcase_abs _) in LE; lra.
  Qed.

  (** ** Differences of node positions *)
  Definition dif : fb := Fb 1 0 (Qmake 1025 1024) 0 1 0.
  Definition dif0 : fb := Fb 0 0 (Qmake 1 1024) 0 1 0.
  Lemma node_vec : forall p q P Q, clv 0 p P -> clv 0 q Q -> apart h P Q -> vz P = vz Q ->
    nearF h rho s delta dif (vx (vsub p q)) (vx P - vx Q) /\ nearF h rho s delta dif (vy (vsub p q)) (vy P - vy Q) /\
    nearF h rho s delta dif0 (vz (vsub p q)) 0.
  Proof.
    intros p q P Q [X1 [Y1 Z1]] [X2 [Y2 Z2]] [A B] Z. unfold vsub; cbn [vx vy vz]. assert (HP := h_pos _ _ _ _ SL).
    assert (D1 : fle (Fb 1 0 (0 + 0 + 1 + Qmake 1 1024) 0 1 0) dif = true) by (vm_compute; reflexivity).
    assert (D0 : fle (Fb 0 0 (0 + 0 + 0 + Qmake 1 1024) 0 1 0) dif0 = true) by (vm_compute; reflexivity).
    split; [|split].
    - apply (nearF_le _ _ _ _ SL _ _ _ _ D1). eapply cl_sub; eauto; try (split; unfold Qle; cbn; lia); try (unfold Qle; cbn; lia). rewrite Q2R_1. lra.
    - apply (nearF_le _ _ _ _ SL _ _ _ _ D1). eapply cl_sub; eauto; try (split; unfold Qle; cbn; lia); try (unfold Qle; cbn; lia). rewrite Q2R_1. lra.
    - replace 0 with (vz P - vz Q) by lra. apply (nearF_le _ _ _ _ SL _ _ _ _ D0). eapply cl_sub; eauto; try (split; unfold Qle; cbn; lia); try (unfold Qle; cbn; lia). rewrite RMicromega.Q2R_0, Z.
      replace (vz Q - vz Q) with 0 by ring. rewrite Rabs_R0. lra.
  Qed.
  Lemma dif_err : forall x X, nearF h rho s delta dif x X -> Rabs (val x - X) <= 1025 / 1024 * (delta * h) /\ Rabs X <= h.
  Proof.
    intros x X [_ [_ [_ [_ [A B]]]]]. unfold dif in *. rewrite sc_h in *. cbn [fv fd frv frd pow] in *. rewrite Q2R_1 in A. replace (Q2R (Qmake 1025 1024)) with (1025 / 1024) in B by (unfold Q2R; cbn; lra). split; lra.
  Qed.
  Lemma dif0_err : forall x, nearF h rho s delta dif0 x 0 -> Rabs (val x) <= / 1024 * (delta * h).
  Proof.
    intros x [_ [_ [_ [_ [_ B]]]]]. unfold dif0 in *. rewrite sc_h in *. cbn [fv fd frv frd pow] in *. rewrite Rminus_0_r in B. replace (Q2R (Qmake 1 1024)) with (/ 1024) in B by (unfold Q2R; cbn; lra). lra.
  Qed.

  (** length of a side *)
  Lemma side_rel : forall p q P Q, clv 0 p P -> clv 0 q Q -> apart h P Q -> vz P = vz Q ->
    2 * h <= 3 * rho * (Rabs (vx P - vx Q) + Rabs (vy P - vy Q)) ->
    rel 12 (norm (vsub p q)) (norm3 (vx P - vx Q) (vy P - vy Q) (vz P - vz Q)) /\
    rng (-84) 65 (norm3 (vx P - vx Q) (vy P - vy Q) (vz P - vz Q)).
  Proof.
    intros p q P Q Cp Cq AP Z LOW. destruct (node_vec p q P Q Cp Cq AP Z) as [NX [NY NZ]].
    replace (vz P - vz Q) with 0 by lra. set (A := vx P - vx Q) in *. set (B := vy P - vy Q) in *.
    assert (VX : nearF h rho s delta vecb (vx (vsub p q)) A) by (apply (nearF_le _ _ _ _ SL dif); [reflexivity|exact NX]).
    assert (VY : nearF h rho s delta vecb (vy (vsub p q)) B) by (apply (nearF_le _ _ _ _ SL dif); [reflexivity|exact NY]).
    assert (VZ : nearF h rho s delta (Fb 0 0 5 0 1 0) (vz (vsub p q)) 0) by (apply (nearF_le _ _ _ _ SL dif0); [reflexivity|exact NZ]).
    assert (LD := low_div h rho s kappa SL A B LOW). assert (LH := LE_high h rho s kappa SL (vsub p q) A B VX VY VZ).
    assert (HP := h_pos _ _ _ _ SL). assert (DP := d_pos _ _ _ _ SL). fold delta in DP. assert (R1 := sl_rho _ _ _ _ SL).
    assert (RG : rng (-84) 65 (norm3 A B 0)).
    { split.
      - apply Rle_trans with (47 / 100 * (h / rho)); [|exact LD]. destruct (rng_div _ _ _ _ _ _ h_rng rho_rng) as [X _].
        replace (-84)%Z with (-3 + (-64 - 17))%Z by lia. rewrite bpow_plus. assert (Y := bpow_gt_0 radix2 (-64 - 17)). replace (bpow radix2 (-3)) with (/ 8) by (cbn; lra). lra.
      - eapply Rle_trans; [exact LH|]. replace 65%Z with (1 + 64)%Z by lia. rewrite bpow_plus. replace (bpow radix2 1) with 2 by reflexivity. destruct h_rng as [_ X]. lra. }
    split; [|exact RG].
    destruct (dif_err _ _ NX) as [EX _]. destruct (dif_err _ _ NY) as [EY _]. assert (EZ := dif0_err _ NZ).
    set (L := norm3 A B 0) in *. set (l := norm3 (val (vx (vsub p q))) (val (vy (vsub p q))) (val (vz (vsub p q)))).
    assert (DH : delta * h <= 100 / 47 * (eps * L)).
    { unfold eps. apply Rle_trans with (100 / 47 * (delta * rho * (47 / 100 * (h / rho)))); [right; field; lra|]. apply Rmult_le_compat_l; [lra|]. apply Rmult_le_compat_l; [apply Rmult_le_pos; lra|exact LD]. }
    assert (LP : 0 < L) by apply (rng_pos _ _ _ RG).
    assert (ES := eps_high). assert (EP : 0 < eps) by (assert (X := eps_low); unfold roundoff in X; lra).
    assert (EL : eps * L <= / 1048576 * L) by (apply Rmult_le_compat_r; lra).
    assert (ELP : 0 < eps * L) by (apply Rmult_lt_0_compat; assumption).
    assert (LIP : Rabs (l - L) <= 9 / 2 * (eps * L)).
    { eapply Rle_trans; [apply norm3_lip|]. replace (val (vz (vsub p q)) - 0) with (val (vz (vsub p q))) by ring. lra. }
    assert (LIP2 := LIP). apply abs_split in LIP2.
    destruct (norm_rel (vsub p q)) as [FN EN]; [apply NX|apply NY|apply NZ| |].
    { fold l. destruct RG as [RG1 RG2]. split.
      - apply Rle_trans with (/ 2 * bpow radix2 (-84)); [|lra]. replace (/ 2) with (bpow radix2 (-1)) by (cbn; lra). rewrite <- bpow_plus. apply bpow_le; lia.
      - apply Rle_trans with (2 * bpow radix2 65); [lra|]. replace 2 with (bpow radix2 1) by reflexivity. rewrite <- bpow_plus. apply bpow_le; lia. }
    fold l in EN. split; [exact FN|]. split; [exact LP|]. split; [lra|].
    assert (U := eps_low). assert (roundoff * l <= eps * (1001 / 1000 * L)) by (apply Rmult_le_compat; unfold roundoff in *; lra).
    apply abs_split in EN. apply abs_join; lra.
  Qed.
  Definition lcell (p q : vec3 R) : R := norm3 (vx p - vx q) (vy p - vy q) (vz p - vz q).

  (** ** Area *)
  Definition cr_leaf (i : nat) : fb := match i with 2%nat | 5%nat => dif0 | _ => dif end.
  Definition cr_tree : vec3 expr := cross (V3 (EV 0) (EV 1) (EV 2)) (V3 (EV 3) (EV 4) (EV 5)).
  Lemma tri_area_near : forall p1 p2 p3 P1 P2 P3, clv 0 p1 P1 -> clv 0 p2 P2 -> clv 0 p3 P3 -> apart h P2 P1 -> apart h P3 P1 -> vz P2 = vz P1 -> vz P3 = vz P1 ->
    2 * (h * h) <= rho * Rabs (det2 P1 P2 P3) ->
    finite (tri_area3 p1 p2 p3) /\ Rabs (val (tri_area3 p1 p2 p3) - Rabs (det2 P1 P2 P3) / 2) <= 30 * (delta * (h * h)) /\ Rabs (det2 P1 P2 P3) / 2 <= h * h.
  Proof.
    intros p1 p2 p3 P1 P2 P3 C1 C2 C3 A2 A3 Z2 Z3 F.
    destruct (node_vec p2 p1 P2 P1 C2 C1 A2 Z2) as [UX [UY UZ]]. destruct (node_vec p3 p1 P3 P1 C3 C1 A3 Z3) as [VX [VY VZ]].
    assert (HP := h_pos _ _ _ _ SL). assert (R1 := sl_rho _ _ _ _ SL). assert (DP := d_pos _ _ _ _ SL). fold delta in DP. assert (ES := eps_high). unfold eps in ES.
    set (u := vsub p2 p1) in *. set (v := vsub p3 p1) in *.
    set (rF := fun i => nth i [vx u; vy u; vz u; vx v; vy v; vz v] (nofZ 0)).
    set (rR := fun i => nth i [vx P2 - vx P1; vy P2 - vy P1; 0; vx P3 - vx P1; vy P3 - vy P1; 0] 0).
    assert (HV : forall i, nearF h rho s delta (cr_leaf i) (rF i) (rR i)).
    { intros [|[|[|[|[|[|i]]]]]]; try assumption. unfold rF, rR, cr_leaf. rewrite !nth_overflow by (cbn; lia).
      apply (nearF_le _ _ _ _ SL (Fb 0 0 0 0 1 0)); [reflexivity|]. apply (zero_near _ _ _ _ SL); reflexivity || (cbn; lia). }
    assert (W := fun e c => within_ok h rho s delta SL cr_leaf noinv rF rR HV (noinv_ok _ _ _ _ _ _) e c).
    assert (NX := W (vx cr_tree) (Fb 0 0 (Qmake 1 100) 0 2 0) ltac:(vm_compute; reflexivity)).
    assert (NY := W (vy cr_tree) (Fb 0 0 (Qmake 1 100) 0 2 0) ltac:(vm_compute; reflexivity)).
    assert (NZ := W (vz cr_tree) (Fb 2 0 9 0 2 0) ltac:(vm_compute; reflexivity)). clear W.
    change (evalG L0F rF (vx cr_tree)) with (vx (cross u v)) in NX. change (evalG L0F rF (vy cr_tree)) with (vy (cross u v)) in NY. change (evalG L0F rF (vz cr_tree)) with (vz (cross u v)) in NZ.
    assert (EX : evalG L0R rR (vx cr_tree) = 0) by (unfold cr_tree, cross; cbn [vx vy vz evalG nsub nmul NumE]; rnum; unfold rR; cbn [nth]; ring).
    assert (EY : evalG L0R rR (vy cr_tree) = 0) by (unfold cr_tree, cross; cbn [vx vy vz evalG nsub nmul NumE]; rnum; unfold rR; cbn [nth]; ring).
    assert (EZ : evalG L0R rR (vz cr_tree) = det2 P1 P2 P3) by (unfold cr_tree, cross; cbn [vx vy vz evalG nsub nmul NumE]; rnum; unfold rR, det2; cbn [nth]; ring).
    rewrite EX in NX. rewrite EY in NY. rewrite EZ in NZ. clear EX EY EZ.
    destruct NX as [FX [_ [_ [_ [_ BX]]]]]. destruct NY as [FY [_ [_ [_ [_ BY]]]]]. destruct NZ as [FZ [_ [_ [_ [BV BZ]]]]].
    unfold sc in BX, BY, BV, BZ. cbn [fv frv fd frd fh fs pow] in BX, BY, BV, BZ. change (powerRZ h 2) with (h * (h * 1)) in BX, BY, BV, BZ.
    replace (Q2R (Qmake 1 100)) with (/ 100) in BX, BY by (unfold Q2R; cbn; lra). replace (Q2R 9) with 9 in BZ by (unfold Q2R; cbn; lra). replace (Q2R 2) with 2 in BV by (unfold Q2R; cbn; lra).
    set (D := det2 P1 P2 P3) in *. set (c := cross u v) in *. set (hh := h * h) in *.
    assert (HH : rng (-128) 128 hh) by (apply (rng_mul (-64) 64 (-64) 64); apply h_rng). assert (HHP := rng_pos _ _ _ HH).
    assert (BX' : Rabs (val (vx c) - 0) <= / 100 * (delta * hh)) by (eapply Rle_trans; [exact BX|]; right; unfold hh; ring). assert (BY' : Rabs (val (vy c) - 0) <= / 100 * (delta * hh)) by (eapply Rle_trans; [exact BY|]; right; unfold hh; ring).
    assert (BZ' : Rabs (val (vz c) - D) <= 9 * (delta * hh)) by (eapply Rle_trans; [exact BZ|]; right; unfold hh; ring). assert (BV' : Rabs D <= 2 * hh) by (eapply Rle_trans; [exact BV|]; right; unfold hh; ring).
    clear BX BY BZ BV.
    assert (N0 : norm3 0 0 D = Rabs D) by (unfold norm3; rewrite !Rmult_0_l, !Rplus_0_l; apply sqrt_Rsqr_abs).
    set (l := norm3 (val (vx c)) (val (vy c)) (val (vz c))).
    assert (LIP : Rabs (l - Rabs D) <= 10 * (delta * hh)).
    { rewrite <- N0. eapply Rle_trans; [apply norm3_lip|]. assert (0 <= delta * hh) by (apply Rmult_le_pos; lra). lra. }
    assert (DHS : delta * hh <= / 1048576 * (/ 2 * Rabs D)).
    { apply Rmult_le_reg_l with rho; [lra|]. apply Rle_trans with (delta * rho * hh); [right; ring|]. apply Rle_trans with (/ 1048576 * hh); [apply Rmult_le_compat_r; lra|].
      apply Rle_trans with (/ 1048576 * (/ 2 * (rho * Rabs D))); [|right; ring]. apply Rmult_le_compat_l; lra. }
    assert (LIP' := LIP). apply abs_split in LIP'.
    assert (RD : rng (-146) 130 (Rabs D)).
    { split.
      - destruct (rng_div _ _ _ _ _ _ HH rho_rng) as [X _]. apply Rle_trans with (2 * (hh / rho)).
        + apply Rle_trans with (bpow radix2 (-128 - 17)); [apply bpow_le; lia|]. assert (Y := bpow_gt_0 radix2 (-128 - 17)). lra.
        + apply Rmult_le_reg_l with rho; [lra|]. replace (rho * (2 * (hh / rho))) with (2 * hh) by (field; lra). exact F.
      - eapply Rle_trans; [exact BV'|]. replace 130%Z with (2 + 128)%Z by lia. rewrite bpow_plus. replace (bpow radix2 2) with 4 by (cbn; lra). destruct HH as [_ X]. lra. }
    destruct (norm_rel c FX FY FZ) as [FN EN].
    { fold l. destruct RD as [RG1 RG2]. split.
      - apply Rle_trans with (/ 2 * bpow radix2 (-146)); [|lra]. replace (/ 2) with (bpow radix2 (-1)) by (cbn; lra). rewrite <- bpow_plus. apply bpow_le; lia.
      - apply Rle_trans with (2 * bpow radix2 130); [lra|]. replace 2 with (bpow radix2 1) by reflexivity. rewrite <- bpow_plus. apply bpow_le; lia. }
    fold l in EN.
    assert (UD : roundoff <= delta) by exact (sl_delta _ _ _ _ SL). assert (UP : 0 < roundoff) by (unfold roundoff; lra).
    assert (EL : roundoff * l <= delta * (2001 / 1000 * hh)) by (apply Rmult_le_compat; lra).
    assert (EN' : Rabs (val (norm c) - Rabs D) <= 23 * (delta * hh)) by (apply abs_split in EN; apply abs_join; lra).
    unfold tri_area3. fold u v c.
    assert (H2 : finite (ndiv (nofZ 1) (nofZ 2)) /\ val (ndiv (nofZ 1) (nofZ 2)) = / 2).
    { assert (E : ndiv (nofZ 1) (nofZ 2) = (SpecFloat.S754_finite false 4503599627370496 (-53) : double)) by (vm_compute; reflexivity). rewrite E. split; [reflexivity|]. cbn [val]. replace (powerRZ 2 (-53)) with (bpow radix2 (-53)) by (rewrite bpow_powerRZ; reflexivity). cbn. lra. }
    destruct H2 as [FH VH]. apply abs_split in EN'.
    assert (S1 : Rabs (/ 2 * val (norm c)) <= 2 * hh) by (apply abs_join; lra).
    assert (B2 : 2 * hh <= bpow radix2 1000) by (apply Rle_trans with (2 * bpow radix2 128); [destruct HH; lra|]; replace 2 with (bpow radix2 1) by reflexivity; rewrite <- bpow_plus; apply bpow_le; lia).
    destruct (fl_mul _ _ FH FN) as [FM VM]; [rewrite VH; lra|]. split; [exact FM|]. rewrite VM, VH. split; [|lra].
    assert (RE := rnd_err (/ 2 * val (norm c))).
    assert (W1 : roundoff * Rabs (/ 2 * val (norm c)) <= delta * (2 * hh)) by (apply Rmult_le_compat; try lra; apply Rabs_pos).
    assert (ET : eta <= delta * hh).
    { eapply Rle_trans; [exact eta_small|]. assert (bpow radix2 (-400) <= hh) by (eapply Rle_trans; [|apply HH]; apply bpow_le; lia). assert (0 < bpow radix2 (-400)) by apply bpow_gt_0.
      apply Rmult_le_compat; lra. }
    apply abs_split in RE. apply abs_join; lra.
  Qed.
End Geo.
