(** Rounding errors of lengths and normals. *)
From Coq Require Import ZArith Reals List Bool Arith Lra Lia QArith Qreals.
From Flocq Require Import Core BinarySingleNaN.
From Verif Require Import Num Float Py Mesh Utils SpecRound FFloat FTree FRound FRound2.
Import ListNotations.
Local Open Scope R_scope.

Lemma abs_split : forall x y, Rabs x <= y -> - y <= x <= y.
Proof. intros x y H. unfold Rabs in H. destruct (Rcase_abs x); lra. Qed.
Lemma abs_join : forall x y, - y <= x -> x <= y -> Rabs x <= y.
Proof. intros x y A B. unfold Rabs. destruct (Rcase_abs x); lra. Qed.
Lemma sqrt_sq_le : forall x y, 0 <= y -> x <= y * y -> sqrt x <= y.
Proof. intros x y Y L. rewrite <- (sqrt_square y Y). apply sqrt_le_1_alt, L. Qed.
Lemma sqrt_sq_ge : forall x y, 0 <= y -> y * y <= x -> y <= sqrt x.
Proof. intros x y Y L. rewrite <- (sqrt_square y Y). apply sqrt_le_1_alt, L. Qed.
Lemma abs_sq : forall x, Rabs x * Rabs x = x * x.
Proof. intros x. rewrite <- Rabs_mult. apply Rabs_right. assert (H := Rle_0_sqr x). unfold Rsqr in H. lra. Qed.

Definition norm3 (a b c : R) : R := sqrt (a * a + b * b + c * c).
Lemma norm3_sq : forall a b c, norm3 a b c * norm3 a b c = a * a + b * b + c * c.
Proof. intros. unfold norm3. apply sqrt_sqrt. assert (X := Rle_0_sqr a). assert (Y := Rle_0_sqr b). assert (Z := Rle_0_sqr c). unfold Rsqr in *. lra. Qed.
Lemma norm3_pos : forall a b c, 0 <= norm3 a b c.
Proof. intros. apply sqrt_pos. Qed.
Lemma norm3_ge : forall a b c, Rabs a <= norm3 a b c /\ Rabs b <= norm3 a b c /\ Rabs c <= norm3 a b c.
Proof.
  intros a b c. assert (X := Rle_0_sqr a). assert (Y := Rle_0_sqr b). assert (Z := Rle_0_sqr c). unfold Rsqr in *.
  split; [|split]; apply sqrt_sq_ge; try apply Rabs_pos; rewrite abs_sq; lra.
Qed.
Lemma norm3_tri : forall a b c A B C, norm3 a b c <= norm3 A B C + (Rabs (a - A) + Rabs (b - B) + Rabs (c - C)).
Proof.
  intros a b c A B C. destruct (norm3_ge A B C) as [G1 [G2 G3]]. assert (Q := norm3_sq A B C). assert (P := norm3_pos A B C).
  set (L := norm3 A B C) in *. clearbody L.
  assert (T : forall x Xx, x * x <= Xx * Xx + 2 * L * Rabs (x - Xx) + Rabs (x - Xx) * Rabs (x - Xx) \/ L < Rabs Xx).
  { intros x Xx. destruct (Rle_or_lt (Rabs Xx) L) as [G|G]; [left|right; exact G]. assert (E := abs_sq (x - Xx)). rewrite E.
    assert (N : (x - Xx) * Xx <= Rabs (x - Xx) * L).
    { eapply Rle_trans; [apply Rle_abs|]. rewrite Rabs_mult. apply Rmult_le_compat_l; [apply Rabs_pos|exact G]. }
    lra. }
  destruct (T a A) as [Ta|]; [|lra]. destruct (T b B) as [Tb|]; [|lra]. destruct (T c C) as [Tc|]; [|lra].
  assert (Pa := Rabs_pos (a - A)). assert (Pb := Rabs_pos (b - B)). assert (Pc := Rabs_pos (c - C)).
  set (ea := Rabs (a - A)) in *. set (eb := Rabs (b - B)) in *. set (ec := Rabs (c - C)) in *. clearbody ea eb ec.
  apply sqrt_sq_le; [lra|].
  assert (0 <= ea * eb) by (apply Rmult_le_pos; assumption). assert (0 <= ea * ec) by (apply Rmult_le_pos; assumption). assert (0 <= eb * ec) by (apply Rmult_le_pos; assumption).
  lra.
Qed.
Lemma norm3_lip : forall a b c A B C, Rabs (norm3 a b c - norm3 A B C) <= Rabs (a - A) + Rabs (b - B) + Rabs (c - C).
Proof.
  intros. assert (X := norm3_tri a b c A B C). assert (Y := norm3_tri A B C a b c).
  rewrite (Rabs_minus_sym A a), (Rabs_minus_sym B b), (Rabs_minus_sym C c) in Y. apply abs_join; lra.
Qed.

Lemma rnd_two : forall z, - (roundoff * Rabs z + eta) <= rnd z - z <= roundoff * Rabs z + eta.
Proof. intros z. apply abs_split, rnd_err. Qed.

Lemma eta_small : eta <= roundoff * / 8 * bpow radix2 (-400).
Proof.
  unfold eta. replace (roundoff * / 8) with (bpow radix2 (-56)) by (unfold roundoff; cbn; lra). rewrite <- bpow_plus.
  apply Rle_trans with (bpow radix2 (-1074)); [assert (Y := bpow_gt_0 radix2 (-1074)); lra|]. apply bpow_le. lia.
Qed.

(** np.linalg.norm in double precision *)
Lemma norm_rel : forall v : vec3 double, finite (vx v) -> finite (vy v) -> finite (vz v) ->
  let n := norm3 (val (vx v)) (val (vy v)) (val (vz v)) in
  bpow radix2 (-200) <= n <= bpow radix2 200 ->
  finite (norm v) /\ Rabs (val (norm v) - n) <= 6 * roundoff * n.
Proof.
  intros [x y z] Fx Fy Fz n N. cbn [vx vy vz] in *. unfold norm, dot; cbn [vx vy vz].
  assert (SQ := norm3_sq (val x) (val y) (val z)). fold n in SQ.
  assert (B0 := bpow_gt_0 radix2 (-200)).
  assert (S1 : bpow radix2 (-400) <= n * n) by (replace (-400)%Z with (-200 + -200)%Z by lia; rewrite bpow_plus; apply Rmult_le_compat; lra).
  assert (S2 : n * n <= bpow radix2 400) by (replace 400%Z with (200 + 200)%Z by lia; rewrite bpow_plus; apply Rmult_le_compat; lra).
  assert (B4 : bpow radix2 400 * 4 <= bpow radix2 1000).
  { replace 4 with (bpow radix2 2) by reflexivity. rewrite <- bpow_plus. apply bpow_le. lia. }
  assert (BP4 := bpow_gt_0 radix2 400).
  assert (E8 := eta_small). assert (EP := eta_pos).
  assert (ET : eta <= roundoff * / 8 * (n * n)) by (eapply Rle_trans; [exact E8|]; apply Rmult_le_compat_l; [unfold roundoff; lra|exact S1]).
  assert (Qx := Rle_0_sqr (val x)). assert (Qy := Rle_0_sqr (val y)). assert (Qz := Rle_0_sqr (val z)). unfold Rsqr in *.
  assert (AB : forall q, 0 <= q -> q <= bpow radix2 400 -> Rabs q <= bpow radix2 1000) by (intros q Q1 Q2; rewrite Rabs_right by lra; lra).
  destruct (fl_mul x x Fx Fx (AB _ Qx ltac:(lra))) as [G1 V1]. destruct (fl_mul y y Fy Fy (AB _ Qy ltac:(lra))) as [G2 V2]. destruct (fl_mul z z Fz Fz (AB _ Qz ltac:(lra))) as [G3 V3].
  set (A := val x * val x) in *. set (B := val y * val y) in *. set (C := val z * val z) in *.
  assert (R1 := rnd_two A). assert (R2 := rnd_two B). assert (R3 := rnd_two C). rewrite <- V1 in R1. rewrite <- V2 in R2. rewrite <- V3 in R3.
  rewrite (Rabs_right A) in R1 by lra. rewrite (Rabs_right B) in R2 by lra. rewrite (Rabs_right C) in R3 by lra.
  set (p1 := nmul x x) in *. set (p2 := nmul y y) in *. set (p3 := nmul z z) in *.
  set (S := n * n) in *. unfold roundoff in *.
  assert (P12 : Rabs (val p1 + val p2) <= (A + B) * (1 + / 9007199254740992) + 2 * eta) by (apply abs_join; lra).
  destruct (fl_add p1 p2 G1 G2) as [G4 V4]; [eapply Rle_trans; [exact P12|lra]|].
  assert (R4 := rnd_two (val p1 + val p2)). rewrite <- V4 in R4. set (q1 := nadd p1 p2) in *. unfold roundoff in *.
  assert (P13 : Rabs (val q1 + val p3) <= S * (1 + 3 * / 9007199254740992) + 5 * eta) by (apply abs_join; lra).
  destruct (fl_add q1 p3 G4 G3) as [G5 V5]; [eapply Rle_trans; [exact P13|lra]|].
  assert (R5 := rnd_two (val q1 + val p3)). rewrite <- V5 in R5. set (q := nadd q1 p3) in *. unfold roundoff in *.
  assert (QS : Rabs (val q - S) <= 4 * / 9007199254740992 * S) by (apply abs_join; lra).
  assert (SP : 0 < S) by (assert (Y := bpow_gt_0 radix2 (-400)); lra).
  assert (QP : 0 < val q) by (apply abs_split in QS; lra).
  destruct (fl_sqrt q G5 QP) as [G6 V6]. split; [exact G6|].
  assert (NP : 0 < n) by lra.
  assert (RT : Rabs (sqrt (val q) - n) <= 4 * / 9007199254740992 * n).
  { assert (D : (sqrt (val q) - n) * (sqrt (val q) + n) = val q - S) by (unfold S; assert (W := sqrt_sqrt (val q) ltac:(lra)); lra).
    assert (SN := sqrt_pos (val q)).
    apply Rmult_le_reg_r with n; [exact NP|]. apply Rle_trans with (Rabs (val q - S)).
    - rewrite <- D, Rabs_mult. apply Rmult_le_compat_l; [apply Rabs_pos|]. rewrite Rabs_right; lra.
    - eapply Rle_trans; [exact QS|]. unfold S. right; ring. }
  assert (R6 := rnd_two (sqrt (val q))). rewrite V6. rewrite (Rabs_right (sqrt (val q))) in R6 by (apply Rle_ge, sqrt_pos).
  assert (EN : eta <= / 9007199254740992 * / 8 * n).
  { eapply Rle_trans; [apply eta_small|]. unfold roundoff. apply Rmult_le_compat_l; [lra|]. apply Rle_trans with (bpow radix2 (-200)); [apply bpow_le; lia|apply N]. }
  unfold roundoff in R6. apply abs_split in RT. apply abs_join; lra.
Qed.

Section Seg.
  Variables h rho s kappa : R.
  Hypothesis SL : scales h rho s (kappa * roundoff).
  Hypothesis K1 : 1 <= kappa.
  Let delta := kappa * roundoff.

  Definition vecb : fb := Fb 1 0 5 0 1 0.
  Definition leb_ : fb := Fb (Qmake 3 2) 0 26 0 1 0.
  Definition nxb : fb := Fb 1 0 51 1 0 0.

  Variable v : vec3 double.
  Variables A B : R.
  Hypothesis VX : nearF h rho s delta vecb (vx v) A.
  Hypothesis VY : nearF h rho s delta vecb (vy v) B.
  Hypothesis VZ : nearF h rho s delta (Fb 0 0 5 0 1 0) (vz v) 0.
  Hypothesis LOW : 2 * h <= 3 * rho * (Rabs A + Rabs B).

  Lemma sc_h : forall v n d k, sc h s (Fb v n d k 1 0) = h.
  Proof. intros; unfold sc; cbn [fh fs pow]; rewrite powerRZ_1; ring. Qed.

  Lemma comp_err : Rabs (val (vx v) - A) <= 5 * (delta * h) /\ Rabs (val (vy v) - B) <= 5 * (delta * h) /\ Rabs (val (vz v)) <= 5 * (delta * h) /\ Rabs A <= h /\ Rabs B <= h.
  Proof.
    destruct VX as [_ [_ [_ [_ [X1 X2]]]]]. destruct VY as [_ [_ [_ [_ [Y1 Y2]]]]]. destruct VZ as [_ [_ [_ [_ [_ Z2]]]]]. unfold vecb in *.
    rewrite sc_h in *. cbn [fv fd frv frd pow] in *. replace (Q2R 5) with 5 in * by (unfold Q2R; cbn; lra). rewrite Q2R_1 in *. rewrite Rminus_0_r in Z2.
    repeat split; lra.
  Qed.
  Lemma LE_low : 47 / 100 * h <= rho * norm3 A B 0.
  Proof.
    assert (HP := h_pos _ _ _ _ SL). assert (R1 := sl_rho _ _ _ _ SL).
    assert (Q := norm3_sq A B 0). assert (P := norm3_pos A B 0). set (L := norm3 A B 0) in *. clearbody L.
    assert (E1 := abs_sq A). assert (E2 := abs_sq B). assert (PA := Rabs_pos A). assert (PB := Rabs_pos B). set (a := Rabs A) in *. set (b := Rabs B) in *. clearbody a b.
    assert (AB : (a + b) * (a + b) <= 2 * (L * L)) by (assert (Y := Rle_0_sqr (a - b)); unfold Rsqr in Y; lra).
    assert (RL : (2 * h) * (2 * h) <= (3 * rho * (a + b)) * (3 * rho * (a + b))) by (apply Rmult_le_compat; lra).
    assert (R2 : (3 * rho * (a + b)) * (3 * rho * (a + b)) <= 18 * ((rho * L) * (rho * L))).
    { replace ((3 * rho * (a + b)) * (3 * rho * (a + b))) with ((9 * (rho * rho)) * ((a + b) * (a + b))) by ring.
      replace (18 * ((rho * L) * (rho * L))) with ((9 * (rho * rho)) * (2 * (L * L))) by ring.
      apply Rmult_le_compat_l; [|exact AB]. apply Rmult_le_pos; [lra|apply Rmult_le_pos; lra]. }
    assert (RP : 0 <= rho * L) by (apply Rmult_le_pos; lra). set (z := rho * L) in *. clearbody z.
    destruct (Rle_or_lt (47 / 100 * h) z) as [|G]; [assumption|]. exfalso.
    assert (z * z < (47 / 100 * h) * (47 / 100 * h)) by (apply Rmult_le_0_lt_compat; lra).
    assert (0 < h * h) by (apply Rmult_lt_0_compat; lra). lra.
  Qed.
  Lemma LE_high : norm3 A B 0 <= 3 / 2 * h.
  Proof.
    assert (HP := h_pos _ _ _ _ SL). destruct comp_err as [_ [_ [_ [C1 C2]]]]. apply sqrt_sq_le; [lra|].
    assert (E1 := abs_sq A). assert (E2 := abs_sq B). assert (PA := Rabs_pos A). assert (PB := Rabs_pos B).
    assert (Rabs A * Rabs A <= h * h) by (apply Rmult_le_compat; lra). assert (Rabs B * Rabs B <= h * h) by (apply Rmult_le_compat; lra).
    assert (0 < h * h) by (apply Rmult_lt_0_compat; lra). lra.
  Qed.

  Lemma dh_rho : delta * h <= / 1048576 * (h / rho).
  Proof.
    assert (HP := h_pos _ _ _ _ SL). assert (R1 := sl_rho _ _ _ _ SL). assert (D := delta_rho h rho s kappa SL). fold delta in D.
    replace (delta * h) with (delta * rho * (h / rho)) by (field; lra). apply Rmult_le_compat_r; [|exact D].
    apply Rmult_le_pos; [lra|left; apply Rinv_0_lt_compat; lra].
  Qed.
  Lemma low_div : 47 / 100 * (h / rho) <= norm3 A B 0.
  Proof.
    assert (L := LE_low). assert (R1 := sl_rho _ _ _ _ SL). apply Rmult_le_reg_l with rho; [lra|].
    replace (rho * (47 / 100 * (h / rho))) with (47 / 100 * h) by (field; lra). exact L.
  Qed.
  Lemma hr_range : bpow radix2 (-100) <= h / rho.
  Proof.
    assert (HP := sl_h _ _ _ _ SL). unfold in64 in HP. assert (R1 := sl_rho _ _ _ _ SL).
    assert (RM := rho_max rho _ (sl_delta _ _ _ _ SL) (sl_small _ _ _ _ SL)).
    apply Rle_trans with (/ 18446744073709551616 * / 131072).
    - cbn. lra.
    - apply Rmult_le_compat; try lra. apply Rinv_le_contravar; lra.
  Qed.
  Lemma h_range : h <= bpow radix2 100.
  Proof. assert (HP := sl_h _ _ _ _ SL). unfold in64 in HP. eapply Rle_trans; [apply HP|]. cbn. lra. Qed.

  Lemma le_near : nearF h rho s delta leb_ (norm v) (norm3 A B 0).
  Proof.
    destruct comp_err as [EX [EY [EZ_ [CA CB]]]]. assert (LD := low_div). assert (LH := LE_high). assert (DR := dh_rho). assert (HP := h_pos _ _ _ _ SL).
    assert (HR := hr_range). assert (H1 := h_range). assert (DP := d_pos _ _ _ _ SL). fold delta in DP. assert (DS := small_delta h rho s kappa SL). fold delta in DS.
    assert (DH : 0 < delta * h) by (apply Rmult_lt_0_compat; assumption).
    assert (LP := norm3_lip (val (vx v)) (val (vy v)) (val (vz v)) A B 0). rewrite Rminus_0_r in LP. apply abs_split in LP.
    assert (DH1 : delta * h <= / 1048576 * h) by (apply Rmult_le_compat_r; lra).
    set (n := norm3 (val (vx v)) (val (vy v)) (val (vz v))) in *. set (L := norm3 A B 0) in *.
    assert (n1 : bpow radix2 (-200) <= n).
    { apply Rle_trans with (/ 4 * bpow radix2 (-100)); [|lra]. replace (/ 4) with (bpow radix2 (-2)) by (cbn; lra). rewrite <- bpow_plus. apply bpow_le. lia. }
    assert (n2 : n <= bpow radix2 200).
    { apply Rle_trans with (4 * bpow radix2 100); [lra|]. replace 4 with (bpow radix2 2) by (cbn; lra). rewrite <- bpow_plus. apply bpow_le. lia. }
    destruct (norm_rel v (proj1 VX) (proj1 VY) (proj1 VZ) (conj n1 n2)) as [F E]. fold n in E. split; [exact F|].
    assert (UD := sl_delta _ _ _ _ SL). fold delta in UD. assert (UP := u_pos).
    assert (UN : roundoff * n <= 8 / 5 * (delta * h)).
    { apply Rle_trans with (delta * (8 / 5 * h)); [|right; ring]. apply Rmult_le_compat; lra. }
    unfold near, leb_; rewrite sc_h; cbn [fv frv fd frd pow]. split; [lia|]. replace (Q2R (Qmake 3 2)) with (3 / 2) by (unfold Q2R; cbn; lra). replace (Q2R 26) with 26 by (unfold Q2R; cbn; lra).
    split; [lra|]. split; [lra|]. split.
    - rewrite Rabs_right; [lra|]. apply Rle_ge, norm3_pos.
    - apply abs_split in E. apply abs_join; lra.
  Qed.


  Definition mid_size (x : double) : Prop := finite x /\ Rabs (val x) <= bpow radix2 900.
  Lemma b900 : bpow radix2 900 <= bpow radix2 1000. Proof. apply bpow_le; lia. Qed.
  Lemma mul_one : forall x : double, mid_size x -> finite (nmul x (nofZ 1)) /\ val (nmul x (nofZ 1)) = val x.
  Proof.
    intros x [F S]. destruct (fl_ofZ 1 ltac:(lia)) as [F1 V1]. assert (B9 := b900).
    destruct (fl_mul x (nofZ 1) F F1) as [F2 V2]; [rewrite V1, Rmult_1_r; lra|]. split; [exact F2|]. rewrite V2, V1, Rmult_1_r. apply rnd_val, F.
  Qed.
  Lemma mul_zero : forall x : double, mid_size x -> finite (nmul x (nofZ 0)) /\ val (nmul x (nofZ 0)) = 0.
  Proof.
    intros x [F S]. destruct (fl_ofZ 0 ltac:(lia)) as [F1 V1].
    destruct (fl_mul x (nofZ 0) F F1) as [F2 V2]; [rewrite V1, Rmult_0_r, Rabs_R0; left; apply bpow_gt_0|]. split; [exact F2|]. rewrite V2, V1, Rmult_0_r. apply rnd_0.
  Qed.

  Lemma comp_size : mid_size (vx v) /\ mid_size (vy v) /\ mid_size (vz v).
  Proof.
    destruct comp_err as [EX [EY [EZ_ [CA CB]]]]. assert (HP := h_pos _ _ _ _ SL). assert (DS := small_delta h rho s kappa SL). fold delta in DS.
    assert (DH1 : delta * h <= / 1048576 * h) by (apply Rmult_le_compat_r; lra). assert (H1 := h_range).
    assert (B9 : 2 * bpow radix2 100 <= bpow radix2 900) by (replace 2 with (bpow radix2 1) by reflexivity; rewrite <- bpow_plus; apply bpow_le; lia).
    apply abs_split in EX, EY, CA, CB.
    split; [|split]; (split; [apply VX || apply VY || apply VZ|]); try (eapply Rle_trans; [exact EZ_|lra]); apply abs_join; lra.
  Qed.

  (** the direction normal to the segment *)
  Lemma cross_val : let c := cross v ZGLOBAL in finite (vx c) /\ finite (vy c) /\ finite (vz c) /\
    val (vx c) = val (vy v) /\ val (vy c) = - val (vx v) /\ val (vz c) = 0.
  Proof.
    destruct comp_size as [SX [SY SZ]]. unfold cross, ZGLOBAL; cbn [vx vy vz].
    destruct (mul_one (vy v) SY) as [F1 V1]. destruct (mul_zero (vz v) SZ) as [F2 V2]. destruct (mul_one (vx v) SX) as [F3 V3]. destruct (mul_zero (vx v) SX) as [F4 V4]. destruct (mul_zero (vy v) SY) as [F5 V5].
    assert (B9 := b900).
    destruct (fl_sub _ _ F1 F2) as [G1 W1]; [rewrite V1, V2, Rminus_0_r; destruct SY; lra|].
    destruct (fl_sub _ _ F2 F3) as [G2 W2]; [rewrite V3, V2; replace (0 - val (vx v)) with (- val (vx v)) by ring; rewrite Rabs_Ropp; destruct SX; lra|].
    destruct (fl_sub _ _ F4 F5) as [G3 W3]; [rewrite V4, V5, Rminus_0_r, Rabs_R0; left; apply bpow_gt_0|].
    rewrite V1, V2, Rminus_0_r in W1. rewrite rnd_val in W1 by apply SY. rewrite V2, V3 in W2. rewrite V4, V5, Rminus_0_r, rnd_0 in W3.
    repeat split; try assumption. rewrite W2. replace (0 - val (vx v)) with (- val (vx v)) by ring.
    destruct (fl_opp (vx v) (proj1 SX)) as [O1 O2]. rewrite <- O2. apply rnd_val, O1.
  Qed.

  Lemma div_near : forall b c C n (N : R), finite b -> finite n -> Rabs (val b - C) <= 5 * (delta * h) -> c = val b -> Rabs C <= norm3 A B 0 ->
    Rabs c <= N -> 2 / 5 * (h / rho) <= N -> Rabs (val n - N) <= 6 * roundoff * N -> Rabs (N - norm3 A B 0) <= 10 * (delta * h) ->
    nearF h rho s delta nxb (ndiv b n) (C / norm3 A B 0).
  Proof.
    intros b c C n N Fin Fn EB -> CL CN NL EN NN. 
    assert (LD := low_div). assert (HR := hr_range). assert (B0 := bpow_gt_0 radix2 (-100)). assert (R1 := sl_rho _ _ _ _ SL).
    set (L := norm3 A B 0) in *. clearbody L. assert (HP := h_pos _ _ _ _ SL).
    assert (LP : 0 < L) by lra. assert (NP : 0 < N) by lra.
    assert (UD := sl_delta _ _ _ _ SL). fold delta in UD. assert (UP := u_pos). assert (DP := d_pos _ _ _ _ SL). fold delta in DP. 
    assert (DH : 0 < delta * h) by (apply Rmult_lt_0_compat; assumption).
    assert (U1 : roundoff <= / 1048576) by (unfold roundoff; lra).
    assert (nv : val n >= 1 / 2 * N).
    { apply abs_split in EN. assert (6 * roundoff * N <= 1 / 2 * N) by (apply Rmult_le_compat_r; lra). lra. }
    assert (NZ : val n <> 0) by lra.
    (* b / n against b / N *)
    assert (E1 : Rabs (val b / val n - val b / N) <= 12 * roundoff).
    { replace (val b / val n - val b / N) with (val b * / N * ((N - val n) * / val n)) by (field; lra).
      rewrite Rabs_mult. rewrite (Rabs_mult (val b)), (Rabs_mult (N - val n)). rewrite (Rabs_right (/ N)), (Rabs_right (/ val n)) by (apply Rle_ge, Rlt_le, Rinv_0_lt_compat; lra).
      rewrite (Rabs_minus_sym N). replace (12 * roundoff) with (1 * (12 * roundoff)) by ring. apply Rmult_le_compat.
      - apply Rmult_le_pos; [apply Rabs_pos|left; apply Rinv_0_lt_compat; lra].
      - apply Rmult_le_pos; [apply Rabs_pos|left; apply Rinv_0_lt_compat; lra].
      - apply Rmult_le_reg_r with N; [exact NP|]. rewrite Rmult_assoc, Rinv_l, Rmult_1_r, Rmult_1_l by lra. exact CN.
      - apply Rmult_le_reg_r with (val n); [lra|]. rewrite Rmult_assoc, Rinv_l, Rmult_1_r by lra. eapply Rle_trans; [exact EN|].
        replace (12 * roundoff * val n) with (6 * roundoff * (2 * val n)) by ring. apply Rmult_le_compat_l; lra. }
    (* b / N against C / L *)
    assert (E2 : Rabs (val b / N - C / L) <= 75 / 2 * (delta * rho)).
    { replace (val b / N - C / L) with (((val b - C) + C * / L * (L - N)) * / N) by (field; lra). rewrite Rabs_mult, (Rabs_right (/ N)) by (apply Rle_ge, Rlt_le, Rinv_0_lt_compat; lra).
      assert (T : Rabs (val b - C + C * / L * (L - N)) <= 15 * (delta * h)).
      { eapply Rle_trans; [apply Rabs_triang|]. rewrite !Rabs_mult, (Rabs_right (/ L)) by (apply Rle_ge, Rlt_le, Rinv_0_lt_compat; lra). rewrite (Rabs_minus_sym L).
        assert (CL1 : Rabs C * / L <= 1) by (apply Rmult_le_reg_r with L; [exact LP|]; rewrite Rmult_assoc, Rinv_l, Rmult_1_r, Rmult_1_l by lra; exact CL).
        assert (Rabs C * / L * Rabs (N - L) <= 1 * Rabs (N - L)) by (apply Rmult_le_compat_r; [apply Rabs_pos|exact CL1]). lra. }
      apply Rmult_le_reg_r with N; [exact NP|]. rewrite Rmult_assoc, Rinv_l, Rmult_1_r by lra. eapply Rle_trans; [exact T|].
      apply Rle_trans with (75 / 2 * (delta * rho) * (2 / 5 * (h / rho))); [right; field; lra|]. apply Rmult_le_compat_l; [|exact NL].
      apply Rmult_le_pos; [lra|apply Rmult_le_pos; lra]. }
    assert (C1 : Rabs (C / L) <= 1).
    { unfold Rdiv. rewrite Rabs_mult, (Rabs_right (/ L)) by (apply Rle_ge, Rlt_le, Rinv_0_lt_compat; lra). apply Rmult_le_reg_r with L; [exact LP|]. rewrite Rmult_assoc, Rinv_l, Rmult_1_r, Rmult_1_l by lra. exact CL. }
    assert (UR : roundoff <= delta * rho). { apply Rle_trans with (delta * 1); [lra|]. apply Rmult_le_compat_l; lra. }
    assert (D2 := delta_rho h rho s kappa SL). fold delta in D2.
    assert (E3 : Rabs (val b / val n - C / L) <= 99 / 2 * (delta * rho)).
    { replace (val b / val n - C / L) with ((val b / val n - val b / N) + (val b / N - C / L)) by ring. eapply Rle_trans; [apply Rabs_triang|]. lra. }
    assert (SC : forall v n d k, sc h s (Fb v n d k 0 0) = 1) by (intros; unfold sc; cbn; ring).
    destruct (round_near h rho s delta (sl_h _ _ _ _ SL) (sl_s _ _ _ _ SL) (sl_rho _ _ _ _ SL) (sl_delta _ _ _ _ SL) (sl_small _ _ _ _ SL)
      (Fb 1 0 (Qmake 99 2) 1 0 0) nxb (Qmake 1025 1024) (val b / val n) (C / L)) as [Z1 Z2]; unfold nxb in *; rewrite ?SC; cbn [fv frv fd frd fh fs pow]; try reflexivity; try lia.
    - unfold Q2R; cbn; lra.
    - lra.
    - vm_compute rerr. unfold Q2R; cbn. lra.
    - rewrite Q2R_1. lra.
    - replace (Q2R (Qmake 99 2)) with (99 / 2) by (unfold Q2R; cbn; lra). lra.
    - replace (Q2R (Qmake 1025 1024)) with (1 + / 1024) by (unfold Q2R; cbn; lra). apply abs_split in E3, C1. apply abs_join; lra.
    - destruct (fl_div b n Fin Fn NZ Z1) as [F V]. split; [exact F|]. rewrite V. exact Z2.
  Qed.

  Lemma normal_near : nearF h rho s delta nxb (vx (unitvec (cross v ZGLOBAL))) (B / norm3 A B 0) /\
    nearF h rho s delta nxb (vy (unitvec (cross v ZGLOBAL))) (- A / norm3 A B 0).
  Proof.
    destruct cross_val as [F1 [F2 [F3 [V1 [V2 V3]]]]]. set (c := cross v ZGLOBAL) in *.
    destruct comp_err as [EX [EY [_ [CA CB]]]]. assert (LD := low_div). assert (LH := LE_high). assert (DR := dh_rho). assert (HP := h_pos _ _ _ _ SL).
    assert (HR := hr_range). assert (H1 := h_range). assert (DP := d_pos _ _ _ _ SL). fold delta in DP. assert (DS := small_delta h rho s kappa SL). fold delta in DS.
    assert (DH : 0 < delta * h) by (apply Rmult_lt_0_compat; assumption). assert (DH1 : delta * h <= / 1048576 * h) by (apply Rmult_le_compat_r; lra).
    assert (SY : norm3 B (- A) 0 = norm3 A B 0) by (unfold norm3; f_equal; ring).
    assert (LP := norm3_lip (val (vx c)) (val (vy c)) (val (vz c)) B (- A) 0). rewrite V1, V2, V3, SY in LP. replace (0 - 0) with 0 in LP by ring. rewrite Rabs_R0 in LP.
    replace (- val (vx v) - - A) with (- (val (vx v) - A)) in LP by ring. rewrite Rabs_Ropp in LP.
    assert (NR := norm_rel c F1 F2 F3). cbv zeta in NR. rewrite V1, V2, V3 in NR.
    destruct (norm3_ge (val (vy v)) (- val (vx v)) 0) as [G1 [G2 _]]. destruct (norm3_ge A B 0) as [G3 [G4 _]].
    set (n := norm3 (val (vy v)) (- val (vx v)) 0) in *.
    assert (LP' := abs_split _ _ LP).
    assert (n1 : bpow radix2 (-200) <= n).
    { apply Rle_trans with (/ 4 * bpow radix2 (-100)); [|lra]. replace (/ 4) with (bpow radix2 (-2)) by (cbn; lra). rewrite <- bpow_plus. apply bpow_le. lia. }
    assert (n2 : n <= bpow radix2 200).
    { apply Rle_trans with (4 * bpow radix2 100); [lra|]. replace 4 with (bpow radix2 2) by (cbn; lra). rewrite <- bpow_plus. apply bpow_le. lia. }
    destruct (NR (conj n1 n2)) as [FN EN]. unfold unitvec, vdivs; cbn [vx vy].
    split.
    - apply (div_near _ (val (vy v)) B (norm c) n); try assumption; try (rewrite V1; assumption || reflexivity); try lra.
    - apply (div_near _ (- val (vx v)) (- A) (norm c) n); try assumption; try lra.
      + rewrite V2. replace (- val (vx v) - - A) with (- (val (vx v) - A)) by ring. rewrite Rabs_Ropp. exact EX.
      + rewrite Rabs_Ropp. exact G3.
  Qed.
End Seg.
