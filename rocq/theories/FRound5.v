(** Rounding errors of the integration points. *)
From Coq Require Import ZArith Reals List Bool Arith Lra Lia QArith Qreals.
From Flocq Require Import Core.
From Verif Require Import Num Float Py Mesh Utils CalcK0 Spec SpecRound FFloat FTree FRound FRound2 FRound3 FRound4.
Import ListNotations.
Local Open Scope R_scope.

Definition f1b : fb := Fb 1 0 1 0 0 0.

Section Ipt.
  Variables h rho s kappa : R.
  Hypothesis SL : scales h rho s (kappa * roundoff).
  Hypothesis K1 : 1 <= kappa.
  Hypothesis KX : in64 (kappa * h).
  Let delta := kappa * roundoff.
  Notation clv := (clv h kappa).
  Notation exact := (exact h kappa).

  (** a constant a / b *)
  Definition frac_ok (a b : Z) : bool := within (fun _ => f1b) noinv (Ediv (EZ a) (EZ b)) f1b.
  Lemma const_near : forall a b, frac_ok a b = true -> nearF h rho s delta f1b (ndiv (nofZ a) (nofZ b)) (IZR a / IZR b).
  Proof.
    intros a b W. assert (Z : nearF h rho s delta f1b (nofZ 0) 0).
    { destruct (fl_ofZ 0 ltac:(lia)) as [F V]. split; [exact F|]. rewrite V. apply (near_self _ _ _ _ SL); unfold f1b; cbn [fv frv fd frd]; rewrite ?Q2R_1; try lia; try lra. rewrite Rabs_R0. unfold sc; cbn. lra. }
    refine (within_ok h rho s delta SL (fun _ => f1b) noinv (fun _ => nofZ 0) (fun _ => 0) _ _ (Ediv (EZ a) (EZ b)) f1b W); [intros; exact Z|apply noinv_ok].
  Qed.
  Lemma zero_near : forall b, fv b = 0%Q -> fd b = 0%Q -> (frd b <= frv b + 2)%nat -> nearF h rho s delta b (nofZ 0) 0.
  Proof.
    intros b V D E. destruct (fl_ofZ 0 ltac:(lia)) as [F W]. split; [exact F|]. rewrite W. apply (near_self _ _ _ _ SL); rewrite ?V, ?D, ?RMicromega.Q2R_0; try lia; try lra. rewrite Rabs_R0. lra.
  Qed.

  (** ** Geometry of the exact triangle *)
  Record tri (P1 P2 O M : vec3 R) : Prop := {
    tr_12 : apart h P1 P2; tr_1o : apart h P1 O; tr_2o : apart h P2 O;
    tr_z : vz P1 = vz P2 /\ vz O = vz P2 /\ vz M = vz P2;
    tr_mid : 3 * vx M = vx P1 + vx P2 + vx O /\ 3 * vy M = vy P1 + vy P2 + vy O;
    tr_fat : 2 * (h * h) <= rho * Rabs (det2 P1 P2 O) }.

  Lemma tri_swap : forall P1 P2 O M, tri P1 P2 O M -> tri P2 P1 O M.
  Proof.
    intros P1 P2 O M [A B C [D1 [D2 D3]] [E1 E2] F]. constructor; [apply apart_sym, A|exact C|exact B|split; [|split]; congruence|split; lra|].
    replace (det2 P2 P1 O) with (- det2 P1 P2 O) by (unfold det2; ring). rewrite Rabs_Ropp. exact F.
  Qed.
  Lemma tri_m : forall P1 P2 O M, tri P1 P2 O M -> apart (2 / 3 * h) P1 M /\ apart h P1 M.
  Proof.
    intros P1 P2 O M [[A1 A2] [B1 B2] _ _ [E1 E2] _]. apply abs_split in A1, A2, B1, B2. assert (HP := h_pos _ _ _ _ SL).
    split; split; apply abs_join; lra.
  Qed.
  Lemma cross_le : forall a b c d, Rabs a <= h -> Rabs b <= h -> Rabs (a * d - b * c) <= h * (Rabs c + Rabs d).
  Proof.
    intros a b c d A B. unfold Rminus. eapply Rle_trans; [apply Rabs_triang|]. rewrite Rabs_Ropp, !Rabs_mult.
    assert (Rabs a * Rabs d <= h * Rabs d) by (apply Rmult_le_compat_r; [apply Rabs_pos|exact A]).
    assert (Rabs b * Rabs c <= h * Rabs c) by (apply Rmult_le_compat_r; [apply Rabs_pos|exact B]). lra.
  Qed.
  Lemma tri_low : forall P1 P2 O M, tri P1 P2 O M -> 2 * h <= 3 * rho * (Rabs (vx P1 - vx M) + Rabs (vy P1 - vy M)).
  Proof.
    intros P1 P2 O M T. destruct T as [[A1 A2] _ _ _ [E1 E2] F]. assert (HP := h_pos _ _ _ _ SL). assert (R1 := sl_rho _ _ _ _ SL).
    assert (D : det2 P1 P2 O = 3 * ((vx P1 - vx P2) * (vy P1 - vy M) - (vy P1 - vy P2) * (vx P1 - vx M))).
    { unfold det2. assert (X : vx O = 3 * vx M - vx P1 - vx P2) by lra. assert (Y : vy O = 3 * vy M - vy P1 - vy P2) by lra. rewrite X, Y. ring. }
    assert (C := cross_le _ _ (vx P1 - vx M) (vy P1 - vy M) A1 A2). rewrite D, Rabs_mult, (Rabs_right 3) in F by lra.
    set (S := Rabs (vx P1 - vx M) + Rabs (vy P1 - vy M)) in *. match type of C with ?x <= _ => set (c := x) in * end.
    apply Rmult_le_reg_l with h; [exact HP|].
    apply Rle_trans with (rho * (3 * c)); [lra|]. apply Rle_trans with (rho * (3 * (h * S))); [apply Rmult_le_compat_l; lra|right; ring].
  Qed.
  Lemma tri_low2 : forall P1 P2 O M, tri P1 P2 O M -> 2 * h <= 3 * rho * (Rabs (vx P2 - vx P1) + Rabs (vy P2 - vy P1)).
  Proof.
    intros P1 P2 O M T. destruct T as [_ [A1 A2] _ _ _ F]. assert (HP := h_pos _ _ _ _ SL). assert (R1 := sl_rho _ _ _ _ SL).
    assert (D : Rabs (det2 P1 P2 O) = Rabs ((vx P1 - vx O) * (vy P2 - vy P1) - (vy P1 - vy O) * (vx P2 - vx P1))).
    { f_equal. unfold det2. ring. }
    assert (C := cross_le _ _ (vx P2 - vx P1) (vy P2 - vy P1) A1 A2). rewrite D in F. 
    assert (SP : 0 <= Rabs (vx P2 - vx P1) + Rabs (vy P2 - vy P1)) by (assert (X := Rabs_pos (vx P2 - vx P1)); assert (Y := Rabs_pos (vy P2 - vy P1)); lra).
    set (S := Rabs (vx P2 - vx P1) + Rabs (vy P2 - vy P1)) in *. match type of C with ?x <= _ => set (c := x) in * end.
    apply Rmult_le_reg_l with h; [exact HP|].
    apply Rle_trans with (rho * c); [lra|]. apply Rle_trans with (rho * (h * S)); [apply Rmult_le_compat_l; lra|].
    assert (0 <= rho * (h * S)) by (apply Rmult_le_pos; [lra|apply Rmult_le_pos; lra]). lra.
  Qed.

  (** ** Segments *)
  Lemma seg_vec : forall c1 c2 p q P Q, clv c1 p P -> clv c2 q Q -> (0 <= c1 <= 3)%Q -> (0 <= c2 <= 3)%Q -> (c1 + c2 <= 3)%Q -> apart h P Q -> vz P = vz Q ->
    nearF h rho s delta vecb (vx (vsub p q)) (vx P - vx Q) /\ nearF h rho s delta vecb (vy (vsub p q)) (vy P - vy Q) /\
    nearF h rho s delta (Fb 0 0 5 0 1 0) (vz (vsub p q)) 0.
  Proof.
    intros c1 c2 p q P Q [X1 [Y1 Z1]] [X2 [Y2 Z2]] C1 C2 C3 [A B] Z. unfold vsub; cbn [vx vy vz].
    assert (HP := h_pos _ _ _ _ SL).
    assert (D1 : fle (Fb 1 0 (c1 + c2 + 1 + Qmake 1 1024) 0 1 0) vecb = true).
    { unfold fle, vecb; cbn [fv frv fd frd fh fs]. repeat (apply andb_true_intro; split); try reflexivity. apply Qle_bool_iff. apply Rle_Qle. apply Qle_Rle in C3. rewrite Q2R_plus in C3. rewrite !Q2R_plus. unfold Q2R in *; cbn in *; lra. }
    assert (D0 : fle (Fb 0 0 (c1 + c2 + 0 + Qmake 1 1024) 0 1 0) (Fb 0 0 5 0 1 0) = true).
    { unfold fle; cbn [fv frv fd frd fh fs]. repeat (apply andb_true_intro; split); try reflexivity. apply Qle_bool_iff. apply Rle_Qle. apply Qle_Rle in C3. rewrite Q2R_plus in C3. rewrite !Q2R_plus. unfold Q2R in *; cbn in *; lra. }
    split; [|split].
    - apply (nearF_le _ _ _ _ SL _ _ _ _ D1). eapply cl_sub; eauto; try apply C1; try apply C2; try (unfold Qle; cbn; lia). rewrite Q2R_1. lra.
    - apply (nearF_le _ _ _ _ SL _ _ _ _ D1). eapply cl_sub; eauto; try apply C1; try apply C2; try (unfold Qle; cbn; lia). rewrite Q2R_1. lra.
    - replace 0 with (vz P - vz Q) by lra. apply (nearF_le _ _ _ _ SL _ _ _ _ D0). eapply cl_sub; eauto; try apply C1; try apply C2; try (unfold Qle; cbn; lia). rewrite RMicromega.Q2R_0, Z.
      replace (vz Q - vz Q) with 0 by ring. rewrite Rabs_R0. lra.
  Qed.

  Record near_ipt (p : ipt double) (q : ipt R) : Prop := {
    ni_1 : ipn1 p = ipn1 q; ni_2 : ipn2 p = ipn2 q; ni_3 : ipn3 p = ipn3 q;
    ni_f1 : nearF h rho s delta f1b (ipf1 p) (ipf1 q); ni_f2 : nearF h rho s delta f1b (ipf2 p) (ipf2 q); ni_f3 : nearF h rho s delta f1b (ipf3 p) (ipf3 q);
    ni_nx : nearF h rho s delta nxb (ipnx p) (ipnx q); ni_ny : nearF h rho s delta nxb (ipny p) (ipny q);
    ni_le : nearF h rho s delta leb_ (iple p) (iple q) }.

  Lemma real_normal : forall A B, let v := V3 A B 0 in norm v = norm3 A B 0 /\
    vx (unitvec (cross v ZGLOBAL)) = B / norm3 A B 0 /\ vy (unitvec (cross v ZGLOBAL)) = - A / norm3 A B 0.
  Proof.
    intros A B v. unfold v, norm, unitvec, vdivs, norm, cross, dot, ZGLOBAL, norm3; cbn [vx vy vz]; rnum.
    split; [reflexivity|]. split; (f_equal; [ring|f_equal; ring]).
  Qed.

  Lemma make_near : forall t a1 a2 a3 b1 b2 b3 (f1 f2 f3 : double) (g1 g2 g3 : R) (v : vec3 double) (V : vec3 R),
    nid a1 = nid b1 -> nid a2 = nid b2 -> nid a3 = nid b3 ->
    nearF h rho s delta f1b f1 g1 -> nearF h rho s delta f1b f2 g2 -> nearF h rho s delta f1b f3 g3 ->
    nearF h rho s delta vecb (vx v) (vx V) -> nearF h rho s delta vecb (vy v) (vy V) -> nearF h rho s delta (Fb 0 0 5 0 1 0) (vz v) 0 -> vz V = 0 ->
    2 * h <= 3 * rho * (Rabs (vx V) + Rabs (vy V)) ->
    near_ipt (make_ipt t a1 a2 a3 f1 f2 f3 v) (make_ipt t b1 b2 b3 g1 g2 g3 V).
  Proof.
    intros t a1 a2 a3 b1 b2 b3 f1 f2 f3 g1 g2 g3 v [A B C] N1 N2 N3 F1 F2 F3 VX VY VZ Z LOW. cbn [vx vy vz] in *. subst C.
    destruct (real_normal A B) as [R1 [R2 R3]].
    destruct (normal_near h rho s kappa SL v A B VX VY VZ LOW) as [X Y]. assert (L := le_near h rho s kappa SL v A B VX VY VZ LOW).
    constructor; unfold make_ipt; cbn [ipn1 ipn2 ipn3 ipf1 ipf2 ipf3 ipnx ipny iple]; try assumption.
    - rewrite R2. exact X.
    - rewrite R3. exact Y.
  Qed.

  (** ** The orientation test *)
  Definition or_tree : expr := dot (cross (V3 (EV 0) (EV 1) (EV 2)) (V3 (EV 3) (EV 4) (EV 5))) ZGLOBAL.
  Definition or_leaf (i : nat) : fb := match i with 2%nat | 5%nat => Fb 0 0 5 0 1 0 | _ => vecb end.
  Lemma orient_near : forall p1 p2 m P1 P2 O M, exact p1 P1 -> exact p2 P2 -> clv 3 m M -> tri P1 P2 O M ->
    nltb (dot (cross (vsub m p2) (vsub p1 p2)) ZGLOBAL) (nofZ 0) = nltb (dot (cross (vsub M P2) (vsub P1 P2)) ZGLOBAL) (nofZ 0).
  Proof.
    intros p1 p2 m P1 P2 O M E1 E2 C T. pose proof T as [T12 T1o T2o [Z1 [Z2 Z3]] [X1 X2] F].
    assert (HP := h_pos _ _ _ _ SL). assert (R1 := sl_rho _ _ _ _ SL). assert (DP := d_pos _ _ _ _ SL). fold delta in DP.
    assert (SM := sl_small _ _ _ _ SL). fold delta in SM.
    destruct (seg_vec 3 0 m p2 M P2 C (proj1 E2) ltac:(split; unfold Qle; cbn; lia) ltac:(split; unfold Qle; cbn; lia) ltac:(unfold Qle; cbn; lia) (apart_sym _ _ _ (proj2 (tri_m _ _ _ _ (tri_swap _ _ _ _ T)))) Z3) as [VX [VY VZ]].
    destruct (seg_vec 0 0 p1 p2 P1 P2 (proj1 E1) (proj1 E2) ltac:(split; unfold Qle; cbn; lia) ltac:(split; unfold Qle; cbn; lia) ltac:(unfold Qle; cbn; lia) T12 Z1) as [WX [WY WZ]].
    set (rF := fun i => nth i [vx (vsub m p2); vy (vsub m p2); vz (vsub m p2); vx (vsub p1 p2); vy (vsub p1 p2); vz (vsub p1 p2)] (nofZ 0)).
    set (rR := fun i => nth i [vx M - vx P2; vy M - vy P2; 0; vx P1 - vx P2; vy P1 - vy P2; 0] 0).
    assert (HV : forall i, nearF h rho s delta (or_leaf i) (rF i) (rR i)).
    { intros [|[|[|[|[|[|i]]]]]]; try assumption. unfold rF, rR, or_leaf. rewrite !nth_overflow by (cbn; lia).
      apply (nearF_le _ _ _ _ SL (Fb 0 0 0 0 1 0)); [reflexivity|]. apply zero_near; reflexivity || (cbn; lia). }
    assert (N := within_ok h rho s delta SL or_leaf noinv rF rR HV (noinv_ok _ _ _ _ _ _) or_tree (Fb 2 0 30 0 2 0) ltac:(vm_compute; reflexivity)).
    destruct N as [FN [_ [_ [_ [_ EN]]]]]. change (evalG L0F rF or_tree) with (dot (cross (vsub m p2) (vsub p1 p2)) ZGLOBAL) in *.
    set (x := dot (cross (vsub m p2) (vsub p1 p2)) ZGLOBAL) in *.
    assert (ER : evalG L0R rR or_tree = det2 P1 P2 O / 3).
    { unfold or_tree, dot, cross, ZGLOBAL. cbn [vx vy vz evalG rR nth nadd nmul nsub nofZ NumE]. rnum. unfold rR; cbn [nth]. unfold det2.
      assert (X : vx O = 3 * vx M - vx P1 - vx P2) by lra. assert (Y : vy O = 3 * vy M - vy P1 - vy P2) by lra. rewrite X, Y. field. }
    assert (EQ : dot (cross (vsub M P2) (vsub P1 P2)) ZGLOBAL = det2 P1 P2 O / 3).
    { unfold dot, cross, ZGLOBAL, vsub; cbn [vx vy vz]; rnum. rewrite Z3, Z1. unfold det2.
      assert (X : vx O = 3 * vx M - vx P1 - vx P2) by lra. assert (Y : vy O = 3 * vy M - vy P1 - vy P2) by lra. rewrite X, Y. field. }
    rewrite EQ. rewrite ER in EN. unfold sc in EN. cbn [fd frd fh fs pow] in EN. change (powerRZ h 2) with (h * (h * 1)) in EN. change (powerRZ s 0) with 1 in EN.
    change (Q2R 30) with (30 * / 1) in EN. set (D := det2 P1 P2 O) in *.
    assert (HH : 0 < h * h) by (apply Rmult_lt_0_compat; assumption).
    assert (DL : 30 * (delta * (h * h)) < Rabs D / 3).
    { assert (delta * rho <= delta * (rho * rho)) by (apply Rmult_le_compat_l; [lra|]; rewrite <- (Rmult_1_l rho) at 1; apply Rmult_le_compat_r; lra).
      apply Rmult_lt_reg_l with rho; [lra|]. replace (rho * (30 * (delta * (h * h)))) with (30 * (delta * rho) * (h * h)) by ring.
      apply Rlt_le_trans with (2 / 3 * (h * h)); [apply Rmult_lt_compat_r; lra|]. lra. }
    destruct (fl_ofZ 0 ltac:(lia)) as [F0 V0].
    assert (LE : Rabs (val x - D / 3) < Rabs D / 3) by (eapply Rle_lt_trans; [exact EN|]; lra).
    rnum. destruct (Rlt_dec (D / 3) 0) as [N|N].
    - apply fl_ltb; [exact FN|exact F0|]. rewrite V0. unfold Rabs in LE. repeat destruct (Rcase_abs _) in LE; lra.
    - apply not_true_is_false. intros B. apply fl_ltb in B; [|exact FN|exact F0]. rewrite V0 in B. unfold Rabs in LE. repeat destruct (Rcase_abs _) in LE; lra.
  Qed.
End Ipt.
