(** Rounding errors of the stiffness of a domain. *)
From Coq Require Import ZArith Reals List Bool Arith Lra Lia QArith Qreals.
From Flocq Require Import Core.
From Verif Require Import Num Float Py Mesh Utils CalcK0 Spec SpecRound FFloat FTree FRound FRound2 FRound3 FRound4 FRound5 FRound6.
Import ListNotations.
Local Open Scope R_scope.

Definition exb : fb := Fb 1 0 0 0 0 1.

Section Stiff.
  Variables h rho s kappa : R.
  Hypothesis SL : scales h rho s (kappa * roundoff).
  Let delta := kappa * roundoff.

  Definition mat_all (P : double -> R -> Prop) (x : mat3 double) (X : mat3 R) : Prop :=
    P (m00 x) (m00 X) /\ P (m01 x) (m01 X) /\ P (m02 x) (m02 X) /\ P (m11 x) (m11 X) /\ P (m12 x) (m12 X) /\ P (m22 x) (m22 X).
  Lemma mat_all_imp : forall (P Q : double -> R -> Prop) x X, (forall a A, P a A -> Q a A) -> mat_all P x X -> mat_all Q x X.
  Proof. intros P Q x X H [A [B [C [D [E F]]]]]. repeat split; apply H; assumption. Qed.

  Lemma ex_near : forall x, finite x -> Rabs (val x) <= s -> nearF h rho s delta exb x (val x).
  Proof.
    intros x F B. split; [exact F|]. apply (near_self _ _ _ _ SL); unfold exb, sc; cbn [fv frv fd frd fh fs pow powerRZ]; rewrite ?Q2R_1, ?RMicromega.Q2R_0; try lia; try lra.
  Qed.

  Lemma ex_abs : forall x X, nearF h rho s delta exb x X -> Rabs X <= s.
  Proof.
    intros x X [_ [_ [_ [_ [A _]]]]]. unfold exb, sc in A; cbn [fv frv fd frd fh fs pow powerRZ] in A. rewrite Q2R_1 in A.
    change (Pos.to_nat 1) with 1%nat in A. cbn [pow] in A. lra.
  Qed.
  Lemma ex_st : forall x X, nearF h rho s delta exb x X -> nearF h rho s delta stb x X.
  Proof. intros x X H. apply (nearF_le _ _ _ _ SL exb); [reflexivity|exact H]. Qed.

  (** a tree of stiffness values with an exact value of at most s *)
  Lemma st_tree : forall e (xs : list double) (Xs : list R) v d, Forall2 (nearF h rho s delta exb) xs Xs ->
    within (fun _ => exb) noinv e (Fb v 0 d 0 0 1) = true -> Qle_bool d 400 = true ->
    Rabs (evalG L0R (fun i => nth i Xs 0) e) <= s ->
    nearF h rho s delta stb (evalG L0F (fun i => nth i xs (nofZ 0)) e) (evalG L0R (fun i => nth i Xs 0) e).
  Proof.
    intros e xs Xs v d F W DL B.
    assert (HV : forall i, nearF h rho s delta exb (nth i xs (nofZ 0)) (nth i Xs 0)).
    { clear - F SL. intros i. revert i. induction F as [|x X xs Xs H F IH]; intros [|i]; cbn [nth].
      - apply (nearF_le _ _ _ _ SL (zb 0 1)); [reflexivity|]. exact (zero_near h rho s kappa SL (zb 0 1) eq_refl eq_refl ltac:(cbn; lia)).
      - apply (nearF_le _ _ _ _ SL (zb 0 1)); [reflexivity|]. exact (zero_near h rho s kappa SL (zb 0 1) eq_refl eq_refl ltac:(cbn; lia)).
      - exact H.
      - apply IH. }
    destruct (within_ok h rho s delta SL (fun _ => exb) noinv _ _ HV (noinv_ok _ _ _ _ _ _) e _ W) as [FI N].
    split; [exact FI|]. apply (near_val _ _ _ _ (Fb v 0 d 0 0 1) 1 0) in N; [|cbn; lia|rewrite Q2R_1; lra|unfold sc; cbn [fh fs pow powerRZ]; rewrite Q2R_1; lra].
    apply (near_le _ _ _ _ SL) with (2 := N). unfold fle, stb; cbn [fv frv fd frd fh fs]. rewrite DL. reflexivity.
  Qed.

  Lemma comb_abs : forall a b c d p q r t, 0 <= p -> 0 <= q -> 0 <= r -> 0 <= t -> p + q + r + t = 1 ->
    Rabs a <= s -> Rabs b <= s -> Rabs c <= s -> Rabs d <= s -> Rabs (p * a + q * b + r * c + t * d) <= s.
  Proof.
    intros a b c d p q r t P Q R0 T0 E A B C D. apply abs_split in A, B, C, D.
    assert (X : forall w x, 0 <= w -> - s <= x <= s -> - (w * s) <= w * x <= w * s).
    { intros w x W [X1 X2]. split; [|apply Rmult_le_compat_l; assumption]. replace (- (w * s)) with (w * - s) by ring. apply Rmult_le_compat_l; assumption. }
    assert (A' := X p a P A). assert (B' := X q b Q B). assert (C' := X r c R0 C). assert (D' := X t d T0 D).
    assert (SS : p * s + q * s + r * s + t * s = s) by (rewrite <- (Rmult_1_l s) at 5; rewrite <- E; ring).
    apply abs_join; lra.
  Qed.

  Definition tree3 : expr := Eadd (Eadd (Emul (Ediv (EZ 4) (EZ 9)) (EV 0)) (Emul (Ediv (EZ 4) (EZ 9)) (EV 1))) (Emul (Ediv (EZ 1) (EZ 9)) (EV 2)).
  Definition tree4 : expr := Eadd (Eadd (Eadd (Emul (Ediv (EZ 5) (EZ 12)) (EV 0)) (Emul (Ediv (EZ 5) (EZ 12)) (EV 1))) (Emul (Ediv (EZ 1) (EZ 12)) (EV 2))) (Emul (Ediv (EZ 1) (EZ 12)) (EV 3)).

  Lemma c3_near : forall a b c A B C, nearF h rho s delta exb a A -> nearF h rho s delta exb b B -> nearF h rho s delta exb c C ->
    nearF h rho s delta stb (evalG L0F (fun i => nth i [a; b; c] (nofZ 0)) tree3) (evalG L0R (fun i => nth i [A; B; C] 0) tree3).
  Proof.
    intros a b c A B C HA HB HC. apply (st_tree tree3 [a; b; c] [A; B; C] 2 100); [repeat (apply Forall2_cons; [assumption|]); apply Forall2_nil|vm_compute; reflexivity|reflexivity|].
    apply ex_abs in HA, HB, HC. unfold tree3; cbn [evalG nth]; rnum.
    replace (4 / 9 * A + 4 / 9 * B + 1 / 9 * C) with (4 / 9 * A + 4 / 9 * B + 1 / 9 * C + 0 * 0) by ring.
    apply comb_abs; try lra; try assumption. rewrite Rabs_R0. eapply Rle_trans; [apply Rabs_pos|exact HA].
  Qed.
  Lemma c4_near : forall a b c d A B C D, nearF h rho s delta exb a A -> nearF h rho s delta exb b B -> nearF h rho s delta exb c C -> nearF h rho s delta exb d D ->
    nearF h rho s delta stb (evalG L0F (fun i => nth i [a; b; c; d] (nofZ 0)) tree4) (evalG L0R (fun i => nth i [A; B; C; D] 0) tree4).
  Proof.
    intros a b c d A B C D HA HB HC HD. apply (st_tree tree4 [a; b; c; d] [A; B; C; D] 2 100); [repeat (apply Forall2_cons; [assumption|]); apply Forall2_nil|vm_compute; reflexivity|reflexivity|].
    apply ex_abs in HA, HB, HC, HD. unfold tree4; cbn [evalG nth]; rnum. apply comb_abs; try lra; assumption.
  Qed.

  Lemma comb3_near : forall sel selR p1 p2 p3 P1 P2 P3,
    mat_all (nearF h rho s delta exb) (sel p1) (selR P1) -> mat_all (nearF h rho s delta exb) (sel p2) (selR P2) -> mat_all (nearF h rho s delta exb) (sel p3) (selR P3) ->
    mat_all (nearF h rho s delta stb) (comb3 sel p1 p2 p3) (comb3 selR P1 P2 P3).
  Proof.
    intros sel selR p1 p2 p3 P1 P2 P3 [A1 [A2 [A3 [A4 [A5 A6]]]]] [B1 [B2 [B3 [B4 [B5 B6]]]]] [C1 [C2 [C3 [C4 [C5 C6]]]]].
    split; [exact (c3_near _ _ _ _ _ _ A1 B1 C1)|]. split; [exact (c3_near _ _ _ _ _ _ A2 B2 C2)|]. split; [exact (c3_near _ _ _ _ _ _ A3 B3 C3)|].
    split; [exact (c3_near _ _ _ _ _ _ A4 B4 C4)|]. split; [exact (c3_near _ _ _ _ _ _ A5 B5 C5)|exact (c3_near _ _ _ _ _ _ A6 B6 C6)].
  Qed.
  Lemma comb4_near : forall sel selR p1 p2 p3 p4 P1 P2 P3 P4,
    mat_all (nearF h rho s delta exb) (sel p1) (selR P1) -> mat_all (nearF h rho s delta exb) (sel p2) (selR P2) -> mat_all (nearF h rho s delta exb) (sel p3) (selR P3) ->
    mat_all (nearF h rho s delta exb) (sel p4) (selR P4) ->
    mat_all (nearF h rho s delta stb) (comb4 sel p1 p2 p3 p4) (comb4 selR P1 P2 P3 P4).
  Proof.
    intros sel selR p1 p2 p3 p4 P1 P2 P3 P4 [A1 [A2 [A3 [A4 [A5 A6]]]]] [B1 [B2 [B3 [B4 [B5 B6]]]]] [C1 [C2 [C3 [C4 [C5 C6]]]]] [D1 [D2 [D3 [D4 [D5 D6]]]]].
    split; [exact (c4_near _ _ _ _ _ _ _ _ A1 B1 C1 D1)|]. split; [exact (c4_near _ _ _ _ _ _ _ _ A2 B2 C2 D2)|]. split; [exact (c4_near _ _ _ _ _ _ _ _ A3 B3 C3 D3)|].
    split; [exact (c4_near _ _ _ _ _ _ _ _ A4 B4 C4 D4)|]. split; [exact (c4_near _ _ _ _ _ _ _ _ A5 B5 C5 D5)|exact (c4_near _ _ _ _ _ _ _ _ A6 B6 C6 D6)].
  Qed.

  Definition a3b : fb := Fb (Qmake 1 3) 0 30 0 2 0.
  Definition treeA : expr := Eadd (Emul (EV 0) (EV 1)) (Emul (EV 2) (EV 3)).
  Definition leafA (i : nat) : fb := match i with 1%nat | 3%nat => exb | _ => a3b end.
  Lemma cA_near : forall a1 a2 a A1 A2 A p q P Q, nearF h rho s delta a3b a1 A1 -> nearF h rho s delta a3b a2 A2 -> 0 <= A1 -> 0 <= A2 -> A1 + A2 = A ->
    finite a -> Rabs (val a - A) <= 30 * (delta * (h * h)) -> h * h <= 3 * rho * A ->
    nearF h rho s delta exb p P -> nearF h rho s delta exb q Q ->
    nearF h rho s delta stb (ndiv (nadd (nmul a1 p) (nmul a2 q)) a) ((A1 * P + A2 * Q) / A).
  Proof.
    intros a1 a2 a A1 A2 A p q P Q H1 H2 PA1 PA2 EA Fa Ea LA HP HQ.
    set (rF := fun i => nth i [a1; p; a2; q] (nofZ 0)). set (rR := fun i => nth i [A1; P; A2; Q] 0).
    assert (HV : forall i, nearF h rho s delta (leafA i) (rF i) (rR i)).
    { intros [|[|[|[|i]]]]; try assumption. unfold rF, rR, leafA. rewrite !nth_overflow by (cbn; lia).
      apply (nearF_le _ _ _ _ SL (zb 2 0)); [reflexivity|]. exact (zero_near h rho s kappa SL (zb 2 0) eq_refl eq_refl ltac:(cbn; lia)). }
    destruct (within_ok h rho s delta SL leafA noinv rF rR HV (noinv_ok _ _ _ _ _ _) treeA (Fb 1 0 63 0 2 1) ltac:(vm_compute; reflexivity)) as [FN [_ [_ [_ [_ EN]]]]].
    change (evalG L0F rF treeA) with (nadd (nmul a1 p) (nmul a2 q)) in *. set (n := nadd (nmul a1 p) (nmul a2 q)) in *.
    change (evalG L0R rR treeA) with (A1 * P + A2 * Q) in EN. set (N := A1 * P + A2 * Q) in *.
    unfold sc in EN. cbn [fd frd fh fs pow] in EN. change (powerRZ h 2) with (h * (h * 1)) in EN. change (Q2R 63) with (63 * / 1) in EN.
    destruct (area_low h rho s kappa SL a A Ea LA) as [AP VA]. assert (VP : 0 < val a) by lra.
    assert (Hp := h_pos _ _ _ _ SL). assert (R1 := sl_rho _ _ _ _ SL). assert (DP := d_pos _ _ _ _ SL). fold delta in DP.
    assert (SP := s_pos _ _ _ _ SL). assert (SM := sl_small _ _ _ _ SL). fold delta in SM.
    assert (HH : 0 < h * h) by (apply Rmult_lt_0_compat; assumption).
    apply ex_abs in HP, HQ.
    assert (NA : Rabs N <= s * A).
    { unfold N. eapply Rle_trans; [apply Rabs_triang|]. rewrite !Rabs_mult, (Rabs_right A1), (Rabs_right A2) by lra. rewrite <- EA.
      assert (A1 * Rabs P <= A1 * s) by (apply Rmult_le_compat_l; assumption). assert (A2 * Rabs Q <= A2 * s) by (apply Rmult_le_compat_l; assumption). lra. }
    assert (XS : Rabs (N / A) <= s).
    { unfold Rdiv. rewrite Rabs_mult, (Rabs_right (/ A)) by (left; apply Rinv_0_lt_compat; exact AP). apply Rmult_le_reg_r with A; [exact AP|]. replace (Rabs N * / A * A) with (Rabs N) by (field; lra). exact NA. }
    assert (IV : h * h * / val a <= 301 / 100 * rho).
    { apply Rmult_le_reg_r with (val a); [exact VP|]. replace (h * h * / val a * val a) with (h * h) by (field; lra).
      eapply Rle_trans; [exact LA|]. replace (301 / 100 * rho * val a) with (rho * (301 / 100 * val a)) by ring. replace (3 * rho * A) with (rho * (3 * A)) by ring. apply Rmult_le_compat_l; lra. }
    assert (IP : 0 < / val a) by (apply Rinv_0_lt_compat; exact VP).
    assert (DR : delta * rho <= / 1048576).
    { eapply Rle_trans; [|exact SM]. apply Rmult_le_compat_l; [lra|]. rewrite <- (Rmult_1_l rho) at 1. apply Rmult_le_compat_r; lra. }
    assert (DRS : 0 <= delta * rho * s) by (apply Rmult_le_pos; [apply Rmult_le_pos; lra|lra]).
    assert (EZ : Rabs (val n / val a - N / A) <= delta * 390 * rho * s).
    { replace (val n / val a - N / A) with ((val n - N) * / val a + N / A * (- (val a - A) * / val a)) by (field; lra).
      eapply Rle_trans; [apply Rabs_triang|]. rewrite !Rabs_mult, Rabs_Ropp, (Rabs_right (/ val a)) by lra.
      assert (T1 : Rabs (val n - N) * / val a <= 63 * (delta * s) * (301 / 100 * rho)).
      { apply Rle_trans with (63 * (delta * s) * (h * h * / val a)).
        - replace (63 * (delta * s) * (h * h * / val a)) with (63 * (delta * s) * (h * h) * / val a) by ring. apply Rmult_le_compat_r; lra.
        - apply Rmult_le_compat_l; [|exact IV]. assert (0 < delta * s) by (apply Rmult_lt_0_compat; assumption). lra. }
      assert (T2 : Rabs (N / A) * (Rabs (val a - A) * / val a) <= s * (30 * delta * (301 / 100 * rho))).
      { apply Rmult_le_compat; [apply Rabs_pos|apply Rmult_le_pos; [apply Rabs_pos|lra]|exact XS|].
        apply Rle_trans with (30 * delta * (h * h * / val a)); [replace (30 * delta * (h * h * / val a)) with (30 * (delta * (h * h)) * / val a) by ring; apply Rmult_le_compat_r; lra|].
        apply Rmult_le_compat_l; lra. }
      lra. }
    assert (ZS : Rabs (val n / val a) <= 2 * s).
    { replace (val n / val a) with (N / A + (val n / val a - N / A)) by ring. eapply Rle_trans; [apply Rabs_triang|].
      assert (delta * rho * s <= / 1048576 * s) by (apply Rmult_le_compat_r; lra). lra. }
    destruct (round_near h rho s delta (sl_h _ _ _ _ SL) (sl_s _ _ _ _ SL) R1 (sl_delta _ _ _ _ SL) SM (Fb 1 0 390 1 0 1) stb 2 (val n / val a) (N / A)) as [BZ NZ];
      try reflexivity; try (unfold stb; cbn [frd frv fd fv]; lia).
    - unfold Q2R; cbn; lra.
    - apply Rle_refl.
    - change (rerr 2) with (2 + q20)%Q. rewrite Q2R_plus, Q2R_q20. unfold stb, Q2R; cbn; lra.
    - unfold sc; cbn [fv frv fh fs pow powerRZ]. rewrite Q2R_1. lra.
    - unfold sc; cbn [fd frd fh fs pow powerRZ]. change (Q2R 390) with (390 * / 1). lra.
    - unfold sc; cbn [frv fh fs pow powerRZ]. change (Q2R 2) with (2 * / 1). lra.
    - destruct (fl_div n a FN Fa ltac:(lra) BZ) as [FD VD]. split; [exact FD|]. rewrite VD. exact NZ.
  Qed.
  Lemma combA_near : forall sel selR p1 p2 P1 P2 a1 a2 a A1 A2 A, nearF h rho s delta a3b a1 A1 -> nearF h rho s delta a3b a2 A2 -> 0 <= A1 -> 0 <= A2 -> A1 + A2 = A ->
    finite a -> Rabs (val a - A) <= 30 * (delta * (h * h)) -> h * h <= 3 * rho * A ->
    mat_all (nearF h rho s delta exb) (sel p1) (selR P1) -> mat_all (nearF h rho s delta exb) (sel p2) (selR P2) ->
    mat_all (nearF h rho s delta stb) (combA sel a1 a2 a p1 p2) (combA selR A1 A2 A P1 P2).
  Proof.
    intros sel selR p1 p2 P1 P2 a1 a2 a A1 A2 A H1 H2 PA1 PA2 EA Fa Ea LA [X1 [X2 [X3 [X4 [X5 X6]]]]] [Y1 [Y2 [Y3 [Y4 [Y5 Y6]]]]].
    assert (G := fun p q P Q => cA_near a1 a2 a A1 A2 A p q P Q H1 H2 PA1 PA2 EA Fa Ea LA).
    split; [exact (G _ _ _ _ X1 Y1)|]. split; [exact (G _ _ _ _ X2 Y2)|]. split; [exact (G _ _ _ _ X3 Y3)|].
    split; [exact (G _ _ _ _ X4 Y4)|]. split; [exact (G _ _ _ _ X5 Y5)|exact (G _ _ _ _ X6 Y6)].
  Qed.
End Stiff.
