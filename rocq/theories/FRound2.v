(** Rounding errors of the geometry of a smoothing domain. *)
From Coq Require Import ZArith Reals List Bool Arith Lra Lia QArith Qreals.
From Flocq Require Import Core BinarySingleNaN.
From Verif Require Import Num Float Py Mesh Utils SpecRound FFloat FTree FRound.
Import ListNotations.
Local Open Scope R_scope.

Definition in64 (x : R) : Prop := / 18446744073709551616 <= x <= 18446744073709551616.
Record scales (h rho s delta : R) : Prop := {
  sl_h : in64 h; sl_s : in64 s; sl_rho : 1 <= rho; sl_delta : roundoff <= delta;
  sl_small : delta * (rho * rho) <= / 1048576 }.

Definition L0F : lits double := Lits (nofZ 0) (nofZ 0) (nofZ 0) (nofZ 0) (nofZ 0).
Definition L0R : lits R := Lits 0 0 0 0 0.

Section Tree.
  Variables h rho s delta : R.
  Hypothesis SL : scales h rho s delta.

  Lemma d_pos : 0 < delta.
  Proof. assert (X := sl_delta _ _ _ _ SL). unfold roundoff in X. lra. Qed.
  Lemma h_pos : 0 < h.
  Proof. assert (X := sl_h _ _ _ _ SL). unfold in64 in X. lra. Qed.
  Lemma s_pos : 0 < s.
  Proof. assert (X := sl_s _ _ _ _ SL). unfold in64 in X. lra. Qed.

  Lemma near_self : forall b x, (frd b <= frv b + 2)%nat -> 0 <= Q2R (fv b) -> 0 <= Q2R (fd b) -> Rabs x <= Q2R (fv b) * rho ^ frv b * sc h s b -> near h rho s delta b x x.
  Proof.
    intros b x E V D X. split; [exact E|]. split; [exact V|]. split; [exact D|]. split; [exact X|]. replace (x - x) with 0 by ring. rewrite Rabs_R0.
    assert (DP := d_pos). assert (RP := rho_pow rho (sl_rho _ _ _ _ SL) (frd b)). assert (SP := sc_pos h s (sl_h _ _ _ _ SL) (sl_s _ _ _ _ SL) b).
    apply Rmult_le_pos; [apply Rmult_le_pos; [apply Rmult_le_pos|]|]; lra.
  Qed.

  Lemma tree_ok : forall leaf ileaf rF rR,
    (forall i, nearF h rho s delta (leaf i) (rF i) (rR i)) ->
    (forall i b, ileaf i = Some b -> val (rF i) <> 0 /\ near h rho s delta b (/ val (rF i)) (/ rR i)) ->
    forall e b, fbnd leaf ileaf e = Some b -> nearF h rho s delta b (evalG L0F rF e) (evalG L0R rR e).
  Proof.
    intros leaf ileaf rF rR HV HI. destruct SL as [A B C D E]. apply fbnd_ok; try assumption.
    assert (Z : nearF h rho s delta (Fb 1 0 1 0 0 0) (nofZ 0) 0).
    { destruct (fl_ofZ 0 ltac:(lia)) as [F V]. split; [exact F|]. rewrite V. apply near_self; cbn [fv frv fd frd]; rewrite ?Q2R_1; try lia; try lra.
      rewrite Rabs_R0. unfold sc; cbn. lra. }
    intros [|[|[|[|j]]]]; exact Z.
  Qed.

  (** weaker bounds *)
  Definition fle (b c : fb) : bool :=
    (Qle_bool (fv b) (fv c) && Nat.leb (frv b) (frv c) && Qle_bool (fd b) (fd c) && Nat.leb (frd b) (frd c) && Nat.leb (frd c) (frv c + 2) && Z.eqb (fh b) (fh c) && Nat.eqb (fs b) (fs c))%bool.
  Lemma near_le : forall b c x X, fle b c = true -> near h rho s delta b x X -> near h rho s delta c x X.
  Proof.
    intros b c x X L [N1 [N2 [N3 [N4 N5]]]]. unfold fle in L. repeat (apply andb_prop in L; destruct L as [L ?]).
    match goal with H : Nat.leb (frd b) _ = true |- _ => apply Nat.leb_le in H; rename H into LD end.
    match goal with H : Nat.leb (frd c) _ = true |- _ => apply Nat.leb_le in H; rename H into LX end.
    match goal with H : Nat.leb (frv b) _ = true |- _ => apply Nat.leb_le in H; rename H into LV end.
    match goal with H : Nat.eqb _ _ = true |- _ => apply Nat.eqb_eq in H; rename H into LS end.
    match goal with H : Z.eqb _ _ = true |- _ => apply Z.eqb_eq in H; rename H into LH end.
    match goal with H : Qle_bool (fd b) _ = true |- _ => apply Qle_bool_iff, Qle_Rle in H; rename H into QD end.
    apply Qle_bool_iff, Qle_Rle in L.
    assert (DP := d_pos). assert (R1 := sl_rho _ _ _ _ SL). assert (SP := sc_pos h s (sl_h _ _ _ _ SL) (sl_s _ _ _ _ SL) b).
    assert (SE : sc h s c = sc h s b) by (unfold sc; rewrite LH, LS; reflexivity).
    assert (P1 := rho_pow rho R1 (frv b)). assert (P2 := rho_pow rho R1 (frd b)).
    assert (P3 : rho ^ frv b <= rho ^ frv c) by (apply Rle_pow; assumption). assert (P4 : rho ^ frd b <= rho ^ frd c) by (apply Rle_pow; assumption).
    split; [exact LX|]. split; [lra|]. split; [lra|]. rewrite SE. split.
    - eapply Rle_trans; [exact N4|]. apply Rmult_le_compat_r; [lra|]. apply Rmult_le_compat; lra.
    - eapply Rle_trans; [exact N5|]. apply Rmult_le_compat_r; [lra|]. apply Rmult_le_compat; [apply Rmult_le_pos; lra|lra| |exact P4].
      apply Rmult_le_compat_l; lra.
  Qed.
  Lemma nearF_le : forall b c x X, fle b c = true -> nearF h rho s delta b x X -> nearF h rho s delta c x X.
  Proof. intros b c x X L [F N]. split; [exact F|]. apply (near_le b c); assumption. Qed.
  (** a better bound for the exact value *)
  Lemma near_val : forall b v rv x X, near h rho s delta b x X -> (frd b <= rv + 2)%nat -> 0 <= Q2R v ->
    Rabs X <= Q2R v * rho ^ rv * sc h s b -> near h rho s delta (Fb v rv (fd b) (frd b) (fh b) (fs b)) x X.
  Proof. intros b v rv x X [N1 [N2 [N3 [N4 N5]]]] L V N. unfold near; cbn [fv frv fd frd]. auto. Qed.

  Lemma fle_trans : forall e leaf ileaf b c x X, fbnd leaf ileaf e = Some b -> True -> fle b c = true -> nearF h rho s delta b x X -> nearF h rho s delta c x X.
  Proof. intros. apply (nearF_le b c); assumption. Qed.
End Tree.

(** [fbnd] followed by [fle] *)
Definition within (leaf : nat -> fb) (ileaf : nat -> option fb) (e : expr) (c : fb) : bool :=
  match fbnd leaf ileaf e with Some b => fle b c | None => false end.
Lemma within_ok : forall h rho s delta, scales h rho s delta -> forall leaf ileaf rF rR,
  (forall i, nearF h rho s delta (leaf i) (rF i) (rR i)) ->
  (forall i b, ileaf i = Some b -> val (rF i) <> 0 /\ near h rho s delta b (/ val (rF i)) (/ rR i)) ->
  forall e c, within leaf ileaf e c = true -> nearF h rho s delta c (evalG L0F rF e) (evalG L0R rR e).
Proof.
  intros h rho s delta SL leaf ileaf rF rR HV HI e c W. unfold within in W. destruct (fbnd leaf ileaf e) as [b|] eqn:E; [|discriminate].
  apply (nearF_le h rho s delta SL b c); [exact W|]. apply (tree_ok h rho s delta SL leaf ileaf); assumption.
Qed.

Lemma rnd_val : forall x, finite x -> rnd (val x) = val x.
Proof.
  intros x X. destruct (finite_B x X) as [b [<- B]]. rewrite val_B. unfold rnd. apply round_generic; [auto with typeclass_instances|].
  apply (generic_format_B2R 53 1024 b).
Qed.
Lemma val_small : forall x, finite x -> Rabs (val x) < bpow radix2 1024.
Proof. intros x X. destruct (finite_B x X) as [b [<- B]]. rewrite val_B. apply abs_B2R_lt_emax. Qed.

Definition noinv : nat -> option fb := fun _ => None.
Lemma noinv_ok : forall h rho s delta (rF : nat -> double) (rR : nat -> R), forall i b, noinv i = Some b -> val (rF i) <> 0 /\ near h rho s delta b (/ val (rF i)) (/ rR i).
Proof. intros; discriminate. Qed.

Section Geo.
  Variables h rho s kappa : R.
  Hypothesis SL : scales h rho s (kappa * roundoff).
  Hypothesis K1 : 1 <= kappa.
  Hypothesis KX : in64 (kappa * h).
  Let delta := kappa * roundoff.
  Let X := kappa * h.

  Lemma u_pos : 0 < roundoff. Proof. unfold roundoff; lra. Qed.
  Lemma uX : roundoff * X = delta * h. Proof. unfold delta, X; ring. Qed.
  Lemma X_h : h <= X.
  Proof. unfold X. assert (H := h_pos _ _ _ _ SL). rewrite <- (Rmult_1_l h) at 1. apply Rmult_le_compat_r; lra. Qed.
  Lemma SLX : scales h 1 X roundoff.
  Proof. constructor; [apply SL|exact KX|lra|lra|unfold roundoff; lra]. Qed.
  Lemma small_delta : delta <= / 1048576.
  Proof.
    assert (D := d_pos _ _ _ _ SL). fold delta in D. assert (E := sl_small _ _ _ _ SL). fold delta in E. assert (R1 := sl_rho _ _ _ _ SL).
    assert (1 <= rho * rho) by (rewrite <- (Rmult_1_r 1); apply Rmult_le_compat; lra).
    apply Rle_trans with (delta * (rho * rho)); [|exact E]. rewrite <- (Rmult_1_r delta) at 1. apply Rmult_le_compat_l; lra.
  Qed.
  Lemma delta_rho : delta * rho <= / 1048576 .
  Proof.
    assert (D := d_pos _ _ _ _ SL). fold delta in D. assert (E := sl_small _ _ _ _ SL). fold delta in E. assert (R1 := sl_rho _ _ _ _ SL).
    apply Rle_trans with (delta * (rho * rho)); [|exact E]. apply Rmult_le_compat_l; [lra|]. rewrite <- (Rmult_1_r rho) at 1. apply Rmult_le_compat_l; lra.
  Qed.

  (** coordinates: [c] in units of the rounding error of a coordinate *)
  Definition cl (c : Q) (x : double) (x' : R) : Prop :=
    finite x /\ Rabs x' <= X /\ Rabs (val x - x') <= Q2R c * (delta * h).

  Lemma cl_node : forall x, finite x -> Rabs (val x) <= X -> cl 0 x (val x).
  Proof. intros x F B. split; [exact F|]. split; [exact B|]. replace (val x - val x) with 0 by ring. rewrite Rabs_R0, RMicromega.Q2R_0. lra. Qed.

  Definition mid_tree : expr := Ediv (Eadd (Eadd (EV 0) (EV 1)) (EV 2)) (EZ 3).
  Lemma cl_mid : forall x y z, finite x -> finite y -> finite z -> Rabs (val x) <= X -> Rabs (val y) <= X -> Rabs (val z) <= X ->
    cl 3 (ndiv (nadd (nadd x y) z) (nofZ 3)) ((val x + val y + val z) / 3).
  Proof.
    intros x y z Fx Fy Fz Bx By Bz.
    set (rF := fun i => match i with 0%nat => x | 1%nat => y | _ => z end).
    assert (N := within_ok h 1 X roundoff SLX (fun _ => Fb 1 0 0 0 0 1) noinv rF (fun i => val (rF i))).
    assert (L : forall v, finite v -> Rabs (val v) <= X -> nearF h 1 X roundoff (Fb 1 0 0 0 0 1) v (val v)).
    { intros v F B. split; [exact F|]. apply (near_self _ _ _ _ SLX); cbn [fv frv fd frd]; rewrite ?Q2R_1, ?RMicromega.Q2R_0; try lia; try lra. unfold sc; cbn. lra. }
    destruct (N ltac:(intros [|[|i]]; apply L; assumption) (noinv_ok _ _ _ _ _ _) mid_tree (Fb (Qmake 1025 1024) 0 3 0 0 1) ltac:(vm_compute; reflexivity)) as [F [_ [_ [_ [_ E]]]]].
    cbn [evalG mid_tree rF] in F, E. split; [exact F|]. split.
    - replace ((val x + val y + val z) / 3) with (/ 3 * val x + (/ 3 * val y + / 3 * val z)) by field.
      assert (T : forall v, Rabs (val v) <= X -> Rabs (/ 3 * val v) <= / 3 * X) by (intros v V; rewrite Rabs_mult, (Rabs_right (/ 3)) by lra; apply Rmult_le_compat_l; lra).
      assert (T1 := T x Bx). assert (T2 := T y By). assert (T3 := T z Bz).
      eapply Rle_trans; [apply Rabs_triang|]. assert (T4 := Rabs_triang (/ 3 * val y) (/ 3 * val z)). lra.
    - eapply Rle_trans; [exact E|]. unfold sc; cbn [fd frd fh fs powerRZ pow]. rewrite <- uX. right. ring.
  Qed.

  (** difference of two coordinates of the same domain *)
  Lemma cl_sub : forall (v : Q) c1 c2 x y x' y', cl c1 x x' -> cl c2 y y' -> (c1 <= 3)%Q -> (c2 <= 3)%Q -> (0 <= v <= 2)%Q -> Rabs (x' - y') <= Q2R v * h ->
    nearF h rho s delta (Fb v 0 (c1 + c2 + v + Qmake 1 1024) 0 1 0) (nsub x y) (x' - y').
  Proof.
    intros v c1 c2 x y x' y' [F1 [_ E1]] [F2 [_ E2]] C1 C2 V B. destruct V as [V0 V2].
    assert (HP := h_pos _ _ _ _ SL). assert (DP := d_pos _ _ _ _ SL). fold delta in DP. assert (DS := small_delta).
    apply Qle_Rle in V0, V2, C1, C2. rewrite RMicromega.Q2R_0 in V0. replace (Q2R 2) with 2 in V2 by (unfold Q2R; cbn; lra). replace (Q2R 3) with 3 in C1, C2 by (unfold Q2R; cbn; lra).
    assert (DH : 0 < delta * h) by (apply Rmult_lt_0_compat; assumption).
    assert (DH1 : delta * h <= / 1048576 * h) by (apply Rmult_le_compat_r; lra).
    assert (G1 : Q2R c1 * (delta * h) <= 3 * (delta * h)) by (apply Rmult_le_compat_r; lra). assert (G2 : Q2R c2 * (delta * h) <= 3 * (delta * h)) by (apply Rmult_le_compat_r; lra).
    assert (D12 : Rabs (val x - val y - (x' - y')) <= (Q2R c1 + Q2R c2) * (delta * h)).
    { replace (val x - val y - (x' - y')) with ((val x - x') - (val y - y')) by ring. unfold Rminus at 1. eapply Rle_trans; [apply Rabs_triang|]. rewrite Rabs_Ropp. lra. }
    assert (C0 : 0 <= (Q2R c1 + Q2R c2)). 
    { assert (P := Rabs_pos (val x - x')). assert (P' := Rabs_pos (val y - y')). destruct (Rle_or_lt 0 (Q2R c1 + Q2R c2)) as [|G]; [assumption|]. exfalso.
      assert (Q : (Q2R c1 + Q2R c2) * (delta * h) < 0) by (rewrite <- (Rmult_0_l (delta * h)); apply Rmult_lt_compat_r; lra). assert (PP := Rabs_pos (val x - val y - (x' - y'))). lra. }
    assert (SC : forall v n d k, sc h s (Fb v n d k 1 0) = h) by (intros; unfold sc; cbn [fh fs pow]; rewrite powerRZ_1; ring).
    destruct (round_near h rho s delta (sl_h _ _ _ _ SL) (sl_s _ _ _ _ SL) (sl_rho _ _ _ _ SL) (sl_delta _ _ _ _ SL) (sl_small _ _ _ _ SL)
      (Fb v 0 (c1 + c2) 0 1 0) (Fb v 0 (c1 + c2 + v + Qmake 1 1024) 0 1 0) (v + Qmake 1 65536) (val x - val y) (x' - y')) as [Z1 Z2]; cbn [fv frv fd frd fh fs]; try reflexivity; try lia.
    - unfold lim; cbn [fv frv fd frd fh fs]. repeat (apply andb_true_intro; split); try reflexivity; apply Qle_bool_iff; apply Rle_Qle; rewrite ?Q2R_plus, ?RMicromega.Q2R_0; unfold Q2R at 1; cbn; try lra.
      all: try (unfold Q2R in *; cbn in *; lra). 
    - rewrite Q2R_plus. exact C0.
    - lra.
    - unfold rerr. destruct (Qle_bool _ 0); rewrite ?Q2R_plus, ?RMicromega.Q2R_0; replace (Q2R (Qmake 1 1024)) with (/ 1024) by (unfold Q2R; cbn; lra); try lra. rewrite Q2R_q20. replace (Q2R (Qmake 1 65536)) with (/ 65536) by (unfold Q2R; cbn; lra). lra.
    - rewrite SC. cbn [pow]. lra.
    - rewrite SC, Q2R_plus. cbn [pow]. replace (delta * (Q2R c1 + Q2R c2) * 1 * h) with ((Q2R c1 + Q2R c2) * (delta * h)) by ring. exact D12.
    - rewrite SC, Q2R_plus. cbn [pow]. replace (val x - val y) with ((x' - y') + (val x - val y - (x' - y'))) by ring. eapply Rle_trans; [apply Rabs_triang|].
      replace (Q2R (Qmake 1 65536)) with (/ 65536) by (unfold Q2R; cbn; lra). lra.
    - destruct (fl_sub x y F1 F2 Z1) as [F V]. split; [exact F|]. rewrite V. exact Z2.
  Qed.
End Geo.
