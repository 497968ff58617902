(** The contributions of an edge to calc_kG in doubles and in reals. *)
From Coq Require Import ZArith Reals List Bool Arith Lra Lia QArith Qreals Permutation.
From Flocq Require Import Core.
From Verif Require Import Num Float Py Mesh Utils CalcK0 CalcKG Spec SpecK0 SpecKG SpecRound SpecRound3 FDict FWf FOut FSetup FMat FAsm FK0 FKG FFloat FTree
  FRound FRound2 FRound3 FRound4 FRound5 FRound6 FRound7 FRound8 FRound9 FRound10 FRound11 FRound12 FRound15 FRound22.
Import ListNotations.
Local Open Scope R_scope.

(** ** Indices of a domain; 0 stands for the missing fourth one *)
Lemma ipt_indices_all : forall T (m : mesh T) ips s s', ipt_indices m ips s = Ok s' ->
  (forall j, In j s -> In j s') /\ forall p n j, In p ips -> In n (ids3 p) -> get_index m n = Ok j -> In j s'.
Proof.
  intros T m ips. induction ips as [|p ips IH]; intros s s' E.
  - injection E as ->. split; [auto|]. intros p n j [].
  - cbn [ipt_indices] in E. destruct (get_index m (ipn1 p)) as [i1|] eqn:E1; [|discriminate]. cbn [bind] in E.
    destruct (get_index m (ipn2 p)) as [i2|] eqn:E2; [|discriminate]. cbn [bind] in E.
    destruct (get_index m (ipn3 p)) as [i3|] eqn:E3; [|discriminate]. cbn [bind] in E.
    apply IH in E. destruct E as [A B]. setoid_rewrite (sadd_in Z.eqb Z.eqb_eq) in A. setoid_rewrite (sadd_in Z.eqb Z.eqb_eq) in A. setoid_rewrite (sadd_in Z.eqb Z.eqb_eq) in A.
    split; [intros j Hj; apply A; auto|]. intros q n j [<-|Hq] Hn G; [|apply (B q n); assumption].
    apply A. unfold ids3 in Hn. cbn [In] in Hn. destruct Hn as [<-|[<-|[<-|[]]]]; [rewrite E1 in G|rewrite E2 in G|rewrite E3 in G]; injection G as ->; auto.
Qed.

Definition of_ipts {T} (m : mesh T) (ips : list (ipt T)) (j : Z) : Prop := exists p n, In p ips /\ In n (ids3 p) /\ get_index m n = Ok j.
Record shape0 {T} (m : mesh T) (ips : list (ipt T)) (ix : list Z) (bd : option nat) : Prop := {
  s0_bd : In bd zpos;
  s0_one : one_tria bd = Nat.eqb (length ips) 3;
  s0_node : forall p, (p < 4)%nat -> bd <> Some p -> of_ipts m ips (nth p ix 0%Z);
  s0_zero : forall z, bd = Some z -> nth z ix 0%Z = 0%Z;
  s0_inj : forall p q, (p < 4)%nat -> (q < 4)%nat -> bd <> Some p -> bd <> Some q -> nth p ix 0%Z = nth q ix 0%Z -> p = q;
  s0_pos : forall j r, of_ipts m ips j -> dget Z.eqb j (indexpos ix) = Some r -> bd <> Some r
}.
Lemma indexpos4 : forall j i1 i2 i3 i4, dget Z.eqb j (indexpos [i1; i2; i3; i4]) =
  if Z.eqb j i4 then Some 3%nat else if Z.eqb j i3 then Some 2%nat else if Z.eqb j i2 then Some 1%nat else if Z.eqb j i1 then Some 0%nat else None.
Proof. intros. unfold indexpos. cbn [enum_pos]. rewrite !(dget_dset Z.eqb Z.eqb_eq). reflexivity. Qed.

Lemma domain_shape0 : forall T (m : mesh T) ips ix, domain_indices m 0%Z ips = Ok ix -> exists i1 i2 i3 i4 bd, ix = [i1; i2; i3; i4] /\ shape0 m ips ix bd.
Proof.
  intros T m ips ix H. unfold domain_indices in H. destruct (ipt_indices m ips []) as [s|] eqn:E; [|discriminate]. cbn [bind] in H.
  destruct (ipt_indices_all _ _ _ _ _ E) as [_ AL]. apply ipt_indices_set in E; [|constructor]. destruct E as [N J].
  assert (P := zsorted_perm s). set (z := zsorted s) in *.
  assert (NZ : NoDup z) by (apply (Permutation_NoDup (Permutation_sym P)); exact N).
  assert (JZ : forall j, In j z -> of_ipts m ips j).
  { intros j Hj. apply (Permutation_in _ P) in Hj. destruct (J j Hj) as [[]|X]. exact X. }
  assert (ZJ : forall j, of_ipts m ips j -> In j z).
  { intros j [p [n [A [B C]]]]. apply (Permutation_in _ (Permutation_sym P)). exact (AL p n j A B C). }
  clear P N J AL. destruct (Nat.eqb_spec (length ips) 3) as [L|L].
  - destruct (Nat.eqb_spec (length (z ++ [0%Z])) 4) as [L4|]; [|discriminate]. injection H as <-. rewrite app_length in L4; cbn in L4.
    destruct z as [|i1 [|i2 [|i3 [|i4 z]]]]; try (cbn in L4; lia). clear L4.
    inversion NZ as [|? ? N1 NZ1]; subst. inversion NZ1 as [|? ? N2 NZ2]; subst. cbn [In] in N1, N2.
    assert (K1 := JZ i1 (or_introl eq_refl)). assert (K2 := JZ i2 (or_intror (or_introl eq_refl))). assert (K3 := JZ i3 (or_intror (or_intror (or_introl eq_refl)))).
    exists i1, i2, i3, 0%Z. 
    destruct (Z.eq_dec i1 0) as [->|D1]; [exists (Some 0%nat)|destruct (Z.eq_dec i2 0) as [->|D2]; [exists (Some 1%nat)|destruct (Z.eq_dec i3 0) as [->|D3]; [exists (Some 2%nat)|exists (Some 3%nat)]]].
    all: split; [reflexivity|]; constructor; [unfold zpos; cbn; tauto|rewrite L; reflexivity| | | |].
    all: try (intros p Hp NE; destruct p as [|[|[|[|p]]]]; [..|lia]; cbn [nth app]; first [exfalso; apply NE; reflexivity|assumption]).
    all: try (intros p Hz; injection Hz as <-; reflexivity).
    all: try (intros p q Hp Hq NP NQ EQ; destruct p as [|[|[|[|p]]]]; [..|lia]; (destruct q as [|[|[|[|q]]]]; [..|lia]); cbn [nth app] in EQ; first [reflexivity|exfalso; apply NP; reflexivity|exfalso; apply NQ; reflexivity|exfalso; intuition congruence]).
    all: intros j r Hj G X; injection X as <-; apply ZJ in Hj; cbn [In] in Hj; cbn [app] in G; rewrite indexpos4 in G;
      repeat match type of G with context [Z.eqb ?a ?b] => destruct (Z.eqb_spec a b); [subst; try discriminate G|] end; try discriminate G; intuition congruence.
  - rewrite app_nil_r in H. destruct (Nat.eqb_spec (length z) 4) as [L4|]; [|discriminate]. injection H as <-.
    destruct z as [|i1 [|i2 [|i3 [|i4 [|i5 z]]]]]; try (cbn in L4; lia). clear L4. exists i1, i2, i3, i4, None. split; [reflexivity|].
    constructor; [left; reflexivity|symmetry; apply Nat.eqb_neq, L| | | |].
    + intros p Hp _. apply JZ. apply nth_In. exact Hp.
    + intros z Hz; discriminate.
    + intros p q Hp Hq _ _ EQ. exact (proj1 (NoDup_nth _ 0%Z) NZ p q Hp Hq EQ).
    + intros j r _ _ X; discriminate.
Qed.

(** ** Rows *)
Section Rows.
  Variables (h rho s kappa : R).
  Hypothesis SL : scales h rho s (kappa * roundoff).
  Let delta := kappa * roundoff.
  Notation nr := (nearF h rho s delta).
  Variables (m : mesh double) (M : mesh R).
  Hypothesis LK : lock m M.
  Variable bd : option nat.

  Lemma flz0 : forall i, nr (fleafz bd i) (nofZ 0) 0.
  Proof.
    intros i. unfold fleafz. destruct bd as [z|]; [destruct (Nat.eqb i z)|]; [|apply (f0' h rho s kappa SL)..]. apply (z0 h rho s kappa SL); [reflexivity|reflexivity|cbn; lia].
  Qed.
  Lemma lsetz_near : forall p x X l L, length l = length L -> bd <> Some p -> nr f1b x X ->
    (forall i, nr (fleafz bd i) (nth0 i l) (nth0 i L)) -> forall i, nr (fleafz bd i) (nth0 i (lset p x l)) (nth0 i (lset p X L)).
  Proof.
    intros p x X l L E NB HX H i. unfold nth0. rewrite !nth_lset, E. destruct (Nat.eqb_spec i p) as [->|]; [|apply H].
    destruct (Nat.ltb p (length L)); [|apply H]. cbn [andb]. unfold fleafz. destruct bd as [z|]; [|exact HX].
    destruct (Nat.eqb_spec p z); [exfalso; apply NB; congruence|exact HX].
  Qed.

  Definition row_nearz (r : seg double) (q : seg R) : Prop :=
    nr nxb (s_nx r) (s_nx q) /\ nr nxb (s_ny r) (s_ny q) /\ nr leb_ (s_le r) (s_le q) /\ forall i, nr (fleafz bd i) (nth0 i (s_f r)) (nth0 i (s_f q)).

  Lemma rowz_lock : forall ps p q R, (forall n j r, In n (ids3 p) -> get_index m n = Ok j -> dget Z.eqb j ps = Some r -> bd <> Some r) ->
    near_ipt h rho s kappa p q -> ipt_row M ps q = Ok R -> exists r, ipt_row m ps p = Ok r /\ row_nearz r R.
  Proof.
    intros ps p q R B NI H. unfold ipt_row in *. rewrite !(get_index_lock m M LK) in H.
    rewrite (ni_1 _ _ _ _ _ _ NI), (ni_2 _ _ _ _ _ _ NI), (ni_3 _ _ _ _ _ _ NI). unfold ids3 in B. rewrite (ni_1 _ _ _ _ _ _ NI), (ni_2 _ _ _ _ _ _ NI), (ni_3 _ _ _ _ _ _ NI) in B.
    destruct (get_index m (ipn1 q)) as [j1|] eqn:G1; [|discriminate]. cbn [bind] in *.
    destruct (get_index m (ipn2 q)) as [j2|] eqn:G2; [|discriminate]. cbn [bind] in *.
    destruct (get_index m (ipn3 q)) as [j3|] eqn:G3; [|discriminate]. cbn [bind] in *.
    destruct (dget Z.eqb j1 ps) as [p1|] eqn:P1; [|discriminate]. cbn [get_or bind] in *.
    destruct (dget Z.eqb j2 ps) as [p2|] eqn:P2; [|discriminate]. cbn [get_or bind] in *.
    destruct (dget Z.eqb j3 ps) as [p3|] eqn:P3; [|discriminate]. cbn [get_or bind] in *.
    injection H as <-. eexists. split; [reflexivity|]. unfold row_nearz; cbn [s_nx s_ny s_le s_f].
    split; [apply NI|]. split; [apply NI|]. split; [apply NI|].
    apply lsetz_near; [rewrite !length_lset; reflexivity|apply (B _ j3 p3 (or_intror (or_intror (or_introl eq_refl)))); assumption|apply NI|].
    apply lsetz_near; [rewrite !length_lset; reflexivity|apply (B _ j2 p2 (or_intror (or_introl eq_refl))); assumption|apply NI|].
    apply lsetz_near; [reflexivity|apply (B _ j1 p1 (or_introl eq_refl)); assumption|apply NI|].
    intros [|[|[|[|i]]]]; [apply flz0..|]. unfold nth0. rewrite !nth_overflow by (cbn; lia). apply flz0.
  Qed.

  Definition rows_nearz (r : seg double * seg double * seg double * seg double) (q : seg R * seg R * seg R * seg R) : Prop :=
    let '(r1, r2, r3, r4) := r in let '(q1, q2, q3, q4) := q in
    row_nearz r1 q1 /\ row_nearz r2 q2 /\ row_nearz r3 q3 /\ (if one_tria bd then r4 = dummy_row /\ q4 = dummy_row else row_nearz r4 q4).

  Lemma rowsz_lock : forall ix ips IPS RW, shape0 m ips ix bd -> Forall2 (near_ipt h rho s kappa) ips IPS -> ipt_rows M (indexpos ix) IPS = Ok RW ->
    exists rw, ipt_rows m (indexpos ix) ips = Ok rw /\ rows_nearz rw RW.
  Proof.
    intros ix ips IPS RW D F H. pose proof (s0_one _ _ _ _ D) as BE.
    assert (RL : forall p q R, In p ips -> near_ipt h rho s kappa p q -> ipt_row M (indexpos ix) q = Ok R -> exists r, ipt_row m (indexpos ix) p = Ok r /\ row_nearz r R).
    { intros p q R HP. apply rowz_lock. intros n j r Hn G. apply (s0_pos _ _ _ _ D). exists p, n. auto. }
    clear D. unfold rows_nearz. rewrite BE. clear BE.
    unfold ipt_rows in *. destruct F as [|p1 q1 ips IPS N1 F]; [discriminate|]. destruct F as [|p2 q2 ips IPS N2 F]; [discriminate|]. destruct F as [|p3 q3 ips IPS N3 F]; [discriminate|].
    destruct (ipt_row M (indexpos ix) q1) as [R1|] eqn:E1; [|discriminate]. cbn [bind] in H. apply (fun I => RL _ _ _ I N1) in E1; [|cbn; auto]. destruct E1 as [r1 [-> X1]].
    destruct (ipt_row M (indexpos ix) q2) as [R2|] eqn:E2; [|discriminate]. cbn [bind] in H. apply (fun I => RL _ _ _ I N2) in E2; [|cbn; auto]. destruct E2 as [r2 [-> X2]].
    destruct (ipt_row M (indexpos ix) q3) as [R3|] eqn:E3; [|discriminate]. cbn [bind] in H. apply (fun I => RL _ _ _ I N3) in E3; [|cbn; auto]. destruct E3 as [r3 [-> X3]]. cbn [bind].
    destruct F as [|p4' q4' ips IPS N4 F].
    - injection H as <-. eexists. split; [reflexivity|]. cbn. auto.
    - destruct (ipt_row M (indexpos ix) q4') as [R4|] eqn:E5; [|discriminate]. cbn [bind] in H. apply (fun I => RL _ _ _ I N4) in E5; [|cbn; auto]. destruct E5 as [r4 [-> X4]]. cbn [bind].
      injection H as <-. eexists. split; [reflexivity|]. cbn. auto.
  Qed.

  Lemma rows_list_near : forall rows ROWS, rows_nearz rows ROWS -> forall i, (i < 28)%nat -> nr (row_leaf bd i) (nth i (row_list rows) (nofZ 0)) (nth i (row_list ROWS) 0).
  Proof.
    intros [[[r1 r2] r3] r4] [[[q1 q2] q3] q4] NR i I.
    destruct NR as [[x1 [y1 [l1 g1]]] [[x2 [y2 [l2 g2]]] [[x3 [y3 [l3 g3]]] N4]]].
    assert (G1 := g1 0%nat). assert (G2 := g1 1%nat). assert (G3 := g1 2%nat). assert (G4 := g1 3%nat).
    assert (H1 := g2 0%nat). assert (H2 := g2 1%nat). assert (H3 := g2 2%nat). assert (H4 := g2 3%nat).
    assert (I1 := g3 0%nat). assert (I2 := g3 1%nat). assert (I3 := g3 2%nat). assert (I4 := g3 3%nat). clear g1 g2 g3.
    assert (N4' : nr (row_leaf bd 9) (s_nx r4) (s_nx q4) /\ nr (row_leaf bd 10) (s_ny r4) (s_ny q4) /\ nr (row_leaf bd 11) (s_le r4) (s_le q4) /\
      nr (row_leaf bd 24) (nth0 0 (s_f r4)) (nth0 0 (s_f q4)) /\ nr (row_leaf bd 25) (nth0 1 (s_f r4)) (nth0 1 (s_f q4)) /\
      nr (row_leaf bd 26) (nth0 2 (s_f r4)) (nth0 2 (s_f q4)) /\ nr (row_leaf bd 27) (nth0 3 (s_f r4)) (nth0 3 (s_f q4))).
    { destruct (one_tria bd) eqn:OT.
      - destruct N4 as [-> ->]. unfold row_leaf. rewrite OT. do 6 (split; [apply (z0 h rho s kappa SL); solve [reflexivity | cbn; lia]|]). apply (z0 h rho s kappa SL); solve [reflexivity | cbn; lia].
      - destruct N4 as [X [Y [L G]]]. unfold row_leaf. rewrite OT. split; [exact X|]. split; [exact Y|]. split; [exact L|].
        split; [exact (G 0%nat)|]. split; [exact (G 1%nat)|]. split; [exact (G 2%nat)|exact (G 3%nat)]. }
    clear N4. destruct N4' as [z1 [z2 [z3 [z4 [z5 [z6 z7]]]]]].
    do 9 (destruct i as [|i]; [destruct bd; assumption|]).
    do 3 (destruct i as [|i]; [assumption|]).
    do 12 (destruct i as [|i]; [destruct bd; assumption|]).
    do 4 (destruct i as [|i]; [assumption|]). lia.
  Qed.

  (** ** Stiffness: all entries, by way of the transposed matrices *)
  Definition mt {T} (a : mat3 T) : mat3 T := M3 (m00 a) (m10 a) (m20 a) (m01 a) (m11 a) (m21 a) (m02 a) (m12 a) (m22 a).
  Definition used (ta : (tria double * double) * option (tria double * double)) (p : prop double) : Prop :=
    (exists n, node_prop m n = Ok p) \/ tprop (fst (fst ta)) = Some p \/ (exists y, snd ta = Some y /\ tprop (fst y) = Some p).

  Lemma ABD_sel : forall pfn e E a A ta TA F, en1 e = en1 E -> en2 e = en2 E -> eother1 e = eother1 E -> eother2 e = eother2 E ->
    ta_near h rho s kappa ta TA -> finite a -> Rabs (val a - A) <= 30 * (delta * (h * h)) -> h * h <= 3 * rho * A ->
    (forall Y, snd TA = Some Y -> snd (fst TA) + snd Y = A) ->
    edge_ABD M pfn E A TA = Ok F -> exists f, edge_ABD m pfn e a ta = Ok f /\
      (forall sel selR, (forall p, used ta p -> mat_all (nr exb) (sel p) (selR (prop_val p))) -> mat_all (nr stb) (f sel) (F selR)) /\
      (forall sel, f (fun p => mt (sel p)) = mt (f sel)) /\ (forall selR, F (fun p => mt (selR p)) = mt (F selR)).
  Proof.
    intros pfn e E a A [[t1 a1] o] [[T1 A1] O] F E1 E2 O1 O2 [ET TN] FA EA LA SA H. cbn [fst snd] in *. subst T1.
    unfold edge_ABD in *. cbn [fst snd] in *. unfold used. cbn [fst snd]. destruct pfn.
    - rewrite !(node_prop_lock m M LK), !(other_prop_lock m M LK), <- E1, <- E2, <- O1, <- O2 in H.
      assert (OP : forall o' p, other_prop m o' = Ok p -> exists n, node_prop m n = Ok p).
      { intros [n|] p Hp; [exists n; exact Hp|discriminate]. }
      destruct (node_prop m (en1 e)) as [p1|] eqn:Q1; [|discriminate]. cbn [rmap bind] in *.
      destruct (node_prop m (en2 e)) as [p2|] eqn:Q2; [|discriminate]. cbn [rmap bind] in *.
      destruct (other_prop m (eother1 e)) as [p3|] eqn:Q3; [|discriminate]. cbn [rmap bind] in *. apply OP in Q3.
      destruct o as [y|], O as [Y|]; try contradiction.
      + destruct (other_prop m (eother2 e)) as [p4|] eqn:Q4; [|discriminate]. cbn [rmap bind] in *. apply OP in Q4.
        injection H as <-. eexists. split; [reflexivity|]. split; [|split; reflexivity]. intros sel selR U. apply (comb4_near h rho s kappa SL); apply U; left; eauto.
      + injection H as <-. eexists. split; [reflexivity|]. split; [|split; reflexivity]. intros sel selR U. apply (comb3_near h rho s kappa SL); apply U; left; eauto.
    - change (tprop (tria_val t1)) with (option_map prop_val (tprop t1)) in H.
      destruct (tprop t1) as [p1|] eqn:Q1; [|discriminate]. cbn [option_map get_or bind] in *.
      destruct o as [[t2 a2]|], O as [[T2 A2]|]; try contradiction.
      + cbn [fst snd] in *. destruct TN as [-> [N1 [N2 [P1 P2]]]]. change (tprop (tria_val t2)) with (option_map prop_val (tprop t2)) in H.
        destruct (tprop t2) as [p2|] eqn:Q2; [|discriminate]. cbn [option_map get_or bind] in *.
        injection H as <-. eexists. split; [reflexivity|]. split; [|split; reflexivity]. assert (S := SA _ eq_refl). cbn [snd] in S.
        intros sel selR U. apply (combA_near h rho s kappa SL); try assumption; apply U; [right; left; reflexivity|right; right; exists (t2, a2); auto].
      + injection H as <-. eexists. split; [reflexivity|]. split; [|split; reflexivity]. intros sel selR U.
        apply (mat_all_imp (nr exb)); [intros x X; apply (ex_st h rho s kappa SL)|]. apply U; right; left; reflexivity.
  Qed.

  Definition full (x : mat3 double) : Prop := forall y, In y (mat3_all x) -> finite y /\ Rabs (val y) <= s.
  Lemma full_mat : forall x, full x -> mat_all (nr exb) x (mat3_val x) /\ mat_all (nr exb) (mt x) (mt (mat3_val x)).
  Proof.
    intros x H. assert (G : forall y, In y (mat3_all x) -> nr exb y (val y)) by (intros y Hy; apply (ex_near h rho s kappa SL); apply H, Hy).
    unfold mat3_all in G. cbn [In] in G. unfold mat_all, mt, mat3_val; cbn [m00 m01 m02 m10 m11 m12 m20 m21 m22].
    split; (split; [apply G; tauto|]); (split; [apply G; tauto|]); (split; [apply G; tauto|]); (split; [apply G; tauto|]); (split; [apply G; tauto|]); apply G; tauto.
  Qed.
  Lemma nine : forall x X, mat_all (nr stb) x X -> mat_all (nr stb) (mt x) (mt X) -> forall i, (i < 9)%nat -> nr stb (nth i (mat_list x) (nofZ 0)) (nth i (mat_list X) 0).
  Proof.
    intros x X [A [B [C [D [E F]]]]] [A' [B' [C' [D' [E' F']]]]] i I. unfold mt in *. cbn [m00 m01 m02 m10 m11 m12 m20 m21 m22] in *.
    do 9 (destruct i as [|i]; [assumption|]). lia.
  Qed.
End Rows.

(** ** Displacements *)
Lemma slice5_lock : forall (d : list double) n i, length d = (n * 5)%nat -> (0 <= i < Z.of_nat n)%Z ->
  exists x, slice5 d i = Ok x /\ slice5 (map val d) i = Ok (map val x) /\ length x = 5%nat /\ forall y, In y x -> In y d.
Proof.
  intros d n i L H. unfold slice5.
  assert (LS : length (firstn 5 (skipn (Z.to_nat (i * 5)) d)) = 5%nat) by (rewrite firstn_length, skipn_length; lia).
  rewrite skipn_map, firstn_map, map_length, LS. cbn [Nat.eqb]. eexists. split; [reflexivity|]. split; [reflexivity|]. split; [exact LS|].
  intros y Hy. rewrite <- (firstn_skipn (Z.to_nat (i * 5)) d). apply in_or_app. right. rewrite <- (firstn_skipn 5 (skipn _ d)). apply in_or_app. left. exact Hy.
Qed.
Lemma disp_near : forall h rho w kappa, scales h rho w (kappa * roundoff) -> forall x, (forall y, In y x -> finite y /\ Rabs (val y) <= w * h) -> length x = 5%nat ->
  forall c, (c < 5)%nat -> nearF h rho w (kappa * roundoff) disb (nth0 c x) (nth0 c (map val x)).
Proof.
  intros h rho w kappa SL x H L c C. unfold nth0. assert (I : In (nth c x (nofZ 0)) x) by (apply nth_In; lia).
  rewrite (nth_indep _ _ (val (@nofZ double NumF 0))) by (rewrite map_length; lia). rewrite map_nth. destruct (H _ I) as [F B]. split; [exact F|].
  apply (near_self _ _ _ _ SL); unfold disb, sc; cbn [fv frv fd frd fh fs pow]; rewrite ?Q2R_1, ?RMicromega.Q2R_0, ?powerRZ_1; try lia; try lra.
Qed.
