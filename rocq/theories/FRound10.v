(** The contributions of an edge in doubles and in reals. *)
From Coq Require Import ZArith Reals List Bool Arith Lra Lia QArith Qreals Permutation.
From Flocq Require Import Core.
From Verif Require Import Num Float Py Mesh Utils CalcK0 Spec SpecK0 SpecRound FDict FWf FOut FSetup FMat FAsm FK0 FFloat FTree FRound FRound2 FRound3 FRound4 FRound5 FRound6 FRound7 FRound8 FRound9.
Import ListNotations.
Local Open Scope R_scope.

(** ** Indices of a domain *)

Definition ids3 {T} (p : ipt T) : list nat := [ipn1 p; ipn2 p; ipn3 p].

Lemma ipt_indices_lock : forall (m : mesh double) (M : mesh R), (forall n, get_index M n = get_index m n) ->
  forall ips IPS s, Forall2 (fun p q => ids3 p = ids3 q) ips IPS -> ipt_indices M IPS s = ipt_indices m ips s.
Proof.
  intros m M G ips IPS s F. revert s. induction F as [|p q ips IPS E F IH]; intros s; [reflexivity|].
  cbn [ipt_indices]. injection E as E1 E2 E3. rewrite !G, E1, E2, E3.
  destruct (get_index m (ipn1 q)); [|reflexivity]. cbn [bind]. destruct (get_index m (ipn2 q)); [|reflexivity]. cbn [bind].
  destruct (get_index m (ipn3 q)); [|reflexivity]. cbn [bind]. apply IH.
Qed.
Lemma F2_length : forall A B (P : A -> B -> Prop) l l', Forall2 P l l' -> length l = length l'.
Proof. intros A B P l l' F. induction F; cbn; congruence. Qed.
Lemma domain_lock : forall (m : mesh double) (M : mesh R), (forall n, get_index M n = get_index m n) ->
  forall d ips IPS, Forall2 (fun p q => ids3 p = ids3 q) ips IPS -> domain_indices M d IPS = domain_indices m d ips.
Proof.
  intros m M G d ips IPS F. unfold domain_indices. rewrite (ipt_indices_lock m M G ips IPS [] F), (F2_length _ _ _ _ _ F). reflexivity.
Qed.

Lemma ipt_indices_set : forall T (m : mesh T) ips s s', ipt_indices m ips s = Ok s' -> NoDup s ->
  NoDup s' /\ forall j, In j s' -> In j s \/ exists p n, In p ips /\ In n (ids3 p) /\ get_index m n = Ok j.
Proof.
  intros T m ips. induction ips as [|p ips IH]; intros s s' E N.
  - injection E as ->. split; [exact N|]. intros j H; left; exact H.
  - cbn [ipt_indices] in E. destruct (get_index m (ipn1 p)) as [i1|] eqn:E1; [|discriminate]. cbn [bind] in E.
    destruct (get_index m (ipn2 p)) as [i2|] eqn:E2; [|discriminate]. cbn [bind] in E.
    destruct (get_index m (ipn3 p)) as [i3|] eqn:E3; [|discriminate]. cbn [bind] in E.
    apply IH in E; [|repeat apply (sadd_nodup Z.eqb Z.eqb_eq); exact N]. destruct E as [N' J]. split; [exact N'|].
    intros j H. destruct (J j H) as [H'|[q [n [Q [I G]]]]].
    + rewrite !(sadd_in Z.eqb Z.eqb_eq) in H'. destruct H' as [->|[->|[->|H']]]; [right|right|right|left; exact H'];
      exists p; [exists (ipn3 p)|exists (ipn2 p)|exists (ipn1 p)]; (split; [left; reflexivity|]); (split; [unfold ids3; cbn; auto|assumption]).
    + right. exists q, n. split; [right; exact Q|]. auto.
Qed.

Lemma get_index_pos : forall T (m : mesh T) n j, get_index m n = Ok j -> (0 <= j)%Z.
Proof.
  intros T m n j H. unfold get_index in H. destruct (get_node m n) as [nd|]; [|discriminate]. cbn [bind] in H.
  destruct (nindex nd); [|discriminate]. injection H as <-. lia.
Qed.

(** the four indices, and those of them that are indices of nodes *)
Definition real_ix (bd : bool) (ix : list Z) : list Z := if bd then firstn 3 ix else ix.
Lemma domain_shape : forall T (m : mesh T) ips ix, domain_indices m (-1)%Z ips = Ok ix ->
  exists i1 i2 i3 i4, ix = [i1; i2; i3; i4] /\ NoDup ix /\ (length ips = 3%nat -> i4 = (-1)%Z) /\
    forall j, In j (real_ix (Nat.eqb (length ips) 3) ix) -> exists p n, In p ips /\ In n (ids3 p) /\ get_index m n = Ok j.
Proof.
  intros T m ips ix H. unfold domain_indices in H. destruct (ipt_indices m ips []) as [s|] eqn:E; [|discriminate]. cbn [bind] in H.
  apply ipt_indices_set in E; [|constructor]. destruct E as [N J].
  assert (P := zsorted_perm s). set (z := zsorted s) in *.
  assert (NZ : NoDup z) by (apply (Permutation_NoDup (Permutation_sym P)); exact N).
  assert (JZ : forall j, In j z -> exists p n, In p ips /\ In n (ids3 p) /\ get_index m n = Ok j).
  { intros j Hj. apply (Permutation_in _ P) in Hj. destruct (J j Hj) as [[]|X]. exact X. }
  clear P N J. destruct (Nat.eqb_spec (length ips) 3) as [L|L].
  - destruct (Nat.eqb_spec (length (z ++ [(-1)%Z])) 4) as [L4|]; [|discriminate]. injection H as <-. rewrite app_length in L4; cbn in L4.
    destruct z as [|i1 [|i2 [|i3 [|i4 z]]]]; try (cbn in L4; lia). exists i1, i2, i3, (-1)%Z. split; [reflexivity|]. split; [|split; [reflexivity|exact JZ]].
    change (NoDup ([i1; i2; i3] ++ [(-1)%Z])). apply (Permutation_NoDup (Permutation_app_comm [(-1)%Z] [i1; i2; i3])). constructor; [|exact NZ].
    intros X. destruct (JZ _ X) as [p [n [_ [_ G]]]]. apply get_index_pos in G. lia.
  - rewrite app_nil_r in H. destruct (Nat.eqb_spec (length z) 4) as [L4|]; [|discriminate]. injection H as <-.
    destruct z as [|i1 [|i2 [|i3 [|i4 [|i5 z]]]]]; try (cbn in L4; lia). exists i1, i2, i3, i4. split; [reflexivity|]. split; [exact NZ|]. split; [contradiction|exact JZ].
Qed.

Lemma enum_pos_at : forall l i d j p, dget Z.eqb j (enum_pos i l d) = Some p ->
  dget Z.eqb j d = Some p \/ exists q, p = (i + q)%nat /\ nth_error l q = Some j.
Proof.
  induction l as [|a l IH]; intros i d j p H; [left; exact H|]. cbn [enum_pos] in H. apply IH in H. destruct H as [H|[q [-> H]]].
  - rewrite (dget_dset Z.eqb Z.eqb_eq) in H. destruct (Z.eqb_spec j a) as [->|NE].
    + injection H as <-. right. exists 0%nat. split; [lia|reflexivity].
    + left; exact H.
  - right. exists (S q). split; [lia|exact H].
Qed.

(** ** Rows *)
Definition fleaf (bd : bool) (i : nat) : fb := if (bd && Nat.eqb i 3)%bool then zb 0 0 else f1b.

Lemma nth_lset : forall A (l : list A) p i x d, nth i (lset p x l) d = if (Nat.eqb i p && Nat.ltb p (length l))%bool then x else nth i l d.
Proof.
  intros A l. induction l as [|a l IH]; intros p i x d.
  - replace (lset p x []) with (@nil A) by (destruct p; reflexivity). cbn [length]. destruct (Nat.ltb_spec p 0); [lia|]. rewrite andb_false_r. reflexivity.
  - destruct p as [|p]; [destruct i; reflexivity|]. cbn [lset]. destruct i as [|i]; [reflexivity|]. cbn [nth]. rewrite IH. reflexivity.
Qed.
Lemma length_lset : forall A (l : list A) p x, length (lset p x l) = length l.
Proof. intros A l. induction l as [|a l IH]; intros [|p] x; cbn; [reflexivity|reflexivity|reflexivity|]. rewrite IH; reflexivity. Qed.

Section Edge.
  Variables (h rho s kappa : R).
  Hypothesis SL : scales h rho s (kappa * roundoff).
  Let delta := kappa * roundoff.
  Notation nr := (nearF h rho s delta).
  Variables (m : mesh double) (M : mesh R).
  Hypothesis LK : lock m M.

  Lemma z0 : forall b, fv b = 0%Q -> fd b = 0%Q -> (frd b <= frv b + 2)%nat -> nr b (nofZ 0) 0.
  Proof. intros b A B C. exact (zero_near h rho s kappa SL b A B C). Qed.
  Lemma f0' : nr f1b (nofZ 0) 0.
  Proof. apply (nearF_le _ _ _ _ SL (zb 0 0)); [reflexivity|]. apply z0; [reflexivity|reflexivity|cbn; lia]. Qed.
  Lemma fl0 : forall bd i, nr (fleaf bd i) (nofZ 0) 0.
  Proof. intros bd i. unfold fleaf. destruct (bd && Nat.eqb i 3)%bool; [apply z0; [reflexivity|reflexivity|cbn; lia]|exact f0']. Qed.

  Lemma lset_near : forall bd p x X l L, length l = length L -> (bd = true -> p <> 3%nat) -> nr f1b x X ->
    (forall i, nr (fleaf bd i) (nth0 i l) (nth0 i L)) -> forall i, nr (fleaf bd i) (nth0 i (lset p x l)) (nth0 i (lset p X L)).
  Proof.
    intros bd p x X l L E NB HX H i. unfold nth0. rewrite !nth_lset, E. destruct (Nat.eqb_spec i p) as [->|]; [|apply H].
    destruct (Nat.ltb p (length L)); [|apply H]. cbn [andb]. unfold fleaf. destruct bd; [|exact HX].
    destruct (Nat.eqb_spec p 3); [exfalso; apply (NB eq_refl); assumption|exact HX].
  Qed.

  Definition row_near (bd : bool) (r : seg double) (q : seg R) : Prop :=
    nr nxb (s_nx r) (s_nx q) /\ nr nxb (s_ny r) (s_ny q) /\ nr leb_ (s_le r) (s_le q) /\ forall i, nr (fleaf bd i) (nth0 i (s_f r)) (nth0 i (s_f q)).

  Lemma row_lock : forall bd ps p q R, (bd = true -> forall j r, (0 <= j)%Z -> dget Z.eqb j ps = Some r -> r <> 3%nat) ->
    near_ipt h rho s kappa p q -> ipt_row M ps q = Ok R -> exists r, ipt_row m ps p = Ok r /\ row_near bd r R.
  Proof.
    intros bd ps p q R B NI H. unfold ipt_row in *. rewrite !(get_index_lock m M LK) in H.
    rewrite (ni_1 _ _ _ _ _ _ NI), (ni_2 _ _ _ _ _ _ NI), (ni_3 _ _ _ _ _ _ NI).
    destruct (get_index m (ipn1 q)) as [j1|] eqn:G1; [|discriminate]. cbn [bind] in *.
    destruct (get_index m (ipn2 q)) as [j2|] eqn:G2; [|discriminate]. cbn [bind] in *.
    destruct (get_index m (ipn3 q)) as [j3|] eqn:G3; [|discriminate]. cbn [bind] in *.
    destruct (dget Z.eqb j1 ps) as [p1|] eqn:P1; [|discriminate]. cbn [get_or bind] in *.
    destruct (dget Z.eqb j2 ps) as [p2|] eqn:P2; [|discriminate]. cbn [get_or bind] in *.
    destruct (dget Z.eqb j3 ps) as [p3|] eqn:P3; [|discriminate]. cbn [get_or bind] in *.
    apply get_index_pos in G1, G2, G3.
    injection H as <-. eexists. split; [reflexivity|]. unfold row_near; cbn [s_nx s_ny s_le s_f].
    split; [apply NI|]. split; [apply NI|]. split; [apply NI|].
    apply lset_near; [rewrite !length_lset; reflexivity|intros E; apply (B E j3); assumption|apply NI|].
    apply lset_near; [rewrite !length_lset; reflexivity|intros E; apply (B E j2); assumption|apply NI|].
    apply lset_near; [reflexivity|intros E; apply (B E j1); assumption|apply NI|].
    intros [|[|[|[|i]]]]; [apply fl0..|]. unfold nth0. rewrite !nth_overflow by (cbn; lia). apply fl0.
  Qed.

  Definition rows_near (bd : bool) (r : seg double * seg double * seg double * seg double) (q : seg R * seg R * seg R * seg R) : Prop :=
    let '(r1, r2, r3, r4) := r in let '(q1, q2, q3, q4) := q in
    row_near bd r1 q1 /\ row_near bd r2 q2 /\ row_near bd r3 q3 /\ (if bd then r4 = dummy_row /\ q4 = dummy_row else row_near bd r4 q4).

  Lemma rows_lock : forall ix ips IPS RW, domain_indices m (-1)%Z ips = Ok ix -> Forall2 (near_ipt h rho s kappa) ips IPS -> ipt_rows M (indexpos ix) IPS = Ok RW ->
    exists rw, ipt_rows m (indexpos ix) ips = Ok rw /\ rows_near (Nat.eqb (length ips) 3) rw RW.
  Proof.
    intros ix ips IPS RW D F H. destruct (domain_shape _ m ips ix D) as [i1 [i2 [i3 [i4 [Eix [ND [E4 _]]]]]]].
    assert (B : Nat.eqb (length ips) 3 = true -> forall j r, (0 <= j)%Z -> dget Z.eqb j (indexpos ix) = Some r -> r <> 3%nat).
    { intros L j r J G ->. apply Nat.eqb_eq in L. specialize (E4 L). subst i4. unfold indexpos in G. apply enum_pos_at in G. destruct G as [G|[q [Q G]]]; [discriminate|].
      replace q with 3%nat in G by lia. rewrite Eix in G. injection G as <-. lia. }
    assert (RL := fun p q R => row_lock (Nat.eqb (length ips) 3) (indexpos ix) p q R B).
    unfold ipt_rows in *. destruct F as [|p1 q1 ips IPS N1 F]; [discriminate|]. destruct F as [|p2 q2 ips IPS N2 F]; [discriminate|]. destruct F as [|p3 q3 ips IPS N3 F]; [discriminate|].
    destruct (ipt_row M (indexpos ix) q1) as [R1|] eqn:E1; [|discriminate]. cbn [bind] in H. apply (RL _ _ _ N1) in E1. destruct E1 as [r1 [-> X1]].
    destruct (ipt_row M (indexpos ix) q2) as [R2|] eqn:E2; [|discriminate]. cbn [bind] in H. apply (RL _ _ _ N2) in E2. destruct E2 as [r2 [-> X2]].
    destruct (ipt_row M (indexpos ix) q3) as [R3|] eqn:E3; [|discriminate]. cbn [bind] in H. apply (RL _ _ _ N3) in E3. destruct E3 as [r3 [-> X3]]. cbn [bind].
    destruct F as [|p4' q4' ips IPS N4 F].
    - injection H as <-. eexists. split; [reflexivity|]. cbn. auto.
    - destruct (ipt_row M (indexpos ix) q4') as [R4|] eqn:E5; [|discriminate]. cbn [bind] in H. apply (RL _ _ _ N4) in E5. destruct E5 as [r4 [-> X4]]. cbn [bind].
      injection H as <-. eexists. split; [reflexivity|]. cbn. auto.
  Qed.

  (** ** Stiffness *)
  Definition prop_near (p : prop double) (P : prop R) : Prop :=
    mat_all (nr exb) (pA p) (pA P) /\ mat_all (nr exb) (pB p) (pB P) /\ mat_all (nr exb) (pD p) (pD P).
  Definition abd_near (f : (prop double -> mat3 double) -> mat3 double) (F : (prop R -> mat3 R) -> mat3 R) : Prop :=
    mat_all (nr stb) (f pA) (F pA) /\ mat_all (nr stb) (f pB) (F pB) /\ mat_all (nr stb) (f pD) (F pD).

  Lemma stiff_near : forall p, (forall x, In x (prop_entries p) -> finite x /\ Rabs (val x) <= s) -> prop_near p (prop_val p).
  Proof.
    intros p H. assert (G : forall x, In x (prop_entries p) -> nr exb x (val x)) by (intros x Hx; apply (ex_near h rho s kappa SL); apply H, Hx).
    unfold prop_entries, mat3_upper in G. cbn [app In] in G.
    split; [|split]; unfold mat_all, prop_val, mat3_val; cbn [pA pB pD m00 m01 m02 m11 m12 m22]; (split; [apply G; tauto|]); (split; [apply G; tauto|]); (split; [apply G; tauto|]); (split; [apply G; tauto|]); (split; [apply G; tauto|]); apply G; tauto.
  Qed.

  Definition ta_near (x : (tria double * double) * option (tria double * double)) (X : (tria R * R) * option (tria R * R)) : Prop :=
    fst (fst X) = tria_val (fst (fst x)) /\
    match snd x, snd X with
    | None, None => True
    | Some y, Some Y => fst Y = tria_val (fst y) /\ nr a3b (snd (fst x)) (snd (fst X)) /\ nr a3b (snd y) (snd Y) /\ 0 <= snd (fst X) /\ 0 <= snd Y
    | _, _ => False
    end.

  Lemma ABD_lock : forall pfn e E a A ta TA F, en1 e = en1 E -> en2 e = en2 E -> eother1 e = eother1 E -> eother2 e = eother2 E ->
    (forall n p, node_prop m n = Ok p -> prop_near p (prop_val p)) ->
    (forall p, tprop (fst (fst ta)) = Some p \/ (exists y, snd ta = Some y /\ tprop (fst y) = Some p) -> prop_near p (prop_val p)) ->
    ta_near ta TA -> finite a -> Rabs (val a - A) <= 30 * (delta * (h * h)) -> h * h <= 3 * rho * A ->
    (forall Y, snd TA = Some Y -> snd (fst TA) + snd Y = A) ->
    edge_ABD M pfn E A TA = Ok F -> exists f, edge_ABD m pfn e a ta = Ok f /\ abd_near f F.
  Proof.
    intros pfn e E a A [[t1 a1] o] [[T1 A1] O] F E1 E2 O1 O2 NP TP [ET TN] FA EA LA SA H. cbn [fst snd] in *. subst T1.
    unfold edge_ABD in *. cbn [fst snd] in *. destruct pfn.
    - rewrite !(node_prop_lock m M LK), !(other_prop_lock m M LK), <- E1, <- E2, <- O1, <- O2 in H.
      assert (OP : forall o' p, other_prop m o' = Ok p -> prop_near p (prop_val p)).
      { intros [n|] p Hp; [apply (NP n p Hp)|discriminate]. }
      destruct (node_prop m (en1 e)) as [p1|] eqn:Q1; [|discriminate]. cbn [rmap bind] in *. apply NP in Q1. destruct Q1 as [A1' [B1 D1]].
      destruct (node_prop m (en2 e)) as [p2|] eqn:Q2; [|discriminate]. cbn [rmap bind] in *. apply NP in Q2. destruct Q2 as [A2' [B2 D2]].
      destruct (other_prop m (eother1 e)) as [p3|] eqn:Q3; [|discriminate]. cbn [rmap bind] in *. apply OP in Q3. destruct Q3 as [A3 [B3 D3]].
      destruct o as [y|], O as [Y|]; try contradiction.
      + destruct (other_prop m (eother2 e)) as [p4|] eqn:Q4; [|discriminate]. cbn [rmap bind] in *. apply OP in Q4. destruct Q4 as [A4 [B4 D4]].
        injection H as <-. eexists. split; [reflexivity|]. split; [|split]; apply (comb4_near h rho s kappa SL); assumption.
      + injection H as <-. eexists. split; [reflexivity|]. split; [|split]; apply (comb3_near h rho s kappa SL); assumption.
    - change (tprop (tria_val t1)) with (option_map prop_val (tprop t1)) in H.
      destruct (tprop t1) as [p1|] eqn:Q1; [|discriminate]. cbn [option_map get_or bind] in *.
      assert (N1 : prop_near p1 (prop_val p1)) by (apply TP; left; reflexivity). destruct N1 as [A1' [B1 D1]].
      destruct o as [[t2 a2]|], O as [[T2 A2]|]; try contradiction.
      + cbn [fst snd] in *. destruct TN as [-> [N1 [N2 [P1 P2]]]]. change (tprop (tria_val t2)) with (option_map prop_val (tprop t2)) in H.
        destruct (tprop t2) as [p2|] eqn:Q2; [|discriminate]. cbn [option_map get_or bind] in *.
        assert (NN : prop_near p2 (prop_val p2)) by (apply TP; right; exists (t2, a2); auto). destruct NN as [A2' [B2 D2]].
        injection H as <-. eexists. split; [reflexivity|]. assert (S := SA _ eq_refl). cbn [snd] in S.
        split; [|split]; apply (combA_near h rho s kappa SL); assumption.
      + injection H as <-. eexists. split; [reflexivity|].
        split; [|split]; (apply (mat_all_imp (nr exb)); [intros x X; apply (ex_st h rho s kappa SL)|]; assumption).
  Qed.

  (** ** Contributions *)
  Definition k0_args {T} {N : Num T} (a : T) (f : (prop T -> mat3 T) -> mat3 T) (rows : seg T * seg T * seg T * seg T) : nat -> T :=
    let '(r1, r2, r3, r4) := rows in
    fun i => nth i ([a] ++ mat3_upper (f pA) ++ mat3_upper (f pB) ++ mat3_upper (f pD) ++
      [s_nx r1; s_ny r1; s_le r1; s_nx r2; s_ny r2; s_le r2; s_nx r3; s_ny r3; s_le r3; s_nx r4; s_ny r4; s_le r4] ++
      flat_map (fun r => [nth0 0 (s_f r); nth0 1 (s_f r); nth0 2 (s_f r); nth0 3 (s_f r)]) [r1; r2; r3; r4]) (nofZ 0).
  Lemma k0_updates_args : forall T (N : Num T) i1 i2 i3 i4 a f rows,
    k0_updates [i1; i2; i3; i4] a (f pA) (f pB) (f pD) rows = k0_at i1 i2 i3 i4 (k0_args a f rows).
  Proof. intros T N i1 i2 i3 i4 a f [[[r1 r2] r3] r4]. reflexivity. Qed.

  Lemma leaf_tail : forall bd i, (47 <= i)%nat -> k0_leaf bd i = zb 0 0 \/ k0_leaf bd i = f1b.
  Proof.
    intros bd i H. unfold k0_leaf. destruct (Nat.eqb_spec i 0); [lia|]. destruct (Nat.leb_spec i 18); [lia|]. destruct (Nat.leb_spec i 30); [lia|].
    match goal with |- context [if ?c then _ else _] => destruct c end; auto.
  Qed.

  Lemma args_near : forall bd a A f F r RW, nr acb a A -> abd_near f F -> rows_near bd r RW -> forall i, nr (k0_leaf bd i) (k0_args a f r i) (k0_args A F RW i).
  Proof.
    intros bd a A f F [[[r1 r2] r3] r4] [[[q1 q2] q3] q4] NA [NFA [NFB NFD]] NR i.
    destruct (Nat.le_gt_cases 47 i) as [I|I].
    { unfold k0_args. rewrite !nth_overflow by (cbn; lia). destruct (leaf_tail bd i I) as [-> | ->]; [apply z0; [reflexivity|reflexivity|cbn; lia]|exact f0']. }
    destruct NFA as [a1 [a2 [a3 [a4 [a5 a6]]]]]. destruct NFB as [b1 [b2 [b3 [b4 [b5 b6]]]]]. destruct NFD as [d1 [d2 [d3 [d4 [d5 d6]]]]].
    destruct NR as [[x1 [y1 [l1 g1]]] [[x2 [y2 [l2 g2]]] [[x3 [y3 [l3 g3]]] N4]]].
    assert (G1 := g1 0%nat). assert (G2 := g1 1%nat). assert (G3 := g1 2%nat). assert (G4 := g1 3%nat).
    assert (H1 := g2 0%nat). assert (H2 := g2 1%nat). assert (H3 := g2 2%nat). assert (H4 := g2 3%nat).
    assert (I1 := g3 0%nat). assert (I2 := g3 1%nat). assert (I3 := g3 2%nat). assert (I4 := g3 3%nat). clear g1 g2 g3.
    assert (N4' : nr (k0_leaf bd 28) (s_nx r4) (s_nx q4) /\ nr (k0_leaf bd 29) (s_ny r4) (s_ny q4) /\ nr (k0_leaf bd 30) (s_le r4) (s_le q4) /\
      nr (k0_leaf bd 43) (nth0 0 (s_f r4)) (nth0 0 (s_f q4)) /\ nr (k0_leaf bd 44) (nth0 1 (s_f r4)) (nth0 1 (s_f q4)) /\
      nr (k0_leaf bd 45) (nth0 2 (s_f r4)) (nth0 2 (s_f q4)) /\ nr (k0_leaf bd 46) (nth0 3 (s_f r4)) (nth0 3 (s_f q4))).
    { destruct bd.
      - destruct N4 as [-> ->]. do 6 (split; [apply z0; solve [reflexivity | cbn; lia]|]). apply z0; solve [reflexivity | cbn; lia].
      - destruct N4 as [X [Y [L G]]]. split; [exact X|]. split; [exact Y|]. split; [exact L|].
        split; [exact (G 0%nat)|]. split; [exact (G 1%nat)|]. split; [exact (G 2%nat)|exact (G 3%nat)]. }
    clear N4. destruct N4' as [z1 [z2 [z3 [z4 [z5 [z6 z7]]]]]].
    do 28 (destruct i as [|i]; [destruct bd; assumption|]).
    do 3 (destruct i as [|i]; [assumption|]).
    do 12 (destruct i as [|i]; [destruct bd; assumption|]).
    do 4 (destruct i as [|i]; [assumption|]). lia.
  Qed.
End Edge.
