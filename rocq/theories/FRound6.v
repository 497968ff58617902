(** Rounding errors of the entries of one edge. *)
From Coq Require Import ZArith Reals List Bool Arith Lra Lia QArith Qreals.
From Flocq Require Import Core.
From Verif Require Import Num Float Py Mesh Utils GenK0 CalcK0 Spec SpecRound FFloat FTree FRound FRound2 FRound3 FRound4 FRound5.
Import ListNotations.
Local Open Scope R_scope.

Definition acb : fb := Fb (Qmake 2 3) 0 30 0 2 0.
Definition iacb : fb := Fb 3 1 272 2 (-2) 0.
Definition stb : fb := Fb 1 0 400 1 0 1.
Definition entb : fb := Fb 864 2 675000 3 0 1.
Definition zb (h : Z) (s : nat) : fb := Fb 0 0 0 0 h s.

(** ** The variables of the entries, in the order of the arguments; [bd]: only one triangle *)
Definition k0_leaf (bd : bool) (i : nat) : fb :=
  if Nat.eqb i 0 then acb else if Nat.leb i 18 then stb
  else if Nat.leb i 30 then
    if (bd && Nat.leb 28 i)%bool then (if Nat.eqb i 30 then zb 1 0 else zb 0 0)
    else if Nat.eqb (Nat.modulo (i - 19) 3) 2 then leb_ else nxb
  else if (bd && (Nat.leb 43 i || Nat.eqb (Nat.modulo (i - 31) 4) 3))%bool then zb 0 0 else f1b.
Definition k0_ileaf (i : nat) : option fb := match i with O => Some iacb | _ => None end.

Definition k0_at {T} {N : Num T} (i1 i2 i3 i4 : Z) (v : nat -> T) : list (Z * Z * T) :=
  k0_entries i1 i2 i3 i4 (v 0%nat) (v 1%nat) (v 2%nat) (v 3%nat) (v 4%nat) (v 5%nat) (v 6%nat) (v 7%nat) (v 8%nat) (v 9%nat) (v 10%nat) (v 11%nat) (v 12%nat) (v 13%nat) (v 14%nat) (v 15%nat) (v 16%nat) (v 17%nat) (v 18%nat) (v 19%nat) (v 20%nat) (v 21%nat) (v 22%nat) (v 23%nat) (v 24%nat) (v 25%nat) (v 26%nat) (v 27%nat) (v 28%nat) (v 29%nat) (v 30%nat) (v 31%nat) (v 32%nat) (v 33%nat) (v 34%nat) (v 35%nat) (v 36%nat) (v 37%nat) (v 38%nat) (v 39%nat) (v 40%nat) (v 41%nat) (v 42%nat) (v 43%nat) (v 44%nat) (v 45%nat) (v 46%nat).
Definition k0_trees : list expr := map snd (k0_at 0 1 2 3 EV).

Lemma k0_at_trees : forall T (N : Num T) (L : lits T) i1 i2 i3 i4 (v : nat -> T), map snd (k0_at i1 i2 i3 i4 v) = map (evalG L v) k0_trees.
Proof. intros. reflexivity. Qed.
Definition dofs4 (ix : list Z) : list Z := flat_map (fun i => [i * 5 + 0; i * 5 + 1; i * 5 + 3; i * 5 + 4]%Z) ix.
Lemma k0_at_pos : forall T (N : Num T) i1 i2 i3 i4 (v : nat -> T), map fst (k0_at i1 i2 i3 i4 v) = list_prod (dofs4 [i1; i2; i3; i4]) (dofs4 [i1; i2; i3; i4]).
Proof. intros. reflexivity. Qed.

(** bounds: entries of the place-holder of a domain with one triangle are exactly zero *)
Definition bd_ok (pe : nat * nat * expr) : bool :=
  within (k0_leaf true) k0_ileaf (snd pe) (if (Nat.leb 12 (fst (fst pe)) || Nat.leb 12 (snd (fst pe)))%bool then Fb 0 2 0 3 0 1 else entb).
Lemma ent_ok1 : forallb (fun e => within (k0_leaf false) k0_ileaf e entb) k0_trees = true.
Proof. vm_compute. reflexivity. Qed.
Lemma ent_ok2 : forallb bd_ok (combine (list_prod (seq 0 16) (seq 0 16)) k0_trees) = true.
Proof. vm_compute. reflexivity. Qed.

Lemma combine_split_map : forall A B (l : list (A * B)), combine (map fst l) (map snd l) = l.
Proof. induction l as [|[a b] l IH]; cbn; congruence. Qed.
Definition pos16 (i1 i2 i3 i4 : Z) (p : nat * nat) : Z * Z := (nth (fst p) (dofs4 [i1; i2; i3; i4]) 0%Z, nth (snd p) (dofs4 [i1; i2; i3; i4]) 0%Z).
Lemma pos16_all : forall i1 i2 i3 i4, list_prod (dofs4 [i1; i2; i3; i4]) (dofs4 [i1; i2; i3; i4]) = map (pos16 i1 i2 i3 i4) (list_prod (seq 0 16) (seq 0 16)).
Proof. intros. reflexivity. Qed.
Lemma k0_at_eq : forall T (N : Num T) (L : lits T) i1 i2 i3 i4 (v : nat -> T),
  k0_at i1 i2 i3 i4 v = combine (map (pos16 i1 i2 i3 i4) (list_prod (seq 0 16) (seq 0 16))) (map (evalG L v) k0_trees).
Proof. intros. rewrite <- pos16_all, <- (k0_at_pos T N i1 i2 i3 i4 v), <- (k0_at_trees T N L i1 i2 i3 i4 v). symmetry. apply combine_split_map. Qed.

Section Entries.
  Variables h rho s kappa : R.
  Hypothesis SL : scales h rho s (kappa * roundoff).
  Let delta := kappa * roundoff.

  (** one update in doubles and its exact counterpart *)
  Definition upd_near (D : list Z) (u : Z * Z * double) (U : Z * Z * R) : Prop :=
    fst u = fst U /\
    ((In (fst (fst u)) D /\ In (snd (fst u)) D /\ nearF h rho s delta entb (snd u) (snd U)) \/
     (finite (snd u) /\ val (snd u) = 0 /\ snd U = 0)).

  Lemma near_zero : forall b x X, nearF h rho s delta b x X -> fv b = 0%Q -> fd b = 0%Q -> finite x /\ val x = 0 /\ X = 0.
  Proof.
    intros b x X [F [_ [_ [_ [A B]]]]] V D. rewrite V in A. rewrite D in B. rewrite RMicromega.Q2R_0 in A, B.
    rewrite !Rmult_0_l in A. rewrite Rmult_0_r, !Rmult_0_l in B. split; [exact F|].
    apply abs_split in A. apply abs_split in B. lra.
  Qed.

  Lemma entries_gen : forall bd i1 i2 i3 i4 rF rR,
    (forall i, nearF h rho s delta (k0_leaf bd i) (rF i) (rR i)) -> val (rF 0%nat) <> 0 -> near h rho s delta iacb (/ val (rF 0%nat)) (/ rR 0%nat) ->
    forall es ps, (forall p e, In (p, e) (combine ps es) -> (fst p < 16 /\ snd p < 16)%nat) ->
    forallb (fun e => within (k0_leaf false) k0_ileaf e entb) es = true -> forallb bd_ok (combine ps es) = true ->
    Forall2 (upd_near (dofs4 (if bd then [i1; i2; i3] else [i1; i2; i3; i4])))
      (combine (map (pos16 i1 i2 i3 i4) ps) (map (evalG L0F rF) es)) (combine (map (pos16 i1 i2 i3 i4) ps) (map (evalG L0R rR) es)).
  Proof.
    intros bd i1 i2 i3 i4 rF rR HV N0 NI.
    assert (HI : forall i b, k0_ileaf i = Some b -> val (rF i) <> 0 /\ near h rho s delta b (/ val (rF i)) (/ rR i)).
    { intros [|i] b E; [|discriminate]. injection E as <-. auto. }
    intros es ps. revert es.
    induction ps as [|p ps IH]; intros [|e es] LT O1 O2; try constructor; cbn [forallb combine] in O1, O2; apply andb_prop in O1; apply andb_prop in O2;
      destruct O1 as [W1 O1]; destruct O2 as [W2 O2].
    - clear IH O1 O2. destruct (LT p e (or_introl eq_refl)) as [A B]. split; [reflexivity|]. unfold pos16, upd_near; cbn [fst snd]. unfold bd_ok in W2; cbn [fst snd] in W2.
      assert (IN : forall a (n : nat), (a < 4 * n)%nat -> (n <= 4)%nat -> In (nth a (dofs4 [i1; i2; i3; i4]) 0%Z) (dofs4 (firstn n [i1; i2; i3; i4]))).
      { intros a n H Hn. replace (nth a (dofs4 [i1; i2; i3; i4]) 0%Z) with (nth a (dofs4 (firstn n [i1; i2; i3; i4])) 0%Z).
        - apply nth_In. destruct n as [|[|[|[|[|n]]]]]; cbn; lia.
        - destruct n as [|[|[|[|[|n]]]]]; cbn [firstn]; try lia;
          (do 16 (destruct a as [|a]; [reflexivity || lia|])); lia. }
      destruct bd.
      + destruct (Nat.leb 12 (fst p) || Nat.leb 12 (snd p))%bool eqn:Q.
        * right. apply (near_zero (Fb 0 2 0 3 0 1)); [|reflexivity|reflexivity].
          apply (within_ok h rho s delta SL _ _ rF rR HV HI e _ W2).
        * left. apply orb_false_elim in Q. destruct Q as [Q1 Q2]. apply Nat.leb_gt in Q1, Q2.
          split; [apply (IN _ 3%nat); lia|]. split; [apply (IN _ 3%nat); lia|].
          apply (within_ok h rho s delta SL _ _ rF rR HV HI e _ W2).
      + left. split; [apply (IN _ 4%nat); lia|]. split; [apply (IN _ 4%nat); lia|].
        apply (within_ok h rho s delta SL _ _ rF rR HV HI e _ W1).
    - apply IH; [intros q f Hq; apply (LT q f); right; exact Hq|assumption|assumption].
  Qed.

  Lemma entries_near : forall bd i1 i2 i3 i4 rF rR,
    (forall i, nearF h rho s delta (k0_leaf bd i) (rF i) (rR i)) -> val (rF 0%nat) <> 0 -> near h rho s delta iacb (/ val (rF 0%nat)) (/ rR 0%nat) ->
    Forall2 (upd_near (dofs4 (if bd then [i1; i2; i3] else [i1; i2; i3; i4]))) (k0_at i1 i2 i3 i4 rF) (k0_at i1 i2 i3 i4 rR).
  Proof.
    intros bd i1 i2 i3 i4 rF rR HV N0 NI. rewrite (k0_at_eq _ _ L0F), (k0_at_eq _ _ L0R).
    apply entries_gen; [exact HV|exact N0|exact NI| |exact ent_ok1|exact ent_ok2].
    intros [a b] e H. apply in_combine_l in H. apply in_prod_iff in H. destruct H as [A B]. apply in_seq in A, B. cbn; lia.
  Qed.

  (** ** Areas *)
  Lemma area_near : forall a A, finite a -> Rabs (val a - A) <= 30 * (delta * (h * h)) -> 0 <= A <= 2 / 3 * (h * h) -> nearF h rho s delta acb a A.
  Proof.
    intros a A F E [P B]. split; [exact F|]. unfold near, acb, sc; cbn [fv frv fd frd fh fs pow].
    change (powerRZ h 2) with (h * (h * 1)). change (powerRZ s 0) with 1. change (Q2R (Qmake 2 3)) with (2 * / 3). change (Q2R 30) with (30 * / 1).
    split; [lia|]. split; [lra|]. split; [lra|]. rewrite (Rabs_right A) by lra. split; lra.
  Qed.
  Lemma area3_near : forall a A, finite a -> Rabs (val a - A) <= 30 * (delta * (h * h)) -> 0 <= A <= / 3 * (h * h) -> nearF h rho s delta (Fb (Qmake 1 3) 0 30 0 2 0) a A.
  Proof.
    intros a A F E [P B]. split; [exact F|]. unfold near, sc; cbn [fv frv fd frd fh fs pow].
    change (powerRZ h 2) with (h * (h * 1)). change (powerRZ s 0) with 1. change (Q2R (Qmake 1 3)) with (1 * / 3). change (Q2R 30) with (30 * / 1).
    split; [lia|]. split; [lra|]. split; [lra|]. rewrite (Rabs_right A) by lra. split; lra.
  Qed.
  (** the computed area, compared with the exact one *)
  Lemma area_low : forall a A, Rabs (val a - A) <= 30 * (delta * (h * h)) -> h * h <= 3 * rho * A -> 0 < A /\ 999 / 1000 * A <= val a.
  Proof.
    intros a A E L. assert (HP := h_pos _ _ _ _ SL). assert (R1 := sl_rho _ _ _ _ SL). assert (DP := d_pos _ _ _ _ SL). fold delta in DP.
    assert (SM := sl_small _ _ _ _ SL). fold delta in SM. assert (HH : 0 < h * h) by (apply Rmult_lt_0_compat; assumption).
    assert (AP : 0 < A).
    { destruct (Rle_or_lt A 0) as [X|X]; [|exact X]. assert (3 * rho * A <= 0) by (rewrite <- (Rmult_0_r (3 * rho)); apply Rmult_le_compat_l; lra). lra. }
    assert (DR : delta * rho <= / 1048576).
    { eapply Rle_trans; [|exact SM]. apply Rmult_le_compat_l; [lra|]. rewrite <- (Rmult_1_l rho) at 1. apply Rmult_le_compat_r; lra. }
    assert (Y : delta * (h * h) <= delta * (3 * rho * A)) by (apply Rmult_le_compat_l; lra).
    assert (Z : delta * rho * A <= / 1048576 * A) by (apply Rmult_le_compat_r; lra).
    apply abs_split in E. split; [exact AP|]. lra.
  Qed.
  Lemma area_inv : forall a A, Rabs (val a - A) <= 30 * (delta * (h * h)) -> h * h <= 3 * rho * A ->
    val a <> 0 /\ near h rho s delta iacb (/ val a) (/ A).
  Proof.
    intros a A E L. destruct (area_low a A E L) as [AP VA]. assert (HP := h_pos _ _ _ _ SL). assert (R1 := sl_rho _ _ _ _ SL). assert (DP := d_pos _ _ _ _ SL). fold delta in DP.
    assert (HH : 0 < h * h) by (apply Rmult_lt_0_compat; assumption). assert (VP : 0 < val a) by lra. split; [lra|].
    assert (IA : / A <= 3 * rho * / (h * h)).
    { apply Rmult_le_reg_r with (A * (h * h)); [apply Rmult_lt_0_compat; assumption|]. replace (/ A * (A * (h * h))) with (h * h) by (field; lra).
      replace (3 * rho * / (h * h) * (A * (h * h))) with (3 * rho * A) by (field; lra). exact L. }
    assert (IP : 0 < / A) by (apply Rinv_0_lt_compat; exact AP). assert (JP : 0 < / val a) by (apply Rinv_0_lt_compat; exact VP).
    assert (JA : / val a <= 1000 / 999 * / A).
    { apply Rmult_le_reg_r with (val a * A); [apply Rmult_lt_0_compat; assumption|]. replace (/ val a * (val a * A)) with A by (field; lra).
      replace (1000 / 999 * / A * (val a * A)) with (1000 / 999 * val a) by (field; lra). lra. }
    unfold near, iacb, sc; cbn [fv frv fd frd fh fs pow]. change (powerRZ h (-2)) with (/ (h * (h * 1))). change (powerRZ s 0) with 1.
    change (Q2R 3) with (3 * / 1). change (Q2R 272) with (272 * / 1). rewrite !Rmult_1_r.
    split; [lia|]. split; [lra|]. split; [lra|]. rewrite (Rabs_right (/ A)) by lra. split; [lra|].
    replace (/ val a - / A) with (- (val a - A) * (/ val a * / A)) by (field; lra). rewrite Rabs_mult, Rabs_Ropp, (Rabs_right (/ val a * / A)) by (left; apply Rmult_lt_0_compat; assumption).
    set (q := / (h * h)) in *. assert (QP : 0 < q) by (apply Rinv_0_lt_compat; exact HH). assert (HQ : h * h * q = 1) by (unfold q; field; lra).
    apply Rle_trans with (30 * (delta * (h * h)) * (1000 / 999 * (3 * rho * q) * (3 * rho * q))).
    - apply Rmult_le_compat; [apply Rabs_pos|left; apply Rmult_lt_0_compat; assumption|exact E|].
      apply Rmult_le_compat; [lra|lra| |exact IA]. lra.
    - replace (30 * (delta * (h * h)) * (1000 / 999 * (3 * rho * q) * (3 * rho * q))) with (270000 / 999 * (delta * (rho * rho) * q) * (h * h * q)) by field. rewrite HQ.
      assert (0 < delta * (rho * rho) * q) by (apply Rmult_lt_0_compat; [apply Rmult_lt_0_compat; [exact DP|apply Rmult_lt_0_compat; lra]|exact QP]). lra.
  Qed.
End Entries.
