(** Rounding errors of sums of contributions to the entries of a matrix. *)
From Coq Require Import ZArith Reals List Bool Arith Lra Lia.
From Flocq Require Import Core.
From Verif Require Import Num Float Py Mesh Utils CalcK0 AddK0s SpecRound FMat FFloat FRound2 FRound3.
Import ListNotations.
Local Open Scope R_scope.

Definition pair_dec : forall p q : nat * nat, {p = q} + {p <> q}.
Proof. decide equality; apply Nat.eq_dec. Defined.
Notation hits hs i j := (count_occ pair_dec hs (i, j)).

Section Acc.
  Variable n : nat.
  (** of each entry: its exact start, the error of its start, a bound of both, and bounds of a contribution and of its error *)
  Variables X0 e0 K0 B E : nat -> nat -> R.
  Definition room (i j : nat) : Prop :=
    0 <= e0 i j /\ Rabs (X0 i j) + e0 i j <= K0 i j /\ K0 i j <= bpow radix2 500 /\ 0 <= B i j <= bpow radix2 500 /\ 0 <= E i j <= bpow radix2 500 /\
    roundoff * B i j <= / 100 * E i j /\ eta <= / 1000 * E i j.

  Inductive steps : list (Z * Z * double) -> list (Z * Z * R) -> list (nat * nat) -> Prop :=
  | st_nil : steps [] [] []
  | st_hit : forall r c y Y us US hs, (r < n)%nat -> (c < n)%nat -> finite y -> Rabs Y <= B r c -> Rabs (val y - Y) <= E r c -> steps us US hs ->
      steps ((Z.of_nat r, Z.of_nat c, y) :: us) ((Z.of_nat r, Z.of_nat c, Y) :: US) ((r, c) :: hs)
  | st_zero : forall r c y us US hs, in_range n r -> in_range n c -> finite y -> val y = 0 -> steps us US hs ->
      steps ((r, c, y) :: us) ((r, c, 0) :: US) hs.

  Definition tot (i j c : nat) : R := e0 i j + 3 / 2 * (INR c * INR c) * E i j + 2 * INR c * roundoff * K0 i j.
  Definition ginv (i j c : nat) (x : double) (X : R) : Prop :=
    finite x /\ Rabs (X - X0 i j) <= INR c * B i j /\ Rabs (val x - X) <= tot i j c.
  Definition limc (c : nat) : Prop := INR c <= 4294967296.

  Lemma b500 : 4294967296 * 4294967296 * 1024 * bpow radix2 500 <= bpow radix2 900.
  Proof. replace (4294967296 * 4294967296 * 1024) with (bpow radix2 74) by (cbn; lra). rewrite <- bpow_plus. apply bpow_le. lia. Qed.
  Lemma b1000 : 4 * bpow radix2 900 <= bpow radix2 1000.
  Proof. replace 4 with (bpow radix2 2) by (cbn; lra). rewrite <- bpow_plus. apply bpow_le. lia. Qed.
  Lemma b500pos : 0 < bpow radix2 500. Proof. apply bpow_gt_0. Qed.

  Lemma tot_mono : forall i j c c', room i j -> (c <= c')%nat -> tot i j c <= tot i j c'.
  Proof.
    intros i j c c' [H1 [H2 [H3 [H4 [H5 [H6 H7]]]]]] L. apply le_INR in L. assert (C0 := pos_INR c). assert (KP : 0 <= K0 i j) by (assert (X := Rabs_pos (X0 i j)); lra).
    unfold tot. assert (UP : 0 < roundoff) by (unfold roundoff; lra).
    assert (INR c * INR c <= INR c' * INR c') by (apply Rmult_le_compat; lra).
    assert (3 / 2 * (INR c * INR c) * E i j <= 3 / 2 * (INR c' * INR c') * E i j) by (apply Rmult_le_compat_r; lra).
    assert (2 * INR c * roundoff * K0 i j <= 2 * INR c' * roundoff * K0 i j) by (apply Rmult_le_compat_r; [lra|]; apply Rmult_le_compat_r; lra). lra.
  Qed.
  Lemma ginv_mono : forall i j c c' x X, room i j -> ginv i j c x X -> (c <= c')%nat -> ginv i j c' x X.
  Proof.
    intros i j c c' x X RM [F [A D]] L. assert (M := tot_mono i j c c' RM L). apply le_INR in L. split; [exact F|]. split; [|lra].
    eapply Rle_trans; [exact A|]. apply Rmult_le_compat_r; [apply RM|exact L].
  Qed.

  Lemma tot_size : forall i j c, room i j -> limc c -> 0 <= tot i j c /\ INR c * B i j + tot i j c + K0 i j <= bpow radix2 900.
  Proof.
    intros i j c [H1 [H2 [H3 [H4 [H5 [H6 H7]]]]]] L. unfold limc in L. assert (C0 := pos_INR c). assert (KP : 0 <= K0 i j) by (assert (X := Rabs_pos (X0 i j)); lra).
    assert (XP := Rabs_pos (X0 i j)). assert (BP := b500pos). assert (UP : 0 < roundoff) by (unfold roundoff; lra). set (b := bpow radix2 500) in *.
    assert (Q1 : INR c * B i j <= 4294967296 * b) by (apply Rmult_le_compat; lra).
    assert (Q2 : INR c * INR c <= 4294967296 * 4294967296) by (apply Rmult_le_compat; lra). assert (Q3 : 0 <= INR c * INR c) by (apply Rmult_le_pos; lra).
    assert (Q4 : (INR c * INR c) * E i j <= 4294967296 * 4294967296 * b) by (apply Rmult_le_compat; lra). assert (Q5 : 0 <= (INR c * INR c) * E i j) by (apply Rmult_le_pos; lra).
    assert (Q6 : INR c * K0 i j <= 4294967296 * b) by (apply Rmult_le_compat; lra). assert (Q7 : 0 <= INR c * K0 i j) by (apply Rmult_le_pos; lra).
    assert (Q8 : roundoff * (INR c * K0 i j) <= 1 * (INR c * K0 i j)) by (apply Rmult_le_compat_r; [lra|unfold roundoff; lra]).
    assert (Q9 : 0 <= roundoff * (INR c * K0 i j)) by (apply Rmult_le_pos; lra).
    assert (T : tot i j c = e0 i j + 3 / 2 * ((INR c * INR c) * E i j) + 2 * (roundoff * (INR c * K0 i j))) by (unfold tot; ring).
    rewrite T. split; [lra|]. eapply Rle_trans; [|exact b500]. fold b. lra.
  Qed.
  Lemma ginv_size : forall i j c x X, room i j -> ginv i j c x X -> limc c -> Rabs (val x) <= INR c * B i j + (tot i j c - e0 i j) + K0 i j.
  Proof.
    intros i j c x X RM [F [A D]] L. destruct RM as [H1 [H2 _]]. apply abs_split in A, D. assert (Y : Rabs (X0 i j) <= K0 i j - e0 i j) by lra. apply abs_split in Y.
    assert (P := pos_INR c). apply abs_join; lra.
  Qed.

  Lemma ginv_zero : forall i j c x X y, room i j -> ginv i j c x X -> limc c -> finite y -> val y = 0 -> ginv i j c (nadd x y) (X + 0).
  Proof.
    intros i j c x X y RM I L Fy V. assert (S := ginv_size i j c x X RM I L). destruct (tot_size i j c RM L) as [T0 T1]. assert (B9 := b1000). assert (BP := bpow_gt_0 radix2 900).
    assert (Z := proj1 RM). destruct I as [F [A D]]. destruct (fl_add x y F Fy) as [F' W]; [rewrite V, Rplus_0_r; lra|].
    split; [exact F'|]. rewrite W, V, !Rplus_0_r, (rnd_val x F). auto.
  Qed.

  Lemma ginv_hit : forall i j c x X y Y, room i j -> ginv i j c x X -> limc (S c) -> finite y -> Rabs Y <= B i j -> Rabs (val y - Y) <= E i j ->
    ginv i j (S c) (nadd x y) (X + Y).
  Proof.
    intros i j c x X y Y RM I L Fy BY EY. assert (L' : limc c) by (unfold limc in *; rewrite S_INR in L; lra).
    assert (S := ginv_size i j c x X RM I L'). destruct (tot_size i j c RM L') as [T0 T1]. assert (B9 := b1000). assert (BP := bpow_gt_0 radix2 900).
    pose proof RM as [H1 [H2 [H3 [H4 [H5 [H6 H7]]]]]]. destruct I as [F [A D]].
    assert (B5 := b500). assert (B5P := b500pos). unfold limc in L. rewrite S_INR in L. assert (C0 := pos_INR c). assert (UP : 0 < roundoff) by (unfold roundoff; lra).
    assert (KP : 0 <= K0 i j) by (assert (Z := Rabs_pos (X0 i j)); lra).
    assert (VY : Rabs (val y) <= B i j + E i j) by (apply abs_split in BY, EY; apply abs_join; lra).
    set (sz := INR c * B i j + (tot i j c - e0 i j) + K0 i j) in *.
    assert (SXY : Rabs (val x + val y) <= sz + (B i j + E i j)) by (apply abs_split in S, VY; apply abs_join; lra).
    destruct (fl_add x y F Fy) as [F' W]; [unfold sz in SXY; lra|]. split; [exact F'|]. rewrite W, S_INR. split; [apply abs_split in A, BY; apply abs_join; lra|].
    assert (RE := rnd_err (val x + val y)).
    assert (W2 : roundoff * Rabs (val x + val y) <= roundoff * (sz + (B i j + E i j))) by (apply Rmult_le_compat_l; lra).
    set (b := B i j) in *. set (e := E i j) in *. set (k := K0 i j) in *. set (d := e0 i j) in *. set (cc := INR c) in *.
    assert (U1 : cc * (roundoff * b) <= cc * (/ 100 * e)) by (apply Rmult_le_compat_l; lra).
    assert (UC : roundoff * cc <= / 1048576) by (apply Rle_trans with (roundoff * 4294967296); [apply Rmult_le_compat_l; lra|unfold roundoff; lra]).
    assert (CE : 0 <= cc * e) by (apply Rmult_le_pos; lra). assert (CCE : 0 <= cc * cc * e) by (apply Rmult_le_pos; [apply Rmult_le_pos|]; lra).
    assert (U2 : roundoff * cc * (cc * e) <= / 1048576 * (cc * e)) by (apply Rmult_le_compat_r; lra).
    assert (U3 : roundoff * e <= / 1048576 * e) by (apply Rmult_le_compat_r; [lra|unfold roundoff; lra]).
    assert (UK : 0 <= roundoff * k) by (apply Rmult_le_pos; lra).
    assert (U4 : roundoff * cc * (roundoff * k) <= / 1048576 * (roundoff * k)) by (apply Rmult_le_compat_r; lra).
    assert (EQ : roundoff * (sz + (b + e)) = cc * (roundoff * b) + 3 / 2 * (roundoff * cc * (cc * e)) + 2 * (roundoff * cc * (roundoff * k)) + roundoff * k + roundoff * b + roundoff * e).
    { unfold sz, tot. fold d e k cc. ring. }
    assert (D' : Rabs (val x - X) <= d + 3 / 2 * (cc * cc * e) + 2 * (cc * (roundoff * k))) by (eapply Rle_trans; [exact D|]; unfold tot; fold d e k cc; right; ring).
    assert (G : tot i j (Datatypes.S c) = d + 3 / 2 * (cc * cc * e) + 3 * (cc * e) + 3 / 2 * e + 2 * (cc * (roundoff * k)) + 2 * (roundoff * k)).
    { unfold tot. rewrite S_INR. fold d e k cc. field. }
    rewrite G. rewrite EQ in W2. clear D SXY S T1 T0 EQ G.
    assert (FIN : roundoff * Rabs (val x + val y) + eta <= 3 / 2 * (roundoff * k) + / 10 * (cc * e) + / 10 * e) by lra.
    apply abs_split in RE, D', EY. apply abs_join; lra.
  Qed.

  Hypothesis RM : forall i j, (i < n)%nat -> (j < n)%nat -> room i j.

  Lemma steps_run : forall us US hs, steps us US hs -> forall (c : nat -> nat -> nat) k K, mdim k = n -> mdim K = n ->
    (forall i j, (i < n)%nat -> (j < n)%nat -> limc (c i j + hits hs i j) /\ ginv i j (c i j) (mentry k i j) (mentry K i j)) ->
    exists k' K', mupdates us k = (k', Ok tt) /\ mupdates US K = (K', Ok tt) /\ mdim k' = n /\ mdim K' = n /\
      forall i j, (i < n)%nat -> (j < n)%nat -> ginv i j (c i j + hits hs i j) (mentry k' i j) (mentry K' i j).
  Proof.
    intros us US hs H. induction H as [|r c0 y Y us US hs Lr Lc Fy BY EY H IH|r c0 y us US hs Ir Ic Fy V H IH]; intros c k K Dk DK I.
    - exists k, K. split; [reflexivity|]. split; [reflexivity|]. split; [exact Dk|]. split; [exact DK|]. intros i j Hi Hj. cbn [count_occ]. rewrite Nat.add_0_r. apply I; assumption.
    - unfold mupdates in *. cbn [for_each mupdate]. rewrite Dk, DK.
      assert (Pr : pyidx n (Z.of_nat r) = Some r). { destruct (pyidx_in_range n (Z.of_nat r)) as [P _]; [unfold in_range; lia|]. rewrite P, nidx_nat by exact Lr. reflexivity. }
      assert (Pc : pyidx n (Z.of_nat c0) = Some c0). { destruct (pyidx_in_range n (Z.of_nat c0)) as [P _]; [unfold in_range; lia|]. rewrite P, nidx_nat by exact Lc. reflexivity. }
      rewrite Pr, Pc.
      destruct (IH (fun i j => (c i j + (if pair_dec (r, c0) (i, j) then 1 else 0))%nat) (madd_at r c0 y k) (madd_at r c0 Y K) Dk DK) as [k' [K' [E1 [E2 [D1 [D2 F]]]]]].
      { intros i j Hi Hj. destruct (I i j Hi Hj) as [L J]. cbn [count_occ mentry madd_at] in *. destruct (pair_dec (r, c0) (i, j)) as [EQ|NE].
        - injection EQ as <- <-. rewrite !Nat.eqb_refl. cbn [andb]. rewrite Nat.add_1_r. split; [replace (S (c r c0) + hits hs r c0)%nat with (c r c0 + S (hits hs r c0))%nat by lia; exact L|].
          apply ginv_hit; auto. unfold limc in *. eapply Rle_trans; [apply le_INR|exact L]. lia.
        - rewrite Nat.add_0_r. split; [exact L|]. replace (Nat.eqb i r && Nat.eqb j c0)%bool with false; [exact J|]. symmetry. apply andb_false_iff.
          destruct (Nat.eqb_spec i r); [|left; reflexivity]. destruct (Nat.eqb_spec j c0); [|right; reflexivity]. subst. contradiction. }
      exists k', K'. split; [exact E1|]. split; [exact E2|]. split; [exact D1|]. split; [exact D2|]. intros i j Hi Hj. specialize (F i j Hi Hj). cbn [count_occ].
      destruct (pair_dec (r, c0) (i, j)); [|rewrite Nat.add_0_r in F; exact F]. replace (c i j + S (hits hs i j))%nat with (c i j + 1 + hits hs i j)%nat by lia. exact F.
    - unfold mupdates in *. cbn [for_each mupdate]. rewrite Dk, DK.
      destruct (pyidx_in_range n r Ir) as [Pr _]. destruct (pyidx_in_range n c0 Ic) as [Pc _]. rewrite Pr, Pc.
      destruct (IH c (madd_at (nidx n r) (nidx n c0) y k) (madd_at (nidx n r) (nidx n c0) 0 K) Dk DK) as [k' [K' [E1 [E2 [D1 [D2 F]]]]]].
      { intros i j Hi Hj. destruct (I i j Hi Hj) as [L J]. split; [exact L|]. cbn [mentry madd_at]. destruct (_ && _)%bool; [|exact J].
        apply ginv_zero; auto. unfold limc in *. eapply Rle_trans; [apply le_INR|exact L]. lia. }
      exists k', K'. auto 8.
  Qed.

  (** contributions of a list of elements *)
  Fixpoint sumn {A} (w : A -> nat -> nat -> nat) (l : list A) (i j : nat) : nat :=
    match l with [] => 0%nat | a :: l => (w a i j + sumn w l i j)%nat end.

  Lemma elements_run : forall A C (R0 : A -> C -> Prop) (f : A -> res (list (Z * Z * double))) (g : C -> res (list (Z * Z * R))) (w : A -> nat -> nat -> nat) l L,
    Forall2 R0 l L ->
    (forall a b, In a l -> In b L -> R0 a b -> exists us US hs, f a = Ok us /\ g b = Ok US /\ steps us US hs /\ forall i j, (hits hs i j <= w a i j)%nat) ->
    forall (c : nat -> nat -> nat) k K, mdim k = n -> mdim K = n ->
    (forall i j, (i < n)%nat -> (j < n)%nat -> limc (c i j + sumn w l i j) /\ ginv i j (c i j) (mentry k i j) (mentry K i j)) ->
    exists k' K', for_each (add_body f) l k = (k', Ok tt) /\ for_each (add_body g) L K = (K', Ok tt) /\ mdim k' = n /\ mdim K' = n /\
      forall i j, (i < n)%nat -> (j < n)%nat -> ginv i j (c i j + sumn w l i j) (mentry k' i j) (mentry K' i j).
  Proof.
    intros A C R0 f g w l L FA. induction FA as [|a b l L Rab FA IH]; intros H c k K Dk DK I.
    - exists k, K. split; [reflexivity|]. split; [reflexivity|]. split; [exact Dk|]. split; [exact DK|]. intros i j Hi Hj. cbn [sumn]. rewrite Nat.add_0_r. apply I; assumption.
    - destruct (H a b (or_introl eq_refl) (or_introl eq_refl) Rab) as [us [US [hs [Ef [Eg [ST W]]]]]].
      assert (LIM : forall x y, limc y -> (x <= y)%nat -> limc x) by (unfold limc; intros x y Ly LE; apply le_INR in LE; lra).
      destruct (steps_run us US hs ST c k K Dk DK) as [k1 [K1 [E1 [E2 [D1 [D2 F]]]]]].
      { intros i j Hi Hj. destruct (I i j Hi Hj) as [L0 J]. cbn [sumn] in L0. specialize (W i j). split; [|exact J]. apply (LIM _ _ L0). lia. }
      destruct (IH (fun a b Ha Hb => H a b (or_intror Ha) (or_intror Hb)) (fun i j => (c i j + w a i j)%nat) k1 K1 D1 D2) as [k' [K' [E3 [E4 [D3 [D4 G]]]]]].
      { intros i j Hi Hj. destruct (I i j Hi Hj) as [L0 _]. cbn [sumn] in L0. split; [rewrite <- Nat.add_assoc; exact L0|]. apply ginv_mono with (c := (c i j + hits hs i j)%nat); auto. specialize (W i j). lia. }
      exists k', K'. cbn [for_each]. unfold add_body at 1 3. rewrite Ef, Eg, E1, E2. split; [exact E3|]. split; [exact E4|]. split; [exact D3|]. split; [exact D4|].
      intros i j Hi Hj. cbn [sumn]. rewrite Nat.add_assoc. apply G; assumption.
  Qed.
End Acc.
