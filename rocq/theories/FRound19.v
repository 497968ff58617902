(** From the entries of a triangle to contributions to the matrix. *)
From Coq Require Import ZArith Reals List Bool Arith Lra Lia QArith Qreals.
From Flocq Require Import Core.
From Verif Require Import Num Float Py Mesh Utils CalcK0 AddK0s Spec SpecRound SpecRound2 FMat FWf FFloat FTree FRound FRound2 FRound3 FRound6 FRound10 FRound11 FRound14 FRound15 FRound16 FRound17.
Import ListNotations.
Local Open Scope R_scope.

Definition dofsN (ix : list nat) : list nat := flat_map (fun i => [i * 5 + 2; i * 5 + 3; i * 5 + 4]%nat) ix.
Definition zp (p : nat * nat) : Z * Z := (Z.of_nat (fst p), Z.of_nat (snd p)).
Definition grid (ix : list nat) : list (nat * nat) := list_prod (dofsN ix) (dofsN ix).

Lemma map_prod : forall A B C D (f : A -> C) (g : B -> D) l l', map (fun p => (f (fst p), g (snd p))) (list_prod l l') = list_prod (map f l) (map g l').
Proof.
  intros A B C D f g l l'. induction l as [|a l IH]; [reflexivity|]. cbn [list_prod map]. rewrite map_app, IH, !map_map. reflexivity.
Qed.
Lemma dofsN_Z : forall ix, map Z.of_nat (dofsN ix) = dofs3 (map Z.of_nat ix).
Proof. induction ix as [|i ix IH]; [reflexivity|]. unfold dofsN, dofs3 in *. cbn [map flat_map app]. rewrite IH. apply f_equal2; [lia|]. apply f_equal2; [lia|]. apply f_equal2; [lia|reflexivity]. Qed.
Lemma grid_Z : forall ix, map zp (grid ix) = list_prod (dofs3 (map Z.of_nat ix)) (dofs3 (map Z.of_nat ix)).
Proof. intros ix. unfold grid, zp. rewrite (map_prod _ _ _ _ Z.of_nat Z.of_nat), dofsN_Z. reflexivity. Qed.

Definition rotn (i : nat) : nat := if (3 <=? i mod 5)%nat then 1%nat else 0%nat.
Lemma rotations_eq : forall i j, rotations i j = (rotn i + rotn j)%nat.
Proof. reflexivity. Qed.
Lemma dofsN_rot : forall ix, map rotn (dofsN ix) = flat_map (fun _ => [0; 1; 1]%nat) ix.
Proof.
  assert (M : forall i c, (c < 5)%nat -> ((i * 5 + c) mod 5 = c)%nat) by (intros i c H; rewrite Nat.add_comm, Nat.mod_add by lia; apply Nat.mod_small, H).
  induction ix as [|i ix IH]; [reflexivity|]. unfold dofsN in *. cbn [flat_map app map]. unfold rotn at 1 2 3. rewrite !M by lia. cbn [Nat.leb]. rewrite IH. reflexivity.
Qed.
Lemma grid_rot : forall i1 i2 i3, map (fun p => Z.of_nat (rotations (fst p) (snd p))) (grid [i1; i2; i3]) = rpos.
Proof.
  intros i1 i2 i3. rewrite (map_ext _ (fun p => (fun q => Z.of_nat (fst q + snd q)) (rotn (fst p), rotn (snd p)))) by (intros p; reflexivity).
  rewrite <- (map_map (fun p => (rotn (fst p), rotn (snd p))) (fun q => Z.of_nat (fst q + snd q))). unfold grid. rewrite (map_prod _ _ _ _ rotn rotn), dofsN_rot. vm_compute. reflexivity.
Qed.
Lemma dofsN_in : forall ix x, In x (dofsN ix) <-> exists i c, In i ix /\ (2 <= c < 5)%nat /\ x = (i * 5 + c)%nat.
Proof.
  intros ix x. unfold dofsN. rewrite in_flat_map. split.
  - intros [i [Hi [<-|[<-|[<-|[]]]]]]; exists i; [exists 2%nat|exists 3%nat|exists 4%nat]; (split; [exact Hi|]); split; lia.
  - intros [i [c [Hi [Hc ->]]]]. exists i. split; [exact Hi|]. assert (D : (c = 2 \/ c = 3 \/ c = 4)%nat) by lia. destruct D as [->|[->| ->]]; cbn; auto.
Qed.
Lemma dofsN_nodup : forall ix, NoDup ix -> NoDup (dofsN ix).
Proof.
  intros ix N. induction N as [|i ix NI N IH]; [constructor|]. change (dofsN (i :: ix)) with ([i * 5 + 2; i * 5 + 3; i * 5 + 4]%nat ++ dofsN ix). apply NoDup_join; [|exact IH|].
  - repeat constructor; cbn; lia.
  - intros x Hx Hy. apply dofsN_in in Hy. destruct Hy as [j [c [Hj [Hc E]]]]. assert (j <> i) by (intros ->; contradiction). cbn in Hx. destruct Hx as [<-|[<-|[<-|[]]]]; lia.
Qed.

Lemma hits_nodup : forall hs i j, NoDup hs -> (hits hs i j <= 1)%nat.
Proof. intros hs i j N. apply (proj1 (NoDup_count_occ pair_dec hs) N (i, j)). Qed.

(** one list of positions with two lists of values *)
Lemma steps_combine : forall n B E hs (vs : list double) (VS : list R), List.length vs = List.length hs -> List.length VS = List.length hs ->
  (forall p, In p hs -> (fst p < n)%nat /\ (snd p < n)%nat) ->
  Forall2 (fun p xy => finite (fst xy) /\ Rabs (snd xy) <= B (fst p) (snd p) /\ Rabs (val (fst xy) - snd xy) <= E (fst p) (snd p)) hs (combine vs VS) ->
  steps n B E (combine (map zp hs) vs) (combine (map zp hs) VS) hs.
Proof.
  intros n B E. induction hs as [|[r c] hs IH]; intros vs VS L1 L2 R F; [constructor|].
  destruct vs as [|v vs]; [discriminate|]. destruct VS as [|V VS]; [discriminate|]. cbn [map combine]. cbn [combine] in F. inversion F as [|p xy hs' l' [A1 [A2 A3]] F' X1 X2]; subst. cbn [fst snd] in *.
  destruct (R (r, c) (or_introl eq_refl)) as [R1 R2]. cbn [fst snd] in R1, R2. constructor; auto. apply IH; [cbn in L1; lia|cbn in L2; lia| |exact F']. intros p Hp. apply R. right; exact Hp.
Qed.

Section Coef.
  Variables h rho s kappa : R.
  Hypothesis SL : scales h rho s (kappa * roundoff).
  Let delta := kappa * roundoff.
  (** coefficients of the bounds *)
  Variables (v d : Q) (rv rd : nat).
  Definition bq (q : Z) : fb := Fb v rv d rd q 1.
  Hypothesis CV : (0 <= v)%Q.
  Hypothesis CD : (100 * v <= d)%Q.
  Hypothesis CL : (1000 <= d)%Q.
  Hypothesis CU : (d <= 1073741824)%Q.
  Hypothesis RV : (rv <= rd)%nat.
  Hypothesis RD : (rd <= rv + 2)%nat.
  Hypothesis RM : (rd <= 6)%nat.

  Definition Bc (i j : nat) : R := Q2R v * rho ^ rv * sc h s (bq (Z.of_nat (rotations i j))).
  Definition Ec (i j : nat) : R := delta * Q2R d * rho ^ rd * sc h s (bq (Z.of_nat (rotations i j))).

  Lemma rot_le : forall i j, (rotations i j <= 2)%nat.
  Proof. clear RV RD RM. intros i j. unfold rotations. destruct (3 <=? i mod 5)%nat, (3 <=? j mod 5)%nat; lia. Qed.
  Lemma sc_val : forall i j, sc h s (bq (Z.of_nat (rotations i j))) = h ^ rotations i j * s.
  Proof. intros i j. unfold sc, bq; cbn [fh fs pow]. rewrite Rmult_1_r, <- pow_powerRZ. reflexivity. Qed.
  Lemma sc_rng : forall i j, rng (-192) 192 (h ^ rotations i j * s).
  Proof.
    clear RV RD RM. intros i j. assert (H := h_rng h rho s kappa SL). assert (S : rng (-64) 64 s) by apply (rng_in64 _ (sl_s _ _ _ _ SL)).
    assert (P : rng (-128) 128 (h ^ rotations i j)).
    { assert (L := rot_le i j). destruct (rotations i j) as [|[|[|q]]]; [| | |lia]; cbn [pow].
      - apply (rng_le 0 0); [apply rng_one|lia|lia].
      - rewrite Rmult_1_r. apply (rng_le (-64) 64); [exact H|lia|lia].
      - rewrite Rmult_1_r. exact (rng_mul _ _ _ _ _ _ H H). }
    exact (rng_mul _ _ _ _ _ _ P S).
  Qed.

  Lemma coef_room : forall X0 e0 K0 i j, 0 <= e0 i j -> Rabs (X0 i j) + e0 i j <= K0 i j -> K0 i j <= bpow radix2 500 -> room X0 e0 K0 Bc Ec i j.
  Proof.
    intros X0 e0 K0 i j A1 A2 A3. split; [exact A1|]. split; [exact A2|]. split; [exact A3|]. unfold Bc, Ec. rewrite sc_val.
    assert (S := sc_rng i j). set (S0 := h ^ rotations i j * s) in *. assert (SP := rng_pos _ _ _ S).
    apply Qle_Rle in CV, CD, CL, CU. rewrite RMicromega.Q2R_0 in CV. rewrite Q2R_mult in CD. replace (Q2R 100) with 100 in CD by (unfold Q2R; cbn; lra). replace (Q2R 1000) with 1000 in CL by (unfold Q2R; cbn; lra). replace (Q2R 1073741824) with 1073741824 in CU by (unfold Q2R; cbn; lra).
    assert (R1 := sl_rho _ _ _ _ SL). assert (P1 : 1 <= rho ^ rv) by (apply pow_R1_Rle, R1). assert (P2 : 1 <= rho ^ rd) by (apply pow_R1_Rle, R1).
    assert (P3 : rho ^ rv <= rho ^ rd) by (apply Rle_pow; assumption).
    assert (P4 : rho ^ rd <= bpow radix2 102).
    { assert (RX := rho_max rho _ (sl_delta _ _ _ _ SL) (sl_small _ _ _ _ SL)). apply Rle_trans with (rho ^ 6); [apply Rle_pow; assumption|]. apply Rle_trans with (131072 ^ 6); [apply pow_incr; lra|cbn; lra]. }
    assert (DP := d_pos _ _ _ _ SL). fold delta in DP. assert (DS := small_delta h rho s kappa SL). fold delta in DS. assert (UD := sl_delta _ _ _ _ SL). fold delta in UD.
    assert (BB : 1073741824 * bpow radix2 102 * bpow radix2 192 <= bpow radix2 500) by (replace 1073741824 with (bpow radix2 30) by (cbn; lra); rewrite <- !bpow_plus; apply bpow_le; lia).
    assert (B102 := bpow_gt_0 radix2 102). assert (B192 := bpow_gt_0 radix2 192). assert (UP : 0 < roundoff) by (unfold roundoff; lra).
    assert (S2 : S0 <= bpow radix2 192) by apply S.
    assert (W : Q2R v * rho ^ rv * S0 <= 1073741824 * bpow radix2 102 * bpow radix2 192).
    { apply Rmult_le_compat; try lra; [apply Rmult_le_pos; lra|]. apply Rmult_le_compat; lra. }
    assert (W2 : delta * Q2R d * rho ^ rd * S0 <= 1073741824 * bpow radix2 102 * bpow radix2 192).
    { assert (delta * Q2R d <= 1 * 1073741824) by (apply Rmult_le_compat; lra). assert (0 <= delta * Q2R d) by (apply Rmult_le_pos; lra).
      apply Rmult_le_compat; try lra; [apply Rmult_le_pos; lra|]. apply Rmult_le_compat; lra. }
    assert (Z1 : 0 <= Q2R v * rho ^ rv * S0) by (apply Rmult_le_pos; [apply Rmult_le_pos|]; lra).
    assert (Z2 : 0 <= delta * Q2R d * rho ^ rd * S0) by (apply Rmult_le_pos; [apply Rmult_le_pos; [apply Rmult_le_pos|]|]; lra).
    split; [lra|]. split; [lra|]. split.
    - apply Rle_trans with (delta * (Q2R v * rho ^ rd * S0)).
      + apply Rmult_le_compat; try lra. apply Rmult_le_compat_r; [lra|]. apply Rmult_le_compat_l; lra.
      + apply Rle_trans with (/ 100 * (delta * (100 * Q2R v) * rho ^ rd * S0)); [right; field|]. apply Rmult_le_compat_l; [lra|].
        apply Rmult_le_compat_r; [lra|]. apply Rmult_le_compat_r; [lra|]. apply Rmult_le_compat_l; lra.
    - eapply Rle_trans; [exact eta_small|]. assert (LB : bpow radix2 (-400) <= S0) by (eapply Rle_trans; [|apply S]; apply bpow_le; lia). assert (B4 := bpow_gt_0 radix2 (-400)).
      assert (Q : delta * 1000 * 1 * S0 <= delta * Q2R d * rho ^ rd * S0).
      { apply Rmult_le_compat_r; [lra|]. apply Rmult_le_compat; try lra. apply Rmult_le_compat_l; lra. }
      apply Rle_trans with (delta * S0); [|lra]. apply Rmult_le_compat; lra.
  Qed.

  (** the entries of a triangle *)
  Variable leaf : nat -> fb.
  Variable ileaf : nat -> option fb.
  Variables (rF : nat -> double) (rR : nat -> R).
  Hypothesis HV : forall i, nearF h rho s delta (leaf i) (rF i) (rR i).
  Hypothesis HI : forall i b, ileaf i = Some b -> val (rF i) <> 0 /\ near h rho s delta b (/ val (rF i)) (/ rR i).
  Hypothesis LL : forall i, lim (leaf i) (msize (leaf i)) = true.
  Variable trees : list expr.

  Lemma trees_steps : forall n hs, forallb (ent_ok leaf ileaf bq) (combine (map (fun p => Z.of_nat (rotations (fst p) (snd p))) hs) trees) = true ->
    List.length trees = List.length hs -> (forall p, In p hs -> (fst p < n)%nat /\ (snd p < n)%nat) ->
    steps n Bc Ec (combine (map zp hs) (map (evalG (@lits_src double NumF) rF) trees)) (combine (map zp hs) (map (evalG (@lits_src R NumR) rR) trees)) hs.
  Proof.
    clear RV RD RM. intros n hs OK LT R. apply steps_combine; [rewrite map_length; exact LT|rewrite map_length; exact LT|exact R|]. clear R.
    revert hs OK LT. induction trees as [|e es IH]; intros [|p hs] OK LT; try discriminate; [constructor|]. cbn [map combine forallb] in OK. apply andb_prop in OK. destruct OK as [W OK].
    cbn [map combine]. constructor; [|apply IH; [exact OK|cbn in LT; lia]]. unfold ent_ok in W; cbn [fst snd] in W. apply andb_prop in W. destruct W as [W1 W2].
    destruct (entry_ok h rho s kappa SL leaf ileaf rF rR HV HI LL e _ W1 W2) as [F [_ [_ [_ [A B]]]]]. cbn [fst snd]. split; [exact F|]. split; [exact A|exact B].
  Qed.
End Coef.
