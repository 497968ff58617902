(** Rounding errors of the entries of the cell-based methods. *)
From Coq Require Import ZArith Reals List Bool Arith Lra Lia QArith Qreals.
From Flocq Require Import Core.
From Verif Require Import Num Float Py Mesh Utils GenCell GenCellNS SpecRound FFloat FTree FRound FRound2 FRound3 FRound4 FRound5 FRound6.
Import ListNotations.
Local Open Scope R_scope.

(** ** Literals *)
Section Lits.
  Variables h rho s kappa : R.
  Hypothesis SL : scales h rho s (kappa * roundoff).
  Let delta := kappa * roundoff.

  Lemma big_near : finite (nofZ 10000000000000000 : double) /\ val (nofZ 10000000000000000) = 10000000000000000.
  Proof.
    set (x := nofZ 10000000000000000 : double). vm_compute in x. subst x. split; [reflexivity|]. unfold val; cbn -[Rmult]. change (Pos.to_nat 1) with 1%nat. cbn [pow]. lra.
  Qed.
  (** a decimal with 16 digits *)
  Definition dec_ok (a : Z) : bool := within (fun _ => Fb (inject_Z 10000000000000000) 0 0 0 0 0) (fun _ => Some (Fb (/ inject_Z 10000000000000000) 0 0 0 0 0)) (Ediv (EZ a) (EV 0)) f1b.
  Lemma dec_near : forall a, dec_ok a = true -> nearF h rho s delta f1b (ndiv (nofZ a) (nofZ 10000000000000000)) (IZR a / 10000000000000000).
  Proof.
    intros a W. destruct big_near as [F V].
    refine (within_ok h rho s delta SL _ _ (fun _ => nofZ 10000000000000000) (fun _ => 10000000000000000) _ _ (Ediv (EZ a) (EV 0)) f1b W).
    - intros _. split; [exact F|]. rewrite V. apply (near_self _ _ _ _ SL); cbn [fv frv fd frd]; rewrite ?Q2R_Z, ?RMicromega.Q2R_0; try lia; try lra.
      unfold sc; cbn [fh fs powerRZ pow]. rewrite Rabs_right; lra.
    - intros _ b E. injection E as <-. rewrite V. split; [lra|]. apply (near_self _ _ _ _ SL); cbn [fv frv fd frd]; rewrite ?Q2R_inv, ?Q2R_Z, ?RMicromega.Q2R_0 by discriminate; try lia; try lra.
      unfold sc; cbn [fh fs powerRZ pow]. rewrite Rabs_right; lra.
  Qed.
  Lemma lits_near : forall j rF rR, nearF h rho s delta (Fb 1 0 1 0 0 0) (evalG (@lits_src double NumF) rF (EL j)) (evalG (@lits_src R NumR) rR (EL j)).
  Proof.
    intros j rF rR. destruct j as [|[|[|[|j]]]]; cbn [evalG lits_src l6 l12 l24 l36 l72];
      [apply (const_near h rho s kappa SL); vm_compute; reflexivity|..]; apply dec_near; vm_compute; reflexivity.
  Qed.
  Lemma within_lits : forall leaf ileaf rF rR,
    (forall i, nearF h rho s delta (leaf i) (rF i) (rR i)) ->
    (forall i b, ileaf i = Some b -> val (rF i) <> 0 /\ near h rho s delta b (/ val (rF i)) (/ rR i)) ->
    forall e c, within leaf ileaf e c = true -> nearF h rho s delta c (evalG (@lits_src double NumF) rF e) (evalG (@lits_src R NumR) rR e).
  Proof.
    intros leaf ileaf rF rR HV HI e c W. unfold within in W. destruct (fbnd leaf ileaf e) as [b|] eqn:E; [|discriminate].
    apply (nearF_le h rho s delta SL b c); [exact W|].
    apply (fbnd_ok leaf ileaf h rho s delta (sl_h _ _ _ _ SL) (sl_s _ _ _ _ SL) (sl_rho _ _ _ _ SL) (sl_delta _ _ _ _ SL) (sl_small _ _ _ _ SL)); try assumption.
    intros j. apply lits_near.
  Qed.
End Lits.

(** ** Divisors 2 x and 4 x of a variable, as further variables *)
Definition sub2 : expr -> expr := fix sub2 e :=
  match e with
  | EV _ | EL _ | EZ _ => e
  | Eadd a b => Eadd (sub2 a) (sub2 b) | Esub a b => Esub (sub2 a) (sub2 b) | Emul a b => Emul (sub2 a) (sub2 b)
  | Ediv a b => Ediv (sub2 a) (match b with
      | Emul (EZ z) (EV i) => if Nat.ltb i 100 then (if Z.eqb z 2 then EV (100 + i) else if Z.eqb z 4 then EV (200 + i) else b) else b
      | _ => b end)
  | Eopp a => Eopp (sub2 a)
  end.
Definition ext2 {T} {N : Num T} (v : nat -> T) (i : nat) : T :=
  if Nat.ltb i 100 then v i else if Nat.ltb i 200 then nmul (nofZ 2) (v (i - 100)%nat) else nmul (nofZ 4) (v (i - 200)%nat).

Fixpoint small_vars (e : expr) : bool :=
  match e with
  | EV i => Nat.ltb i 100 | EL _ | EZ _ => true
  | Eadd a b | Esub a b | Emul a b | Ediv a b => small_vars a && small_vars b
  | Eopp a => small_vars a
  end.
Lemma ext2_same : forall T (N : Num T) L (v : nat -> T) e, small_vars e = true -> evalG L (ext2 v) e = evalG L v e.
Proof.
  intros T N L v. induction e as [i|j|z|a IHa b IHb|a IHa b IHb|a IHa b IHb|a IHa b IHb|a IHa]; cbn [small_vars evalG]; intros S; try reflexivity;
    try (apply andb_prop in S; destruct S as [S1 S2]; rewrite IHa, IHb by assumption; reflexivity).
  - unfold ext2. rewrite S. reflexivity.
  - rewrite IHa by assumption. reflexivity.
Qed.
Lemma sub2_ok : forall T (N : Num T) L (v : nat -> T) e, small_vars e = true -> evalG L (ext2 v) (sub2 e) = evalG L v e.
Proof.
  intros T N L v. induction e as [i|j|z|a IHa b IHb|a IHa b IHb|a IHa b IHb|a IHa b IHb|a IHa]; cbn [small_vars sub2 evalG]; intros S; try reflexivity;
    try (apply andb_prop in S; destruct S as [S1 S2]; rewrite IHa, IHb by assumption; reflexivity).
  - unfold ext2. rewrite S. reflexivity.
  - apply andb_prop in S. destruct S as [S1 S2]. rewrite IHa by assumption. f_equal.
    destruct b as [i|j|z|b1 b2|b1 b2|b1 b2|b1 b2|b1]; try (apply ext2_same; exact S2).
    destruct b1 as [i|j|z|? ?|? ?|? ?|? ?|?]; try (apply ext2_same; exact S2).
    destruct b2 as [i|j|z2|? ?|? ?|? ?|? ?|?]; try (apply ext2_same; exact S2).
    destruct (Nat.ltb_spec i 100) as [I|I]; [|apply ext2_same; exact S2].
    destruct (Z.eqb_spec z 2) as [->|Z2].
    { cbn [evalG]. unfold ext2. destruct (Nat.ltb_spec (100 + i) 100); [lia|]. destruct (Nat.ltb_spec (100 + i) 200); [|lia]. replace (100 + i - 100)%nat with i by lia. reflexivity. }
    destruct (Z.eqb_spec z 4) as [->|Z4].
    { cbn [evalG]. unfold ext2. destruct (Nat.ltb_spec (200 + i) 100); [lia|]. destruct (Nat.ltb_spec (200 + i) 200); [lia|]. replace (200 + i - 200)%nat with i by lia. reflexivity. }
    apply ext2_same; exact S2.
  - rewrite IHa by assumption. reflexivity.
Qed.

Definition fmulq (q : Q) (b : fb) : fb := Fb (q * fv b) (frv b) (q * fd b) (frd b) (fh b) (fs b).
Definition leaf2 (leaf : nat -> fb) (i : nat) : fb :=
  if Nat.ltb i 100 then leaf i else if Nat.ltb i 200 then fmulq 2 (leaf (i - 100)%nat) else fmulq 4 (leaf (i - 200)%nat).
Definition ileaf2 (ileaf : nat -> option fb) (i : nat) : option fb :=
  if Nat.ltb i 100 then ileaf i else if Nat.ltb i 200 then option_map (fmulq (Qmake 1 2)) (ileaf (i - 100)%nat) else option_map (fmulq (Qmake 1 4)) (ileaf (i - 200)%nat).

Lemma rnd_pow2 : forall x e, finite x -> (0 <= e)%Z -> rnd (bpow radix2 e * val x) = bpow radix2 e * val x.
Proof.
  intros x e X E. destruct (finite_B x X) as [b [<- B]]. rewrite val_B. unfold rnd. apply round_generic; [auto with typeclass_instances|].
  rewrite Rmult_comm. assert (G := BinarySingleNaN.generic_format_B2R 53 1024 b). change (SpecFloat.emin 53 1024) with (-1074)%Z in *.
  apply generic_format_FLT. apply FLT_format_generic in G; [|reflexivity]. destruct G as [[fm fe] G1 G2 G3]. exists (Float radix2 fm (fe + e)); cbn [Fnum Fexp] in *.
  - rewrite G1. unfold F2R; cbn [Fnum Fexp]. rewrite bpow_plus. ring.
  - exact G2.
  - change (SpecFloat.emin 53 1024) with (-1074)%Z in G3. lia.
Qed.

Section Two.
  Variables h rho s kappa : R.
  Hypothesis SL : scales h rho s (kappa * roundoff).
  Let delta := kappa * roundoff.
  Variables (leaf : nat -> fb) (ileaf : nat -> option fb) (rF : nat -> double) (rR : nat -> R).
  Hypothesis HV : forall i, nearF h rho s delta (leaf i) (rF i) (rR i).
  Hypothesis HI : forall i b, ileaf i = Some b -> val (rF i) <> 0 /\ near h rho s delta b (/ val (rF i)) (/ rR i).
  Hypothesis LL : forall i, lim (leaf i) (msize (leaf i)) = true.

  Lemma near_times : forall q b x X, (0 <= q)%Q -> near h rho s delta b x X -> near h rho s delta (fmulq q b) (Q2R q * x) (Q2R q * X).
  Proof.
    intros q b x X QP [A [B [C [D E]]]]. apply Qle_Rle in QP. rewrite RMicromega.Q2R_0 in QP. unfold near, fmulq, sc in *; cbn [fv frv fd frd fh fs] in *. rewrite !Q2R_mult.
    split; [exact A|]. split; [apply Rmult_le_pos; assumption|]. split; [apply Rmult_le_pos; assumption|].
    rewrite <- Rmult_minus_distr_l, !Rabs_mult, (Rabs_right (Q2R q)) by lra. split.
    - rewrite !Rmult_assoc. rewrite !Rmult_assoc in D. apply Rmult_le_compat_l; assumption.
    - match goal with |- _ <= ?e => replace e with (Q2R q * (delta * Q2R (fd b) * rho ^ frd b * (powerRZ h (fh b) * s ^ fs b))) by ring end. apply Rmult_le_compat_l; assumption.
  Qed.
  Lemma size64 : forall i, Rabs (val (rF i)) <= bpow radix2 990.
  Proof.
    intros i. assert (N := proj2 (HV i)). assert (Z := near_size h rho s delta (sl_h _ _ _ _ SL) (sl_s _ _ _ _ SL) (sl_rho _ _ _ _ SL) (sl_delta _ _ _ _ SL) (sl_small _ _ _ _ SL) _ _ _ N).
    eapply Rle_trans; [exact Z|]. assert (L := LL i). unfold lim in L. repeat (apply andb_prop in L; destruct L as [L ?]).
    match goal with H : Qle_bool (msize _) _ = true |- _ => apply Qle_bool_iff, Qle_Rle in H; rename H into LM end.
    repeat match goal with H : Nat.leb _ _ = true |- _ => apply Nat.leb_le in H | H : Z.leb _ _ = true |- _ => apply Z.leb_le in H end.
    assert (SR := sc_range h s (sl_h _ _ _ _ SL) (sl_s _ _ _ _ SL) (leaf i) ltac:(lia) ltac:(lia)).
    assert (RR := rho_range rho delta (sl_rho _ _ _ _ SL) (sl_delta _ _ _ _ SL) (sl_small _ _ _ _ SL) (frv (leaf i)) ltac:(lia)).
    assert (RP := rho_pow rho (sl_rho _ _ _ _ SL) (frv (leaf i))).
    replace (Q2R (Qmake 18446744073709551616 1)) with (bpow radix2 64) in LM by (unfold Q2R; cbn; lra).
    assert (SP := sc_pos h s (sl_h _ _ _ _ SL) (sl_s _ _ _ _ SL) (leaf i)).
    destruct N as [_ [V0 [D0 _]]]. assert (MP : 0 <= Q2R (msize (leaf i))) by (unfold msize; rewrite Q2R_plus, Q2R_mult, Q2R_q20; lra).
    apply Rle_trans with (bpow radix2 64 * bpow radix2 272 * bpow radix2 640).
    - apply Rmult_le_compat; [apply Rmult_le_pos; lra|lra| |apply SR]. apply Rmult_le_compat; lra.
    - rewrite <- !bpow_plus. apply bpow_le. lia.
  Qed.
  Lemma times_ok : forall z e i, (z = 2 /\ e = 1 \/ z = 4 /\ e = 2)%Z -> finite (nmul (nofZ z) (rF i)) /\ val (nmul (nofZ z) (rF i)) = IZR z * val (rF i).
  Proof.
    intros z e i ZE. destruct (HV i) as [F _]. assert (S := size64 i). destruct (fl_ofZ z ltac:(lia)) as [Fz Vz].
    assert (BZ : IZR z = bpow radix2 e) by (destruct ZE as [[-> ->]|[-> ->]]; cbn; lra).
    assert (M : Rabs (val (nofZ z) * val (rF i)) <= bpow radix2 1000).
    { rewrite Vz, Rabs_mult, BZ, (Rabs_right (bpow radix2 e)) by (apply Rle_ge; left; apply bpow_gt_0). apply Rle_trans with (bpow radix2 10 * bpow radix2 990).
      - apply Rmult_le_compat; [left; apply bpow_gt_0|apply Rabs_pos|apply bpow_le; lia|exact S].
      - rewrite <- bpow_plus. apply bpow_le. lia. }
    destruct (fl_mul _ _ Fz F M) as [FM VM]. split; [exact FM|]. rewrite VM, Vz, BZ. apply rnd_pow2; [exact F|lia].
  Qed.

  Lemma leaf2_ok : forall i, nearF h rho s delta (leaf2 leaf i) (ext2 rF i) (ext2 rR i).
  Proof.
    intros i. unfold leaf2, ext2. destruct (Nat.ltb i 100); [apply HV|]. destruct (Nat.ltb i 200).
    - destruct (times_ok 2 1 (i - 100) ltac:(lia)) as [F V]. split; [exact F|]. rewrite V. rnum. replace 2 with (Q2R 2) by (unfold Q2R; cbn; lra). apply near_times; [unfold Qle; cbn; lia|apply HV].
    - destruct (times_ok 4 2 (i - 200) ltac:(lia)) as [F V]. split; [exact F|]. rewrite V. rnum. replace 4 with (Q2R 4) by (unfold Q2R; cbn; lra). apply near_times; [unfold Qle; cbn; lia|apply HV].
  Qed.
  Lemma ileaf2_ok : forall i b, ileaf2 ileaf i = Some b -> val (ext2 rF i) <> 0 /\ near h rho s delta b (/ val (ext2 rF i)) (/ ext2 rR i).
  Proof.
    intros i b E. unfold ileaf2, ext2 in *. destruct (Nat.ltb i 100); [apply HI; exact E|]. destruct (Nat.ltb i 200).
    - destruct (ileaf (i - 100)%nat) as [c|] eqn:C; [|discriminate]. injection E as <-. destruct (HI _ _ C) as [NZ N].
      destruct (times_ok 2 1 (i - 100) ltac:(lia)) as [F V]. rewrite V. rnum. split; [lra|]. rewrite !Rinv_mult.
      replace (/ 2) with (Q2R (Qmake 1 2)) by (unfold Q2R; cbn; lra). apply near_times; [unfold Qle; cbn; lia|exact N].
    - destruct (ileaf (i - 200)%nat) as [c|] eqn:C; [|discriminate]. injection E as <-. destruct (HI _ _ C) as [NZ N].
      destruct (times_ok 4 2 (i - 200) ltac:(lia)) as [F V]. rewrite V. rnum. split; [lra|]. rewrite !Rinv_mult.
      replace (/ 4) with (Q2R (Qmake 1 4)) by (unfold Q2R; cbn; lra). apply near_times; [unfold Qle; cbn; lia|exact N].
  Qed.

  Lemma entry_ok : forall e c, small_vars e = true -> within (leaf2 leaf) (ileaf2 ileaf) (sub2 e) c = true ->
    nearF h rho s delta c (evalG (@lits_src double NumF) rF e) (evalG (@lits_src R NumR) rR e).
  Proof.
    intros e c S W. rewrite <- (sub2_ok _ _ _ rF e S), <- (sub2_ok _ _ _ rR e S). apply (within_lits h rho s kappa SL _ _ _ _ leaf2_ok ileaf2_ok _ _ W).
  Qed.
End Two.

(** ** Entries of a triangle *)
Definition garb : fb := Fb 1 0 30 0 2 0.
Definition garb3 : fb := Fb (Qmake 1 3) 0 30 0 2 0.
Definition shb : fb := Fb (Qmake 33 32) 0 128 1 0 1.

(** the number of rotations among two degrees of freedom (0, 1, 2 of a triangle stand for 2, 3, 4 of a node) *)
Definition rot (a : Z) : Z := if Z.leb 3 (Z.modulo a 5) then 1 else 0.
Definition dofs3 (ix : list Z) : list Z := flat_map (fun i => [i * 5 + 2; i * 5 + 3; i * 5 + 4]%Z) ix.

Definition cell_leaf (i : nat) : fb :=
  if Nat.eqb i 0 then garb else if Nat.leb i 3 then garb3 else if Nat.eqb i 5 then zb 0 1 else if Nat.leb i 6 then shb else vecb.
Definition cell_ileaf (i : nat) : option fb := if Nat.leb i 3 then Some iacb else None.
Definition cellns_leaf (i : nat) : fb :=
  if Nat.eqb i 0 then garb else if Nat.eqb i 2 then zb 0 1 else if Nat.leb i 3 then shb else vecb.
Definition cellns_ileaf (i : nat) : option fb := if Nat.eqb i 0 then Some iacb else None.

Definition cell_at {T} {N : Num T} (L : lits T) (i1 i2 i3 : Z) (v : nat -> T) : list (Z * Z * T) :=
  cell_entries L i1 i2 i3 (v 0%nat) (v 1%nat) (v 2%nat) (v 3%nat) (v 4%nat) (v 5%nat) (v 6%nat) (v 7%nat) (v 8%nat) (v 9%nat) (v 10%nat) (v 11%nat) (v 12%nat) (v 13%nat) (v 14%nat) (v 15%nat) (v 16%nat) (v 17%nat) (v 18%nat).
Definition cellns_at {T} {N : Num T} (i1 i2 i3 : Z) (v : nat -> T) : list (Z * Z * T) :=
  cellns_entries i1 i2 i3 (v 0%nat) (v 1%nat) (v 2%nat) (v 3%nat) (v 4%nat) (v 5%nat) (v 6%nat) (v 7%nat).

Definition cell_trees : list expr := map snd (cell_at lits_expr 0 1 2 EV).
Definition cellns_trees : list expr := map snd (cellns_at 0 1 2 EV).
Lemma cell_at_trees : forall T (N : Num T) (L : lits T) i1 i2 i3 (v : nat -> T), map snd (cell_at L i1 i2 i3 v) = map (evalG L v) cell_trees.
Proof. intros. reflexivity. Qed.
Lemma cellns_at_trees : forall T (N : Num T) (L : lits T) i1 i2 i3 (v : nat -> T), map snd (cellns_at i1 i2 i3 v) = map (evalG L v) cellns_trees.
Proof. intros. reflexivity. Qed.
Lemma cell_at_pos : forall T (N : Num T) (L : lits T) i1 i2 i3 (v : nat -> T), map fst (cell_at L i1 i2 i3 v) = list_prod (dofs3 [i1; i2; i3]) (dofs3 [i1; i2; i3]).
Proof. intros. reflexivity. Qed.
Lemma cellns_at_pos : forall T (N : Num T) i1 i2 i3 (v : nat -> T), map fst (cellns_at i1 i2 i3 v) = list_prod (dofs3 [i1; i2; i3]) (dofs3 [i1; i2; i3]).
Proof. intros. reflexivity. Qed.

Definition cellb (q : Z) : fb := Fb 310 3 155000 4 q 1.
Definition cellnsb (q : Z) : fb := Fb 7 1 1500 2 q 1.
Definition rpos : list Z := map (fun p => (rot (fst p) + rot (snd p))%Z) (list_prod (dofs3 [0; 0; 0]%Z) (dofs3 [0; 0; 0]%Z)).
Definition ent_ok (leaf : nat -> fb) (ileaf : nat -> option fb) (B : Z -> fb) (qe : Z * expr) : bool :=
  small_vars (snd qe) && within (leaf2 leaf) (ileaf2 ileaf) (sub2 (snd qe)) (B (fst qe)).

Lemma cell_ok : forallb (ent_ok cell_leaf cell_ileaf cellb) (combine rpos cell_trees) = true.
Proof. vm_compute. reflexivity. Qed.
Lemma cellns_ok : forallb (ent_ok cellns_leaf cellns_ileaf cellnsb) (combine rpos cellns_trees) = true.
Proof. vm_compute. reflexivity. Qed.
