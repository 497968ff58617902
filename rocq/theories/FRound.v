(** Rounding errors of expressions: bounds computed along the syntax tree. *)
From Coq Require Import ZArith Reals List Bool Arith Lra Lia QArith Qreals Qround.
From Flocq Require Import Core.
From Verif Require Import Num Float SpecRound FFloat FTree.
Import ListNotations.
Local Open Scope R_scope.

Fixpoint evalG {T} {N : Num T} (L : lits T) (r : nat -> T) (e : expr) : T :=
  match e with
  | EV i => r i
  | EL j => match j with 0%nat => l6 L | 1%nat => l12 L | 2%nat => l24 L | 3%nat => l36 L | _ => l72 L end
  | EZ z => nofZ z
  | Eadd a b => nadd (evalG L r a) (evalG L r b) | Esub a b => nsub (evalG L r a) (evalG L r b)
  | Emul a b => nmul (evalG L r a) (evalG L r b) | Ediv a b => ndiv (evalG L r a) (evalG L r b)
  | Eopp a => nopp (evalG L r a)
  end.

(** the value is at most [fv] rho ^ [frv], the error at most delta [fd] rho ^ [frd], both times h ^ [fh] s ^ [fs] *)
Record fb : Type := Fb { fv : Q; frv : nat; fd : Q; frd : nat; fh : Z; fs : nat }.

Definition qup (q : Q) : Q := Qmake (Qceiling (q * 1024)) 1024.
Lemma qup_le : forall q, (q <= qup q)%Q.
Proof.
  intros q. unfold qup. assert (H := Qle_ceiling (q * 1024)). rewrite Qmake_Qdiv.
  apply Qle_shift_div_l; [reflexivity|]. exact H.
Qed.
Lemma qup_R : forall q x, x <= Q2R q -> x <= Q2R (qup q).
Proof. intros q x H. eapply Rle_trans; [exact H|]. apply Qle_Rle, qup_le. Qed.

Definition q20 : Q := Qmake 1 1048576.
(** size of the computed value *)
Definition msize (b : fb) : Q := fv b + q20 * fd b.
Definition lim (b : fb) (M : Q) : bool :=
  (Z.leb (-8) (fh b) && Z.leb (fh b) 8 && Nat.leb (fs b) 2 && Nat.leb (frv b) 16 && Nat.leb (frd b) (frv b + 2) && Qle_bool 0 (fv b) && Qle_bool 0 (fd b)
   && Qle_bool M (Qmake 18446744073709551616 1))%bool.
(** error of rounding a number of size M *)
Definition rerr (M : Q) : Q := if Qle_bool M 0 then 0 else M + q20.
Definition chk (b : fb) (M : Q) : option fb := if lim b M then Some b else None.

Definition fadd (a b : fb) : option fb :=
  if (Z.eqb (fh a) (fh b) && Nat.eqb (fs a) (fs b))%bool
  then let M := qup (msize a + msize b) in let rv := Nat.max (frv a) (frv b) in
    chk (Fb (qup (fv a + fv b)) rv (qup (fd a + fd b + rerr M)) (Nat.max rv (Nat.max (frd a) (frd b))) (fh a) (fs a)) M
  else None.
Definition fmul (a b : fb) : option fb :=
  let M := qup (msize a * msize b) in let rv := (frv a + frv b)%nat in
  chk (Fb (qup (fv a * fv b)) rv (qup (fd a * msize b + fv a * fd b + rerr M)) (Nat.max rv (Nat.max (frd a + frv b) (frv a + frd b))) (fh a + fh b) (fs a + fs b)) M.

Section Bound.
  Variable leaf : nat -> fb.
  Variable ileaf : nat -> option fb.

  Definition finv (e : expr) : option fb :=
    match e with
    | EV i => ileaf i
    | EZ z => if (Z.eqb z 0 || Z.ltb (2 ^ 53) (Z.abs z))%bool then None else Some (Fb (/ inject_Z (Z.abs z)) 0 0 0 0 0)
    | _ => None
    end.
  Fixpoint fbnd (e : expr) : option fb :=
    match e with
    | EV i => Some (leaf i)
    | EL j => Some (Fb 1 0 1 0 0 0)
    | EZ z => if Z.ltb (2 ^ 53) (Z.abs z) then None else Some (Fb (inject_Z (Z.abs z)) 0 0 0 0 0)
    | Eadd a b | Esub a b => obind (fbnd a) (fun x => obind (fbnd b) (fadd x))
    | Emul a b => obind (fbnd a) (fun x => obind (fbnd b) (fmul x))
    | Ediv a b => obind (fbnd a) (fun x => obind (finv b) (fmul x))
    | Eopp a => fbnd a
    end.

  Variables h rho s delta : R.
  Hypothesis Hh : / 18446744073709551616 <= h <= 18446744073709551616.
  Hypothesis Hs : / 18446744073709551616 <= s <= 18446744073709551616.
  Hypothesis Hr : 1 <= rho.
  Hypothesis Hd : roundoff <= delta.
  Hypothesis Hdr : delta * (rho * rho) <= / 1048576.

  Lemma Hh0 : 0 < h. Proof. lra. Qed.
  Lemma Hs0 : 0 < s. Proof. lra. Qed.
  Lemma Hd0 : 0 < delta. Proof. unfold roundoff in Hd. lra. Qed.
  Lemma rho_max : rho <= 131072.
  Proof.
    destruct (Rle_or_lt rho 131072) as [|G]; [assumption|]. exfalso.
    assert (X : 131072 * 131072 < rho * rho) by (apply Rmult_le_0_lt_compat; lra).
    assert (Y : roundoff * (131072 * 131072) < delta * (rho * rho)).
    { apply Rle_lt_trans with (delta * (131072 * 131072)); [apply Rmult_le_compat_r; lra|apply Rmult_lt_compat_l; [apply Hd0|exact X]]. }
    unfold roundoff in Y. lra.
  Qed.

  Definition sc (b : fb) : R := powerRZ h (fh b) * s ^ fs b.
  Lemma sc_pos : forall b, 0 < sc b.
  Proof. intros b. unfold sc. apply Rmult_lt_0_compat; [apply powerRZ_lt, Hh0|apply pow_lt, Hs0]. Qed.
  Lemma rho_pow : forall n, 1 <= rho ^ n.
  Proof. intros n. apply pow_R1_Rle, Hr. Qed.


  Lemma pow_range : forall x n, bpow radix2 (-64) <= x <= bpow radix2 64 -> bpow radix2 (- (64 * Z.of_nat n)) <= x ^ n <= bpow radix2 (64 * Z.of_nat n).
  Proof.
    intros x n [A B]. assert (P := bpow_gt_0 radix2 (-64)). induction n as [|n [IH1 IH2]]; [cbn; lra|].
    replace (64 * Z.of_nat (S n))%Z with (64 + 64 * Z.of_nat n)%Z by lia.
    replace (- (64 + 64 * Z.of_nat n))%Z with (-64 + - (64 * Z.of_nat n))%Z by lia. rewrite !bpow_plus. cbn [pow].
    assert (P2 := bpow_gt_0 radix2 (- (64 * Z.of_nat n))). split; apply Rmult_le_compat; lra.
  Qed.
  Lemma pow64 : forall x, / 18446744073709551616 <= x <= 18446744073709551616 -> bpow radix2 (-64) <= x <= bpow radix2 64.
  Proof. intros x X. exact X. Qed.
  Lemma sc_range : forall b, (-8 <= fh b <= 8)%Z -> (fs b <= 2)%nat -> bpow radix2 (-640) <= sc b <= bpow radix2 640.
  Proof.
    intros b A B. unfold sc.
    assert (S := pow_range s (fs b) (pow64 s Hs)). assert (SP : 0 < s ^ fs b) by (apply pow_lt, Hs0).
    assert (S1 : bpow radix2 (-128) <= s ^ fs b) by (eapply Rle_trans; [|apply S]; apply bpow_le; lia).
    assert (S2 : s ^ fs b <= bpow radix2 128) by (eapply Rle_trans; [apply S|]; apply bpow_le; lia).
    assert (Hx : bpow radix2 (-512) <= powerRZ h (fh b) <= bpow radix2 512).
    { destruct (fh b) as [|p|p]; cbn [powerRZ].
      - change 1 with (bpow radix2 0). split; apply bpow_le; lia.
      - assert (X := pow_range h (Pos.to_nat p) (pow64 h Hh)). assert (N : (Z.of_nat (Pos.to_nat p) <= 8)%Z) by lia.
        split; [eapply Rle_trans; [|apply X]|eapply Rle_trans; [apply X|]]; apply bpow_le; lia.
      - assert (X := pow_range h (Pos.to_nat p) (pow64 h Hh)). assert (N : (Z.of_nat (Pos.to_nat p) <= 8)%Z) by lia.
        assert (HP : 0 < h ^ Pos.to_nat p) by (apply pow_lt, Hh0).
        replace (bpow radix2 (-512)) with (/ bpow radix2 512) by (rewrite <- bpow_opp; reflexivity).
        replace (bpow radix2 512) with (/ bpow radix2 (-512)) at 2 by (rewrite <- bpow_opp; reflexivity).
        split; apply Rinv_le_contravar; [exact HP| |apply bpow_gt_0|].
        + eapply Rle_trans; [apply X|]; apply bpow_le; lia.
        + eapply Rle_trans; [|apply X]; apply bpow_le; lia. }
    replace (-640)%Z with (-512 + -128)%Z by lia. replace 640%Z with (512 + 128)%Z by lia. rewrite !bpow_plus.
    assert (P1 := bpow_gt_0 radix2 (-512)). assert (P2 := bpow_gt_0 radix2 (-128)).
    split; apply Rmult_le_compat; lra.
  Qed.
  Lemma rho_range : forall n, (n <= 16)%nat -> rho ^ n <= bpow radix2 272.
  Proof.
    intros n N. replace (bpow radix2 272) with (131072 ^ 16) by (cbn; lra). apply Rle_trans with (131072 ^ n).
    - apply pow_incr. split; [lra|apply rho_max].
    - apply Rle_pow; [lra|exact N].
  Qed.

  (** [x] is the computed, [X] the exact number *)
  Definition near (b : fb) (x X : R) : Prop :=
    (frd b <= frv b + 2)%nat /\ 0 <= Q2R (fv b) /\ 0 <= Q2R (fd b) /\
    Rabs X <= Q2R (fv b) * rho ^ frv b * sc b /\ Rabs (x - X) <= delta * Q2R (fd b) * rho ^ frd b * sc b.
  Definition nearF (b : fb) (x : double) (X : R) : Prop := finite x /\ near b (val x) X.

  Lemma Q2R_q20 : Q2R q20 = / 1048576.
  Proof. unfold q20, Q2R; cbn. lra. Qed.
  Lemma near_size : forall b x X, near b x X -> Rabs x <= Q2R (msize b) * rho ^ frv b * sc b.
  Proof.
    intros b x X [E [V [D [N1 N2]]]]. unfold msize. rewrite Q2R_plus, Q2R_mult, Q2R_q20.
    replace x with (X + (x - X)) by ring. eapply Rle_trans; [apply Rabs_triang|].
    assert (SP := sc_pos b). assert (RP := rho_pow (frv b)).
    assert (R1 : delta * rho ^ frd b <= / 1048576 * rho ^ frv b).
    { apply Rle_trans with (delta * rho ^ (frv b + 2)); [apply Rmult_le_compat_l; [left; apply Hd0|apply Rle_pow; assumption]|].
      rewrite pow_add. replace (rho ^ 2) with (rho * rho) by ring.
      replace (delta * (rho ^ frv b * (rho * rho))) with (delta * (rho * rho) * rho ^ frv b) by ring.
      apply Rmult_le_compat_r; lra. }
    assert (R2 : delta * Q2R (fd b) * rho ^ frd b * sc b <= / 1048576 * Q2R (fd b) * rho ^ frv b * sc b).
    { apply Rmult_le_compat_r; [lra|]. replace (delta * Q2R (fd b) * rho ^ frd b) with (Q2R (fd b) * (delta * rho ^ frd b)) by ring.
      replace (/ 1048576 * Q2R (fd b) * rho ^ frv b) with (Q2R (fd b) * (/ 1048576 * rho ^ frv b)) by ring.
      apply Rmult_le_compat_l; assumption. }
    rewrite !Rmult_plus_distr_r. lra.
  Qed.

  (** rounding a number [z] near [X] *)
  Lemma round_near : forall b0 b M z X, lim b M = true -> fh b0 = fh b -> fs b0 = fs b -> frv b0 = frv b ->
    (frd b0 <= frd b)%nat -> (frv b <= frd b)%nat -> 0 <= Q2R (fd b0) ->
    Q2R (fv b0) <= Q2R (fv b) -> Q2R (fd b0) + Q2R (rerr M) <= Q2R (fd b) ->
    Rabs X <= Q2R (fv b0) * rho ^ frv b0 * sc b0 -> Rabs (z - X) <= delta * Q2R (fd b0) * rho ^ frd b0 * sc b0 ->
    Rabs z <= Q2R M * rho ^ frv b0 * sc b0 ->
    Rabs z <= bpow radix2 1000 /\ near b (rnd z) X.
  Proof.
    intros b0 b M z X L EH ES ERV ERD RVD D0 LV LD N1 N2 N3. unfold lim in L.
    repeat (apply andb_prop in L; destruct L as [L ?]). 
    match goal with H : Qle_bool M _ = true |- _ => apply Qle_bool_iff, Qle_Rle in H; rename H into LM end.
    match goal with H : Qle_bool 0 (fd b) = true |- _ => apply Qle_bool_iff, Qle_Rle in H; rename H into PD end.
    match goal with H : Qle_bool 0 (fv b) = true |- _ => apply Qle_bool_iff, Qle_Rle in H; rename H into PV end.
    match goal with H : Nat.leb (frd b) _ = true |- _ => apply Nat.leb_le in H; rename H into LR end.
    match goal with H : Nat.leb (frv b) _ = true |- _ => apply Nat.leb_le in H; rename H into LR2 end.
    match goal with H : Nat.leb (fs b) _ = true |- _ => apply Nat.leb_le in H; rename H into LS end.
    match goal with H : Z.leb (fh b) _ = true |- _ => apply Z.leb_le in H; rename H into LH end.
    apply Z.leb_le in L. rewrite RMicromega.Q2R_0 in PD, PV.
    replace (Q2R (Qmake 18446744073709551616 1)) with (bpow radix2 64) in LM by (unfold Q2R; cbn; lra).
    assert (SE : sc b0 = sc b) by (unfold sc; rewrite EH, ES; reflexivity). rewrite SE, ERV in *.
    assert (SR := sc_range b (conj L LH) LS). assert (SP := sc_pos b). assert (RP := rho_pow (frv b)). assert (RR := rho_range (frv b) LR2).
    assert (ZP := Rabs_pos z). assert (DP := Hd0).
    assert (Z1 : Rabs z <= bpow radix2 1000).
    { destruct (Rle_or_lt (Q2R M) 0) as [MN|MN].
      - apply Rle_trans with 0; [|left; apply bpow_gt_0]. eapply Rle_trans; [exact N3|].
        rewrite <- (Rmult_0_l (sc b)). apply Rmult_le_compat_r; [lra|]. rewrite <- (Rmult_0_l (rho ^ frv b)). apply Rmult_le_compat_r; lra.
      - apply Rle_trans with (bpow radix2 64 * bpow radix2 272 * bpow radix2 640).
        + eapply Rle_trans; [exact N3|]. apply Rmult_le_compat; [apply Rmult_le_pos; lra|lra| |apply SR]. apply Rmult_le_compat; lra.
        + rewrite <- !bpow_plus. apply bpow_le. lia. }
    split; [exact Z1|]. split; [exact LR|]. split; [exact PV|]. split; [exact PD|]. split.
    { eapply Rle_trans; [exact N1|]. apply Rmult_le_compat_r; [lra|]. apply Rmult_le_compat_r; lra. }
    assert (RD : rho ^ frd b0 <= rho ^ frd b) by (apply Rle_pow; assumption).
    assert (RV : rho ^ frv b <= rho ^ frd b) by (apply Rle_pow; assumption).
    assert (RPd := rho_pow (frd b)). assert (RPd0 := rho_pow (frd b0)).
    (* error of this rounding *)
    assert (RE : Rabs (rnd z - z) <= delta * Q2R (rerr M) * rho ^ frd b * sc b).
    { unfold rerr. destruct (Qle_bool M 0) eqn:QM.
      - apply Qle_bool_iff, Qle_Rle in QM. rewrite RMicromega.Q2R_0 in *.
        assert (Z0 : Rabs z <= 0).
        { eapply Rle_trans; [exact N3|]. rewrite <- (Rmult_0_l (sc b)). apply Rmult_le_compat_r; [lra|]. rewrite <- (Rmult_0_l (rho ^ frv b)). apply Rmult_le_compat_r; lra. }
        assert (z = 0). { destruct (Req_dec z 0) as [|NZ]; [assumption|]. apply Rabs_pos_lt in NZ. lra. }
        subst z. rewrite rnd_0. rewrite Rminus_0_r, Rabs_R0. lra.
      - assert (MP : 0 < Q2R M).
        { destruct (Rlt_or_le 0 (Q2R M)) as [|C]; [assumption|]. exfalso. assert (C2 : (M <= 0)%Q) by (apply Rle_Qle; rewrite RMicromega.Q2R_0; exact C).
          apply Qle_bool_iff in C2. congruence. }
        eapply Rle_trans; [apply rnd_err|]. rewrite Q2R_plus, Q2R_q20.
        assert (ET : eta <= roundoff * / 1048576 * sc b).
        { apply Rle_trans with (roundoff * / 1048576 * bpow radix2 (-640)).
          - unfold eta. replace (roundoff * / 1048576) with (bpow radix2 (-73)) by (unfold roundoff; cbn; lra).
            rewrite <- bpow_plus. apply Rle_trans with (bpow radix2 (-1074)); [assert (Y := bpow_gt_0 radix2 (-1074)); lra|]. apply bpow_le. lia.
          - apply Rmult_le_compat_l; [unfold roundoff; lra|apply SR]. }
        assert (E1 : roundoff * Rabs z <= delta * (Q2R M * rho ^ frv b * sc b)).
        { apply Rmult_le_compat; [unfold roundoff; lra|exact ZP|exact Hd|exact N3]. }
        assert (E2 : delta * (Q2R M * rho ^ frv b * sc b) <= delta * (Q2R M * rho ^ frd b * sc b)).
        { apply Rmult_le_compat_l; [lra|]. apply Rmult_le_compat_r; [lra|]. apply Rmult_le_compat_l; lra. }
        assert (E3 : roundoff * / 1048576 * sc b <= delta * / 1048576 * rho ^ frd b * sc b).
        { apply Rmult_le_compat_r; [lra|]. rewrite <- (Rmult_1_r (roundoff * / 1048576)). apply Rmult_le_compat; [unfold roundoff; lra|lra| |lra].
          apply Rmult_le_compat_r; lra. }
        replace (delta * (Q2R M + / 1048576) * rho ^ frd b * sc b) with (delta * (Q2R M * rho ^ frd b * sc b) + delta * / 1048576 * rho ^ frd b * sc b) by ring.
        lra. }
    replace (rnd z - X) with ((rnd z - z) + (z - X)) by ring. eapply Rle_trans; [apply Rabs_triang|].
    assert (E4 : delta * Q2R (fd b0) * rho ^ frd b0 * sc b <= delta * Q2R (fd b0) * rho ^ frd b * sc b).
    { apply Rmult_le_compat_r; [lra|]. apply Rmult_le_compat_l; [apply Rmult_le_pos; lra|exact RD]. }
    assert (E5 : delta * (Q2R (fd b0) + Q2R (rerr M)) * rho ^ frd b * sc b <= delta * Q2R (fd b) * rho ^ frd b * sc b).
    { apply Rmult_le_compat_r; [lra|]. apply Rmult_le_compat_r; [lra|]. apply Rmult_le_compat_l; lra. }
    lra.
  Qed.

  Lemma near_raise : forall b rv rd x X, near b x X -> (frv b <= rv)%nat -> (frd b <= rd)%nat -> 
    Rabs X <= Q2R (fv b) * rho ^ rv * sc b /\ Rabs (x - X) <= delta * Q2R (fd b) * rho ^ rd * sc b.
  Proof.
    intros b rv rd x X [E [V [D [N1 N2]]]] L1 L2. assert (SP := sc_pos b). assert (DP := Hd0). split.
    - eapply Rle_trans; [exact N1|]. apply Rmult_le_compat_r; [lra|]. apply Rmult_le_compat_l; [exact V|apply Rle_pow; assumption].
    - eapply Rle_trans; [exact N2|]. apply Rmult_le_compat_r; [lra|]. apply Rmult_le_compat_l; [apply Rmult_le_pos; lra|apply Rle_pow; assumption].
  Qed.
  Lemma size_raise : forall b rv x X, near b x X -> (frv b <= rv)%nat -> Rabs x <= Q2R (msize b) * rho ^ rv * sc b.
  Proof.
    intros b rv x X N L. eapply Rle_trans; [apply (near_size _ _ _ N)|]. assert (SP := sc_pos b). destruct N as [_ [V [D _]]].
    apply Rmult_le_compat_r; [lra|]. apply Rmult_le_compat_l; [|apply Rle_pow; assumption].
    unfold msize. rewrite Q2R_plus, Q2R_mult, Q2R_q20. lra.
  Qed.

  Lemma near_add : forall a b c x y X Y, near a x X -> near b y Y -> fadd a b = Some c ->
    Rabs (x + y) <= bpow radix2 1000 /\ near c (rnd (x + y)) (X + Y).
  Proof.
    intros a b c x y X Y A B E. unfold fadd in E. destruct (Z.eqb_spec (fh a) (fh b)) as [EH|]; [|discriminate].
    destruct (Nat.eqb_spec (fs a) (fs b)) as [ES|]; [|discriminate]. cbn [andb] in E. unfold chk in E.
    match type of E with (if lim ?b ?m then _ else _) = _ => set (c' := b) in *; set (M := m) in * end.
    destruct (lim c' M) eqn:L; [|discriminate]. injection E as <-.
    set (rv := Nat.max (frv a) (frv b)) in *. set (rd := Nat.max (frd a) (frd b)).
    destruct (near_raise a rv rd x X A ltac:(lia) ltac:(lia)) as [A1 A2]. destruct (near_raise b rv rd y Y B ltac:(lia) ltac:(lia)) as [B1 B2].
    assert (SA := size_raise a rv x X A ltac:(lia)). assert (SB := size_raise b rv y Y B ltac:(lia)).
    destruct A as [A3 [A4 [A5 _]]]. destruct B as [B3 [B4 [B5 _]]].
    assert (SE : sc b = sc a) by (unfold sc; rewrite EH, ES; reflexivity). rewrite SE in *.
    set (b0 := Fb (fv a + fv b) rv (fd a + fd b) rd (fh a) (fs a)).
    assert (S0 : sc b0 = sc a) by reflexivity.
    apply (round_near b0 c' M); try reflexivity; try exact L; unfold b0, c'; cbn [fv frv fd frd fh fs]; try lia; rewrite ?Q2R_plus; fold b0; rewrite ?S0.
    - lra.
    - apply qup_R. rewrite Q2R_plus. lra.
    - apply qup_R. rewrite !Q2R_plus. lra.
    - eapply Rle_trans; [apply Rabs_triang|]. rewrite !Rmult_plus_distr_r. lra.
    - replace (x + y - (X + Y)) with ((x - X) + (y - Y)) by ring. eapply Rle_trans; [apply Rabs_triang|].
      rewrite Rmult_plus_distr_l, !Rmult_plus_distr_r. lra.
    - eapply Rle_trans; [apply Rabs_triang|]. apply Rle_trans with (Q2R (msize a + msize b) * rho ^ rv * sc a).
      + rewrite Q2R_plus, !Rmult_plus_distr_r. lra.
      + assert (SP := sc_pos a). assert (RP := rho_pow rv). apply Rmult_le_compat_r; [lra|]. apply Rmult_le_compat_r; [lra|]. apply qup_R. lra.
  Qed.

  Lemma near_mul : forall a b c x y X Y, near a x X -> near b y Y -> fmul a b = Some c ->
    Rabs (x * y) <= bpow radix2 1000 /\ near c (rnd (x * y)) (X * Y).
  Proof.
    intros a b c x y X Y A B E. unfold fmul in E. unfold chk in E.
    match type of E with (if lim ?b ?m then _ else _) = _ => set (c' := b) in *; set (M := m) in * end.
    destruct (lim c' M) eqn:L; [|discriminate]. injection E as <-.
    assert (SA := near_size a x X A). assert (SB := near_size b y Y B).
    destruct A as [A3 [A4 [A5 [A1 A2]]]]. destruct B as [B3 [B4 [B5 [B1 B2]]]].
    set (rv := (frv a + frv b)%nat) in *. set (rd := Nat.max (frd a + frv b) (frv a + frd b)).
    set (b0 := Fb (fv a * fv b) rv (fd a * msize b + fv a * fd b) rd (fh a + fh b) (fs a + fs b)).
    assert (S0 : sc b0 = sc a * sc b).
    { unfold sc, b0; cbn [fh fs]. rewrite powerRZ_add by (assert (H0 := Hh0); lra). rewrite pow_add. ring. }
    assert (PA := sc_pos a). assert (PB := sc_pos b). assert (DP := Hd0).
    assert (MB : 0 <= Q2R (msize b)) by (unfold msize; rewrite Q2R_plus, Q2R_mult, Q2R_q20; lra).
    assert (R1 : rho ^ rv = rho ^ frv a * rho ^ frv b) by apply pow_add.
    assert (R2 : rho ^ frd a * rho ^ frv b <= rho ^ rd) by (rewrite <- pow_add; apply Rle_pow; [exact Hr|lia]).
    assert (R3 : rho ^ frv a * rho ^ frd b <= rho ^ rd) by (rewrite <- pow_add; apply Rle_pow; [exact Hr|lia]).
    assert (Q : forall p q P Q, Rabs p <= P -> Rabs q <= Q -> Rabs (p * q) <= P * Q).
    { intros p q P Q0 H1 H2. rewrite Rabs_mult. apply Rmult_le_compat; auto using Rabs_pos. }
    apply (round_near b0 c' M); try reflexivity; try exact L; unfold b0, c'; cbn [fv frv fd frd fh fs]; try lia; rewrite ?Q2R_plus, ?Q2R_mult; fold b0; rewrite ?S0.
    - assert (0 <= Q2R (fd a) * Q2R (msize b)) by (apply Rmult_le_pos; assumption). assert (0 <= Q2R (fv a) * Q2R (fd b)) by (apply Rmult_le_pos; assumption). lra.
    - apply qup_R. rewrite Q2R_mult. lra.
    - apply qup_R. rewrite !Q2R_plus, !Q2R_mult. lra.
    - rewrite R1. replace (Q2R (fv a) * Q2R (fv b) * (rho ^ frv a * rho ^ frv b) * (sc a * sc b)) with ((Q2R (fv a) * rho ^ frv a * sc a) * (Q2R (fv b) * rho ^ frv b * sc b)) by ring.
      apply Q; assumption.
    - replace (x * y - X * Y) with ((x - X) * y + X * (y - Y)) by ring. eapply Rle_trans; [apply Rabs_triang|].
      assert (T1 := Q _ _ _ _ A2 SB). assert (T2 := Q _ _ _ _ A1 B2).
      set (da := Q2R (fd a)) in *. set (mb := Q2R (msize b)) in *. set (va := Q2R (fv a)) in *. set (db := Q2R (fd b)) in *.
      assert (T3 : delta * da * rho ^ frd a * sc a * (mb * rho ^ frv b * sc b) <= delta * (da * mb) * rho ^ rd * (sc a * sc b)).
      { replace (delta * da * rho ^ frd a * sc a * (mb * rho ^ frv b * sc b)) with ((delta * (da * mb)) * (rho ^ frd a * rho ^ frv b) * (sc a * sc b)) by ring.
        apply Rmult_le_compat_r; [apply Rmult_le_pos; lra|]. apply Rmult_le_compat_l; [|exact R2]. apply Rmult_le_pos; [lra|apply Rmult_le_pos; assumption]. }
      assert (T4 : va * rho ^ frv a * sc a * (delta * db * rho ^ frd b * sc b) <= delta * (va * db) * rho ^ rd * (sc a * sc b)).
      { replace (va * rho ^ frv a * sc a * (delta * db * rho ^ frd b * sc b)) with ((delta * (va * db)) * (rho ^ frv a * rho ^ frd b) * (sc a * sc b)) by ring.
        apply Rmult_le_compat_r; [apply Rmult_le_pos; lra|]. apply Rmult_le_compat_l; [|exact R3]. apply Rmult_le_pos; [lra|apply Rmult_le_pos; assumption]. }
      rewrite Rmult_plus_distr_l, !Rmult_plus_distr_r. lra.
    - apply Rle_trans with (Q2R (msize a * msize b) * rho ^ rv * (sc a * sc b)).
      + rewrite Q2R_mult, R1. eapply Rle_trans; [apply (Q _ _ _ _ SA SB)|]. right. ring.
      + assert (RP := rho_pow rv). apply Rmult_le_compat_r; [apply Rmult_le_pos; lra|]. apply Rmult_le_compat_r; [lra|]. apply qup_R. lra.
  Qed.

  Lemma near_opp : forall b x X, near b x X -> near b (- x) (- X).
  Proof.
    intros b x X [A [B [C [D E]]]]. do 3 (split; [assumption|]). rewrite Rabs_Ropp. split; [exact D|].
    replace (- x - - X) with (- (x - X)) by ring. rewrite Rabs_Ropp. exact E.
  Qed.
  Lemma near_exact : forall v n k l x, 0 <= Q2R v -> Rabs x <= Q2R v * rho ^ n * sc (Fb v n 0 n k l) -> near (Fb v n 0 n k l) x x.
  Proof.
    intros v n k l x V X. unfold near; cbn [fv frv fd frd]. rewrite RMicromega.Q2R_0. split; [lia|]. split; [exact V|]. split; [lra|]. split; [exact X|].
    replace (x - x) with 0 by ring. rewrite Rabs_R0. lra.
  Qed.

  Variables (LF : lits double) (LR : lits R) (rF : nat -> double) (rR : nat -> R).
  Hypothesis HL : forall j, nearF (Fb 1 0 1 0 0 0) (evalG LF rF (EL j)) (evalG LR rR (EL j)).
  Hypothesis HV : forall i, nearF (leaf i) (rF i) (rR i).
  Hypothesis HI : forall i b, ileaf i = Some b -> val (rF i) <> 0 /\ near b (/ val (rF i)) (/ rR i).

  Lemma finv_ok : forall e b, finv e = Some b ->
    finite (evalG LF rF e) /\ val (evalG LF rF e) <> 0 /\ near b (/ val (evalG LF rF e)) (/ evalG LR rR e).
  Proof.
    intros [i|j|z|e1 e2|e1 e2|e1 e2|e1 e2|e1] b E; cbn [finv] in E; try discriminate.
    - destruct (HI i b E) as [A B]. split; [apply (HV i)|]. cbn [evalG]. auto.
    - destruct (Z.eqb_spec z 0) as [|N]; [discriminate|]. destruct (Z.ltb_spec (2 ^ 53) (Z.abs z)) as [|Z1]; [discriminate|]. injection E as <-.
      cbn [evalG]. destruct (fl_ofZ z Z1) as [F V]. rewrite V. change (@nofZ R NumR z) with (IZR z).
      assert (NZ : IZR z <> 0) by (apply not_0_IZR, N). split; [exact F|]. split; [exact NZ|].
      assert (AZ : ~ (inject_Z (Z.abs z) == 0)%Q) by (unfold Qeq, inject_Z; cbn; lia).
      assert (VV : Q2R (/ inject_Z (Z.abs z)) = / Rabs (IZR z)) by (rewrite Q2R_inv by exact AZ; rewrite Q2R_Z, abs_IZR; reflexivity).
      assert (P : 0 < / Rabs (IZR z)) by (apply Rinv_0_lt_compat, Rabs_pos_lt, NZ).
      apply (near_exact _ 0 0 0); rewrite VV; [lra|]. unfold sc; cbn [fh fs powerRZ pow]. rewrite Rabs_inv. lra.
  Qed.

  Lemma fbnd_ok : forall e b, fbnd e = Some b -> nearF b (evalG LF rF e) (evalG LR rR e).
  Proof.
    induction e as [i|j|z|e1 IHa e2 IHb|e1 IHa e2 IHb|e1 IHa e2 IHb|e1 IHa e2 IHb|e1 IHa]; intros b E; cbn [fbnd] in E.
    - injection E as <-. apply HV.
    - injection E as <-. apply HL.
    - destruct (Z.ltb_spec (2 ^ 53) (Z.abs z)) as [|Z1]; [discriminate|]. injection E as <-. cbn [evalG]. destruct (fl_ofZ z Z1) as [F V].
      split; [exact F|]. rewrite V. change (@nofZ R NumR z) with (IZR z). apply (near_exact _ 0 0 0); rewrite Q2R_Z, abs_IZR; [apply Rabs_pos|].
      unfold sc; cbn [fh fs powerRZ pow]. lra.
    - destruct (fbnd e1) as [x|]; [|discriminate]. destruct (fbnd e2) as [y|]; [|discriminate]. cbn in E.
      destruct (IHa x eq_refl) as [F1 N1]. destruct (IHb y eq_refl) as [F2 N2]. destruct (near_add _ _ _ _ _ _ _ N1 N2 E) as [S N].
      cbn [evalG]. destruct (fl_add _ _ F1 F2 S) as [F V]. split; [exact F|]. rewrite V. exact N.
    - destruct (fbnd e1) as [x|]; [|discriminate]. destruct (fbnd e2) as [y|]; [|discriminate]. cbn in E.
      destruct (IHa x eq_refl) as [F1 N1]. destruct (IHb y eq_refl) as [F2 N2]. destruct (near_add _ _ _ _ _ _ _ N1 (near_opp _ _ _ N2) E) as [S N].
      cbn [evalG]. destruct (fl_sub _ _ F1 F2 S) as [F V]. split; [exact F|]. rewrite V. exact N.
    - destruct (fbnd e1) as [x|]; [|discriminate]. destruct (fbnd e2) as [y|]; [|discriminate]. cbn in E.
      destruct (IHa x eq_refl) as [F1 N1]. destruct (IHb y eq_refl) as [F2 N2]. destruct (near_mul _ _ _ _ _ _ _ N1 N2 E) as [S N].
      cbn [evalG]. destruct (fl_mul _ _ F1 F2 S) as [F V]. split; [exact F|]. rewrite V. exact N.
    - destruct (fbnd e1) as [x|]; [|discriminate]. destruct (finv e2) as [y|] eqn:Ey; [|discriminate]. cbn in E.
      destruct (IHa x eq_refl) as [F1 N1]. destruct (finv_ok e2 y Ey) as [F2 [NZ N2]]. destruct (near_mul _ _ _ _ _ _ _ N1 N2 E) as [S N].
      cbn [evalG]. destruct (fl_div _ _ F1 F2 NZ S) as [F V]. split; [exact F|]. rewrite V. exact N.
    - destruct (IHa b E) as [F1 N1]. cbn [evalG]. destruct (fl_opp _ F1) as [F V]. split; [exact F|]. rewrite V. apply near_opp, N1.
  Qed.
End Bound.
