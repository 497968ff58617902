(** The operations on doubles as rounded operations on reals (Flocq). *)
From Coq Require Import ZArith Reals List Bool Lra Lia Floats.SpecFloat.
From Flocq Require Import Core Relative BinarySingleNaN.
From Verif Require Import Num Float Py Mesh SpecRound.
Import ListNotations.
Local Open Scope R_scope.

Local Instance Hprec : FLX.Prec_gt_0 53 := eq_refl _.
Local Instance Hmax : Prec_lt_emax 53 1024 := eq_refl _.

Definition rnd (x : R) : R := round radix2 (FLT_exp (-1074) 53) ZnearestE x.
Definition eta : R := / 2 * bpow radix2 (-1074).

Lemma eta_pos : 0 < eta.
Proof. unfold eta. assert (X := bpow_gt_0 radix2 (-1074)). lra. Qed.
Lemma rnd_0 : rnd 0 = 0.
Proof. apply round_0. auto with typeclass_instances. Qed.
Lemma rnd_err : forall x, Rabs (rnd x - x) <= roundoff * Rabs x + eta.
Proof.
  intros x. destruct (error_N_FLT radix2 (-1074) 53 eq_refl (fun x => negb (Z.even x)) x) as [e [f [E [F [_ H]]]]].
  unfold rnd. rewrite H. replace (x * (1 + e) + f - x) with (e * x + f) by ring.
  eapply Rle_trans; [apply Rabs_triang|]. apply Rplus_le_compat; [|exact F]. rewrite Rabs_mult. apply Rmult_le_compat_r; [apply Rabs_pos|].
  eapply Rle_trans; [exact E|]. change (bpow radix2 (- (53) + 1)) with (/ 4503599627370496). unfold roundoff. lra.
Qed.
Lemma rnd_small : forall x, Rabs x <= bpow radix2 1000 -> Rabs (rnd x) < bpow radix2 1024.
Proof.
  intros x X. assert (E := rnd_err x). assert (B : 0 < bpow radix2 1000) by apply bpow_gt_0.
  assert (Et : eta <= bpow radix2 1000).
  { unfold eta. assert (Y : bpow radix2 (-1074) <= bpow radix2 1000) by (apply bpow_le; lia). assert (Z := bpow_gt_0 radix2 (-1074)). lra. }
  assert (L : 8 * bpow radix2 1000 <= bpow radix2 1024).
  { replace (bpow radix2 1024) with (bpow radix2 24 * bpow radix2 1000) by (rewrite <- bpow_plus; reflexivity).
    apply Rmult_le_compat_r; [lra|]. change (bpow radix2 24) with 16777216. lra. }
  assert (U : roundoff * Rabs x <= bpow radix2 1000).
  { rewrite <- (Rmult_1_l (bpow radix2 1000)). apply Rmult_le_compat; [unfold roundoff; lra|apply Rabs_pos|unfold roundoff; lra|exact X]. }
  replace (rnd x) with ((rnd x - x) + x) by ring. eapply Rle_lt_trans; [apply Rabs_triang|]. lra.
Qed.

(** ** Doubles as Flocq's numbers *)

Lemma finite_B : forall x, finite x -> exists b : binary_float 53 1024, B2SF b = x /\ is_finite b = true.
Proof.
  intros [s|s| |s m e] F; try contradiction.
  - exists (B754_zero s). auto.
  - exists (B754_finite s m e F). auto.
Qed.
Lemma B_finite : forall b : binary_float 53 1024, is_finite b = true -> finite (B2SF b).
Proof. intros [s|s| |s m e H] F; try discriminate; [exact I|exact H]. Qed.
Lemma bpow_powerRZ : forall e, bpow radix2 e = powerRZ 2 e.
Proof.
  intros [|p|p]; cbn [bpow powerRZ]; [reflexivity| |]; change (Z.pow_pos radix2 p) with (2 ^ Zpos p)%Z;
    rewrite <- (positive_nat_Z p), pow_IZR; reflexivity.
Qed.
Lemma val_B : forall b : binary_float 53 1024, val (B2SF b) = B2R b.
Proof.
  intros [s|s| |s m e H]; try reflexivity. cbn [B2SF val B2R]. unfold F2R; cbn [Fnum Fexp]. rewrite bpow_powerRZ.
  destruct s; cbn [cond_Zopp]; [rewrite opp_IZR|]; ring.
Qed.

Lemma round_aux_equiv : forall sx mx ex lx,
  SpecFloat.binary_round_aux 53 1024 sx mx ex lx = binary_round_aux 53 1024 mode_NE sx mx ex lx.
Proof.
  intros sx mx ex lx. unfold SpecFloat.binary_round_aux, binary_round_aux. destruct (shr_fexp 53 1024 mx ex lx) as [mrs' e'].
  assert (E : forall s m l, round_nearest_even m l = choice_mode mode_NE s m l).
  { intros s m [|[]]; cbn; try reflexivity. unfold Round.cond_incr. destruct (Z.even m); reflexivity. }
  rewrite (E sx). reflexivity.
Qed.
Lemma round_equiv : forall s m e, SpecFloat.binary_round 53 1024 s m e = binary_round 53 1024 mode_NE s m e.
Proof.
  intros s m e. unfold SpecFloat.binary_round, binary_round, shl_align_fexp. destruct (shl_align _ _ _) as [mz ez]. apply round_aux_equiv.
Qed.
Lemma normalize_equiv : forall m e z, SpecFloat.binary_normalize 53 1024 m e z = B2SF (binary_normalize 53 1024 Hprec Hmax mode_NE m e z).
Proof. intros [|p|p] e z; cbn; [reflexivity| |]; rewrite B2SF_SF2B; apply round_equiv. Qed.

Lemma rnd_eq : forall x, round radix2 (SpecFloat.fexp 53 1024) (round_mode mode_NE) x = rnd x.
Proof. reflexivity. Qed.

Ltac small Z := rewrite rnd_eq, Rlt_bool_true in Z by (apply rnd_small; assumption).

Lemma fl_add : forall x y, finite x -> finite y -> Rabs (val x + val y) <= bpow radix2 1000 ->
  finite (nadd x y) /\ val (nadd x y) = rnd (val x + val y).
Proof.
  intros x y X Y S. destruct (finite_B x X) as [a [<- A]]. destruct (finite_B y Y) as [b [<- B]]. rewrite !val_B in *.
  assert (Z := Bplus_correct 53 1024 Hprec Hmax mode_NE a b A B). small Z. destruct Z as [Z1 [Z2 _]].
  assert (E : @nadd double NumF (B2SF a) (B2SF b) = B2SF (Bplus mode_NE a b)).
  { destruct a as [sx|sx| |sx mx ex Hx], b as [sy|sy| |sy my ey Hy]; try discriminate; try reflexivity.
    - cbn. destruct (Bool.eqb sx sy); reflexivity.
    - apply normalize_equiv. }
  rewrite E. split; [apply B_finite, Z2|rewrite val_B; exact Z1].
Qed.
Lemma fl_sub : forall x y, finite x -> finite y -> Rabs (val x - val y) <= bpow radix2 1000 ->
  finite (nsub x y) /\ val (nsub x y) = rnd (val x - val y).
Proof.
  intros x y X Y S. destruct (finite_B x X) as [a [<- A]]. destruct (finite_B y Y) as [b [<- B]]. rewrite !val_B in *.
  assert (Z := Bminus_correct 53 1024 Hprec Hmax mode_NE a b A B). small Z. destruct Z as [Z1 [Z2 _]].
  assert (E : @nsub double NumF (B2SF a) (B2SF b) = B2SF (Bminus mode_NE a b)).
  { destruct a as [sx|sx| |sx mx ex Hx], b as [sy|sy| |sy my ey Hy]; try discriminate; try reflexivity.
    - cbn. destruct sx, sy; reflexivity.
    - cbn. unfold Zminus. rewrite <- cond_Zopp_negb. apply normalize_equiv. }
  rewrite E. split; [apply B_finite, Z2|rewrite val_B; exact Z1].
Qed.
Lemma fl_mul : forall x y, finite x -> finite y -> Rabs (val x * val y) <= bpow radix2 1000 ->
  finite (nmul x y) /\ val (nmul x y) = rnd (val x * val y).
Proof.
  intros x y X Y S. destruct (finite_B x X) as [a [<- A]]. destruct (finite_B y Y) as [b [<- B]]. rewrite !val_B in *.
  assert (Z := Bmult_correct 53 1024 Hprec Hmax mode_NE a b). small Z. destruct Z as [Z1 [Z2 _]]. rewrite A, B in Z2.
  assert (E : @nmul double NumF (B2SF a) (B2SF b) = B2SF (Bmult mode_NE a b)).
  { destruct a as [sx|sx| |sx mx ex Hx], b as [sy|sy| |sy my ey Hy]; try discriminate; try reflexivity.
    cbn. rewrite B2SF_SF2B. apply round_aux_equiv. }
  rewrite E. split; [apply B_finite, Z2|rewrite val_B; exact Z1].
Qed.
Lemma fl_div : forall x y, finite x -> finite y -> val y <> 0 -> Rabs (val x / val y) <= bpow radix2 1000 ->
  finite (ndiv x y) /\ val (ndiv x y) = rnd (val x / val y).
Proof.
  intros x y X Y N S. destruct (finite_B x X) as [a [<- A]]. destruct (finite_B y Y) as [b [<- B]]. rewrite !val_B in *.
  assert (Z := Bdiv_correct 53 1024 Hprec Hmax mode_NE a b N). small Z. destruct Z as [Z1 [Z2 _]]. rewrite A in Z2.
  assert (E : @ndiv double NumF (B2SF a) (B2SF b) = B2SF (Bdiv mode_NE a b)).
  { destruct a as [sx|sx| |sx mx ex Hx], b as [sy|sy| |sy my ey Hy]; try discriminate; try reflexivity.
    cbn. rewrite B2SF_SF2B. destruct (SFdiv_core_binary _ _ _ _ _ _) as [[mz ez] lz]. apply round_aux_equiv. }
  rewrite E. split; [apply B_finite, Z2|rewrite val_B; exact Z1].
Qed.
Lemma fl_sqrt : forall x, finite x -> 0 < val x -> finite (nsqrt x) /\ val (nsqrt x) = rnd (sqrt (val x)).
Proof.
  intros x X P. destruct (finite_B x X) as [a [<- A]]. rewrite !val_B in *.
  assert (Z := Bsqrt_correct 53 1024 Hprec Hmax mode_NE a). destruct Z as [Z1 [Z2 _]].
  assert (E : @nsqrt double NumF (B2SF a) = B2SF (Bsqrt mode_NE a)).
  { destruct a as [sx|sx| |sx mx ex Hx]; try discriminate; try reflexivity. destruct sx; [reflexivity|].
    cbn. rewrite B2SF_SF2B. destruct (SFsqrt_core_binary _ _ _ _) as [[mz ez] lz]. apply round_aux_equiv. }
  rewrite E. split; [apply B_finite|rewrite val_B; exact Z1]. rewrite Z2.
  destruct a as [sx|sx| |sx mx ex Hx]; try discriminate; try reflexivity. destruct sx; [|reflexivity]. exfalso. cbn [B2R] in P.
  assert (Q : F2R (Float radix2 (cond_Zopp true (Zpos mx)) ex) < 0) by (apply F2R_lt_0; reflexivity). lra.
Qed.
Lemma fl_abs : forall x, finite x -> finite (nabs x) /\ val (nabs x) = Rabs (val x).
Proof.
  intros [s|s| |s m e] F; try contradiction; cbn; (split; [exact F|]); [symmetry; apply Rabs_R0|].
  assert (P : 0 < IZR (Zpos m) * powerRZ 2 e) by (apply Rmult_lt_0_compat; [apply IZR_lt; lia|apply powerRZ_lt; lra]).
  destruct s; [rewrite Rabs_left|rewrite Rabs_right]; lra.
Qed.
Lemma fl_opp : forall x, finite x -> finite (nopp x) /\ val (nopp x) = - val x.
Proof. intros [s|s| |s m e] F; try contradiction; cbn; (split; [exact F|]); [lra|]. destruct s; cbn; ring. Qed.
Lemma fl_ltb : forall x y, finite x -> finite y -> nltb x y = true <-> val x < val y.
Proof.
  intros x y X Y. destruct (finite_B x X) as [a [<- A]]. destruct (finite_B y Y) as [b [<- B]]. rewrite !val_B in *.
  cbn [nltb NumF]. unfold SFltb. change (SFcompare (B2SF a) (B2SF b)) with (Bcompare a b). rewrite Bcompare_correct by assumption.
  destruct (Rcompare_spec (B2R a) (B2R b)); split; intros; try reflexivity; try discriminate; lra.
Qed.
Lemma fl_ofZ : forall z, (Z.abs z <= 2 ^ 53)%Z -> finite (nofZ z) /\ val (nofZ z) = IZR z.
Proof.
  intros z H. cbn [nofZ NumF]. unfold double_of_Z. rewrite normalize_equiv. 
  assert (Z := binary_normalize_correct 53 1024 Hprec Hmax mode_NE z 0 false). cbn zeta in Z.
  assert (E : F2R (Float radix2 z 0) = IZR z) by (unfold F2R; cbn; ring). rewrite E in Z.
  assert (G : rnd (IZR z) = IZR z).
  { apply round_generic; [auto with typeclass_instances|]. rewrite <- E.
    destruct (Z.eq_dec (Z.abs z) (2 ^ 53)) as [Q|Q].
    - rewrite E. assert (W : IZR z = IZR (Z.sgn z) * bpow radix2 53).
      { change (bpow radix2 53) with (IZR (2 ^ 53)). rewrite <- Q, <- mult_IZR. f_equal. rewrite Z.mul_comm. symmetry. apply Z.abs_sgn. }
      rewrite W. apply generic_format_FLT. exists (Float radix2 (Z.sgn z) 53); cbn; [reflexivity| |lia].
      destruct z; cbn; lia.
    - apply generic_format_FLT. exists (Float radix2 z 0); cbn [Fnum Fexp]; [reflexivity| |lia]. change (Zpower radix2 53) with (2 ^ 53)%Z. lia. }
  rewrite rnd_eq, G, Rlt_bool_true in Z.
  - destruct Z as [Z1 [Z2 _]]. split; [apply B_finite, Z2|rewrite val_B; exact Z1].
  - rewrite <- abs_IZR. apply Rle_lt_trans with (IZR (2 ^ 53)); [apply IZR_le, H|]. change (IZR (2 ^ 53)) with (bpow radix2 53). apply bpow_lt. lia.
Qed.
