(** Expressions as a number type, and bounds for the effect of inexact literals.

    The unrolled statements are polymorphic in the number type, so at [expr] they yield their own
    syntax trees. *)
From Coq Require Import ZArith Reals List Bool Arith Lra Lia QArith Qreals.
From Verif Require Import Num.
Import ListNotations.
Local Open Scope R_scope.

Inductive expr : Type :=
| EV (i : nat) | EL (j : nat) | EZ (z : Z)
| Eadd (a b : expr) | Esub (a b : expr) | Emul (a b : expr) | Ediv (a b : expr) | Eopp (a : expr).

#[export] Instance NumE : Num expr := {|
  nofZ := EZ; nadd := Eadd; nsub := Esub; nmul := Emul; ndiv := Ediv; nopp := Eopp;
  nabs := fun a => a; nsqrt := fun a => a; nltb := fun _ _ => false; neqb := fun _ _ => false |}.

Definition lits_expr : lits expr := Lits (EL 0) (EL 1) (EL 2) (EL 3) (EL 4).
Definition lit_val (L : lits R) (j : nat) : R :=
  match j with 0%nat => l6 L | 1%nat => l12 L | 2%nat => l24 L | 3%nat => l36 L | _ => l72 L end.

Fixpoint eval (L : lits R) (r : nat -> R) (e : expr) : R :=
  match e with
  | EV i => r i | EL j => lit_val L j | EZ z => IZR z
  | Eadd a b => eval L r a + eval L r b | Esub a b => eval L r a - eval L r b
  | Emul a b => eval L r a * eval L r b | Ediv a b => eval L r a / eval L r b
  | Eopp a => - eval L r a
  end.

(** ** Magnitudes: the value is at most [bv], the effect of the literals at most [bd] times
    their error, both times [h ^ bh * rho ^ br * s ^ bs] *)
Record bound : Type := Bd { bv : Q; bd : Q; bh : Z; br : nat; bs : nat }.

(** kinds of variables: lengths (h), areas (h ^ 2, and 1 / area at most rho / h ^ 2), stiffness (s) *)
Inductive kind : Type := Length | Area | Stiffness.

Definition obind {A B} (o : option A) (f : A -> option B) : option B := match o with Some a => f a | None => None end.

Section Bound.
  Variable kd : nat -> kind.

  Definition bsum (a b : bound) : option bound :=
    if (Z.eqb (bh a) (bh b) && Nat.eqb (bs a) (bs b))%bool
    then Some (Bd (bv a + bv b) (bd a + bd b) (bh a) (Nat.max (br a) (br b)) (bs a)) else None.
  Definition bprod (a b : bound) : bound :=
    Bd (bv a * bv b) (bd a * bv b + bv a * bd b) (bh a + bh b) (br a + br b) (bs a + bs b).

  (** bound for the reciprocal of an expression without literals *)
  Fixpoint binv (e : expr) : option bound :=
    match e with
    | EV i => match kd i with Area => Some (Bd 1 0 (-2) 1 0) | _ => None end
    | EZ z => if Z.eqb z 0 then None else Some (Bd (/ inject_Z (Z.abs z)) 0 0 0 0)
    | Emul a b => obind (binv a) (fun x => obind (binv b) (fun y => Some (bprod x y)))
    | _ => None
    end.
  Fixpoint bnd (e : expr) : option bound :=
    match e with
    | EV i => Some (match kd i with Length => Bd 1 0 1 0 0 | Area => Bd 1 0 2 0 0 | Stiffness => Bd 1 0 0 0 1 end)
    | EL j => Some (Bd 1 1 0 0 0)
    | EZ z => Some (Bd (inject_Z (Z.abs z)) 0 0 0 0)
    | Eadd a b => obind (bnd a) (fun x => obind (bnd b) (bsum x))
    | Esub a b => obind (bnd a) (fun x => obind (bnd b) (bsum x))
    | Emul a b => obind (bnd a) (fun x => obind (bnd b) (fun y => Some (bprod x y)))
    | Ediv a b => obind (bnd a) (fun x => obind (binv b) (fun y => Some (bprod x y)))
    | Eopp a => bnd a
    end.

  Variables h rho s delta : R.
  Hypothesis Hh : 0 < h.
  Hypothesis Hr : 1 <= rho.
  Hypothesis Hs : 0 <= s.
  Hypothesis Hd : 0 <= delta.
  Variables L1 L2 : lits R.
  Hypothesis HL : forall j, Rabs (lit_val L1 j) <= 1 /\ Rabs (lit_val L2 j) <= 1 /\ Rabs (lit_val L1 j - lit_val L2 j) <= delta.
  Variable r : nat -> R.
  Hypothesis HV : forall i, match kd i with
    | Length => Rabs (r i) <= h
    | Area => 0 < r i <= h * h /\ h * h <= rho * r i
    | Stiffness => Rabs (r i) <= s end.

  Definition mono (b : bound) : R := powerRZ h (bh b) * rho ^ br b * s ^ bs b.
  Definition holds (b : bound) (x y : R) : Prop :=
    0 <= Q2R (bv b) /\ 0 <= Q2R (bd b) /\
    Rabs x <= Q2R (bv b) * mono b /\ Rabs y <= Q2R (bv b) * mono b /\ Rabs (x - y) <= delta * Q2R (bd b) * mono b.

  Lemma mono_nonneg : forall b, 0 <= mono b.
  Proof.
    intros b. unfold mono. apply Rmult_le_pos; [apply Rmult_le_pos|]; [left; apply powerRZ_lt, Hh|apply pow_le; lra|apply pow_le, Hs].
  Qed.
  Lemma mono_prod : forall a b, mono (bprod a b) = mono a * mono b.
  Proof. intros a b. unfold mono, bprod; cbn [bh br bs]. rewrite powerRZ_add by lra. rewrite !pow_add. ring. Qed.

  Lemma holds_prod : forall a b x1 x2 y1 y2, holds a x1 y1 -> holds b x2 y2 -> holds (bprod a b) (x1 * x2) (y1 * y2).
  Proof.
    intros a b x1 x2 y1 y2 [A1 [A2 [A3 [A4 A5]]]] [B1 [B2 [B3 [B4 B5]]]]. unfold holds. rewrite mono_prod.
    assert (MA := mono_nonneg a). assert (MB := mono_nonneg b). unfold bprod; cbn [bv bd].
    rewrite Q2R_plus, !Q2R_mult. set (va := Q2R (bv a)) in *. set (da := Q2R (bd a)) in *. set (vb := Q2R (bv b)) in *. set (db := Q2R (bd b)) in *.
    set (ma := mono a) in *. set (mb := mono b) in *. clearbody va da vb db ma mb.
    assert (P : forall a b, 0 <= a -> 0 <= b -> 0 <= a * b) by (intros; apply Rmult_le_pos; assumption).
    assert (Q : forall x y u v, Rabs x <= u -> Rabs y <= v -> Rabs (x * y) <= u * v).
    { intros x y u v X Y. rewrite Rabs_mult. apply Rmult_le_compat; auto using Rabs_pos. }
    split; [auto|]. split; [apply Rplus_le_le_0_compat; auto|]. split; [|split].
    - replace (va * vb * (ma * mb)) with ((va * ma) * (vb * mb)) by ring. auto.
    - replace (va * vb * (ma * mb)) with ((va * ma) * (vb * mb)) by ring. auto.
    - replace (x1 * x2 - y1 * y2) with ((x1 - y1) * x2 + y1 * (x2 - y2)) by ring.
      eapply Rle_trans; [apply Rabs_triang|].
      replace (delta * (da * vb + va * db) * (ma * mb)) with ((delta * da * ma) * (vb * mb) + (va * ma) * (delta * db * mb)) by ring.
      apply Rplus_le_compat; auto.
  Qed.

  Lemma holds_raise : forall b n x y, (br b <= n)%nat -> holds b x y -> holds (Bd (bv b) (bd b) (bh b) n (bs b)) x y.
  Proof.
    intros b n x y N [A1 [A2 [A3 [A4 A5]]]].
    assert (M : mono b <= mono (Bd (bv b) (bd b) (bh b) n (bs b))).
    { unfold mono; cbn [bh br bs]. apply Rmult_le_compat_r; [apply pow_le, Hs|]. apply Rmult_le_compat_l; [left; apply powerRZ_lt, Hh|].
      apply Rle_pow; assumption. }
    split; [exact A1|]. split; [exact A2|]. cbn [bv bd]. split; [|split].
    - eapply Rle_trans; [exact A3|]. apply Rmult_le_compat_l; assumption.
    - eapply Rle_trans; [exact A4|]. apply Rmult_le_compat_l; assumption.
    - eapply Rle_trans; [exact A5|]. apply Rmult_le_compat_l; [apply Rmult_le_pos; assumption|assumption].
  Qed.

  Lemma holds_sum : forall a b c x1 x2 y1 y2, bsum a b = Some c -> holds a x1 y1 -> holds b x2 y2 -> holds c (x1 + x2) (y1 + y2).
  Proof.
    intros a b c x1 x2 y1 y2 E HA HB. unfold bsum in E. destruct (Z.eqb_spec (bh a) (bh b)) as [EH|]; [|discriminate].
    destruct (Nat.eqb_spec (bs a) (bs b)) as [ES|]; [|discriminate]. cbn in E. injection E as <-.
    apply (holds_raise a (Nat.max (br a) (br b))) in HA; [|lia]. apply (holds_raise b (Nat.max (br a) (br b))) in HB; [|lia].
    destruct HA as [A1 [A2 [A3 [A4 A5]]]]. destruct HB as [B1 [B2 [B3 [B4 B5]]]]. unfold holds. unfold mono in *. cbn [bv bd bh br bs] in *.
    rewrite EH, ES in *. rewrite !Q2R_plus.
    set (m := powerRZ h (bh b) * rho ^ Nat.max (br a) (br b) * s ^ bs b) in *. clearbody m.
    split; [lra|]. split; [lra|]. split; [|split].
    - eapply Rle_trans; [apply Rabs_triang|]. lra.
    - eapply Rle_trans; [apply Rabs_triang|]. lra.
    - replace (x1 + x2 - (y1 + y2)) with ((x1 - y1) + (x2 - y2)) by ring. eapply Rle_trans; [apply Rabs_triang|]. lra.
  Qed.

  Lemma holds_opp : forall b x y, holds b x y -> holds b (- x) (- y).
  Proof.
    intros b x y [A1 [A2 [A3 [A4 A5]]]]. split; [exact A1|]. split; [exact A2|]. rewrite !Rabs_Ropp. split; [exact A3|]. split; [exact A4|].
    replace (- x - - y) with (- (x - y)) by ring. rewrite Rabs_Ropp. exact A5.
  Qed.

  Lemma Q2R_Z : forall z, Q2R (inject_Z z) = IZR z.
  Proof. intros z. unfold Q2R, inject_Z; cbn. field. Qed.
  Lemma Q2R_0 : Q2R 0 = 0.
  Proof. apply (Q2R_Z 0). Qed.
  Lemma Q2R_1 : Q2R 1 = 1.
  Proof. apply (Q2R_Z 1). Qed.

  Lemma holds_exact : forall v k n l x, 0 <= Q2R v -> Rabs x <= Q2R v * mono (Bd v 0 k n l) -> holds (Bd v 0 k n l) x x.
  Proof.
    intros v k n l x V X. unfold holds; cbn [bv bd]. rewrite Q2R_0. split; [exact V|]. split; [lra|]. split; [exact X|]. split; [exact X|].
    replace (x - x) with 0 by ring. rewrite Rabs_R0. lra.
  Qed.

  Lemma binv_ok : forall e b, binv e = Some b -> eval L1 r e = eval L2 r e /\ holds b (/ eval L1 r e) (/ eval L2 r e).
  Proof.
    induction e as [i|j|z|? IHa ? IHb|? IHa ? IHb|e1 IHa e2 IHb|? IHa ? IHb|? IHa]; intros b E; cbn [binv] in E; try discriminate.
    - assert (X := HV i). destruct (kd i); try discriminate. injection E as <-. split; [reflexivity|]. cbn [eval].
      destruct X as [[X1 X2] X3]. apply holds_exact; [rewrite Q2R_1; lra|]. rewrite Q2R_1. unfold mono; cbn [bh br bs].
      assert (IP : 0 < / r i) by (apply Rinv_0_lt_compat, X1). rewrite Rabs_right by lra. cbn [powerRZ Pos.to_nat Pos.iter_op Init.Nat.add pow].
      assert (HP : 0 < h * h) by (apply Rmult_lt_0_compat; exact Hh).
      apply Rmult_le_reg_r with (h * h); [exact HP|]. apply Rmult_le_reg_r with (r i); [exact X1|].
      match goal with |- ?a <= ?b => replace a with (h * h) by (field; lra); replace b with (rho * r i) end; [exact X3|].
      change (Pos.to_nat 2) with 2%nat. cbn [pow]. field. lra.
    - destruct (Z.eqb_spec z 0) as [|N]; [discriminate|]. injection E as <-. split; [reflexivity|]. cbn [eval].
      assert (NZ : IZR z <> 0) by (apply not_0_IZR, N).
      assert (AZ : ~ (inject_Z (Z.abs z) == 0)%Q) by (unfold Qeq, inject_Z; cbn; lia).
      assert (V : Q2R (/ inject_Z (Z.abs z)) = / Rabs (IZR z)).
      { rewrite Q2R_inv by exact AZ. rewrite Q2R_Z, abs_IZR. reflexivity. }
      assert (P : 0 < / Rabs (IZR z)) by (apply Rinv_0_lt_compat, Rabs_pos_lt, NZ).
      apply holds_exact; rewrite V; [lra|]. unfold mono; cbn [bh br bs powerRZ pow]. rewrite Rabs_inv. lra.
    - destruct (binv e1) as [x|]; [|discriminate]. destruct (binv e2) as [y|]; [|discriminate]. cbn in E. injection E as <-.
      destruct (IHa x eq_refl) as [A1 A2]. destruct (IHb y eq_refl) as [B1 B2]. cbn [eval]. split; [congruence|].
      rewrite !Rinv_mult. apply holds_prod; assumption.
  Qed.

  Lemma bnd_ok : forall e b, bnd e = Some b -> holds b (eval L1 r e) (eval L2 r e).
  Proof.
    induction e as [i|j|z|e1 IHa e2 IHb|e1 IHa e2 IHb|e1 IHa e2 IHb|e1 IHa e2 IHb|e1 IHa]; intros b E; cbn [bnd] in E; cbn [eval].
    - assert (X := HV i). injection E as <-. destruct (kd i); apply holds_exact; rewrite ?Q2R_1; try lra; unfold mono; cbn [bh br bs powerRZ pow];
        change (Pos.to_nat 1) with 1%nat; change (Pos.to_nat 2) with 2%nat; cbn [pow].
      + lra.
      + rewrite Rabs_right by lra. lra.
      + lra.
    - injection E as <-. destruct (HL j) as [X [Y Z]]. unfold holds, mono; cbn [bv bd bh br bs powerRZ pow]. rewrite !Q2R_1. lra.
    - injection E as <-. apply holds_exact; rewrite Q2R_Z, abs_IZR; [apply Rabs_pos|]. unfold mono; cbn [bh br bs powerRZ pow]. lra.
    - destruct (bnd e1) as [x|]; [|discriminate]. destruct (bnd e2) as [y|]; [|discriminate]. cbn in E. apply (holds_sum x y); auto.
    - destruct (bnd e1) as [x|]; [|discriminate]. destruct (bnd e2) as [y|]; [|discriminate]. cbn in E. apply (holds_sum x y); auto using holds_opp.
    - destruct (bnd e1) as [x|]; [|discriminate]. destruct (bnd e2) as [y|]; [|discriminate]. cbn in E. injection E as <-. apply holds_prod; auto.
    - destruct (bnd e1) as [x|]; [|discriminate]. destruct (binv e2) as [y|] eqn:Ey; [|discriminate]. cbn in E. injection E as <-.
      unfold Rdiv. apply holds_prod; [auto|]. apply (binv_ok e2 y Ey).
    - apply holds_opp; auto.
  Qed.
End Bound.
