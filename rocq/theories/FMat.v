(** Facts about matrices updated in place. *)
From Coq Require Import ZArith Reals List Bool Arith Lra Lia.
From Verif Require Import Num Py Mesh Utils Spec FSum.
Import ListNotations.
Local Open Scope R_scope.
Implicit Types (m : mesh R).

(** position of an index, any number if out of range *)
Definition nidx (n : nat) (i : Z) : nat :=
  match pyidx n i with Some k => k | None => 0%nat end.

Definition in_range (n : nat) (i : Z) : Prop := (- Z.of_nat n <= i < Z.of_nat n)%Z.

Lemma pyidx_in_range : forall n i, in_range n i -> pyidx n i = Some (nidx n i) /\ (nidx n i < n)%nat.
Proof.
  intros n i [H1 H2]; unfold nidx, pyidx.
  destruct (Z.leb_spec 0 i).
  - destruct (Z.ltb_spec i (Z.of_nat n)); [split; [reflexivity|lia]|lia].
  - destruct (Z.leb_spec 0 (i + Z.of_nat n)); [split; [reflexivity|lia]|lia].
Qed.

Lemma nidx_nat : forall n i, (i < n)%nat -> nidx n (Z.of_nat i) = i.
Proof.
  intros n i H; unfold nidx, pyidx.
  destruct (Z.leb_spec 0 (Z.of_nat i)); [|lia].
  destruct (Z.ltb_spec (Z.of_nat i) (Z.of_nat n)); [|lia].
  apply Nat2Z.id.
Qed.

(** the increments of the position (i, j) *)
Definition upd_at (n i j : nat) (us : list (Z * Z * R)) : R :=
  Sum (fun u => if (Nat.eqb i (nidx n (fst (fst u))) && Nat.eqb j (nidx n (snd (fst u))))%bool
                then snd u else 0) us.

(** [sum of u(r) * v * w(c)] over a list of updates *)
Definition upd_form (n : nat) (us : list (Z * Z * R)) (u v : nat -> R) : R :=
  Sum (fun x => u (nidx n (fst (fst x))) * snd x * v (nidx n (snd (fst x)))) us.

Lemma upd_form_app : forall n us1 us2 u v,
  upd_form n (us1 ++ us2) u v = upd_form n us1 u v + upd_form n us2 u v.
Proof. intros; apply Sum_app. Qed.

Definition upds_ok {T} (n : nat) (us : list (Z * Z * T)) : Prop :=
  forall x, In x us -> in_range n (fst (fst x)) /\ in_range n (snd (fst x)).

Lemma upds_ok_app : forall T n (us1 us2 : list (Z * Z * T)), upds_ok n us1 -> upds_ok n us2 -> upds_ok n (us1 ++ us2).
Proof. intros T n us1 us2 H1 H2 x Hx; apply in_app_or in Hx; destruct Hx; auto. Qed.

Lemma mupdates_spec : forall us (k : matrix R),
  upds_ok (mdim k) us ->
  exists k', mupdates us k = (k', Ok tt) /\ mdim k' = mdim k /\
    forall i j, mentry k' i j = mentry k i j + upd_at (mdim k) i j us.
Proof.
  induction us as [|[[r c] x] us IH]; intros k H.
  - exists k; repeat split; intros; unfold upd_at; rewrite Sum_nil; ring.
  - destruct (H ((r, c), x) (or_introl eq_refl)) as [Hr Hc]; cbn [fst snd] in Hr, Hc.
    destruct (pyidx_in_range _ _ Hr) as [Er _].
    destruct (pyidx_in_range _ _ Hc) as [Ec _].
    set (k1 := madd_at (nidx (mdim k) r) (nidx (mdim k) c) x k).
    destruct (IH k1) as [k' [E [D F]]].
    { intros y Hy; apply (H y); right; exact Hy. }
    exists k'; split; [|split].
    + unfold mupdates; cbn [for_each mupdate]; rewrite Er, Ec; exact E.
    + exact D.
    + intros i j. rewrite F. unfold upd_at; rewrite Sum_cons; cbn [fst snd].
      unfold k1, madd_at; cbn [mentry mdim].
      destruct (_ && _); cbn [nadd NumR]; ring.
Qed.

(** The form only sees positions inside the matrix, so sums of updates can be
    taken over the updates. *)
Lemma form_upds : forall n us u v, upds_ok n us ->
  Sum (fun i => Sum (fun j => u i * upd_at n i j us * v j) (seq 0 n)) (seq 0 n)
  = upd_form n us u v.
Proof.
  intros n us u v; induction us as [|[[r c] x] us IH]; intros H.
  - unfold upd_form; rewrite Sum_nil. apply Sum_zero; intros i _; apply Sum_zero; intros j _.
    unfold upd_at; rewrite Sum_nil; ring.
  - unfold upd_form; rewrite Sum_cons; cbn [fst snd].
    fold (upd_form n us u v). rewrite <- IH by (intros y Hy; apply H; right; exact Hy).
    destruct (H ((r, c), x) (or_introl eq_refl)) as [Hr Hc]; cbn [fst snd] in Hr, Hc.
    destruct (pyidx_in_range _ _ Hr) as [_ Lr].
    destruct (pyidx_in_range _ _ Hc) as [_ Lc].
    set (rr := nidx n r) in *; set (cc := nidx n c) in *.
    replace (u rr * x * v cc)
      with (Sum (fun i => Sum (fun j => (x * v j * delta cc j) * (u i * delta rr i)) (seq 0 n)) (seq 0 n)).
    + rewrite <- Sum_plus; apply Sum_ext; intros i. rewrite <- Sum_plus; apply Sum_ext; intros j.
      unfold upd_at; rewrite Sum_cons; cbn [fst snd]; fold rr cc. unfold delta.
      destruct (Nat.eqb i rr), (Nat.eqb j cc); cbn [andb]; ring.
    + rewrite (Sum_ext _ _ (fun i => (x * v cc) * (u i * delta rr i))).
      * rewrite Sum_scal, (Sum_delta u rr n Lr); ring.
      * intros i. rewrite Sum_scal_r, (Sum_delta (fun j => x * v j) cc n Lc); reflexivity.
Qed.

Lemma mupdates_form : forall us (k : matrix R),
  upds_ok (mdim k) us ->
  exists k', mupdates us k = (k', Ok tt) /\ mdim k' = mdim k /\
    (forall i j, mentry k' i j = mentry k i j + upd_at (mdim k) i j us) /\
    forall u v, form k' u v = form k u v + upd_form (mdim k) us u v.
Proof.
  intros us k H; destruct (mupdates_spec us k H) as [k' [E [D F]]].
  exists k'; repeat split; auto.
  intros u v; unfold form; rewrite D, <- (form_upds (mdim k) us u v H), <- Sum_plus.
  apply Sum_ext; intros i; rewrite <- Sum_plus; apply Sum_ext; intros j; rewrite F; ring.
Qed.

Lemma form_zeros : forall n u v, form (zeros n) u v = 0.
Proof.
  intros; unfold form; apply Sum_zero; intros i _; apply Sum_zero; intros j _; cbn; ring.
Qed.

(** entries from the form *)
Lemma form_delta : forall (k : matrix R) i j, (i < mdim k)%nat -> (j < mdim k)%nat ->
  form k (delta i) (delta j) = mentry k i j.
Proof.
  intros k i j Hi Hj; unfold form.
  rewrite (Sum_ext _ _ (fun a => mentry k a j * delta i a)).
  - apply (Sum_delta (fun a => mentry k a j)); exact Hi.
  - intros a. rewrite (Sum_delta (fun b => delta i a * mentry k a b)) by exact Hj. ring.
Qed.

Lemma form_mulv : forall (k : matrix R) u v,
  form k u v = Sum (fun i => u i * mulv k v i) (seq 0 (mdim k)).
Proof.
  intros; unfold form, mulv; apply Sum_ext; intros i. rewrite <- Sum_scal; apply Sum_ext; intros; ring.
Qed.

Lemma mulv_form : forall (k : matrix R) v i, (i < mdim k)%nat -> mulv k v i = form k (delta i) v.
Proof.
  intros k v i Hi; rewrite form_mulv.
  rewrite (Sum_ext _ _ (fun a => mulv k v a * delta i a)) by (intros; ring).
  rewrite Sum_delta; auto.
Qed.

Lemma meq_form : forall k1 k2, mdim k1 = mdim k2 ->
  (forall u v, form k1 u v = form k2 u v) -> meq k1 k2.
Proof.
  intros k1 k2 D H; split; [exact D|]. intros i j Hi Hj.
  rewrite <- (form_delta k1 i j Hi Hj), <- (form_delta k2 i j) by (rewrite <- D; assumption).
  apply H.
Qed.

Lemma form_symmetric : forall k, (forall u v, form k u v = form k v u) -> symmetric k.
Proof. intros k H i j Hi Hj; rewrite <- !form_delta by assumption; apply H. Qed.
