(** Facts about sums over lists of reals. *)
From Coq Require Import ZArith Reals List Bool Arith Lra Lia Permutation.
From Verif Require Import Num Py Mesh Utils Spec.
Import ListNotations.
Local Open Scope R_scope.
Implicit Types (m : mesh R).

Lemma Sum_nil : forall A (f : A -> R), Sum f [] = 0.
Proof. reflexivity. Qed.

Lemma Sum_cons : forall A (f : A -> R) a l, Sum f (a :: l) = f a + Sum f l.
Proof. reflexivity. Qed.

Lemma Sum_app : forall A (f : A -> R) l1 l2, Sum f (l1 ++ l2) = Sum f l1 + Sum f l2.
Proof.
  intros A f l1 l2; induction l1 as [|a l1 IH]; cbn [app].
  - rewrite Sum_nil; ring.
  - rewrite !Sum_cons, IH; ring.
Qed.

Lemma Sum_ext_in : forall A (f g : A -> R) l,
  (forall a, In a l -> f a = g a) -> Sum f l = Sum g l.
Proof.
  intros A f g l H; induction l as [|a l IH]; [reflexivity|].
  rewrite !Sum_cons, (H a (or_introl eq_refl)), IH; [reflexivity|].
  intros b Hb; apply H; right; exact Hb.
Qed.

Lemma Sum_ext : forall A (f g : A -> R) l, (forall a, f a = g a) -> Sum f l = Sum g l.
Proof. intros; apply Sum_ext_in; auto. Qed.

Lemma Sum_plus : forall A (f g : A -> R) l, Sum (fun a => f a + g a) l = Sum f l + Sum g l.
Proof.
  intros A f g l; induction l as [|a l IH].
  - rewrite !Sum_nil; ring.
  - rewrite !Sum_cons, IH; ring.
Qed.

Lemma Sum_scal : forall A (c : R) (f : A -> R) l, Sum (fun a => c * f a) l = c * Sum f l.
Proof.
  intros A c f l; induction l as [|a l IH].
  - rewrite !Sum_nil; ring.
  - rewrite !Sum_cons, IH; ring.
Qed.

Lemma Sum_scal_r : forall A (c : R) (f : A -> R) l, Sum (fun a => f a * c) l = Sum f l * c.
Proof.
  intros A c f l; rewrite Rmult_comm, <- Sum_scal; apply Sum_ext; intros; ring.
Qed.

Lemma Sum_zero : forall A (f : A -> R) l, (forall a, In a l -> f a = 0) -> Sum f l = 0.
Proof.
  intros A f l H; induction l as [|a l IH]; [reflexivity|].
  rewrite Sum_cons, (H a (or_introl eq_refl)), IH; [ring|].
  intros b Hb; apply H; right; exact Hb.
Qed.

Lemma Sum_map : forall A B (g : A -> B) (f : B -> R) l, Sum f (map g l) = Sum (fun a => f (g a)) l.
Proof. intros; unfold Sum; rewrite map_map; reflexivity. Qed.

Lemma Sum_nonneg : forall A (f : A -> R) l, (forall a, In a l -> 0 <= f a) -> 0 <= Sum f l.
Proof.
  intros A f l H; induction l as [|a l IH]; [unfold Sum; cbn; lra|].
  rewrite Sum_cons.
  assert (0 <= f a) by (apply H; left; reflexivity).
  assert (0 <= Sum f l) by (apply IH; intros b Hb; apply H; right; exact Hb).
  lra.
Qed.

Lemma Sum_le : forall A (f g : A -> R) l, (forall a, In a l -> f a <= g a) -> Sum f l <= Sum g l.
Proof.
  intros A f g l H; induction l as [|a l IH]; [unfold Sum; cbn; lra|].
  rewrite !Sum_cons.
  assert (f a <= g a) by (apply H; left; reflexivity).
  assert (Sum f l <= Sum g l) by (apply IH; intros b Hb; apply H; right; exact Hb).
  lra.
Qed.

Lemma Sum_perm : forall A (f : A -> R) l1 l2, Permutation l1 l2 -> Sum f l1 = Sum f l2.
Proof.
  intros A f l1 l2 H; induction H; rewrite ?Sum_cons; lra.
Qed.

Lemma Sum_swap : forall A B (f : A -> B -> R) l1 l2,
  Sum (fun a => Sum (fun b => f a b) l2) l1 = Sum (fun b => Sum (fun a => f a b) l1) l2.
Proof.
  intros A B f l1 l2; induction l1 as [|a l1 IH].
  - rewrite Sum_nil. symmetry; apply Sum_zero; intros; reflexivity.
  - rewrite Sum_cons, IH, <- Sum_plus. apply Sum_ext; intros b; rewrite Sum_cons; reflexivity.
Qed.

Lemma Sum_flat_map : forall A B (g : A -> list B) (f : B -> R) l,
  Sum f (flat_map g l) = Sum (fun a => Sum f (g a)) l.
Proof.
  intros A B g f l; induction l as [|a l IH]; [reflexivity|].
  cbn [flat_map]; rewrite Sum_app, Sum_cons, IH; reflexivity.
Qed.

Lemma Sum_filter : forall A (p : A -> bool) (f : A -> R) l,
  Sum f (filter p l) = Sum (fun a => if p a then f a else 0) l.
Proof.
  intros A p f l; induction l as [|a l IH]; [reflexivity|].
  cbn [filter]; rewrite Sum_cons; destruct (p a); rewrite ?Sum_cons, IH; ring.
Qed.

(** Kronecker delta *)
Definition delta (i j : nat) : R := if Nat.eqb j i then 1 else 0.

Lemma Sum_delta_aux : forall (f : nat -> R) i n s, (s <= i < s + n)%nat ->
  Sum (fun j => f j * delta i j) (seq s n) = f i.
Proof.
  intros f i n; induction n as [|n IH]; intros s H; [lia|].
  cbn [seq]; rewrite Sum_cons. unfold delta at 1.
  destruct (Nat.eqb_spec s i) as [->|Hne].
  - rewrite Sum_zero; [ring|].
    intros a Ha; apply in_seq in Ha. unfold delta.
    destruct (Nat.eqb_spec a i); [lia|ring].
  - rewrite IH by lia; ring.
Qed.

Lemma Sum_delta : forall (f : nat -> R) i n, (i < n)%nat ->
  Sum (fun j => f j * delta i j) (seq 0 n) = f i.
Proof. intros; apply Sum_delta_aux; lia. Qed.
