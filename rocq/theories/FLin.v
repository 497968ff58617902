(** A positive definite system of linear equations has one solution. *)
From Coq Require Import ZArith Reals List Bool Arith Lra Lia.
From Verif Require Import Num Py Mesh Utils Spec FSum FMat.
Import ListNotations.
Local Open Scope R_scope.
Implicit Types (m : mesh R).

Definition quadL (a : nat -> nat -> R) (l : list nat) (x : nat -> R) : R := Sum (fun i => Sum (fun j => x i * a i j * x j) l) l.
Definition pdL (a : nat -> nat -> R) (l : list nat) : Prop := forall x, (exists i, In i l /\ x i <> 0) -> 0 < quadL a l x.

Lemma quad_row : forall a l x, quadL a l x = Sum (fun i => x i * Sum (fun j => a i j * x j) l) l.
Proof. intros a l x. unfold quadL. apply Sum_ext; intros i. rewrite <- Sum_scal. apply Sum_ext; intros j; ring. Qed.

Lemma elim_step : forall a i0 l x, ~ In i0 l -> a i0 i0 <> 0 -> x i0 = - (Sum (fun j => a i0 j * x j) l) / a i0 i0 ->
  quadL a (i0 :: l) x = quadL (fun i j => a i j - a i i0 * a i0 j / a i0 i0) l x.
Proof.
  intros a i0 l x N P E. rewrite !quad_row. rewrite Sum_cons. rewrite (Sum_cons _ _ i0 l).
  replace (a i0 i0 * x i0 + Sum (fun j => a i0 j * x j) l) with 0 by (rewrite E; field; exact P).
  rewrite Rmult_0_r, Rplus_0_l. apply Sum_ext; intros i. rewrite Sum_cons. f_equal.
  rewrite E.
  transitivity (Sum (fun j => a i j * x j) l + (- (a i i0 / a i0 i0)) * Sum (fun j => a i0 j * x j) l); [field; exact P|].
  rewrite <- Sum_scal, <- Sum_plus. apply Sum_ext; intros j; field; exact P.
Qed.

Lemma solve_pd : forall l a, NoDup l -> pdL a l -> forall b, exists x, forall i, In i l -> Sum (fun j => a i j * x j) l = b i.
Proof.
  induction l as [|i0 l IH]; intros a ND PD b; [exists (fun _ => 0); intros i []|].
  inversion ND as [|? ? NI ND']; subst.
  assert (P : 0 < a i0 i0).
  { assert (Q := PD (delta i0)). rewrite quad_row in Q. rewrite Sum_cons in Q.
    assert (D : delta i0 i0 = 1) by (unfold delta; rewrite Nat.eqb_refl; reflexivity).
    assert (Z : forall j, In j l -> delta i0 j = 0).
    { intros j Hj. unfold delta. destruct (Nat.eqb_spec j i0) as [->|X]; [contradiction|reflexivity]. }
    assert (R0 : forall i, Sum (fun j => a i j * delta i0 j) (i0 :: l) = a i i0).
    { intros i. rewrite Sum_cons, D, Sum_zero; [ring|]. intros j Hj. rewrite (Z j Hj). ring. }
    rewrite R0, D, (Sum_zero _ _ l) in Q; [|intros j Hj; rewrite (Z j Hj); ring].
    replace (a i0 i0) with (1 * a i0 i0 + 0) by ring. apply Q. exists i0. split; [left; reflexivity|lra]. }
  assert (NZ : a i0 i0 <> 0) by lra.
  set (a' := fun i j => a i j - a i i0 * a i0 j / a i0 i0).
  assert (PD' : pdL a' l).
  { intros x [i [Hi Xi]].
    set (y := fun k => if Nat.eqb k i0 then - (Sum (fun j => a i0 j * x j) l) / a i0 i0 else x k).
    assert (Y : forall j, In j l -> y j = x j).
    { intros j Hj. unfold y. destruct (Nat.eqb_spec j i0) as [->|X]; [contradiction|reflexivity]. }
    assert (Y0 : y i0 = - (Sum (fun j => a i0 j * y j) l) / a i0 i0).
    { unfold y at 1. rewrite Nat.eqb_refl. f_equal. f_equal. apply Sum_ext_in; intros j Hj; rewrite (Y j Hj); reflexivity. }
    assert (Q := PD y). rewrite (elim_step a i0 l y NI NZ Y0) in Q. fold a' in Q.
    replace (quadL a' l x) with (quadL a' l y).
    - apply Q. exists i. split; [right; exact Hi|rewrite (Y i Hi); exact Xi].
    - unfold quadL. apply Sum_ext_in; intros k Hk. apply Sum_ext_in; intros j Hj. rewrite (Y k Hk), (Y j Hj). reflexivity. }
  destruct (IH a' ND' PD' (fun i => b i - a i i0 * b i0 / a i0 i0)) as [x HX].
  exists (fun k => if Nat.eqb k i0 then (b i0 - Sum (fun j => a i0 j * x j) l) / a i0 i0 else x k).
  assert (Y : forall i, Sum (fun j => a i j * (if Nat.eqb j i0 then (b i0 - Sum (fun j => a i0 j * x j) l) / a i0 i0 else x j)) l
     = Sum (fun j => a i j * x j) l).
  { intros i. apply Sum_ext_in; intros j Hj. destruct (Nat.eqb_spec j i0) as [->|X]; [contradiction|reflexivity]. }
  intros i [<-|Hi]; rewrite Sum_cons, Nat.eqb_refl, Y.
  - field; exact NZ.
  - specialize (HX i Hi). cbv beta in HX.
    assert (E : Sum (fun j => a' i j * x j) l = Sum (fun j => a i j * x j) l - a i i0 / a i0 i0 * Sum (fun j => a i0 j * x j) l).
    { replace (Sum (fun j => a i j * x j) l - a i i0 / a i0 i0 * Sum (fun j => a i0 j * x j) l)
        with (Sum (fun j => a i j * x j) l + (- (a i i0 / a i0 i0)) * Sum (fun j => a i0 j * x j) l) by ring.
      rewrite <- Sum_scal, <- Sum_plus. apply Sum_ext; intros j. unfold a'. field; exact NZ. }
    rewrite E in HX. apply (Rplus_eq_reg_r (- (a i i0 * b i0 / a i0 i0))).
    transitivity (Sum (fun j => a i j * x j) l - a i i0 / a i0 i0 * Sum (fun j => a i0 j * x j) l); [field; exact NZ|]. rewrite HX. ring.
Qed.

(** ** Restriction of a matrix to the degrees of freedom outside [S] *)

Lemma Sum_free : forall (S : nat -> bool) (f : nat -> R) l, (forall i, In i l -> S i = true -> f i = 0) ->
  Sum f l = Sum f (filter (fun i => negb (S i)) l).
Proof.
  intros S f l H. rewrite Sum_filter. apply Sum_ext_in; intros i Hi. destruct (S i) eqn:E; cbn; [apply H; assumption|reflexivity].
Qed.

Section Solve.
  Variable K : matrix R.
  Variable S : nat -> bool.
  Hypothesis PD : forall u, (forall i, (i < mdim K)%nat -> S i = true -> u i = 0) -> 0 <= form K u u /\
    (form K u u = 0 -> forall i, (i < mdim K)%nat -> u i = 0).
  Let free := filter (fun i => negb (S i)) (seq 0 (mdim K)).

  Lemma in_free : forall i, In i free <-> (i < mdim K)%nat /\ S i = false.
  Proof.
    intros i. unfold free. rewrite filter_In, in_seq. destruct (S i); cbn; split; intros [A B]; try discriminate; split; auto; lia.
  Qed.
  Lemma form_free : forall u, (forall i, (i < mdim K)%nat -> S i = true -> u i = 0) -> form K u u = quadL (mentry K) free u.
  Proof.
    intros u H. unfold form, quadL. rewrite (Sum_free S).
    - apply Sum_ext; intros i. apply (Sum_free S). intros j Hj Sj. apply in_seq in Hj. rewrite (H j); [ring|lia|exact Sj].
    - intros i Hi Si. apply in_seq in Hi. apply Sum_zero. intros j _. rewrite (H i); [ring|lia|exact Si].
  Qed.

  Lemma solve_unique : forall load, exists d, (forall i, (i < mdim K)%nat -> if S i then d i = 0 else mulv K d i = load i) /\
    forall d', (forall i, (i < mdim K)%nat -> if S i then d' i = 0 else mulv K d' i = load i) -> forall i, (i < mdim K)%nat -> d' i = d i.
  Proof.
    intros load.
    assert (NDF : NoDup free) by (apply NoDup_filter, seq_NoDup).
    assert (PF : pdL (mentry K) free).
    { intros x [i [Hi Xi]]. set (y := fun k => if S k then 0 else x k).
      assert (HY : forall i, (i < mdim K)%nat -> S i = true -> y i = 0) by (intros k _ Sk; unfold y; rewrite Sk; reflexivity).
      destruct (PD y HY) as [Q1 Q2]. rewrite (form_free y HY) in Q1, Q2.
      assert (E : quadL (mentry K) free x = quadL (mentry K) free y).
      { unfold quadL. apply Sum_ext_in; intros k Hk. apply Sum_ext_in; intros j Hj. apply in_free in Hk. apply in_free in Hj.
        unfold y. rewrite (proj2 Hk), (proj2 Hj). reflexivity. }
      rewrite E. destruct Q1 as [Q1|Q1]; [exact Q1|]. exfalso. apply in_free in Hi. symmetry in Q1.
      specialize (Q2 Q1 i (proj1 Hi)). unfold y in Q2. rewrite (proj2 Hi) in Q2. contradiction. }
    destruct (solve_pd free (mentry K) NDF PF load) as [x HX].
    set (d := fun k => if S k then 0 else x k).
    assert (HD : forall i, (i < mdim K)%nat -> if S i then d i = 0 else mulv K d i = load i).
    { intros i Hi. destruct (S i) eqn:Si; [unfold d; rewrite Si; reflexivity|]. rewrite <- (HX i) by (apply in_free; auto).
      unfold mulv. rewrite (Sum_free S).
      - apply Sum_ext_in; intros j Hj. apply in_free in Hj. unfold d. rewrite (proj2 Hj). reflexivity.
      - intros j _ Sj. unfold d. rewrite Sj. ring. }
    exists d. split; [exact HD|]. intros d' HD' i Hi.
    set (e := fun k => d' k - d k).
    assert (HE : forall i, (i < mdim K)%nat -> S i = true -> e i = 0).
    { intros k Hk Sk. assert (A := HD k Hk). assert (B := HD' k Hk). rewrite Sk in A, B. unfold e. lra. }
    destruct (PD e HE) as [_ Q]. assert (Z : form K e e = 0).
    { rewrite form_mulv. apply Sum_zero. intros k Hk. apply in_seq in Hk. destruct (S k) eqn:Sk; [rewrite (HE k); [ring|lia|exact Sk]|].
      assert (A := HD k ltac:(lia)). assert (B := HD' k ltac:(lia)). rewrite Sk in A, B.
      replace (mulv K e k) with (mulv K d' k + -1 * mulv K d k); [rewrite A, B; ring|].
      unfold mulv. rewrite <- Sum_scal, <- Sum_plus. apply Sum_ext; intros j. unfold e. ring. }
    specialize (Q Z i Hi). unfold e in Q. lra.
  Qed.
End Solve.
