(** Facts about dictionaries, sets and sorted lists. *)
From Coq Require Import ZArith List Bool Arith Lia Permutation.
From Verif Require Import Num Py.
Import ListNotations.

Lemma pair_eqb_spec : forall a b, pair_eqb a b = true <-> a = b.
Proof.
  intros [a1 a2] [b1 b2]; unfold pair_eqb; cbn [fst snd].
  rewrite andb_true_iff, !Nat.eqb_eq. split; [intros [-> ->]; reflexivity|].
  intros E; inversion E; auto.
Qed.

Section Dict.
  Context {K V : Type} (eqb : K -> K -> bool).
  Hypothesis eqb_spec : forall a b, eqb a b = true <-> a = b.

  Lemma eqb_refl' : forall a, eqb a a = true.
  Proof. intros; apply eqb_spec; reflexivity. Qed.

  Lemma eqb_neq : forall a b, a <> b -> eqb a b = false.
  Proof.
    intros a b H; destruct (eqb a b) eqn:E; [|reflexivity].
    apply eqb_spec in E; contradiction.
  Qed.

  Lemma dget_in : forall k (d : list (K * V)) v, dget eqb k d = Some v -> In (k, v) d.
  Proof.
    intros k d v; induction d as [|[k' v'] d IH]; cbn [dget]; [discriminate|].
    destruct (eqb k k') eqn:E.
    - intros H; inversion H; subst; apply eqb_spec in E; subst; left; reflexivity.
    - intros H; right; auto.
  Qed.

  Lemma dget_some : forall k (d : list (K * V)), In k (map fst d) -> exists v, dget eqb k d = Some v.
  Proof.
    intros k d; induction d as [|[k' v'] d IH]; cbn [map In dget fst]; [intros []|].
    intros H; destruct (eqb k k') eqn:E; [eauto|].
    destruct H as [->|H]; [rewrite eqb_refl' in E; discriminate|auto].
  Qed.

  Lemma dget_none : forall k (d : list (K * V)), ~ In k (map fst d) <-> dget eqb k d = None.
  Proof.
    intros k d; induction d as [|[k' v'] d IH]; cbn [map In dget fst]; [tauto|].
    destruct (eqb k k') eqn:E.
    - apply eqb_spec in E; subst; split; [intros H; exfalso; auto|discriminate].
    - rewrite <- IH. split; [tauto|]. intros H [->|H']; [rewrite eqb_refl' in E; discriminate|auto].
  Qed.

  Lemma in_dget : forall k v (d : list (K * V)), NoDup (map fst d) -> In (k, v) d -> dget eqb k d = Some v.
  Proof.
    intros k v d; induction d as [|[k' v'] d IH]; cbn [map In dget fst]; [intros _ []|].
    intros N H; inversion N; subst. destruct H as [H|H].
    - inversion H; subst; rewrite eqb_refl'; reflexivity.
    - rewrite eqb_neq; [auto|]. intros ->. apply H2. apply in_map_iff; exists (k', v); auto.
  Qed.

  Lemma dset_keys_in : forall k v (d : list (K * V)), In k (map fst d) -> map fst (dset eqb k v d) = map fst d.
  Proof.
    intros k v d; induction d as [|[k' v'] d IH]; cbn [map In dset fst]; [intros []|].
    intros H; destruct (eqb k k') eqn:E; cbn [map fst]; [reflexivity|].
    f_equal; apply IH. destruct H as [->|H]; [rewrite eqb_refl' in E; discriminate|exact H].
  Qed.

  Lemma dset_new : forall k v (d : list (K * V)), ~ In k (map fst d) -> dset eqb k v d = d ++ [(k, v)].
  Proof.
    intros k v d; induction d as [|[k' v'] d IH]; cbn [map In dset fst app]; [reflexivity|].
    intros H; rewrite eqb_neq by (intros ->; tauto). rewrite IH by tauto; reflexivity.
  Qed.

  Lemma dget_dset : forall k k' v (d : list (K * V)),
    dget eqb k (dset eqb k' v d) = if eqb k k' then Some v else dget eqb k d.
  Proof.
    intros k k' v d; induction d as [|[k'' v''] d IH]; cbn [dset dget]; [reflexivity|].
    destruct (eqb k' k'') eqn:E; cbn [dget].
    - apply eqb_spec in E; subst. destruct (eqb k k''); reflexivity.
    - rewrite IH. destruct (eqb k k'') eqn:E'; [|reflexivity].
      apply eqb_spec in E'; subst. destruct (eqb k'' k') eqn:E2; [|reflexivity].
      apply eqb_spec in E2; subst; rewrite eqb_refl' in E; discriminate.
  Qed.

  Lemma dupd_keys : forall k f (d : list (K * V)), map fst (dupd eqb k f d) = map fst d.
  Proof.
    intros k f d; induction d as [|[k' v'] d IH]; cbn [map dupd fst]; [reflexivity|].
    destruct (eqb k k'); cbn [map fst]; [reflexivity|]. f_equal; exact IH.
  Qed.

  Lemma dget_dupd : forall k k' f (d : list (K * V)),
    dget eqb k (dupd eqb k' f d)
    = if eqb k k' then option_map f (dget eqb k d) else dget eqb k d.
  Proof.
    intros k k' f d; induction d as [|[k'' v''] d IH]; cbn [dupd dget].
    - destruct (eqb k k'); reflexivity.
    - destruct (eqb k' k'') eqn:E; cbn [dget].
      + apply eqb_spec in E; subst. destruct (eqb k k''); reflexivity.
      + rewrite IH. destruct (eqb k k'') eqn:E'; [|reflexivity].
        apply eqb_spec in E'; subst. destruct (eqb k'' k') eqn:E2; [|reflexivity].
        apply eqb_spec in E2; subst; rewrite eqb_refl' in E; discriminate.
  Qed.

  Lemma in_dupd : forall k f (d : list (K * V)) k' v',
    NoDup (map fst d) ->
    (In (k', v') (dupd eqb k f d) <->
     exists v, In (k', v) d /\ v' = if eqb k k' then f v else v).
  Proof.
    intros k f d k' v' N. split.
    - intros H. assert (N' : NoDup (map fst (dupd eqb k f d))) by (rewrite dupd_keys; exact N).
      assert (G := in_dget _ _ _ N' H). rewrite dget_dupd in G.
      destruct (eqb k' k) eqn:E.
      + destruct (dget eqb k' d) as [v|] eqn:D; [|discriminate]. cbn in G; inversion G; subst.
        exists v; split; [apply dget_in; exact D|]. apply eqb_spec in E; subst; rewrite eqb_refl'; reflexivity.
      + exists v'; split; [apply dget_in; exact G|].
        destruct (eqb k k') eqn:E'; [apply eqb_spec in E'; subst; rewrite eqb_refl' in E; discriminate|reflexivity].
    - intros [v [H ->]]. apply dget_in. rewrite dget_dupd, (in_dget k' v) by assumption.
      destruct (eqb k k') eqn:E.
      + apply eqb_spec in E; subst; rewrite eqb_refl'; reflexivity.
      + rewrite eqb_neq; [reflexivity|]. intros ->; rewrite eqb_refl' in E; discriminate.
  Qed.

  Lemma memb_in : forall a (s : list K), memb eqb a s = true <-> In a s.
  Proof.
    intros a s; unfold memb; rewrite existsb_exists. split.
    - intros [b [H E]]; apply eqb_spec in E; subst; exact H.
    - intros H; exists a; split; [exact H|apply eqb_refl'].
  Qed.

  Lemma sadd_in : forall a b (s : list K), In b (sadd eqb a s) <-> b = a \/ In b s.
  Proof.
    intros a b s; unfold sadd. destruct (memb eqb a s) eqn:E.
    - apply memb_in in E. split; [auto|]. intros [->|H]; auto.
    - rewrite in_app_iff; cbn [In]. split; [intros [H|[->|[]]]; auto|intros [->|H]; auto].
  Qed.

  Lemma sadd_nodup : forall a (s : list K), NoDup s -> NoDup (sadd eqb a s).
  Proof.
    intros a s N; unfold sadd. destruct (memb eqb a s) eqn:E; [exact N|].
    apply (Permutation_NoDup (l := a :: s)); [apply Permutation_cons_append|].
    constructor; [|exact N]. intros H; apply memb_in in H; congruence.
  Qed.

  Lemma sadd_old : forall a (s : list K), In a s -> sadd eqb a s = s.
  Proof. intros a s H; unfold sadd; rewrite (proj2 (memb_in a s) H); reflexivity. Qed.

  Lemma sadd_new : forall a (s : list K), ~ In a s -> sadd eqb a s = s ++ [a].
  Proof.
    intros a s H; unfold sadd; destruct (memb eqb a s) eqn:E; [|reflexivity].
    apply memb_in in E; contradiction.
  Qed.
End Dict.

(** ** defaultdict(list) *)

Section Append.
  Context {K V : Type} (eqb : K -> K -> bool).
  Hypothesis eqb_spec : forall a b, eqb a b = true <-> a = b.

  Lemma dappend_keys : forall k (v : V) (d : list (K * list V)),
    map fst (dappend eqb k v d) = sadd eqb k (map fst d).
  Proof.
    intros k v d; induction d as [|[k' vs] d IH]; [reflexivity|].
    cbn [dappend map fst]. unfold sadd, memb in *; cbn [existsb].
    destruct (eqb k k') eqn:E; cbn [orb map fst]; [reflexivity|].
    rewrite IH. destruct (existsb (eqb k) (map fst d)); reflexivity.
  Qed.

  Lemma dget_dappend : forall k k' (v : V) (d : list (K * list V)),
    dget eqb k (dappend eqb k' v d)
    = if eqb k k' then Some (match dget eqb k d with Some vs => vs ++ [v] | None => [v] end)
      else dget eqb k d.
  Proof.
    intros k k' v d; induction d as [|[k'' vs] d IH]; cbn [dappend dget].
    - destruct (eqb k k'); reflexivity.
    - destruct (eqb k' k'') eqn:E; cbn [dget].
      + apply eqb_spec in E; subst. destruct (eqb k k''); reflexivity.
      + rewrite IH. destruct (eqb k k'') eqn:E'; [|reflexivity].
        apply eqb_spec in E'; subst. destruct (eqb k'' k') eqn:E2; [|reflexivity].
        apply eqb_spec in E2; subst.
        rewrite (proj2 (eqb_spec k' k') eq_refl) in E; discriminate.
  Qed.
End Append.

(** ** sorted *)

Lemma zinsert_perm : forall a l, Permutation (zinsert a l) (a :: l).
Proof.
  intros a l; induction l as [|b l IH]; cbn [zinsert]; [reflexivity|].
  destruct (a <=? b)%Z; [reflexivity|]. rewrite IH. apply perm_swap.
Qed.

Lemma zsorted_perm : forall l, Permutation (zsorted l) l.
Proof.
  induction l as [|a l IH]; cbn; [reflexivity|]. rewrite zinsert_perm. rewrite IH; reflexivity.
Qed.
