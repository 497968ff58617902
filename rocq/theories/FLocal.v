(** Facts behind locality (C99). *)
From Coq Require Import ZArith Reals List Bool Arith Lra Lia Permutation String.
From Verif Require Import Num Py Mesh Utils Spec SpecK0 SpecKG SpecK0s SpecLocal FSum FMat FWf FTensor FSmooth FRenum LK0 LKG.
Import ListNotations.
Local Open Scope R_scope.
Implicit Types (m : mesh R).

Lemma Sum_rel : forall A B (P : A -> B -> Prop) (f : A -> R) (g : B -> R) l l', Forall2 P l l' -> (forall x y, In x l -> P x y -> f x = g y) -> Sum f l = Sum g l'.
Proof.
  intros A B P f g l l' F. induction F as [|x y l l' H F IH]; intros E; [rewrite !Sum_nil; reflexivity|]. rewrite !Sum_cons. f_equal.
  - apply E; [left; reflexivity|exact H].
  - apply IH. intros a b Ha. apply E. right; exact Ha.
Qed.

Section Same.
  Variables (m m' : mesh R).

  Lemma same_det : forall t t', same_tria t t' -> (forall n, vertex t n -> same_node m m' n) -> tdet m t = tdet m' t' /\ tarea m t = tarea m' t'.
  Proof.
    intros t t' [E1 [E2 [E3 _]]] H. assert (D : tdet m t = tdet m' t').
    { unfold tdet. rewrite <- E1, <- E2, <- E3. destruct (H (tn1 t)) as [-> _]; [left; reflexivity|]. destruct (H (tn2 t)) as [-> _]; [right; left; reflexivity|].
      destruct (H (tn3 t)) as [-> _]; [right; right; reflexivity|]. reflexivity. }
    split; [exact D|]. unfold tarea. rewrite D. reflexivity.
  Qed.

  Lemma same_grad : forall t t' p q, same_tria t t' -> (forall n, vertex t n -> same_node m m' n) -> (forall n, vertex t n -> p n = q n) ->
    tgx m t p = tgx m' t' q /\ tgy m t p = tgy m' t' q.
  Proof.
    intros t t' p q S H E. destruct (same_det t t' S H) as [D _]. destruct S as [E1 [E2 [E3 _]]]. unfold tgx, tgy. rewrite D, <- E1, <- E2, <- E3.
    destruct (H (tn1 t)) as [-> _]; [left; reflexivity|]. destruct (H (tn2 t)) as [-> _]; [right; left; reflexivity|]. destruct (H (tn3 t)) as [-> _]; [right; right; reflexivity|].
    rewrite (E (tn1 t)), (E (tn2 t)), (E (tn3 t)) by (unfold vertex; auto). auto.
  Qed.

  Section Edge.
    Variable k : nat * nat.
    Hypothesis SD : same_domain m m' k.

    Lemma around : forall t n, In t (tris_on m k) -> vertex t n -> same_node m m' n.
    Proof. intros t n Ht Vn. apply (proj2 SD). exists t; auto. Qed.

    Lemma same_areas : Sum (tarea m) (tris_on m k) = Sum (tarea m') (tris_on m' k).
    Proof. apply (Sum_rel _ _ same_tria); [apply SD|]. intros t t' Ht S. apply same_det; [exact S|]. intros n Vn. apply (around t n Ht Vn). Qed.

    Lemma same_sg : forall p q, (forall n, on_domain m k n -> p n = q n) -> sgx m k p = sgx m' k q /\ sgy m k p = sgy m' k q.
    Proof.
      intros p q E. unfold sgx, sgy. rewrite same_areas.
      assert (X : forall t t', In t (tris_on m k) -> same_tria t t' -> tarea m t = tarea m' t' /\ tgx m t p = tgx m' t' q /\ tgy m t p = tgy m' t' q).
      { intros t t' Ht S. split; [apply same_det; [exact S|intros n Vn; apply (around t n Ht Vn)]|]. apply same_grad; [exact S|intros n Vn; apply (around t n Ht Vn)|].
        intros n Vn. apply E. exists t; auto. }
      split; f_equal; (apply (Sum_rel _ _ same_tria); [apply SD|]); intros t t' Ht S; destruct (X t t' Ht S) as [X1 [X2 X3]]; rewrite X1, ?X2, ?X3; congruence.
    Qed.

    Lemma same_strain : forall u u', (forall c n, (c < 5)%nat -> on_domain m k n -> comp m u c n = comp m' u' c n) -> smoothed_strain m u k = smoothed_strain m' u' k.
    Proof.
      intros u u' E. unfold smoothed_strain.
      destruct (same_sg (comp m u 0) (comp m' u' 0)) as [-> ->]; [intros; apply E; [lia|assumption]|].
      destruct (same_sg (comp m u 1) (comp m' u' 1)) as [-> ->]; [intros; apply E; [lia|assumption]|].
      destruct (same_sg (comp m u 3) (comp m' u' 3)) as [-> ->]; [intros; apply E; [lia|assumption]|].
      destruct (same_sg (comp m u 4) (comp m' u' 4)) as [-> ->]; [intros; apply E; [lia|assumption]|]. reflexivity.
    Qed.

    Lemma same_edge_stiffness : forall pfn sel, on_domain m k (fst k) -> on_domain m k (snd k) -> edge_stiffness m pfn sel k = edge_stiffness m' pfn sel k.
    Proof.
      intros pfn sel O1 O2. unfold edge_stiffness. destruct pfn.
      - unfold node_stiffness. rewrite (proj2 (proj2 SD (fst k) O1)), (proj2 (proj2 SD (snd k) O2)).
        assert (E : forall l l', Forall2 same_tria l l' -> (forall t, In t l -> In t (tris_on m k)) ->
          map (fun t => wsum3 (fun _ => 1) (fun n => getp sel (nodeprop m n)) [tn1 t; tn2 t; tn3 t]) l = map (fun t => wsum3 (fun _ => 1) (fun n => getp sel (nodeprop m' n)) [tn1 t; tn2 t; tn3 t]) l').
        { intros l l' F. induction F as [|t t' l l' S F IH]; intros I; [reflexivity|]. cbn [map]. f_equal; [|apply IH; intros x Hx; apply I; right; exact Hx].
          assert (Ht := I t (or_introl eq_refl)). destruct S as [<- [<- [<- _]]]. unfold wsum3, Sum; cbn [map].
          rewrite (proj2 (around t (tn1 t) Ht (or_introl eq_refl))), (proj2 (around t (tn2 t) Ht (or_intror (or_introl eq_refl)))), (proj2 (around t (tn3 t) Ht (or_intror (or_intror eq_refl)))). reflexivity. }
        rewrite (E _ _ (proj1 SD) (fun t H => H)). reflexivity.
      - unfold tria_stiffness, wsum3. rewrite same_areas.
        assert (X : forall g : mat3 R -> R, Sum (fun t => tarea m t * g (getp sel (tprop t))) (tris_on m k) = Sum (fun t => tarea m' t * g (getp sel (tprop t))) (tris_on m' k)).
        { intros g. apply (Sum_rel _ _ same_tria); [apply SD|]. intros t t' Ht S. destruct (same_det t t' S (fun n Vn => around t n Ht Vn)) as [_ ->]. destruct S as [_ [_ [_ ->]]]. reflexivity. }
        rewrite !X. reflexivity.
    Qed.
  End Edge.

  Lemma key_on : forall k, wf_mesh m -> In k (edge_keys m) -> on_domain m k (fst k) /\ on_domain m k (snd k).
  Proof.
    intros k W Hk. apply (wf_edge_keys m W) in Hk. destruct Hk as [t [Ht Hs]].
    assert (V : vertex t (fst k) /\ vertex t (snd k)) by (unfold sides in Hs; unfold vertex; destruct Hs as [<-|[<-|[<-|[]]]]; cbn [fst snd]; lia).
    assert (I : In t (tris_on m k)) by (apply tris_on_in; tauto). split; exists t; tauto.
  Qed.
End Same.

Lemma on_domain_dec : forall m k n, {on_domain m k n} + {~ on_domain m k n}.
Proof.
  intros m k n. unfold on_domain. induction (tris_on m k) as [|t l IH].
  - right. intros [t [[] _]].
  - destruct IH as [H|H]; [left; destruct H as [t' [H1 H2]]; exists t'; split; [right|]; assumption|].
    destruct (is_vertex n t) eqn:IV.
    + left. exists t. split; [left; reflexivity|]. apply is_vertex_iff; exact IV.
    + right. intros [t' [[<-|H1] H2]]; [|apply H; exists t'; auto]. apply is_vertex_iff in H2. congruence.
Qed.

Definition bothb (m : mesh R) (a b : nat) (k : nat * nat) : bool := if on_domain_dec m k a then if on_domain_dec m k b then true else false else false.
Lemma bothb_iff : forall m a b k, bothb m a b k = true <-> on_domain m k a /\ on_domain m k b.
Proof. intros m a b k. unfold bothb. destruct (on_domain_dec m k a), (on_domain_dec m k b); split; intros H; try discriminate; tauto. Qed.

(** sums over the edges agree if the terms vanish unless the edge couples a and b *)
Lemma sum_coupling : forall m m' a b (f g : nat * nat -> R), wf_mesh m -> wf_mesh m' -> same_coupling m m' a b ->
  (forall k, In k (edge_keys m) -> ~ couples m k a b -> f k = 0) -> (forall k, In k (edge_keys m') -> ~ couples m' k a b -> g k = 0) ->
  (forall k, couples m k a b -> f k = g k) -> Sum f (edge_keys m) = Sum g (edge_keys m').
Proof.
  intros m m' a b f g W W' [SC _] Z Z' E.
  assert (Y : forall m0 h, wf_mesh m0 -> (forall k, In k (edge_keys m0) -> ~ couples m0 k a b -> h k = 0) -> Sum h (edge_keys m0) = Sum h (filter (bothb m0 a b) (edge_keys m0))).
  { intros m0 h W0 H. rewrite (Sum_filter_if _ (bothb m0 a b) h). apply Sum_ext_in. intros k Hk. destruct (bothb m0 a b k) eqn:B; [reflexivity|].
    apply H; [exact Hk|]. intros [_ C]. apply bothb_iff in C. congruence. }
  rewrite (Y m f W Z), (Y m' g W' Z').
  assert (MB : forall m0 k, In k (filter (bothb m0 a b) (edge_keys m0)) <-> couples m0 k a b) by (intros m0 k; rewrite filter_In, bothb_iff; unfold couples; tauto).
  transitivity (Sum g (filter (bothb m a b) (edge_keys m))).
  - apply Sum_ext_in. intros k Hk. apply E, MB, Hk.
  - apply Sum_perm, NoDup_Permutation; [apply NoDup_filter, (wf_edges m W)|apply NoDup_filter, (wf_edges m' W')|].
    intros k. rewrite !MB. apply SC.
Qed.

Lemma comp_unit : forall m n c c' n', In n (node_keys m) -> In n' (node_keys m) -> (c < 5)%nat -> (c' < 5)%nat ->
  comp m (delta (rank m n * 5 + c)) c' n' = if (Nat.eqb n n' && Nat.eqb c c')%bool then 1 else 0.
Proof.
  intros m n c c' n' Hn Hn' Hc Hc'. unfold comp, delta. destruct (Nat.eqb_spec n n') as [->|N].
  - destruct (Nat.eqb_spec c c') as [->|N]; cbn [andb].
    + rewrite Nat.eqb_refl. reflexivity.
    + destruct (Nat.eqb_spec (rank m n' * 5 + c) (rank m n' * 5 + c')) as [E|E]; [exfalso; lia|]. destruct (Nat.eqb_spec (rank m n' * 5 + c') (rank m n' * 5 + c)) as [E'|E']; [exfalso; lia|reflexivity].
  - cbn [andb]. assert (RN : rank m n <> rank m n') by (intros E; apply N, (rank_inj m n n' Hn Hn' E)).
    destruct (Nat.eqb_spec (rank m n * 5 + c) (rank m n' * 5 + c')) as [E|E]; [exfalso; lia|]. destruct (Nat.eqb_spec (rank m n' * 5 + c') (rank m n * 5 + c)) as [E'|E']; [exfalso; lia|reflexivity].
Qed.
