(** Look-ups in well-formed meshes; the triangles on an edge. *)
From Coq Require Import ZArith Reals List Bool Arith Lra Lia.
From Verif Require Import Num Py Mesh Utils Spec FSum FMat FDict FGeom CalcK0.
Import ListNotations.
Local Open Scope R_scope.

Definition nat_eqb_spec := Nat.eqb_eq.

Section Any.
Context {T : Type}.
Implicit Types t : tria T.

(** (n1, n2, n3) is a permutation of (a, b, o) *)
Definition perm3 (t : tria T) (a b o : nat) : Prop :=
  (tn1 t = a /\ tn2 t = b /\ tn3 t = o) \/ (tn1 t = b /\ tn2 t = a /\ tn3 t = o) \/
  (tn1 t = a /\ tn2 t = o /\ tn3 t = b) \/ (tn1 t = b /\ tn2 t = o /\ tn3 t = a) \/
  (tn1 t = o /\ tn2 t = a /\ tn3 t = b) \/ (tn1 t = o /\ tn2 t = b /\ tn3 t = a).

Lemma perm3_swap : forall t a b o, perm3 t a b o -> perm3 t b a o.
Proof. unfold perm3; intros; tauto. Qed.

Lemma is_vertex_iff : forall n t, is_vertex n t = true <-> vertex t n.
Proof.
  intros; unfold is_vertex, vertex. rewrite !orb_true_iff, !Nat.eqb_eq. tauto.
Qed.

Lemma third_perm : forall t a b, a <> b ->
  tn1 t <> tn2 t /\ tn2 t <> tn3 t /\ tn3 t <> tn1 t ->
  vertex t a -> vertex t b -> perm3 t a b (third t (a, b)).
Proof.
  intros t a b N [D1 [D2 D3]] Ha Hb. unfold third, perm3; cbn [fst snd].
  destruct (Nat.eqb_spec (tn1 t) a), (Nat.eqb_spec (tn1 t) b),
           (Nat.eqb_spec (tn2 t) a), (Nat.eqb_spec (tn2 t) b); cbn [orb negb];
  unfold vertex in *; intuition (subst; try congruence).
Qed.

Lemma perm3_third : forall t a b o, a <> b -> o <> a -> o <> b ->
  perm3 t a b o -> third t (a, b) = o.
Proof.
  intros t a b o N1 N2 N3 H. unfold third; cbn [fst snd].
  destruct H as [H|[H|[H|[H|[H|H]]]]]; destruct H as [-> [-> ->]];
  rewrite ?Nat.eqb_refl, ?(proj2 (Nat.eqb_neq _ _) N1), ?(proj2 (Nat.eqb_neq _ _) N2),
          ?(proj2 (Nat.eqb_neq _ _) N3), ?(proj2 (Nat.eqb_neq _ _) (not_eq_sym N1)); reflexivity.
Qed.

Lemma perm3_distinct : forall t a b o,
  tn1 t <> tn2 t /\ tn2 t <> tn3 t /\ tn3 t <> tn1 t -> perm3 t a b o -> a <> b /\ o <> a /\ o <> b.
Proof.
  intros t a b o [D1 [D2 D3]] H.
  destruct H as [H|[H|[H|[H|[H|H]]]]]; destruct H as [<- [<- <-]]; auto.
Qed.

Lemma perm3_vertex : forall t a b o, perm3 t a b o -> vertex t a /\ vertex t b /\ vertex t o.
Proof.
  intros t a b o H; unfold vertex.
  destruct H as [H|[H|[H|[H|[H|H]]]]]; destruct H as [-> [-> ->]]; auto.
Qed.

Lemma sides_vertices : forall t k, In k (sides t) -> vertex t (fst k) /\ vertex t (snd k).
Proof.
  intros t k H; unfold sides in H; unfold vertex; cbn [In] in H.
  destruct H as [<-|[<-|[<-|[]]]]; cbn [fst snd];
  (split; [edestruct Nat.min_dec as [->| ->]|edestruct Nat.max_dec as [->| ->]]; tauto).
Qed.

Lemma vertices_sides : forall t a b, (a < b)%nat -> vertex t a -> vertex t b -> In (a, b) (sides t).
Proof.
  intros t a b L Ha Hb; unfold sides; cbn [In]; unfold vertex in *.
  destruct Ha as [->|[->| ->]], Hb as [->|[->| ->]]; try lia;
  first [left; f_equal; lia | right; left; f_equal; lia | right; right; left; f_equal; lia].
Qed.

End Any.

(** ** Geometry of a triangle does not depend on the order of its vertices *)

Section Perm.
  Variables (m : mesh R) (t : tria R) (a b o : nat).
  Hypothesis P : perm3 t a b o.

  Lemma tdet_perm : tdet m t = det2 (pos m a) (pos m b) (pos m o)
                 \/ tdet m t = - det2 (pos m a) (pos m b) (pos m o).
  Proof.
    unfold tdet. destruct P as [H|[H|[H|[H|[H|H]]]]]; destruct H as [-> [-> ->]]; unfold det2;
    (left; ring) || (right; ring).
  Qed.

  Lemma tarea_perm : tarea m t = Rabs (det2 (pos m a) (pos m b) (pos m o)) / 2.
  Proof. unfold tarea. destruct tdet_perm as [->| ->]; rewrite ?Rabs_Ropp; reflexivity. Qed.

  Lemma tgx_perm : forall q, tdet m t <> 0 ->
    tgx m t q = numx (pos m a) (pos m b) (pos m o) (q a) (q b) (q o)
                / det2 (pos m a) (pos m b) (pos m o).
  Proof.
    intros q. unfold tgx, tdet.
    destruct P as [H|[H|[H|[H|[H|H]]]]]; destruct H as [-> [-> ->]]; unfold numx; intros D;
    assert (D' : det2 (pos m a) (pos m b) (pos m o) <> 0) by
      (intros Z; apply D; unfold det2 in *; lra);
    unfold det2 in *; field; repeat split; assumption.
  Qed.

  Lemma tgy_perm : forall q, tdet m t <> 0 ->
    tgy m t q = numy (pos m a) (pos m b) (pos m o) (q a) (q b) (q o)
                / det2 (pos m a) (pos m b) (pos m o).
  Proof.
    intros q. unfold tgy, tdet.
    destruct P as [H|[H|[H|[H|[H|H]]]]]; destruct H as [-> [-> ->]]; unfold numy; intros D;
    assert (D' : det2 (pos m a) (pos m b) (pos m o) <> 0) by
      (intros Z; apply D; unfold det2 in *; lra);
    unfold det2 in *; field; repeat split; assumption.
  Qed.

  Lemma mid3_perm : mid3 (pos m (tn1 t)) (pos m (tn2 t)) (pos m (tn3 t))
                    = mid3 (pos m a) (pos m b) (pos m o).
  Proof.
    destruct P as [H|[H|[H|[H|[H|H]]]]]; destruct H as [-> [-> ->]];
    unfold mid3, vdivs, vadd; cbn; f_equal; f_equal; ring.
  Qed.
End Perm.

(** ** Look-ups *)

Section Wf.
  Context {T : Type}.
  Variable m : mesh T.
  Hypothesis W : wf_mesh m.

  Lemma tria_found : forall t, In t (trias_of m) -> get_tria m (eid t) = Ok t.
  Proof.
    intros t H. unfold trias_of in H. apply in_map_iff in H. destruct H as [[k t'] [E H]].
    cbn in E; subst t'. unfold get_tria. rewrite (wf_eid m W k t H).
    rewrite (in_dget Nat.eqb nat_eqb_spec k t) by (exact (wf_elements m W) || exact H). reflexivity.
  Qed.

  Lemma tris_on_in : forall k t, In t (tris_on m k) <->
    In t (trias_of m) /\ vertex t (fst k) /\ vertex t (snd k).
  Proof.
    intros; unfold tris_on. rewrite filter_In, andb_true_iff, !is_vertex_iff. tauto.
  Qed.

  Lemma edge_key_lt : forall k, In k (edge_keys m) -> (fst k < snd k)%nat.
  Proof.
    intros k H. unfold edge_keys in H. apply in_map_iff in H. destruct H as [[k' e] [E H]].
    cbn in E; subst. apply (wf_edge_ends m W k e H).
  Qed.

  Lemma tris_on_nonempty : forall k, In k (edge_keys m) -> tris_on m k <> [].
  Proof.
    intros k H. apply (wf_edge_keys m W) in H. destruct H as [t [Ht Hs]].
    apply sides_vertices in Hs. assert (I : In t (tris_on m k)) by (apply tris_on_in; tauto).
    intros E; rewrite E in I; exact I.
  Qed.

  Lemma edge_tria : forall k t, In k (edge_keys m) -> In t (tris_on m k) ->
    perm3 t (fst k) (snd k) (third t k) /\
    fst k <> snd k /\ third t k <> fst k /\ third t k <> snd k /\
    In (fst k) (node_keys m) /\ In (snd k) (node_keys m) /\ In (third t k) (node_keys m).
  Proof.
    intros [a b] t Hk Ht. apply edge_key_lt in Hk; cbn [fst snd] in *.
    apply tris_on_in in Ht; cbn [fst snd] in Ht; destruct Ht as [Ht [Ha Hb]].
    assert (D := wf_distinct m W t Ht).
    assert (P : perm3 t a b (third t (a, b))) by (apply third_perm; auto; lia).
    destruct (perm3_distinct t _ _ _ D P) as [N1 [N2 N3]].
    destruct (perm3_vertex t _ _ _ P) as [Va [Vb Vo]].
    repeat split; auto; apply (wf_vertices m W t); auto.
  Qed.

End Wf.

Section WfR.
  Variable m : mesh R.
  Hypothesis W : wf_mesh m.

  Lemma node_found : forall n, In n (node_keys m) ->
    exists nd, get_node m n = Ok nd /\ nid nd = n /\ nxyz nd = pos m n /\ nprop nd = nodeprop m n
               /\ In (n, nd) (nodes m).
  Proof.
    intros n H. destruct (dget_some Nat.eqb nat_eqb_spec n (nodes m) H) as [nd E].
    exists nd. unfold get_node, pos, nodeprop. rewrite E.
    assert (In (n, nd) (nodes m)) by (apply (dget_in Nat.eqb nat_eqb_spec); exact E).
    repeat split; auto. exact (wf_nid m W n nd H0).
  Qed.

  Lemma getMid_perm : forall t a b o, In t (trias_of m) -> perm3 t a b o ->
    getMid m t = Ok (mid3 (pos m a) (pos m b) (pos m o)).
  Proof.
    intros t a b o Ht P. unfold getMid.
    destruct (node_found (tn1 t)) as [d1 [-> [_ [E1 _]]]]; [apply (wf_vertices m W t); unfold vertex; auto|].
    destruct (node_found (tn2 t)) as [d2 [-> [_ [E2 _]]]]; [apply (wf_vertices m W t); unfold vertex; auto|].
    destruct (node_found (tn3 t)) as [d3 [-> [_ [E3 _]]]]; [apply (wf_vertices m W t); unfold vertex; auto|].
    cbn [bind]. rewrite E1, E2, E3. f_equal. apply mid3_perm; exact P.
  Qed.
End WfR.

(** ** othernode *)

Lemma othernode_third : forall T (t : tria T) e a b o, en1 e = a -> en2 e = b ->
  a <> b -> o <> a -> o <> b -> perm3 t a b o -> othernode_id t e = Ok o.
Proof.
  intros T t e a b o E1 E2 N1 N2 N3 P. unfold othernode_id, node_ids. rewrite E1, E2.
  assert (X : forall x y, x <> y -> Nat.eqb x y = false) by (intros; apply Nat.eqb_neq; auto).
  destruct P as [H|[H|[H|[H|[H|H]]]]]; destruct H as [-> [-> ->]];
  unfold sset, sdiff, sadd, memb; cbn [fold_left existsb];
  repeat (rewrite ?(X a b), ?(X b a), ?(X a o), ?(X b o), ?(X o a), ?(X o b), ?Nat.eqb_refl by auto;
          cbn [orb negb app existsb filter]); reflexivity.
Qed.

(** ** Ranks *)

Lemma index_in_lt : forall l a, In a l -> (index_in a l < length l)%nat.
Proof.
  induction l as [|b l IH]; intros a H; [destruct H|]. cbn [index_in length].
  destruct (Nat.eqb_spec a b); [lia|]. destruct H as [->|H]; [congruence|]. apply IH in H; lia.
Qed.

Lemma index_in_inj : forall l a b, In a l -> In b l -> index_in a l = index_in b l -> a = b.
Proof.
  induction l as [|c l IH]; intros a b Ha Hb E; [destruct Ha|]. cbn [index_in] in E.
  destruct (Nat.eqb_spec a c), (Nat.eqb_spec b c); try discriminate; [congruence|].
  destruct Ha as [->|Ha]; [congruence|]. destruct Hb as [->|Hb]; [congruence|].
  apply IH; auto.
Qed.

Lemma rank_lt : forall T (m : mesh T) n, In n (node_keys m) -> (rank m n < length (nodes m))%nat.
Proof.
  intros T m n H. unfold rank. replace (length (nodes m)) with (length (node_keys m)) by apply map_length.
  apply index_in_lt; exact H.
Qed.

Lemma rank_inj : forall T (m : mesh T) a b, In a (node_keys m) -> In b (node_keys m) -> rank m a = rank m b -> a = b.
Proof. intros T m a b; apply index_in_inj. Qed.

Arguments othernode_third {T}.
Arguments rank_lt {T}.
Arguments rank_inj {T}.
