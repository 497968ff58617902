(** Well-formedness depends on the connectivity only; histories keep it. *)
From Coq Require Import ZArith Reals List Bool Arith Lra Lia.
From Verif Require Import Num Py Mesh Utils Spec SpecRead FDict FWf CalcK0 Ops FOps FRead FRead2.
Import ListNotations.

Section Any.
Context {T : Type} {NT : Num T}.
Implicit Types (t : tria T) (m : mesh T).

Definition tproj (kt : nat * tria T) :=
  (fst kt, (eid (snd kt), tn1 (snd kt), tn2 (snd kt), tn3 (snd kt), tedges (snd kt))).
Definition eproj (ke : (nat * nat) * edge T) := (fst ke, (en1 (snd ke), en2 (snd ke), etrias (snd ke))).
Definition nproj (kn : nat * node T) := (fst kn, nid (snd kn)).

Record conn (m m' : mesh T) : Prop := {
  cn_nodes : map nproj (nodes m) = map nproj (nodes m');
  cn_elements : map tproj (elements m) = map tproj (elements m');
  cn_edges : map eproj (edges m) = map eproj (edges m')
}.

Lemma conn_refl : forall m, conn m m.
Proof. intros; constructor; reflexivity. Qed.
Lemma conn_sym : forall m m', conn m m' -> conn m' m.
Proof. intros m m' [A B C]; constructor; congruence. Qed.
Lemma conn_trans : forall a b c, conn a b -> conn b c -> conn a c.
Proof. intros a b c [A B C] [A' B' C']; constructor; congruence. Qed.

Lemma map_proj_in : forall A B (f : A -> B) l l' x, map f l = map f l' -> In x l' -> exists y, In y l /\ f y = f x.
Proof.
  intros A B f l l' x E H. apply (in_map f) in H. rewrite <- E in H. apply in_map_iff in H.
  destruct H as [y [E' H]]. eauto.
Qed.

Lemma map_fst_proj : forall A B C (f : A * B -> A * C) l l', (forall x, fst (f x) = fst x) ->
  map f l = map f l' -> map fst l = map fst l'.
Proof.
  intros A B C f l l' H E. rewrite <- (map_ext (fun x => fst (f x)) fst H l), <- (map_ext (fun x => fst (f x)) fst H l').
  rewrite <- !(map_map f fst), E. reflexivity.
Qed.

Section Conn.
  Variables m m' : mesh T.
  Hypothesis C : conn m m'.

  Lemma conn_node_keys : node_keys m = node_keys m'.
  Proof. unfold node_keys. apply (map_fst_proj _ _ _ nproj); [reflexivity|apply C]. Qed.
  Lemma conn_el_keys : map fst (elements m) = map fst (elements m').
  Proof. apply (map_fst_proj _ _ _ tproj); [reflexivity|apply C]. Qed.
  Lemma conn_edge_keys : edge_keys m = edge_keys m'.
  Proof. unfold edge_keys. apply (map_fst_proj _ _ _ eproj); [reflexivity|apply C]. Qed.

  Lemma conn_tria : forall t', In t' (trias_of m') -> exists t, In t (trias_of m) /\
    eid t = eid t' /\ tn1 t = tn1 t' /\ tn2 t = tn2 t' /\ tn3 t = tn3 t' /\ tedges t = tedges t'.
  Proof.
    intros t' H. unfold trias_of in H. apply in_map_iff in H. destruct H as [[k t0] [E H]]. cbn [snd] in E; subst t0.
    destruct (map_proj_in _ _ _ _ _ _ (cn_elements _ _ C) H) as [[k0 t] [H0 E]].
    unfold tproj in E; cbn [fst snd] in E. injection E; intros. exists t.
    split; [apply in_map_iff; exists (k0, t); auto|auto].
  Qed.

  Lemma conn_tris_on : forall k, map eid (tris_on m k) = map eid (tris_on m' k).
  Proof.
    intros k. unfold tris_on, trias_of. assert (E := cn_elements _ _ C). revert E.
    generalize (elements m) (elements m'). induction l as [|[k1 t1] l IH]; intros [|[k2 t2] l2] E; try discriminate; [reflexivity|].
    cbn [map] in E. injection E; intros. cbn [map filter snd].
    assert (V : forall n, is_vertex n t1 = is_vertex n t2) by (intros n; unfold is_vertex; congruence).
    rewrite !V. destruct (is_vertex (fst k) t2 && is_vertex (snd k) t2); cbn [map]; rewrite (IH l2) by assumption; congruence.
  Qed.

  Lemma conn_wf : wf_mesh m -> wf_mesh m'.
  Proof.
    intros W. constructor.
    - rewrite <- conn_node_keys; apply W.
    - intros k n H. destruct (map_proj_in _ _ _ _ _ _ (cn_nodes _ _ C) H) as [[k0 n0] [H0 E]].
      unfold nproj in E; cbn [fst snd] in E. injection E; intros; subst.
      rewrite <- H1. apply (wf_nid m W _ _ H0).
    - rewrite <- conn_el_keys; apply W.
    - intros k t H. destruct (map_proj_in _ _ _ _ _ _ (cn_elements _ _ C) H) as [[k0 t0] [H0 E]].
      unfold tproj in E; cbn [fst snd] in E. injection E; intros; subst.
      rewrite <- H5. apply (wf_eid m W _ _ H0).
    - intros t' H. destruct (conn_tria t' H) as [t [Ht [_ [<- [<- [<- _]]]]]]. apply (wf_distinct m W t Ht).
    - intros t' n H V. destruct (conn_tria t' H) as [t [Ht [_ [E1 [E2 [E3 _]]]]]].
      rewrite <- conn_node_keys. apply (wf_vertices m W t n Ht). unfold vertex in *. rewrite E1, E2, E3; exact V.
    - rewrite <- conn_edge_keys; apply W.
    - intros k e H. destruct (map_proj_in _ _ _ _ _ _ (cn_edges _ _ C) H) as [[k0 e0] [H0 E]].
      unfold eproj in E; cbn [fst snd] in E. injection E; intros; subst.
      rewrite <- H2, <- H3. apply (wf_edge_ends m W _ _ H0).
    - intros k. rewrite <- conn_edge_keys, (wf_edge_keys m W). split.
      + intros [t [Ht Hk]]. unfold trias_of in Ht. apply in_map_iff in Ht. destruct Ht as [[k0 t0] [E H]].
        cbn [snd] in E; subst t0. destruct (map_proj_in _ _ _ _ _ _ (eq_sym (cn_elements _ _ C)) H) as [[k1 t1] [H1 E]].
        unfold tproj in E; cbn [fst snd] in E. injection E; intros. exists t1.
        split; [apply in_map_iff; exists (k1, t1); auto|]. unfold sides in *. congruence.
      + intros [t' [Ht Hk]]. destruct (conn_tria t' Ht) as [t [Ht' [_ [E1 [E2 [E3 _]]]]]].
        exists t; split; [exact Ht'|]. unfold sides in *. congruence.
    - intros k e H. destruct (map_proj_in _ _ _ _ _ _ (cn_edges _ _ C) H) as [[k0 e0] [H0 E]].
      unfold eproj in E; cbn [fst snd] in E. injection E; intros; subst.
      rewrite <- H1, <- conn_tris_on. apply (wf_edge_trias m W _ _ H0).
    - intros t' H k. destruct (conn_tria t' H) as [t [Ht [_ [E1 [E2 [E3 E4]]]]]].
      rewrite <- E4, (wf_tria_edges m W t Ht k). unfold sides. rewrite E1, E2, E3. reflexivity.
    - intros t' H. destruct (conn_tria t' H) as [t [Ht [_ [E1 [E2 [E3 E4]]]]]].
      rewrite <- E4. apply (wf_tria_edges_nodup m W t Ht).
  Qed.
End Conn.

Lemma conn_forget : forall m, conn m (forget m).
Proof.
  intros m; constructor; unfold forget; cbn [nodes elements edges]; rewrite ?map_map; try reflexivity.
Qed.

Lemma map_dupd : forall K V B (eqb : K -> K -> bool) (p : K * V -> B) f k d,
  (forall k v, p (k, f v) = p (k, v)) -> map p (dupd eqb k f d) = map p d.
Proof.
  intros K V B eqb p f k d H; induction d as [|[k' v] d IH]; [reflexivity|].
  cbn [dupd]. destruct (eqb k k'); cbn [map]; [rewrite H; reflexivity|rewrite IH; reflexivity].
Qed.

Lemma conn_op : forall o m, conn m (op_mesh o m).
Proof.
  intros [] m; cbn [op_mesh]; try apply conn_refl.
  - apply conn_trans with (forget m); [apply conn_forget|]. rewrite <- (forget_calc_k0 m prop_from_node).
    apply conn_sym, conn_forget.
  - constructor; try reflexivity. cbn [set_node_prop nodes]. rewrite map_dupd; reflexivity.
  - constructor; try reflexivity. cbn [set_tria_prop elements]. rewrite map_dupd; reflexivity.
  - constructor; try reflexivity. cbn [move_node nodes]. rewrite map_dupd; reflexivity.
Qed.

Lemma conn_run : forall ops m, conn m (run ops m).
Proof.
  unfold run. induction ops as [|o ops IH]; intros m; [apply conn_refl|].
  cbn [fold_left]. apply conn_trans with (op_mesh o m); [apply conn_op|apply IH].
Qed.

Lemma wf_run : forall ops m, wf_mesh m -> wf_mesh (run ops m).
Proof. intros ops m W. apply (conn_wf m); [apply conn_run|exact W]. Qed.

End Any.
