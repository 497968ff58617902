(** Consequences: the mesh that the readers return. *)
From Coq Require Import ZArith Reals List Bool Arith Lra Lia Permutation.
From Verif Require Import Num Py Mesh Spec SpecRead FSum FDict FWf FRead.
Import ListNotations.

Section Any.
Context {T : Type} {NT : Num T}.
Implicit Types (t : tria T) (m : mesh T).

Lemma sides_nodup : forall t : tria T, distinct t -> NoDup (sides t).
Proof.
  intros t [D1 [D2 D3]]; unfold sides.
  assert (X : forall a b c d : nat, (Nat.min a b, Nat.max a b) = (Nat.min c d, Nat.max c d) ->
     (a = c /\ b = d) \/ (a = d /\ b = c)) by (intros a b c d E; injection E; lia).
  repeat constructor; cbn [In].
  - intros [H|[H|[]]]; apply X in H; lia.
  - intros [H|[]]; apply X in H; lia.
  - intros [].
Qed.

Lemma sides_lt : forall t k, distinct t -> In k (sides t) -> (fst k < snd k)%nat.
Proof.
  intros t k [D1 [D2 D3]] H; unfold sides in H; cbn [In] in H.
  destruct H as [<-|[<-|[<-|[]]]]; cbn [fst snd]; lia.
Qed.

Lemma sides_le : forall (t : tria T) k, In k (sides t) -> (fst k <= snd k)%nat.
Proof.
  intros t k H; unfold sides in H; cbn [In] in H.
  destruct H as [<-|[<-|[<-|[]]]]; cbn [fst snd]; lia.
Qed.

Lemma filter_pair_in : forall k l, NoDup l -> In k l -> filter (pair_eqb k) l = [k].
Proof.
  intros k l; induction l as [|a l IH]; intros N H; [destruct H|].
  inversion N; subst. cbn [filter]. destruct (pair_eqb k a) eqn:E.
  - apply pair_eqb_spec in E; subst a. f_equal.
    clear -H2. induction l as [|b l IH]; [reflexivity|]. cbn [filter].
    destruct (pair_eqb k b) eqn:E; [apply pair_eqb_spec in E; subst; exfalso; apply H2; left; reflexivity|].
    apply IH. intros X; apply H2; right; exact X.
  - destruct H as [->|H]; [|auto]. rewrite (proj2 (pair_eqb_spec k k) eq_refl) in E; discriminate.
Qed.

Lemma filter_pair_out : forall k l, ~ In k l -> filter (pair_eqb k) l = [].
Proof.
  intros k l; induction l as [|a l IH]; intros H; [reflexivity|].
  cbn [filter]. destruct (pair_eqb k a) eqn:E.
  - apply pair_eqb_spec in E; subst; exfalso; apply H; left; reflexivity.
  - apply IH. intros X; apply H; right; exact X.
Qed.

Lemma on_edge_distinct : forall k t, distinct t -> (fst k < snd k)%nat ->
  on_edge k t = if is_vertex (fst k) t && is_vertex (snd k) t then [eid t] else [].
Proof.
  intros k t D L. unfold on_edge.
  destruct (is_vertex (fst k) t && is_vertex (snd k) t) eqn:E.
  - apply andb_true_iff in E. rewrite !is_vertex_iff in E. destruct E as [Va Vb].
    rewrite filter_pair_in; [reflexivity|apply sides_nodup; exact D|].
    destruct k as [a b]; apply vertices_sides; assumption.
  - rewrite filter_pair_out; [reflexivity|].
    intros H; apply sides_vertices in H. rewrite <- !is_vertex_iff in H. destruct H as [H1 H2].
    rewrite H1, H2 in E; discriminate.
Qed.

Lemma on_edge_in : forall k t e, In e (on_edge k t) <-> e = eid t /\ In k (sides t).
Proof.
  intros k t e; unfold on_edge. rewrite in_map_iff. split.
  - intros [x [E H]]. apply filter_In in H. destruct H as [H P]. apply pair_eqb_spec in P; subst. auto.
  - intros [-> H]. exists k; split; [reflexivity|]. apply filter_In; split; [exact H|].
    apply pair_eqb_spec; reflexivity.
Qed.

Lemma Forall2_length : forall A B (P : A -> B -> Prop) l l', Forall2 P l l' -> length l = length l'.
Proof. intros A B P l l' H; induction H; cbn; congruence. Qed.

(** ** Points *)

Lemma point_xyz_ok : forall pt p, point_xyz pt = Ok p -> pt_at pt p.
Proof.
  intros [|a [|b [|c [|d l]]]] p H; cbn in H; try discriminate; inversion H; subst; unfold pt_at; cbn; auto.
Qed.

Lemma point_xyz_total : forall pt, pt_ok pt -> exists p, point_xyz pt = Ok p.
Proof.
  intros [|a [|b [|c [|d l]]]] [H|H]; cbn in H; try discriminate; cbn; eauto.
Qed.

Lemma point_xyz_bad : forall pt, ~ pt_ok pt -> point_xyz pt = Raise AssertionError.
Proof.
  intros [|a [|b [|c [|d l]]]] H; cbn; try reflexivity; exfalso; apply H; unfold pt_ok; cbn; auto.
Qed.

Lemma read_points_ok : forall pts k, Forall pt_ok pts -> exists ps,
  Forall2 pt_at pts ps /\
  read_points k pts = Ok (map (fun q => (fst q, new_node (fst q) (snd q))) (combine (seq (S k) (length pts)) ps)).
Proof.
  induction pts as [|pt pts IH]; intros k F.
  - exists []; split; [constructor|reflexivity].
  - inversion F; subst. destruct (point_xyz_total pt H1) as [p E].
    destruct (IH (S k) H2) as [ps [F2 E2]].
    exists (p :: ps); split; [constructor; [apply point_xyz_ok; exact E|exact F2]|].
    cbn [read_points]. rewrite E; cbn [bind]. rewrite E2; reflexivity.
Qed.

Lemma read_points_bad : forall pts k, ~ Forall pt_ok pts -> exists e, read_points k pts = Raise e.
Proof.
  induction pts as [|pt pts IH]; intros k F; [exfalso; apply F; constructor|].
  cbn [read_points]. destruct (point_xyz pt) as [p|e] eqn:E; cbn [bind]; [|eauto].
  destruct (IH (S k)) as [e E2].
  - intros G; apply F; constructor; [|exact G].
    apply point_xyz_ok in E. destruct E as [[-> _]| ->]; [left|right]; reflexivity.
  - rewrite E2; cbn [bind]; eauto.
Qed.

(** ** Simplices *)

Definition grid_nodes (ps : list (vec3 T)) : list (nat * node T) :=
  map (fun q => (fst q, new_node (fst q) (snd q))) (combine (seq 1 (length ps)) ps).

Lemma combine_nth_error : forall A B (l : list A) (l' : list B) i a b,
  nth_error l i = Some a -> nth_error l' i = Some b -> nth_error (combine l l') i = Some (a, b).
Proof.
  intros A B l; induction l as [|x l IH]; intros [|y l'] [|i] a b H H'; cbn in *; try discriminate.
  - inversion H; inversion H'; reflexivity.
  - apply IH; assumption.
Qed.

Lemma nth_error_seq : forall n s i, (i < n)%nat -> nth_error (seq s n) i = Some (s + i)%nat.
Proof.
  induction n as [|n IH]; intros s i H; [lia|]. destruct i; cbn; [f_equal; lia|].
  rewrite IH by lia. f_equal; lia.
Qed.

Lemma grid_nodes_nth : forall ps i p, nth_error ps i = Some p ->
  nth_error (grid_nodes ps) i = Some (S i, new_node (S i) p).
Proof.
  intros ps i p H. unfold grid_nodes.
  assert (L : (i < length ps)%nat) by (apply nth_error_Some; congruence).
  rewrite nth_error_map, (combine_nth_error _ _ _ _ i (S i) p); [reflexivity| |exact H].
  apply nth_error_seq; exact L.
Qed.

Lemma grid_nodes_length : forall ps, length (grid_nodes ps) = length ps.
Proof. intros; unfold grid_nodes; rewrite map_length, combine_length, seq_length; lia. Qed.

Lemma grid_nodes_keys : forall ps, map fst (grid_nodes ps) = seq 1 (length ps).
Proof.
  intros ps; unfold grid_nodes; rewrite map_map; cbn [fst].
  generalize 1%nat as s. induction ps as [|p ps IH]; intros s; [reflexivity|].
  cbn. f_equal; apply IH.
Qed.

Lemma get_grid : forall ps i, idx_ok (length ps) i ->
  exists nd, py_get (map snd (grid_nodes ps)) i = Ok nd /\ nid nd = point_id (length ps) i.
Proof.
  intros ps i H. unfold py_get, pyidx, point_id, idx_ok in *. rewrite map_length, grid_nodes_length.
  assert (G : forall j, (j < length ps)%nat -> exists nd,
     nth_error (map snd (grid_nodes ps)) j = Some nd /\ nid nd = S j).
  { intros j Hj. destruct (nth_error ps j) as [p|] eqn:E; [|apply nth_error_None in E; lia].
    exists (new_node (S j) p); split; [|reflexivity].
    rewrite nth_error_map, (grid_nodes_nth _ _ _ E); reflexivity. }
  destruct (0 <=? i)%Z eqn:P.
  - apply Z.leb_le in P. rewrite (proj2 (Z.ltb_lt _ _)) by lia.
    destruct (G (Z.to_nat i)) as [nd [E1 E2]]; [lia|]. exists nd; rewrite E1; split; [reflexivity|]. lia.
  - apply Z.leb_gt in P. rewrite (proj2 (Z.leb_le _ _)) by lia.
    destruct (G (Z.to_nat (i + Z.of_nat (length ps)))) as [nd [E1 E2]]; [lia|].
    exists nd; rewrite E1; split; [reflexivity|]. lia.
Qed.

Lemma get_bad : forall A (l : list A) i, ~ idx_ok (length l) i -> py_get l i = Raise IndexError.
Proof.
  intros A l i H. unfold py_get, pyidx, idx_ok in *.
  destruct (0 <=? i)%Z eqn:P; [apply Z.leb_le in P|apply Z.leb_gt in P].
  - rewrite (proj2 (Z.ltb_ge _ _)) by lia; reflexivity.
  - rewrite (proj2 (Z.leb_gt _ _)) by lia; reflexivity.
Qed.

Definition simplex_tria (N : nat) (e : nat) (s : list Z) : tria T :=
  new_tria e (point_id N (nth 0 s 0%Z)) (point_id N (nth 1 s 0%Z)) (point_id N (nth 2 s 0%Z)).

Definition simplex_trias (N k : nat) (ss : list (list Z)) : list (nat * tria T) :=
  map (fun q => (fst q, simplex_tria N (fst q) (snd q))) (combine (seq (S k) (length ss)) ss).

Lemma read_simplices_ok : forall ps ss k, Forall (simplex_ok (length ps)) ss ->
  read_simplices (map snd (grid_nodes ps)) k ss = Ok (simplex_trias (length ps) k ss).
Proof.
  intros ps ss; induction ss as [|s ss IH]; intros k F; [reflexivity|].
  inversion F; subst. destruct H1 as [L I].
  destruct s as [|i1 [|i2 [|i3 [|i4 s]]]]; cbn in L; try discriminate.
  inversion I as [|x1 y1 I1 F1]; subst. inversion F1 as [|x2 y2 I2 F2]; subst.
  inversion F2 as [|x3 y3 I3 F3]; subst.
  destruct (get_grid ps i1 I1) as [a [E1 Na]]. destruct (get_grid ps i2 I2) as [b [E2 Nb]].
  destruct (get_grid ps i3 I3) as [c [E3 Nc]].
  cbn [read_simplices]. rewrite E1, E2, E3; cbn [bind]. rewrite IH by assumption. cbn [bind].
  unfold simplex_trias. cbn [length seq combine map fst snd]. rewrite Na, Nb, Nc. reflexivity.
Qed.

Lemma read_simplices_bad : forall ps ss k, ~ Forall (simplex_ok (length ps)) ss ->
  exists e, read_simplices (map snd (grid_nodes ps)) k ss = Raise e.
Proof.
  intros ps ss; induction ss as [|s ss IH]; intros k F; [exfalso; apply F; constructor|].
  cbn [read_simplices].
  destruct s as [|i1 [|i2 [|i3 [|i4 s]]]]; try (eexists; reflexivity).
  assert (LEN : length (map snd (grid_nodes ps)) = length ps) by (rewrite map_length, grid_nodes_length; reflexivity).
  assert (Z3 : forall i, {idx_ok (length ps) i} + {~ idx_ok (length ps) i}).
  { intros i; unfold idx_ok. destruct (Z_le_dec (- Z.of_nat (length ps)) i), (Z_lt_dec i (Z.of_nat (length ps)));
    [left; lia|right; lia|right; lia|right; lia]. }
  destruct (Z3 i1) as [H1|H1]; [|rewrite get_bad by (rewrite LEN; exact H1); eexists; reflexivity].
  destruct (get_grid ps i1 H1) as [a [-> _]]; cbn [bind].
  destruct (Z3 i2) as [H2|H2]; [|rewrite get_bad by (rewrite LEN; exact H2); eexists; reflexivity].
  destruct (get_grid ps i2 H2) as [b [-> _]]; cbn [bind].
  destruct (Z3 i3) as [H3|H3]; [|rewrite get_bad by (rewrite LEN; exact H3); eexists; reflexivity].
  destruct (get_grid ps i3 H3) as [c [-> _]]; cbn [bind].
  destruct (IH (S k)) as [e ->]; [|eexists; reflexivity].
  intros G; apply F; constructor; [|exact G]. split; [reflexivity|].
  apply Forall_cons; [exact H1|apply Forall_cons; [exact H2|apply Forall_cons; [exact H3|apply Forall_nil]]].
Qed.

Lemma point_id_range : forall N i, idx_ok N i -> In (point_id N i) (seq 1 N).
Proof.
  intros N i H. apply in_seq. unfold point_id, idx_ok in *.
  destruct (0 <=? i)%Z eqn:P; [apply Z.leb_le in P|apply Z.leb_gt in P]; lia.
Qed.

Lemma simplex_trias_keys : forall N ss k, map fst (simplex_trias N k ss) = seq (S k) (length ss).
Proof.
  intros N ss k; unfold simplex_trias; rewrite map_map; cbn [fst]. revert k.
  induction ss as [|s ss IH]; intros k; [reflexivity|]. cbn. f_equal; apply IH.
Qed.

Lemma simplex_trias_in : forall N ss k e t, In (e, t) (simplex_trias N k ss) ->
  exists s, In s ss /\ t = simplex_tria N e s.
Proof.
  intros N ss k e t H. unfold simplex_trias in H. apply in_map_iff in H.
  destruct H as [[e' s] [E H]]. cbn [fst snd] in E. injection E as <- <-.
  exists s; split; [|reflexivity]. eapply in_combine_r; exact H.
Qed.

Lemma simplex_vertex : forall N e s n, simplex_ok N s -> vertex (simplex_tria N e s) n -> In n (seq 1 N).
Proof.
  intros N e s n [L F] V. destruct s as [|i1 [|i2 [|i3 [|i4 s]]]]; cbn in L; try discriminate.
  inversion F as [|x1 y1 I1 F1]; subst. inversion F1 as [|x2 y2 I2 F2]; subst.
  inversion F2 as [|x3 y3 I3 F3]; subst.
  destruct V as [->|[->| ->]]; cbn; apply point_id_range; assumption.
Qed.

(** read_delaunay, completely *)
Lemma read_delaunay_ok : forall points ss, Forall pt_ok points -> Forall (simplex_ok (length points)) ss ->
  exists ps, Forall2 pt_at points ps /\
  read_delaunay points ss =
    let els := simplex_trias (length points) 0 ss in
    Ok {| nodes := map (fin_node (map snd els)) (grid_nodes ps);
          elements := map (fin_tria (map snd els)) els;
          edges := fin_edges (map snd els) |}.
Proof.
  intros points ss F G. destruct (read_points_ok points 0 F) as [ps [A E]].
  assert (L : length points = length ps) by (eapply Forall2_length; exact A).
  exists ps; split; [exact A|]. unfold read_delaunay. rewrite E; cbn [bind].
  replace (map (fun q : nat * vec3 T => (fst q, new_node (fst q) (snd q))) (combine (seq 1 (length points)) ps))
    with (grid_nodes ps) by (unfold grid_nodes; rewrite L; reflexivity).
  rewrite L in G |- *. rewrite read_simplices_ok by exact G. cbn [bind].
  rewrite finish_mesh_ok; [reflexivity| | |].
  - rewrite grid_nodes_keys; apply seq_NoDup.
  - rewrite simplex_trias_keys; apply seq_NoDup.
  - intros t n Ht V. rewrite grid_nodes_keys. apply in_map_iff in Ht. destruct Ht as [[e t'] [E' Ht]].
    cbn [snd] in E'; subst t'. apply simplex_trias_in in Ht. destruct Ht as [s [Hs ->]].
    eapply simplex_vertex; [|exact V]. rewrite Forall_forall in G; apply G; exact Hs.
Qed.

Lemma read_delaunay_bad : forall points ss,
  ~ (Forall pt_ok points /\ Forall (simplex_ok (length points)) ss) ->
  exists e, read_delaunay points ss = Raise e.
Proof.
  intros points ss H. unfold read_delaunay.
  destruct (Forall_dec (pt_ok (T := T))) with (l := points) as [F|F].
  { intros pt; unfold pt_ok. destruct (Nat.eq_dec (length pt) 2), (Nat.eq_dec (length pt) 3); auto. right; lia. }
  - destruct (read_points_ok points 0 F) as [ps [A ->]]. cbn [bind].
    assert (L : length points = length ps) by (eapply Forall2_length; exact A).
    replace (map (fun q : nat * vec3 T => (fst q, new_node (fst q) (snd q))) (combine (seq 1 (length points)) ps))
      with (grid_nodes ps) by (unfold grid_nodes; rewrite L; reflexivity).
    destruct (read_simplices_bad ps ss 0) as [e ->]; [|eexists; reflexivity].
    intros G; apply H; split; [exact F|]. rewrite L; exact G.
  - destruct (read_points_bad points 0 F) as [e ->]. eexists; reflexivity.
Qed.

(** ** Cards *)

Definition ctria3s (cards : list (nat * card)) : list (nat * tria T) :=
  flat_map (fun c => match snd c with Ctria3 i j k => [(fst c, new_tria (fst c) i j k)] | Other => [] end) cards.

Lemma read_cards_ok : forall cards, ~ In Other (map snd cards) ->
  read_cards (T := T) cards = Ok (ctria3s cards).
Proof.
  induction cards as [|[e [i j k|]] cards IH]; intros H; [reflexivity| |].
  - cbn [read_cards]. rewrite IH by (intros X; apply H; right; exact X). reflexivity.
  - exfalso; apply H; left; reflexivity.
Qed.

Lemma read_cards_bad : forall cards, In Other (map snd cards) ->
  read_cards (T := T) cards = Raise NotImplementedError.
Proof.
  induction cards as [|[e [i j k|]] cards IH]; intros H; [destruct H| |reflexivity].
  cbn [read_cards]. rewrite IH; [reflexivity|]. destruct H as [H|H]; [discriminate|exact H].
Qed.

Lemma ctria3s_keys : forall cards, ~ In Other (map snd cards) -> map fst (ctria3s cards) = map fst cards.
Proof.
  induction cards as [|[e [i j k|]] cards IH]; intros H; [reflexivity| |].
  - cbn. f_equal. apply IH. intros X; apply H; right; exact X.
  - exfalso; apply H; left; reflexivity.
Qed.

Lemma ctria3s_in : forall cards e t, In (e, t) (ctria3s cards) ->
  exists i j k, In (e, Ctria3 i j k) cards /\ t = new_tria e i j k.
Proof.
  intros cards e t H. unfold ctria3s in H. apply in_flat_map in H. destruct H as [[e' [i j k|]] [H1 H2]].
  - cbn in H2. destruct H2 as [H2|[]]. injection H2 as <- <-. exists i, j, k; auto.
  - destruct H2.
Qed.

Definition new_nodes (grids : list (nat * vec3 T)) : list (nat * node T) :=
  map (fun g => (fst g, new_node (fst g) (snd g))) grids.

Lemma new_nodes_keys : forall grids, map fst (new_nodes grids) = map fst grids.
Proof. intros; unfold new_nodes; rewrite map_map; reflexivity. Qed.

Lemma read_mesh_ok : forall grids cards, NoDup (map fst grids) -> NoDup (map fst cards) ->
  ~ In Other (map snd cards) ->
  (forall c n, In c (map snd cards) -> In n (card_ids c) -> In n (map fst grids)) ->
  read_mesh grids cards =
    let els := ctria3s cards in
    Ok {| nodes := map (fin_node (map snd els)) (new_nodes grids);
          elements := map (fin_tria (map snd els)) els;
          edges := fin_edges (map snd els) |}.
Proof.
  intros grids cards N NC O V. unfold read_mesh. rewrite read_cards_ok by exact O. cbn [bind].
  rewrite finish_mesh_ok; [reflexivity| | |].
  - rewrite map_map; exact N.
  - rewrite ctria3s_keys by exact O; exact NC.
  - intros t n Ht Vn. rewrite map_map; cbn [fst]. apply in_map_iff in Ht. destruct Ht as [[e t'] [E Ht]].
    cbn [snd] in E; subst t'. apply ctria3s_in in Ht. destruct Ht as [i [j [k [Hc ->]]]].
    apply (V (Ctria3 i j k) n); [apply in_map_iff; exists (e, Ctria3 i j k); auto|].
    destruct Vn as [->|[->| ->]]; cbn; auto.
Qed.

(** ** What both return *)

Definition the_mesh (nds : list (nat * node T)) (els : list (nat * tria T)) : mesh T :=
  {| nodes := map (fin_node (map snd els)) nds;
     elements := map (fin_tria (map snd els)) els;
     edges := fin_edges (map snd els) |}.

Record fresh (nds : list (nat * node T)) (els : list (nat * tria T)) : Prop := {
  fr_nodes : NoDup (map fst nds);
  fr_els : NoDup (map fst els);
  fr_nid : forall k n, In (k, n) nds -> nid n = k /\ nedges n = [] /\ ntrias n = [] /\ nprop n = None /\ nindex n = None;
  fr_eid : forall k t, In (k, t) els -> eid t = k /\ tedges t = [];
  fr_vertices : forall t n, In t (map snd els) -> vertex t n -> In n (map fst nds)
}.

Lemma fresh_grid : forall (points : list (list T)) ss ps, length points = length ps ->
  Forall (simplex_ok (length points)) ss ->
  fresh (grid_nodes ps) (simplex_trias (length points) 0 ss).
Proof.
  intros points ss ps L G. constructor.
  - rewrite grid_nodes_keys; apply seq_NoDup.
  - rewrite simplex_trias_keys; apply seq_NoDup.
  - intros k n H. unfold grid_nodes in H. apply in_map_iff in H. destruct H as [[k' p] [E _]].
    injection E as <- <-. repeat split; reflexivity.
  - intros k t H. apply simplex_trias_in in H. destruct H as [s [_ ->]]. split; reflexivity.
  - intros t n Ht V. rewrite grid_nodes_keys, <- L. apply in_map_iff in Ht. destruct Ht as [[e t'] [E' Ht]].
    cbn [snd] in E'; subst t'. apply simplex_trias_in in Ht. destruct Ht as [s [Hs ->]].
    eapply simplex_vertex; [|exact V]. rewrite Forall_forall in G; apply G; exact Hs.
Qed.

Lemma fresh_deck : forall grids cards, NoDup (map fst grids) -> NoDup (map fst cards) ->
  ~ In Other (map snd cards) ->
  (forall c n, In c (map snd cards) -> In n (card_ids c) -> In n (map fst grids)) ->
  fresh (new_nodes grids) (ctria3s cards).
Proof.
  intros grids cards N NC O V. constructor.
  - rewrite new_nodes_keys; exact N.
  - rewrite ctria3s_keys by exact O; exact NC.
  - intros k n H. unfold new_nodes in H. apply in_map_iff in H. destruct H as [[k' p] [E _]].
    injection E as <- <-. repeat split; reflexivity.
  - intros k t H. apply ctria3s_in in H. destruct H as [i [j [l [_ ->]]]]. split; reflexivity.
  - intros t n Ht Vn. rewrite new_nodes_keys. apply in_map_iff in Ht. destruct Ht as [[e t'] [E Ht]].
    cbn [snd] in E; subst t'. apply ctria3s_in in Ht. destruct Ht as [i [j [k [Hc ->]]]].
    apply (V (Ctria3 i j k) n); [apply in_map_iff; exists (e, Ctria3 i j k); auto|].
    destruct Vn as [->|[->| ->]]; cbn; auto.
Qed.

Section Fresh.
  Variables (nds : list (nat * node T)) (els : list (nat * tria T)).
  Hypothesis F : fresh nds els.
  Let m := the_mesh nds els.
  Let ts := map snd els.

  Lemma tm_node_keys : node_keys m = map fst nds.
  Proof. unfold node_keys, m, the_mesh; cbn [nodes]. rewrite map_map; reflexivity. Qed.

  Lemma tm_el_keys : map fst (elements m) = map fst els.
  Proof. unfold m, the_mesh; cbn [elements]. rewrite map_map; reflexivity. Qed.

  Lemma tm_edge_keys : edge_keys m = map fst (collect_edges ts).
  Proof. unfold edge_keys, m, the_mesh, fin_edges; cbn [edges]. rewrite map_map; reflexivity. Qed.

  Lemma tm_trias : forall t, In t (trias_of m) <-> exists e t0, In (e, t0) els /\ t = snd (fin_tria ts (e, t0)).
  Proof.
    intros t; unfold trias_of, m, the_mesh; cbn [elements]. rewrite map_map, in_map_iff. split.
    - intros [[e t0] [<- H]]. exists e, t0; auto.
    - intros [e [t0 [H ->]]]. exists (e, t0); auto.
  Qed.

  Lemma tm_sides : forall k, (exists t, In t (trias_of m) /\ In k (sides t)) <-> exists t, In t ts /\ In k (sides t).
  Proof.
    intros k; split.
    - intros [t [Ht Hk]]. apply tm_trias in Ht. destruct Ht as [e [t0 [H ->]]].
      exists t0; split; [apply in_map_iff; exists (e, t0); auto|exact Hk].
    - intros [t [Ht Hk]]. apply in_map_iff in Ht. destruct Ht as [[e t0] [E H]]. cbn [snd] in E; subst t0.
      exists (snd (fin_tria ts (e, t))); split; [apply tm_trias; eauto|exact Hk].
  Qed.

  Lemma tm_edges_nodup : NoDup (edge_keys m).
  Proof. rewrite tm_edge_keys; apply collect_nodup. Qed.

  Lemma tm_edges_keys : forall k, In k (edge_keys m) <-> exists t, In t (trias_of m) /\ In k (sides t).
  Proof. intros k. rewrite tm_edge_keys, collect_keys, tm_sides. reflexivity. Qed.

  Lemma tm_edge : forall k e, In (k, e) (edges m) -> e = edge_of k (flat_map (on_edge k) ts).
  Proof.
    intros k e H. unfold m, the_mesh, fin_edges in H; cbn [edges] in H. apply in_map_iff in H.
    destruct H as [[k' l] [E H]]. cbn [fst snd] in E. injection E as <- <-.
    rewrite (collect_get _ _ _ H). reflexivity.
  Qed.

  Lemma tm_flat : forall k, flat_map (on_edge k) (trias_of m) = flat_map (on_edge k) ts.
  Proof.
    intros k. unfold trias_of, m, the_mesh; cbn [elements]. fold ts. unfold ts at 2.
    generalize ts. clear. induction els as [|[e t] l IH]; intros q; [reflexivity|].
    cbn [map flat_map]. f_equal. apply IH.
  Qed.

  Lemma tm_etrias : forall k e, In (k, e) (edges m) -> etrias e = flat_map (on_edge k) (trias_of m).
  Proof. intros k e H. rewrite tm_flat, (tm_edge k e H). reflexivity. Qed.

  Lemma tm_tria_of : forall t, In t (trias_of m) -> exists t0, In (eid t, t0) els /\
     eid t0 = eid t /\ tn1 t0 = tn1 t /\ tn2 t0 = tn2 t /\ tn3 t0 = tn3 t.
  Proof.
    intros t H. apply tm_trias in H. destruct H as [e [t0 [H ->]]]. cbn.
    destruct (fr_eid _ _ F e t0 H) as [E _]. exists t0. rewrite E. auto.
  Qed.

  Lemma tm_eid_inj : forall t t', In t (trias_of m) -> In t' (trias_of m) -> eid t = eid t' -> t = t'.
  Proof.
    intros t t' H H' E. apply tm_trias in H, H'. destruct H as [e [t0 [H ->]]], H' as [e' [t0' [H' ->]]].
    cbn in E. rewrite (proj1 (fr_eid _ _ F e t0 H)), (proj1 (fr_eid _ _ F e' t0' H')) in E. subst e'.
    apply (in_dget Nat.eqb nat_eqb_spec _ _ _ (fr_els _ _ F)) in H, H'.
    rewrite H in H'. injection H' as <-. reflexivity.
  Qed.

  Lemma tm_tedges_raw : forall t, In t (trias_of m) ->
    tedges t = map snd (filter (fun a => Nat.eqb (fst a) (eid t)) (tria_edge_ops (edges m))).
  Proof.
    intros t H. apply tm_trias in H. destruct H as [e [t0 [H ->]]]. cbn.
    destruct (fr_eid _ _ F e t0 H) as [-> ->]. reflexivity.
  Qed.

  Lemma tm_tedges : forall t, In t (trias_of m) -> forall k, In k (tedges t) <-> In k (sides t).
  Proof.
    intros t Ht k. rewrite (tm_tedges_raw t Ht), in_map_iff. split.
    - intros [[e k'] [E H]]. cbn [snd] in E; subst k'. apply filter_In in H. destruct H as [H1 H2].
      cbn [fst] in H2. apply Nat.eqb_eq in H2; subst e. unfold tria_edge_ops in H1.
      apply in_flat_map in H1. destruct H1 as [[k' ed] [He H1]]. apply in_map_iff in H1.
      destruct H1 as [x [E H1]]. cbn [fst snd] in E, H1. injection E as -> ->.
      rewrite (tm_etrias k ed He) in H1. apply in_flat_map in H1. destruct H1 as [t' [Ht' H1]].
      apply on_edge_in in H1. destruct H1 as [E Hk]. rewrite (tm_eid_inj t t' Ht Ht' E). exact Hk.
    - intros Hk. assert (HK : In k (edge_keys m)) by (apply tm_edges_keys; eauto).
      apply in_map_iff in HK. destruct HK as [[k' ed] [E He]]. cbn [fst] in E; subst k'.
      exists (eid t, k); split; [reflexivity|]. apply filter_In; split; [|apply Nat.eqb_refl].
      unfold tria_edge_ops. apply in_flat_map. exists (k, ed); split; [exact He|].
      apply in_map_iff; exists (eid t); split; [reflexivity|]. cbn [snd].
      rewrite (tm_etrias k ed He). apply in_flat_map. exists t; split; [exact Ht|].
      apply on_edge_in; auto.
  Qed.

  Lemma tm_nedges : forall n nd, In (n, nd) (nodes m) ->
    NoDup (nedges nd) /\
    forall k, In k (nedges nd) <-> In k (edge_keys m) /\ (fst k = n \/ snd k = n).
  Proof.
    intros n nd H. unfold m, the_mesh in H; cbn [nodes] in H. apply in_map_iff in H.
    destruct H as [[n' nd0] [E H]]. unfold fin_node in E; cbn [fst snd] in E. injection E as -> <-.
    cbn [nedges]. destruct (fr_nid _ _ F n nd0 H) as [_ [-> _]]. split.
    - apply (fold_sadd_nodup _ _ pair_eqb_spec). constructor.
    - intros k. rewrite (fold_sadd_in _ _ pair_eqb_spec), in_map_iff, tm_edge_keys. fold ts. split.
      + intros [[[x k'] [E H1]]|[]]. cbn [snd] in E; subst k'. apply filter_In in H1. destruct H1 as [H1 H2].
        cbn [fst] in H2. apply Nat.eqb_eq in H2; subst x. unfold node_edges_ops in H1.
        apply in_flat_map in H1. destruct H1 as [[k' l] [H1 H2]]. cbn [fst snd In] in H2.
        destruct H2 as [H2|[H2|[]]]; injection H2 as E1 E2; subst k';
        (split; [apply in_map_iff; exists (k, l); auto|auto]).
      + intros [H1 H2]. left. apply in_map_iff in H1. destruct H1 as [[k' l] [E H1]].
        cbn [fst] in E; subst k'. exists (n, k); split; [reflexivity|].
        apply filter_In; split; [|apply Nat.eqb_refl]. unfold node_edges_ops. apply in_flat_map.
        exists (k, l); split; [exact H1|]. cbn [fst snd In]. destruct H2 as [<-|<-]; auto.
  Qed.

  Lemma tm_ntrias : forall n nd, In (n, nd) (nodes m) ->
    NoDup (ntrias nd) /\
    forall e, In e (ntrias nd) <-> exists t, In t (trias_of m) /\ eid t = e /\ vertex t n.
  Proof.
    intros n nd H. unfold m, the_mesh in H; cbn [nodes] in H. apply in_map_iff in H.
    destruct H as [[n' nd0] [E H]]. unfold fin_node in E; cbn [fst snd] in E. injection E as -> <-.
    cbn [ntrias]. destruct (fr_nid _ _ F n nd0 H) as [_ [_ [-> _]]]. split.
    - apply (fold_sadd_nodup _ _ nat_eqb_spec). constructor.
    - intros e. rewrite (fold_sadd_in _ _ nat_eqb_spec), in_map_iff. fold ts. split.
      + intros [[[x e'] [E H1]]|[]]. cbn [snd] in E; subst e'. apply filter_In in H1. destruct H1 as [H1 H2].
        cbn [fst] in H2. apply Nat.eqb_eq in H2; subst x. unfold node_tria_ops in H1.
        apply in_flat_map in H1. destruct H1 as [t [H1 H2]]. apply in_map_iff in H1.
        destruct H1 as [[e' t0] [E H1]]. cbn [snd] in E; subst t0.
        exists (snd (fin_tria ts (e', t))). split; [apply tm_trias; eauto|]. cbn. unfold vertex; cbn.
        destruct H2 as [H2|[H2|[H2|[]]]]; injection H2 as E1 E2; subst; auto.
      + intros [t [Ht [<- V]]]. left. apply tm_trias in Ht. destruct Ht as [e' [t0 [H1 ->]]].
        exists (n, eid t0); split; [reflexivity|]. apply filter_In; split; [|apply Nat.eqb_refl].
        unfold node_tria_ops. apply in_flat_map. exists t0; split; [apply in_map_iff; exists (e', t0); auto|].
        unfold vertex in V; cbn in V. destruct V as [->|[->| ->]]; cbn [In]; auto.
  Qed.

  (** each side of each triangle is counted once *)
  Lemma append_total : forall (l : list ((nat * nat) * nat)) d,
    list_sum (map (fun kl => length (snd kl)) (fold_left (fun d a => dappend pair_eqb (fst a) (snd a) d) l d))
    = (list_sum (map (fun kl => length (snd kl)) d) + length l)%nat.
  Proof.
    induction l as [|[k v] l IH]; intros d; cbn [fold_left length fst snd]; [lia|].
    rewrite IH. cut (list_sum (map (fun kl => length (snd kl)) (dappend pair_eqb k v d))
      = S (list_sum (map (fun kl => length (snd kl)) d))); [lia|].
    clear. induction d as [|[k' vs] d IH]; [reflexivity|]. cbn [dappend].
    destruct (pair_eqb k k'); cbn [map list_sum fold_right snd] in *.
    - rewrite app_length; cbn; lia.
    - unfold list_sum in *; cbn [fold_right] in *. lia.
  Qed.

  Lemma tm_total : list_sum (map (fun ke => length (etrias (snd ke))) (edges m)) = (3 * length (elements m))%nat.
  Proof.
    unfold m, the_mesh, fin_edges; cbn [edges elements]. rewrite map_map, map_length. cbn [snd edge_of etrias].
    rewrite collect_flat, append_total. cbn [map list_sum fold_right].
    rewrite <- (map_length snd els). induction (map snd els) as [|t l IH]; [reflexivity|].
    cbn [flat_map]. rewrite app_length, map_length. cbn [length sides]. cbn [Nat.add] in IH. lia.
  Qed.

  Lemma tm_etrias_pos : forall k e, In (k, e) (edges m) -> (1 <= length (etrias e))%nat.
  Proof.
    intros k e H. rewrite (tm_etrias k e H).
    assert (HK : In k (edge_keys m)) by (apply in_map_iff; exists (k, e); auto).
    apply tm_edges_keys in HK. destruct HK as [t [Ht Hk]].
    assert (X : In (eid t) (flat_map (on_edge k) (trias_of m))).
    { apply in_flat_map; exists t; split; [exact Ht|]. apply on_edge_in; auto. }
    destruct (flat_map (on_edge k) (trias_of m)); [destruct X|cbn; lia].
  Qed.

  Hypothesis D : forall t, In t ts -> distinct t.

  Lemma tm_distinct : forall t, In t (trias_of m) -> distinct t.
  Proof.
    intros t H. apply tm_trias in H. destruct H as [e [t0 [H ->]]].
    apply (D t0). apply in_map_iff; exists (e, t0); auto.
  Qed.

  Lemma tm_tris_on : forall k, In k (edge_keys m) ->
    flat_map (on_edge k) (trias_of m) = map eid (tris_on m k).
  Proof.
    intros k Hk. apply tm_edges_keys in Hk. destruct Hk as [t0 [Ht0 Hs]].
    assert (L := sides_lt t0 k (tm_distinct t0 Ht0) Hs).
    unfold tris_on. assert (DD := tm_distinct).
    induction (trias_of m) as [|t l IH]; [reflexivity|].
    cbn [flat_map filter]. rewrite (on_edge_distinct k t) by (auto; apply DD; left; reflexivity).
    assert (IH' : flat_map (on_edge k) l = map eid (filter (fun t => is_vertex (fst k) t && is_vertex (snd k) t) l)).
    { clear IH Ht0 Hs. assert (D2 : forall t, In t l -> distinct t) by (intros; apply DD; right; assumption).
      clear DD. induction l as [|t' l IH]; [reflexivity|]. cbn [flat_map filter].
      rewrite (on_edge_distinct k t') by (auto; apply D2; left; reflexivity).
      rewrite IH by (intros; apply D2; right; assumption).
      destruct (is_vertex (fst k) t' && is_vertex (snd k) t'); reflexivity. }
    rewrite IH'. destruct (is_vertex (fst k) t && is_vertex (snd k) t); reflexivity.
  Qed.

  Lemma tm_eids_nodup : NoDup (map eid (trias_of m)).
  Proof.
    assert (E : map eid (trias_of m) = map fst els); [|rewrite E; apply (fr_els _ _ F)].
    unfold trias_of, m, the_mesh; cbn [elements]. rewrite !map_map. apply map_ext_in.
    intros [e t] H. cbn. apply (fr_eid _ _ F e t H).
  Qed.

  Lemma filter_map_nodup : forall A B (f : A -> B) p l, NoDup (map f l) -> NoDup (map f (filter p l)).
  Proof.
    intros A B f p l; induction l as [|a l IH]; intros N; [constructor|].
    cbn [map] in N; inversion N; subst. cbn [filter]. destruct (p a); [|auto].
    cbn [map]; constructor; [|auto]. intros H; apply H1. apply in_map_iff in H. destruct H as [x [E H]].
    apply filter_In in H. apply in_map_iff; exists x; tauto.
  Qed.

  Lemma tm_tedges_nodup : forall t, In t (trias_of m) -> NoDup (tedges t).
  Proof.
    intros t Ht. rewrite (tm_tedges_raw t Ht).
    assert (A : forall k e, In (k, e) (edges m) -> NoDup (etrias e)).
    { intros k e H. rewrite (tm_etrias k e H), tm_tris_on.
      - apply filter_map_nodup, tm_eids_nodup.
      - apply in_map_iff; exists (k, e); auto. }
    assert (N := tm_edges_nodup). unfold edge_keys in N.
    unfold tria_edge_ops. induction (edges m) as [|[k e] l IH]; [constructor|].
    cbn [flat_map fst snd]. rewrite filter_app, map_app.
    cbn [map fst] in N; inversion N; subst.
    assert (X : map snd (filter (fun a => Nat.eqb (fst a) (eid t)) (map (fun t0 : nat => (t0, k)) (etrias e))) = [] \/
                map snd (filter (fun a => Nat.eqb (fst a) (eid t)) (map (fun t0 : nat => (t0, k)) (etrias e))) = [k]).
    { specialize (A k e (or_introl eq_refl)). clear -A.
      induction (etrias e) as [|x l IH]; [left; reflexivity|]. inversion A; subst.
      cbn [map filter fst]. destruct (Nat.eqb_spec x (eid t)); [|apply IH; assumption].
      right. cbn [map snd]. f_equal. subst x. clear -H1.
      induction l as [|y l IH]; [reflexivity|]. cbn [map filter fst].
      destruct (Nat.eqb_spec y (eid t)); [exfalso; apply H1; left; auto|].
      apply IH; intros X; apply H1; right; exact X. }
    assert (IHl := IH (fun k' e' H => A k' e' (or_intror H)) H2).
    destruct X as [-> | ->]; [exact IHl|]. cbn [app]. constructor; [|exact IHl].
    intros H. apply in_map_iff in H. destruct H as [[x k'] [E H]]. cbn [snd] in E; subst k'.
    apply filter_In in H. destruct H as [H _]. apply in_flat_map in H. destruct H as [[k' e'] [H H']].
    apply in_map_iff in H'. destruct H' as [y [E' _]]. cbn [fst] in E'. injection E' as _ ->.
    apply H1. apply in_map_iff; exists (k, e'); auto.
  Qed.

  Lemma tm_wf : wf_mesh m.
  Proof.
    constructor.
    - rewrite tm_node_keys; apply (fr_nodes _ _ F).
    - intros k n H. unfold m, the_mesh in H; cbn [nodes] in H. apply in_map_iff in H.
      destruct H as [[n' nd0] [E H]]. unfold fin_node in E; cbn [fst snd] in E. injection E as -> <-.
      cbn [nid]. apply (fr_nid _ _ F k nd0 H).
    - rewrite tm_el_keys; apply (fr_els _ _ F).
    - intros k t H. unfold m, the_mesh in H; cbn [elements] in H. apply in_map_iff in H.
      destruct H as [[k' t0] [E H]]. unfold fin_tria in E; cbn [fst snd] in E. injection E as -> <-.
      cbn [eid]. apply (fr_eid _ _ F k t0 H).
    - exact tm_distinct.
    - intros t n H V. rewrite tm_node_keys. apply tm_trias in H. destruct H as [e [t0 [H ->]]].
      apply (fr_vertices _ _ F t0); [apply in_map_iff; exists (e, t0); auto|exact V].
    - exact tm_edges_nodup.
    - intros k e H. split.
      + rewrite (tm_edge k e H). destruct k; reflexivity.
      + assert (HK : In k (edge_keys m)) by (apply in_map_iff; exists (k, e); auto).
        apply tm_edges_keys in HK. destruct HK as [t [Ht Hk]]. apply (sides_lt t k (tm_distinct t Ht) Hk).
    - exact tm_edges_keys.
    - intros k e H. rewrite (tm_etrias k e H). apply tm_tris_on. apply in_map_iff; exists (k, e); auto.
    - exact tm_tedges.
    - exact tm_tedges_nodup.
  Qed.
End Fresh.

End Any.
