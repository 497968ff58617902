(** Lemmas behind the properties of the readers (C01-C07). *)
(* P: Num Py Mesh Spec SpecRead Ex0 *)
From Coq Require Import ZArith Reals List Bool Arith Lra Lia Permutation.
From Verif Require Import Num Py Mesh Spec SpecRead FSum FDict FWf FRead FRead2 Ex0.
Import ListNotations.

Lemma reads_fresh : forall (T : Type) (NT : Num T) (m : mesh T), reads m -> exists nds els, fresh nds els /\ m = the_mesh nds els.
Proof.
  intros T NT m [points ss m' E|grids cards m' N NC E].
  - destruct (Forall_dec (pt_ok (T := T))) with (l := points) as [F|F].
    { intros pt; unfold pt_ok. destruct (Nat.eq_dec (length pt) 2), (Nat.eq_dec (length pt) 3); auto. right; lia. }
    + destruct (Forall_dec (simplex_ok (length points))) with (l := ss) as [G|G].
      { intros s; unfold simplex_ok. destruct (Nat.eq_dec (length s) 3) as [L|L]; [|right; tauto].
        destruct (Forall_dec (idx_ok (length points))) with (l := s) as [H|H]; [|left; auto|right; tauto].
        intros i; unfold idx_ok.
        destruct (Z_le_dec (- Z.of_nat (length points)) i), (Z_lt_dec i (Z.of_nat (length points)));
        [left; lia|right; lia|right; lia|right; lia]. }
      * destruct (read_delaunay_ok points ss F G) as [ps [A E']]. rewrite E' in E. injection E as <-.
        exists (grid_nodes ps), (simplex_trias (length points) 0 ss). split; [|reflexivity].
        apply fresh_grid; [eapply Forall2_length; exact A|exact G].
      * destruct (read_delaunay_bad points ss) as [e E']; [tauto|congruence].
    + destruct (read_delaunay_bad points ss) as [e E']; [tauto|congruence].
  - destruct (in_dec (fun a b : card => ltac:(decide equality; apply Nat.eq_dec)) Other (map snd cards)) as [O|O].
    + unfold read_mesh in E. rewrite read_cards_bad in E by exact O. discriminate.
    + destruct (Forall_dec (fun c => Forall (fun n => In n (map fst grids)) (card_ids c))) with (l := map snd cards) as [V|V].
      { intros c. apply Forall_dec. intros n; apply in_dec, Nat.eq_dec. }
      * assert (V' : forall c n, In c (map snd cards) -> In n (card_ids c) -> In n (map fst grids)).
        { intros c n Hc Hn. rewrite Forall_forall in V. specialize (V c Hc). rewrite Forall_forall in V. auto. }
        rewrite (read_mesh_ok grids cards N NC O V') in E. injection E as <-.
        exists (new_nodes grids), (ctria3s cards); split; [|reflexivity]. apply fresh_deck; assumption.
      * exfalso. apply V. apply Forall_forall. intros c Hc. apply Forall_forall. intros n Hn.
        destruct (in_dec Nat.eq_dec n (map fst grids)) as [I|I]; [exact I|]. exfalso.
        unfold read_mesh in E. rewrite read_cards_ok in E by exact O. cbn [bind] in E.
        apply in_map_iff in Hc. destruct Hc as [[e c'] [Ec Hc]]. cbn [snd] in Ec; subst c'.
        destruct c as [i j k|]; [|destruct Hn].
        rewrite (finish_mesh_bad _ _ (new_tria e i j k) n) in E; [discriminate| | |].
        -- apply in_map_iff; exists (e, new_tria e i j k); split; [reflexivity|].
           unfold ctria3s. apply in_flat_map. exists (e, Ctria3 i j k); split; [exact Hc|left; reflexivity].
        -- cbn in Hn. unfold vertex; cbn. destruct Hn as [<-|[<-|[<-|[]]]]; auto.
        -- rewrite map_map; exact I.
Qed.

(** read_delaunay accepts exactly the inputs whose points have two or three coordinates
    and whose simplices have three entries that index a point.  Then node k+1 is point k
    and element t+1 is simplex t. *)
Lemma c01_read_delaunay : forall (T : Type) (NT : Num T) (points : list (list T)) simplices,
  ((exists m, read_delaunay points simplices = Ok m) <->
   (Forall pt_ok points /\ Forall (simplex_ok (length points)) simplices)) /\
  forall m, read_delaunay points simplices = Ok m ->
    length (nodes m) = length points /\
    (forall k pt, nth_error points k = Some pt -> exists nd,
       nth_error (nodes m) k = Some (S k, nd) /\ nid nd = S k /\ pt_at pt (nxyz nd)) /\
    length (elements m) = length simplices /\
    (forall t s, nth_error simplices t = Some s -> exists i1 i2 i3 tr,
       s = [i1; i2; i3] /\ nth_error (elements m) t = Some (S t, tr) /\ eid tr = S t /\
       tn1 tr = point_id (length points) i1 /\ tn2 tr = point_id (length points) i2 /\
       tn3 tr = point_id (length points) i3).
Proof.
  intros T NT points ss.
  assert (X : (exists m, read_delaunay points ss = Ok m) ->
     Forall pt_ok points /\ Forall (simplex_ok (length points)) ss).
  { intros [m E]. destruct (Forall_dec (pt_ok (T := T))) with (l := points) as [F|F].
    { intros pt; unfold pt_ok. destruct (Nat.eq_dec (length pt) 2), (Nat.eq_dec (length pt) 3); auto. right; lia. }
    - destruct (Forall_dec (simplex_ok (length points))) with (l := ss) as [G|G]; [|auto|].
      { intros s; unfold simplex_ok. destruct (Nat.eq_dec (length s) 3) as [L|L]; [|right; tauto].
        destruct (Forall_dec (idx_ok (length points))) with (l := s) as [H|H]; [|left; auto|right; tauto].
        intros i; unfold idx_ok.
        destruct (Z_le_dec (- Z.of_nat (length points)) i), (Z_lt_dec i (Z.of_nat (length points)));
        [left; lia|right; lia|right; lia|right; lia]. }
      destruct (read_delaunay_bad points ss) as [e E']; [tauto|congruence].
    - destruct (read_delaunay_bad points ss) as [e E']; [tauto|congruence]. }
  split.
  - split; [exact X|]. intros [F G]. destruct (read_delaunay_ok points ss F G) as [ps [_ E]]. eauto.
  - intros m E. destruct X as [F G]; [eauto|].
    destruct (read_delaunay_ok points ss F G) as [ps [A E']]. rewrite E' in E. injection E as <-.
    assert (L : length points = length ps) by (eapply Forall2_length; exact A).
    cbn [nodes elements]. split; [|split; [|split]].
    + rewrite map_length, grid_nodes_length; auto.
    + intros k pt Hk.
      assert (Y : exists p, nth_error ps k = Some p /\ pt_at pt p).
      { clear -A Hk. revert k Hk. induction A; intros [|k] Hk; cbn in *; try discriminate.
        - injection Hk as <-; eauto.
        - apply IHA; exact Hk. }
      destruct Y as [p [Hp Hat]].
      rewrite nth_error_map, (grid_nodes_nth _ _ _ Hp). cbn [option_map].
      eexists; split; [reflexivity|]. split; [reflexivity|exact Hat].
    + rewrite map_length. unfold simplex_trias. rewrite map_length, combine_length, seq_length. lia.
    + intros t s Hs. assert (S3 : simplex_ok (length points) s).
      { rewrite Forall_forall in G; apply G. eapply nth_error_In; exact Hs. }
      destruct S3 as [L3 _]. destruct s as [|i1 [|i2 [|i3 [|i4 s]]]]; cbn in L3; try discriminate.
      assert (Ht : (t < length ss)%nat) by (apply nth_error_Some; congruence).
      exists i1, i2, i3. rewrite nth_error_map. unfold simplex_trias at 2. rewrite nth_error_map.
      rewrite (combine_nth_error _ _ _ _ t (S t) [i1; i2; i3]); [|apply nth_error_seq; exact Ht|exact Hs].
      cbn [option_map fst snd]. eexists; split; [reflexivity|]. repeat split; reflexivity.
Qed.

(** five accepted 2-D and 3-D points and simplices, one with a negative index; a simplex that
    names a missing point, one with four vertices and a point with one coordinate are rejected *)
Lemma c01_read_delaunay_ex :
  read_delaunay ex_points ex_simplices = Ok ex_read /\
  ~ simplex_ok 6 [0; 1; 6]%Z /\ ~ simplex_ok 6 [0; 1; 2; 3]%Z /\ ~ pt_ok [1%R].
Proof.
  split; [exact ex_reads|]. split; [|split].
  - intros [_ H]. inversion H as [|? ? _ H1]; subst. inversion H1 as [|? ? _ H2]; subst.
    inversion H2 as [|? ? [_ H3] _]; subst. cbn in H3. lia.
  - intros [H _]. discriminate H.
  - intros [H|H]; discriminate H.
Qed.

Lemma joins_sides : forall T (t : tria T) a b, (a <= b /\ joins t a b)%nat <-> In (a, b) (sides t).
Proof.
  intros T t a b; unfold joins, sides; cbn [In]. split.
  - intros [L [[H|[H|[H|[]]]]|[H|[H|[H|[]]]]]]; injection H as -> ->;
    first [left; f_equal; lia | right; left; f_equal; lia | right; right; left; f_equal; lia].
  - assert (MM : forall x y, (Nat.min x y, Nat.max x y) = (a, b) -> (a <= b)%nat /\ ((x, y) = (a, b) \/ (x, y) = (b, a))).
    { intros x y E; injection E as E1 E2. split; [lia|].
      destruct (le_ge_dec x y); [left|right]; f_equal; lia. }
    intros [H|[H|[H|[]]]]; apply MM in H; tauto.
Qed.

(** The keys of mesh.edges are the sides of the triangles, without repetition and in
    increasing order of the two ids. *)
Lemma c02_edges_are_sides : forall (T : Type) (NT : Num T) (m : mesh T), reads m ->
  NoDup (edge_keys m) /\
  (forall a b, In (a, b) (edge_keys m) <->
     (a <= b)%nat /\ exists t, In t (trias_of m) /\ joins t a b) /\
  (forall k e, In (k, e) (edges m) -> (en1 e, en2 e) = k).
Proof.
  intros T NT m H. destruct (reads_fresh T NT m H) as [nds [els [F ->]]]. split; [|split].
  - apply tm_edges_nodup.
  - intros a b. rewrite tm_edges_keys. split.
    + intros [t [Ht Hs]]. apply joins_sides in Hs. destruct Hs. split; [assumption|]. eauto.
    + intros [L [t [Ht J]]]. exists t; split; [exact Ht|]. apply joins_sides; auto.
  - intros k e He. rewrite (tm_edge nds els k e He). destruct k; reflexivity.
Qed.

Lemma c02_edges_are_sides_ex : reads ex_read /\
  edge_keys ex_read = [(1, 2); (2, 5); (1, 5); (2, 3); (3, 5); (3, 4); (4, 5); (1, 4)]%nat.
Proof. split; [apply (reads_delaunay _ _ _ ex_reads)|reflexivity]. Qed.

Lemma reads_distinct : forall T nds (els : list (nat * tria T)), fresh nds els ->
  (forall t, In t (trias_of (the_mesh nds els)) -> distinct t) ->
  forall t, In t (map snd els) -> distinct t.
Proof.
  intros T nds els F H t Ht. apply in_map_iff in Ht. destruct Ht as [[e t0] [E Ht]]. cbn [snd] in E; subst t0.
  apply (H (snd (fin_tria (map snd els) (e, t)))). apply tm_trias. eauto.
Qed.

(** edge.trias is the list, in element order, of the triangles that have both ends of
    the edge as vertices. *)
Lemma c03_edge_trias : forall (T : Type) (NT : Num T) (m : mesh T), reads m -> (forall t, In t (trias_of m) -> distinct t) ->
  forall k e, In (k, e) (edges m) ->
    etrias e = map eid (filter (fun t => is_vertex (fst k) t && is_vertex (snd k) t) (trias_of m)) /\
    NoDup (etrias e).
Proof.
  intros T NT m H D k e He. destruct (reads_fresh T NT m H) as [nds [els [F ->]]].
  assert (D' := reads_distinct _ nds els F D).
  assert (E : etrias e = map eid (tris_on (the_mesh nds els) k)).
  { rewrite (tm_etrias nds els k e He). apply (tm_tris_on nds els D').
    apply in_map_iff; exists (k, e); auto. }
  split; [exact E|]. rewrite E. apply filter_map_nodup. apply (tm_eids_nodup nds els F).
Qed.

Lemma ex_read_distinct : forall t, In t (trias_of ex_read) -> distinct t.
Proof.
  intros t H.
  assert (E : map (fun t => (tn1 t, tn2 t, tn3 t)) (trias_of ex_read) = [(1, 2, 5); (3, 2, 5); (5, 3, 4); (4, 5, 1)]%nat)
    by reflexivity.
  apply (in_map (fun t => (tn1 t, tn2 t, tn3 t))) in H. rewrite E in H. unfold distinct. cbn [In] in H.
  repeat (destruct H as [H|H]; [injection H; intros <- <- <-; repeat split; discriminate|]). destruct H.
Qed.


Lemma c03_edge_trias_ex : reads ex_read /\ (forall t, In t (trias_of ex_read) -> distinct t) /\
  map (fun ke => etrias (snd ke)) (edges ex_read) = [[1]; [1; 2]; [1; 4]; [2]; [2; 3]; [3]; [3; 4]; [4]]%nat.
Proof. split; [apply (reads_delaunay _ _ _ ex_reads)|]. split; [exact ex_read_distinct|reflexivity]. Qed.

(** tria.edges has exactly the three sides, node.edges exactly the edges that end in the
    node, node.trias exactly the ids of the triangles at the node. *)
Lemma c04_back_references : forall (T : Type) (NT : Num T) (m : mesh T), reads m -> (forall t, In t (trias_of m) -> distinct t) ->
  (forall t, In t (trias_of m) -> NoDup (tedges t) /\ length (tedges t) = 3%nat /\
     forall a b, In (a, b) (tedges t) <-> (a <= b)%nat /\ joins t a b) /\
  (forall n nd, In (n, nd) (nodes m) ->
     NoDup (nedges nd) /\ (forall a b, In (a, b) (nedges nd) <-> In (a, b) (edge_keys m) /\ (n = a \/ n = b)) /\
     NoDup (ntrias nd) /\ (forall e, In e (ntrias nd) <-> exists t, In t (trias_of m) /\ eid t = e /\ vertex t n)).
Proof.
  intros T NT m H D. destruct (reads_fresh T NT m H) as [nds [els [F ->]]].
  assert (D' := reads_distinct _ nds els F D). split.
  - intros t Ht. assert (N := tm_tedges_nodup nds els F D' t Ht).
    assert (I := tm_tedges nds els F t Ht). split; [exact N|]. split.
    + assert (P : Permutation (tedges t) (sides t)).
      { apply NoDup_Permutation; [exact N|apply sides_nodup, D, Ht|exact I]. }
      rewrite (Permutation_length P). reflexivity.
    + intros a b. rewrite I. symmetry. apply joins_sides.
  - intros n nd Hn. destruct (tm_nedges nds els F n nd Hn) as [N1 I1].
    destruct (tm_ntrias nds els F n nd Hn) as [N2 I2].
    split; [exact N1|]. split; [|split; [exact N2|exact I2]].
    intros a b. rewrite I1. cbn [fst snd]. intuition.
Qed.

Lemma c04_back_references_ex : reads ex_read /\ (forall t, In t (trias_of ex_read) -> distinct t) /\
  map (fun kn => ntrias (snd kn)) (nodes ex_read) = [[1; 4]; [1; 2]; [2; 3]; [3; 4]; [1; 2; 3; 4]; []]%nat.
Proof. split; [apply (reads_delaunay _ _ _ ex_reads)|]. split; [exact ex_read_distinct|reflexivity]. Qed.

Lemma count_split : forall T (l : list ((nat * nat) * edge T)),
  (forall k e, In (k, e) l -> (1 <= length (etrias e) <= 2)%nat) ->
  list_sum (map (fun ke => length (etrias (snd ke))) l)
  = (length (filter (fun ke => Nat.eqb (length (etrias (snd ke))) 1) l)
     + 2 * length (filter (fun ke => Nat.eqb (length (etrias (snd ke))) 2) l))%nat.
Proof.
  intros T. induction l as [|[k e] l IH]; intros H; [reflexivity|].
  assert (L := H k e (or_introl eq_refl)).
  specialize (IH (fun k' e' X => H k' e' (or_intror X))).
  cbn [map filter snd]. unfold list_sum in *; cbn [fold_right]. rewrite IH.
  destruct (Nat.eqb_spec (length (etrias e)) 1), (Nat.eqb_spec (length (etrias e)) 2); cbn [length]; lia.
Qed.

(** Summed over the edges the triangles are counted three times; with one or two
    triangles per edge this is 3 T = B + 2 I. *)
Lemma c05_side_count : forall (T : Type) (NT : Num T) (m : mesh T), reads m ->
  list_sum (map (fun ke => length (etrias (snd ke))) (edges m)) = (3 * length (elements m))%nat /\
  ((forall k e, In (k, e) (edges m) -> (length (etrias e) <= 2)%nat) ->
   (3 * length (elements m) = edges_with m 1 + 2 * edges_with m 2)%nat).
Proof.
  intros T NT m H. destruct (reads_fresh T NT m H) as [nds [els [F ->]]].
  assert (Tot := tm_total nds els). split; [exact Tot|].
  intros L. rewrite <- Tot. apply count_split.
  intros k e He. split; [apply (tm_etrias_pos nds els k e He)|apply (L k e He)].
Qed.

Lemma c05_side_count_ex : reads ex_read /\
  (length (elements ex_read) = 4 /\ edges_with ex_read 1 = 4 /\ edges_with ex_read 2 = 4)%nat.
Proof. split; [apply (reads_delaunay _ _ _ ex_reads)|]. repeat split; reflexivity. Qed.

(** A deck with grids 1..N and elements 1..T in order is read to the same mesh as the
    points and simplices given to read_delaunay. *)
Lemma c06_readers_agree : forall (T : Type) (NT : Num T) (points : list (list T)) ps simplices,
  Forall2 pt_at points ps ->
  Forall (fun s => length s = 3%nat /\ Forall (fun i => (0 <= i < Z.of_nat (length points))%Z) s) simplices ->
  read_mesh (combine (seq 1 (length ps)) ps)
            (combine (seq 1 (length simplices))
                     (map (fun s => Ctria3 (Z.to_nat (nth 0 s 0%Z) + 1) (Z.to_nat (nth 1 s 0%Z) + 1)
                                           (Z.to_nat (nth 2 s 0%Z) + 1)) simplices))
  = read_delaunay points simplices.
Proof.
  intros T NT points ps ss A G.
  assert (L : length points = length ps) by (eapply Forall2_length; exact A).
  assert (F : Forall pt_ok points).
  { clear -A. induction A; constructor; [|exact IHA]. destruct H as [[-> _]| ->]; [left|right]; reflexivity. }
  assert (G' : Forall (simplex_ok (length points)) ss).
  { apply Forall_forall. intros s Hs. rewrite Forall_forall in G. destruct (G s Hs) as [L3 I].
    split; [exact L3|]. apply Forall_forall. intros i Hi. rewrite Forall_forall in I.
    specialize (I i Hi). unfold idx_ok. lia. }
  destruct (read_delaunay_ok points ss F G') as [ps' [A' ->]].
  assert (ps' = ps).
  { clear -A A'. revert ps' A'. induction A as [|pt p pts ps0 H A IH]; intros ps' A'; inversion A'; subst; [reflexivity|].
    f_equal; [|apply IH; assumption].
    destruct y as [a b c], p as [a' b' c']. unfold pt_at in *; cbn in *.
    destruct H as [[E1 Z1]|E1], H2 as [[E2 Z2]|E2]; rewrite E1 in E2; inversion E2; subst; reflexivity. }
  subst ps'.
  assert (P : forall (s : list Z) j, In s ss -> (j < 3)%nat ->
     point_id (length points) (nth j s 0%Z) = (Z.to_nat (nth j s 0%Z) + 1)%nat).
  { intros s j Hs Hj. rewrite Forall_forall in G. destruct (G s Hs) as [L3 I]. rewrite Forall_forall in I.
    specialize (I (nth j s 0%Z)). rewrite L3 in I || idtac.
    assert (0 <= nth j s 0 < Z.of_nat (length points))%Z by (apply I; apply nth_In; lia).
    unfold point_id. rewrite (proj2 (Z.leb_le _ _)) by lia. lia. }
  set (cd := fun s => Ctria3 (Z.to_nat (nth 0 s 0%Z) + 1) (Z.to_nat (nth 1 s 0%Z) + 1)
                             (Z.to_nat (nth 2 s 0%Z) + 1)).
  assert (C : forall st, ctria3s (T := T) (combine (seq st (length ss)) (map cd ss))
     = map (fun q => (fst q, simplex_tria (length points) (fst q) (snd q))) (combine (seq st (length ss)) ss)).
  { clear -P. revert P. induction ss as [|s ss IH]; intros P st; [reflexivity|].
    cbn [length seq map combine]. unfold ctria3s in *. cbn [flat_map fst snd app map]. unfold cd at 1. cbn [app]. f_equal.
    - unfold simplex_tria. rewrite !P by (auto; left; reflexivity). reflexivity.
    - apply IH. intros s' j Hs Hj; apply P; [right; exact Hs|exact Hj]. }
  specialize (C 1%nat). change (ctria3s (T := T) (combine (seq 1 (length ss)) (map cd ss)) = simplex_trias (length points) 0 ss) in C.
  assert (KC : forall st, map fst (combine (seq st (length ss)) (map cd ss)) = seq st (length ss)).
  { clear. induction ss as [|s ss IH]; intros st; [reflexivity|].
    cbn [length seq map combine fst]. f_equal; apply IH. }
  specialize (KC 1%nat).
  assert (KG : forall st, map fst (combine (seq st (length ps)) ps) = seq st (length ps)).
  { clear. induction ps as [|s ss IH]; intros st; [reflexivity|].
    cbn [length seq map combine fst]. f_equal; apply IH. }
  specialize (KG 1%nat).
  rewrite read_mesh_ok.
  - rewrite C. reflexivity.
  - rewrite KG; apply seq_NoDup.
  - rewrite KC; apply seq_NoDup.
  - intros H. apply in_map_iff in H. destruct H as [[e c] [E H]]. cbn [snd] in E; subst c.
    apply in_combine_r in H. apply in_map_iff in H. destruct H as [s [E _]]; discriminate.
  - intros c n Hc Hn. rewrite KG, <- L. apply in_map_iff in Hc. destruct Hc as [[e c'] [E Hc]].
    cbn [snd] in E; subst c'. apply in_combine_r in Hc. apply in_map_iff in Hc. destruct Hc as [s [<- Hs]].
    rewrite Forall_forall in G. destruct (G s Hs) as [L3 I]. rewrite Forall_forall in I.
    assert (J : forall j, (j < 3)%nat -> In (Z.to_nat (nth j s 0%Z) + 1)%nat (seq 1 (length points))).
    { intros j Hj. apply in_seq. assert (0 <= nth j s 0 < Z.of_nat (length points))%Z by (apply I, nth_In; lia). lia. }
    cbn [card_ids In] in Hn. destruct Hn as [<-|[<-|[<-|[]]]]; apply J; lia.
Qed.

Lemma c06_readers_agree_ex :
  Forall2 pt_at [[0; 0]; [4; 0]; [4; 3; 0]]%R [V3 0 0 0; V3 4 0 0; V3 4 3 0]%R /\
  Forall (fun s => length s = 3%nat /\ Forall (fun i => (0 <= i < 3)%Z) s) [[0; 1; 2]]%Z.
Proof.
  split.
  - repeat (apply Forall2_cons || apply Forall2_nil); unfold pt_at; cbn [vx vy vz]; auto.
  - repeat constructor; cbn; lia.
Qed.

Lemma perm3_cases : forall A (l l' : list A), Permutation l l' -> forall a b c, l = [a; b; c] ->
  l' = [a; b; c] \/ l' = [a; c; b] \/ l' = [b; a; c] \/ l' = [b; c; a] \/ l' = [c; a; b] \/ l' = [c; b; a].
Proof.
  intros A l l' P a b c ->.
  destruct l' as [|x [|y [|z [|w l']]]]; try (apply Permutation_length in P; discriminate).
  assert (X : In a [x; y; z]) by (eapply Permutation_in; [exact P|left; reflexivity]).
  cbn [In] in X. destruct X as [->|[->|[->|[]]]].
  - apply Permutation_cons_inv in P. apply Permutation_length_2 in P. destruct P as [[-> ->]|[-> ->]]; tauto.
  - assert (Q : Permutation [b; c] [x; z]).
    { apply Permutation_cons_inv with a. rewrite P. apply perm_swap. }
    apply Permutation_length_2 in Q. destruct Q as [[-> ->]|[-> ->]]; tauto.
  - assert (Q : Permutation [b; c] [x; y]).
    { apply Permutation_cons_inv with a. rewrite P. symmetry. apply (Permutation_cons_append [x; y] a). }
    apply Permutation_length_2 in Q. destruct Q as [[-> ->]|[-> ->]]; tauto.
Qed.

Lemma sides_perm : forall T N e s s', length s = 3%nat -> Permutation s s' ->
  Permutation (sides (simplex_tria (T := T) N e s)) (sides (simplex_tria (T := T) N e s')).
Proof.
  intros T N e s s' L P. destruct s as [|a [|b [|c [|d s]]]]; try discriminate.
  unfold sides.
  destruct (perm3_cases _ _ _ P a b c eq_refl) as [->|[->|[->|[->|[->| ->]]]]]; cbn [simplex_tria nth new_tria tn1 tn2 tn3];
  generalize (point_id N a) (point_id N b) (point_id N c); intros x y z;
  rewrite (Nat.min_comm y x), (Nat.max_comm y x) ||
  idtac; repeat match goal with
  | |- context [Nat.min y x] => rewrite (Nat.min_comm y x), (Nat.max_comm y x)
  | |- context [Nat.min z x] => rewrite (Nat.min_comm z x), (Nat.max_comm z x)
  | |- context [Nat.min z y] => rewrite (Nat.min_comm z y), (Nat.max_comm z y)
  end;
  match goal with |- Permutation ?l ?l' =>
    let p := constr:(l) in
    first [ reflexivity
          | apply perm_swap
          | apply perm_skip, perm_swap
          | eapply perm_trans; [apply perm_swap|]; apply perm_skip, perm_swap
          | eapply perm_trans; [apply perm_skip, perm_swap|]; apply perm_swap
          | eapply perm_trans; [apply perm_swap|]; eapply perm_trans; [apply perm_skip, perm_swap|]; apply perm_swap ]
  end.
Qed.

Lemma filter_perm : forall A (p : A -> bool) l l', Permutation l l' -> Permutation (filter p l) (filter p l').
Proof.
  intros A p l l' P; induction P; cbn; [constructor| | |eapply perm_trans; eauto].
  - destruct (p x); [constructor|]; assumption.
  - destruct (p x), (p y); try apply perm_swap; reflexivity.
Qed.

(** The vertex order inside the simplices influences neither the set of edges nor the
    triangles on an edge. *)
Lemma c06_vertex_order : forall (T : Type) (NT : Num T) (points : list (list T)) ss ss' m m',
  Forall2 (@Permutation Z) ss ss' ->
  read_delaunay points ss = Ok m -> read_delaunay points ss' = Ok m' ->
  (forall k, In k (edge_keys m) <-> In k (edge_keys m')) /\
  (forall k e e', In (k, e) (edges m) -> In (k, e') (edges m') -> etrias e = etrias e').
Proof.
  intros T NT points ss ss' m m' P E E'.
  destruct (proj1 (proj1 (c01_read_delaunay T NT points ss)) (ex_intro _ m E)) as [F G].
  destruct (proj1 (proj1 (c01_read_delaunay T NT points ss')) (ex_intro _ m' E')) as [_ G'].
  destruct (read_delaunay_ok points ss F G) as [ps [A X]]. rewrite X in E. injection E as <-.
  destruct (read_delaunay_ok points ss' F G') as [ps' [A' X']]. rewrite X' in E'. injection E' as <-.
  set (N := length points) in *.
  set (Tr := simplex_trias (T := T) N 0 ss) in *. set (Tr' := simplex_trias (T := T) N 0 ss') in *.
  assert (Q : Forall2 (fun t t' => eid t = eid t' /\ Permutation (sides t) (sides t')) (map snd Tr) (map snd Tr')).
  { unfold Tr, Tr', simplex_trias. clear -P G. generalize 1%nat as st.
    induction P as [|s s' ss ss' H P IH]; intros st; [constructor|]. inversion G; subst.
    cbn [length seq combine map fst snd]. constructor.
    - split; [reflexivity|]. apply sides_perm; [apply H2|exact H].
    - apply IH; assumption. }
  split.
  - intros k.
    change (In k (edge_keys (the_mesh (grid_nodes ps) Tr)) <-> In k (edge_keys (the_mesh (grid_nodes ps') Tr'))).
    rewrite !tm_edges_keys, !tm_sides.
    split; intros [t [Ht Hk]].
    + revert t Ht Hk. induction Q as [|t t' l l' [_ H] Q IH]; intros t0 Ht Hk; [destruct Ht|].
      destruct Ht as [->|Ht].
      * exists t'; split; [left; reflexivity|]. eapply Permutation_in; [exact H|exact Hk].
      * destruct (IH t0 Ht Hk) as [t1 [H1 H2]]. exists t1; split; [right|]; assumption.
    + revert t Ht Hk. induction Q as [|t t' l l' [_ H] Q IH]; intros t0 Ht Hk; [destruct Ht|].
      destruct Ht as [->|Ht].
      * exists t; split; [left; reflexivity|]. eapply Permutation_in; [symmetry; exact H|exact Hk].
      * destruct (IH t0 Ht Hk) as [t1 [H1 H2]]. exists t1; split; [right|]; assumption.
  - intros k e e' He He'.
    rewrite (tm_edge (grid_nodes ps) Tr k e He), (tm_edge (grid_nodes ps') Tr' k e' He'). cbn [edge_of etrias].
    clear -Q. induction Q as [|t t' l l' [E H] Q IH]; [reflexivity|]. cbn [flat_map]. f_equal; [|exact IH].
    unfold on_edge. rewrite E. apply (filter_perm _ (pair_eqb k)) in H. apply Permutation_length in H.
    revert H. generalize (filter (pair_eqb k) (sides t)) (filter (pair_eqb k) (sides t')).
    induction l0 as [|x l0 IH0]; intros [|y l1] H; cbn in *; try discriminate; [reflexivity|].
    f_equal. apply IH0. lia.
Qed.

Lemma c06_vertex_order_ex : Forall2 (@Permutation Z) ex_simplices [[4; 0; 1]; [1; 2; 4]; [2; 3; 4]; [0; 3; -2]]%Z.
Proof.
  repeat (apply Forall2_cons || apply Forall2_nil).
  - apply (Permutation_trans (l' := [0;4;1]%Z)); [apply perm_skip, perm_swap|apply perm_swap].
  - apply perm_swap.
  - apply (Permutation_trans (l' := [2;4;3]%Z)); [apply perm_swap|apply perm_skip, perm_swap].
  - apply (Permutation_trans (l' := [3;0;-2]%Z)); [apply perm_skip, perm_swap|apply perm_swap].
Qed.

(** A deck with an element of another type is rejected; a deck of CTRIA3 elements whose
    grids exist is read. *)
Lemma c07_triangles_only : forall (T : Type) (NT : Num T) (grids : list (nat * vec3 T)) cards,
  NoDup (map fst grids) -> NoDup (map fst cards) ->
  (In Other (map snd cards) -> read_mesh grids cards = Raise NotImplementedError) /\
  (~ In Other (map snd cards) ->
   (forall c n, In c (map snd cards) -> In n (card_ids c) -> In n (map fst grids)) ->
   exists m, read_mesh grids cards = Ok m /\
     (forall n nd, In (n, nd) (nodes m) -> nid nd = n /\ In (n, nxyz nd) grids) /\
     (forall e t, In (e, t) (elements m) -> eid t = e /\ In (e, Ctria3 (tn1 t) (tn2 t) (tn3 t)) cards) /\
     map fst (nodes m) = map fst grids /\ map fst (elements m) = map fst cards).
Proof.
  intros T NT grids cards N NC. split.
  - intros O. unfold read_mesh. rewrite read_cards_bad by exact O. reflexivity.
  - intros O V. rewrite (read_mesh_ok grids cards N NC O V). cbv zeta.
    eexists; split; [reflexivity|]. cbn [nodes elements]. split; [|split; [|split]].
    + intros n nd H. apply in_map_iff in H. destruct H as [[n' nd0] [E H]]. injection E as -> <-.
      unfold new_nodes in H. apply in_map_iff in H. destruct H as [[n' p] [E H]]. injection E as -> <-.
      cbn. auto.
    + intros e t H. apply in_map_iff in H. destruct H as [[e' t0] [E H]]. injection E as -> <-.
      apply ctria3s_in in H. destruct H as [i [j [k [H ->]]]]. cbn. auto.
    + rewrite map_map. apply new_nodes_keys.
    + rewrite map_map. cbn [fin_tria fst]. apply ctria3s_keys, O.
Qed.

Lemma c07_triangles_only_ex : NoDup (map fst ex_grids) /\ NoDup (map fst ex_cards) /\ ~ In Other (map snd ex_cards) /\
  (forall c n, In c (map snd ex_cards) -> In n (card_ids c) -> In n (map fst ex_grids)).
Proof.
  split; [|split; [|split]].
  - cbn. repeat constructor; cbn [In]; lia.
  - cbn. repeat constructor; cbn [In]; lia.
  - cbn. intuition discriminate.
  - cbn. intros c n [<-|[<-|[<-|[<-|[]]]]]; cbn; intuition lia.
Qed.

(** a mesh returned by a reader is well formed *)
Lemma reads_wf : forall (T : Type) (NT : Num T) (m : mesh T), reads m -> (forall t, In t (trias_of m) -> distinct t) -> wf_mesh m.
Proof.
  intros T NT m H D. destruct (reads_fresh T NT m H) as [nds [els [F ->]]].
  apply tm_wf; [exact F|]. apply (reads_distinct _ nds els F D).
Qed.
Arguments reads_wf {T NT}.

