(** The two readers build a well formed mesh. *)
From Coq Require Import ZArith Reals List Bool Arith Lra Lia Permutation.
From Verif Require Import Num Py Mesh Spec FDict FWf.
Import ListNotations.

(** ** Loops of in-place updates *)
Section Loops.
  Context {K V A : Type} (eqb : K -> K -> bool) (eqb_spec : forall a b, eqb a b = true <-> a = b).

  Lemma dupd_map : forall k f (d : list (K * V)), NoDup (map fst d) ->
    dupd eqb k f d = map (fun kv => (fst kv, if eqb k (fst kv) then f (snd kv) else snd kv)) d.
  Proof.
    intros k f d; induction d as [|[k' v] d IH]; intros N; [reflexivity|].
    cbn [map fst] in N; inversion N; subst. cbn [dupd map fst snd].
    destruct (eqb k k') eqn:E.
    - f_equal. apply eqb_spec in E; subst k'.
      transitivity (map (fun kv : K * V => kv) d); [rewrite map_id; reflexivity|].
      apply map_ext_in; intros [k'' v''] H; cbn [fst snd].
      destruct (eqb k k'') eqn:E; [|reflexivity]. apply eqb_spec in E; subst.
      exfalso; apply H1; apply in_map_iff; exists (k'', v''); auto.
    - f_equal; auto.
  Qed.

  Lemma fold_upd : forall (key : A -> K) (f : A -> V -> V) l (d : list (K * V)), NoDup (map fst d) ->
    fold_left (fun d a => dupd eqb (key a) (f a) d) l d
    = map (fun kv => (fst kv, fold_left (fun v a => f a v)
                       (filter (fun a => eqb (key a) (fst kv)) l) (snd kv))) d.
  Proof.
    intros key f l; induction l as [|a l IH]; intros d N.
    - cbn [fold_left filter]. rewrite <- (map_id d) at 1. apply map_ext; intros []; reflexivity.
    - cbn [fold_left]. rewrite IH by (rewrite dupd_keys; exact N).
      rewrite dupd_map by exact N. rewrite map_map. apply map_ext; intros [k v]; cbn [fst snd filter].
      destruct (eqb (key a) k); reflexivity.
  Qed.

  Lemma fold_flat : forall B (g : A -> list B) (f : V -> B -> V) l v,
    fold_left (fun v a => fold_left f (g a) v) l v = fold_left f (flat_map g l) v.
  Proof.
    intros B g f l; induction l as [|a l IH]; intros v; [reflexivity|].
    cbn [fold_left flat_map]. rewrite fold_left_app. apply IH.
  Qed.
End Loops.

Lemma fold_left_ext : forall A B (f g : A -> B -> A) l a, (forall a b, f a b = g a b) ->
  fold_left f l a = fold_left g l a.
Proof. intros A B f g l; induction l; intros v H; cbn; [reflexivity|]. rewrite H; auto. Qed.

Lemma fold_sadd_in : forall A (eqb : A -> A -> bool) (sp : forall a b, eqb a b = true <-> a = b) l s x,
  In x (fold_left (fun s a => sadd eqb a s) l s) <-> In x l \/ In x s.
Proof.
  intros A eqb sp l; induction l as [|a l IH]; intros s x; cbn [fold_left In]; [tauto|].
  rewrite IH, (sadd_in eqb sp). split; [intros [H|[H|H]]|intros [[H|H]|H]]; auto.
Qed.

Lemma fold_sadd_nodup : forall A (eqb : A -> A -> bool) (sp : forall a b, eqb a b = true <-> a = b) l s,
  NoDup s -> NoDup (fold_left (fun s a => sadd eqb a s) l s).
Proof.
  intros A eqb sp l; induction l as [|a l IH]; intros s N; cbn [fold_left]; [exact N|].
  apply IH, (sadd_nodup eqb sp), N.
Qed.

(** ** Sides *)

Lemma sorted_pair_minmax : forall a b, sorted_pair a b = (Nat.min a b, Nat.max a b).
Proof.
  intros a b; unfold sorted_pair. destruct (Nat.leb_spec a b);
  f_equal; lia.
Qed.

Section Any.
Context {T : Type} {NT : Num T}.
Implicit Types (t : tria T) (m : mesh T).

Lemma edge_ids_sides : forall t : tria T, get_edge_ids t = sides t.
Proof. intros t; unfold get_edge_ids, sides; rewrite !sorted_pair_minmax; reflexivity. Qed.

(** ** Collecting the edges *)

Definition on_edge (k : nat * nat) (t : tria T) : list nat :=
  map (fun _ => eid t) (filter (pair_eqb k) (sides t)).

Definition addl (l : list nat) (o : option (list nat)) : option (list nat) :=
  match l with [] => o | _ => Some (match o with Some l' => l' ++ l | None => l end) end.

Lemma collect_flat : forall ts : list (tria T), collect_edges ts =
  fold_left (fun d a => dappend pair_eqb (fst a) (snd a) d)
    (flat_map (fun t => map (fun k => (k, eid t)) (sides t)) ts) [].
Proof.
  intros ts; unfold collect_edges.
  generalize (@nil ((nat * nat) * list nat)) as d.
  induction ts as [|t ts IH]; intros d; [reflexivity|].
  cbn [fold_left flat_map]. rewrite fold_left_app, <- IH. f_equal.
  rewrite edge_ids_sides. unfold sides; reflexivity.
Qed.

Lemma append_keys_nodup : forall (l : list ((nat * nat) * nat)) d, NoDup (map fst d) ->
  NoDup (map fst (fold_left (fun d a => dappend pair_eqb (fst a) (snd a) d) l d)).
Proof.
  induction l as [|a l IH]; intros d N; cbn [fold_left]; [exact N|].
  apply IH. rewrite dappend_keys. apply (sadd_nodup pair_eqb pair_eqb_spec), N.
Qed.

Lemma append_keys_in : forall (l : list ((nat * nat) * nat)) d k,
  In k (map fst (fold_left (fun d a => dappend pair_eqb (fst a) (snd a) d) l d))
  <-> In k (map fst l) \/ In k (map fst d).
Proof.
  induction l as [|a l IH]; intros d k; cbn [fold_left map In]; [tauto|].
  rewrite IH, dappend_keys, (sadd_in pair_eqb pair_eqb_spec).
  split; [intros [H|[H|H]]|intros [[H|H]|H]]; auto.
Qed.

Lemma append_get : forall (l : list ((nat * nat) * nat)) d k,
  dget pair_eqb k (fold_left (fun d a => dappend pair_eqb (fst a) (snd a) d) l d)
  = addl (map snd (filter (fun a => pair_eqb k (fst a)) l)) (dget pair_eqb k d).
Proof.
  induction l as [|[k' v] l IH]; intros d k; [reflexivity|].
  cbn [fold_left filter fst snd]. rewrite IH, (dget_dappend pair_eqb pair_eqb_spec).
  destruct (pair_eqb k k') eqn:E; [|reflexivity].
  cbn [map snd]. unfold addl.
  destruct (map snd (filter (fun a => pair_eqb k (fst a)) l)) as [|x r].
  - destruct (dget pair_eqb k d); reflexivity.
  - destruct (dget pair_eqb k d); cbn; [rewrite <- app_assoc; reflexivity|reflexivity].
Qed.

Lemma collect_nodup : forall ts : list (tria T), NoDup (map fst (collect_edges ts)).
Proof. intros ts; rewrite collect_flat; apply append_keys_nodup; constructor. Qed.

Lemma collect_keys : forall (ts : list (tria T)) k,
  In k (map fst (collect_edges ts)) <-> exists t, In t ts /\ In k (sides t).
Proof.
  intros ts k; rewrite collect_flat, append_keys_in. cbn [map In].
  rewrite in_map_iff. split.
  - intros [[[k' e] [E H]]|[]]. cbn [fst] in E; subst k'.
    apply in_flat_map in H. destruct H as [t [Ht H]]. apply in_map_iff in H.
    destruct H as [k' [E H]]. inversion E; subst. eauto.
  - intros [t [Ht H]]. left. exists (k, eid t); split; [reflexivity|].
    apply in_flat_map; exists t; split; [exact Ht|]. apply in_map_iff; exists k; auto.
Qed.

Lemma flat_filter : forall k (ts : list (tria T)),
  map snd (filter (fun a => pair_eqb k (fst a)) (flat_map (fun t => map (fun k => (k, eid t)) (sides t)) ts))
  = flat_map (on_edge k) ts.
Proof.
  intros k ts; induction ts as [|t ts IH]; [reflexivity|].
  cbn [flat_map]. rewrite filter_app, map_app, IH. f_equal. unfold on_edge.
  induction (sides t) as [|s l IH']; [reflexivity|].
  cbn [map filter fst]. destruct (pair_eqb k s); cbn [map snd]; rewrite IH'; reflexivity.
Qed.

Lemma collect_get : forall (ts : list (tria T)) k l, In (k, l) (collect_edges ts) ->
  l = flat_map (on_edge k) ts.
Proof.
  intros ts k l H. apply (in_dget pair_eqb pair_eqb_spec) in H; [|apply collect_nodup].
  rewrite collect_flat, append_get, flat_filter in H. cbn [dget] in H. unfold addl in H.
  destruct (flat_map (on_edge k) ts); [discriminate|]. inversion H; reflexivity.
Qed.

(** ** The loops *)

Definition node_edges_ops (l : list ((nat * nat) * list nat)) : list (nat * (nat * nat)) :=
  flat_map (fun it => [(fst (fst it), fst it); (snd (fst it), fst it)]) l.

Definition edge_of (k : nat * nat) (l : list nat) : edge T :=
  {| en1 := fst k; en2 := snd k; etrias := l; esdomain := []; eipts := []; eAc := None;
     eother1 := None; eother2 := None |}.

Lemma get_node_ok : forall (m : mesh T) n, In n (map fst (nodes m)) -> exists d, get_node m n = Ok d.
Proof.
  intros m n H. destruct (dget_some Nat.eqb nat_eqb_spec n (nodes m) H) as [d E].
  exists d; unfold get_node; rewrite E; reflexivity.
Qed.

Lemma get_node_bad : forall (m : mesh T) n, ~ In n (map fst (nodes m)) -> get_node m n = Raise KeyError.
Proof.
  intros m n H. apply (dget_none Nat.eqb nat_eqb_spec) in H. unfold get_node; rewrite H; reflexivity.
Qed.

Lemma make_edges_ok : forall l (m : mesh T),
  NoDup (map fst (nodes m)) -> NoDup (map fst (edges m) ++ map fst l) ->
  (forall k, In k (map fst l) -> In (fst k) (map fst (nodes m)) /\ In (snd k) (map fst (nodes m))) ->
  make_edges l m = Ok {|
    nodes := fold_left (fun d a => dupd Nat.eqb (fst a) (add_node_edge (snd a)) d) (node_edges_ops l) (nodes m);
    elements := elements m;
    edges := edges m ++ map (fun it => (fst it, edge_of (fst it) (snd it))) l |}.
Proof.
  induction l as [|[[n1 n2] ts] l IH]; intros m N ND H.
  - cbn. rewrite app_nil_r. destruct m; reflexivity.
  - destruct (H (n1, n2)) as [H1 H2]; [left; reflexivity|]. cbn [fst snd] in H1, H2.
    destruct (get_node_ok m n1 H1) as [d1 E1]. destruct (get_node_ok m n2 H2) as [d2 E2].
    assert (NE : ~ In (n1, n2) (map fst (edges m))).
    { cbn [map fst] in ND. apply NoDup_remove_2 in ND. rewrite in_app_iff in ND; tauto. }
    cbn [make_edges make_edge]. rewrite E1, E2. cbn [bind].
    rewrite (dset_new pair_eqb pair_eqb_spec) by exact NE.
    rewrite IH.
    + cbn [nodes elements edges]. f_equal. rewrite <- app_assoc. reflexivity.
    + cbn [nodes]. rewrite !dupd_keys; exact N.
    + cbn [edges]. rewrite map_app; cbn [map fst]. rewrite <- app_assoc; exact ND.
    + cbn [nodes]. rewrite !dupd_keys. intros k Hk; apply H; right; exact Hk.
Qed.

Lemma make_edges_bad : forall l (m : mesh T) k,
  In k (map fst l) -> (~ In (fst k) (map fst (nodes m)) \/ ~ In (snd k) (map fst (nodes m))) ->
  make_edges l m = Raise KeyError.
Proof.
  induction l as [|[[n1 n2] ts] l IH]; intros m k Hk B; [destruct Hk|].
  cbn [make_edges make_edge].
  destruct (in_dec Nat.eq_dec n1 (map fst (nodes m))) as [H1|H1]; [|rewrite (get_node_bad m n1 H1); reflexivity].
  destruct (get_node_ok m n1 H1) as [d1 E1]. rewrite E1; cbn [bind].
  destruct (in_dec Nat.eq_dec n2 (map fst (nodes m))) as [H2|H2]; [|rewrite (get_node_bad m n2 H2); reflexivity].
  destruct (get_node_ok m n2 H2) as [d2 E2]. rewrite E2; cbn [bind].
  destruct Hk as [<-|Hk]; [cbn [fst snd] in B; tauto|].
  apply (IH _ k Hk). cbn [nodes]. rewrite !dupd_keys; exact B.
Qed.

Definition node_tria_ops (ts : list (tria T)) : list (nat * nat) :=
  flat_map (fun t => [(tn1 t, eid t); (tn2 t, eid t); (tn3 t, eid t)]) ts.

Lemma link_nodes_ok : forall ts (m : mesh T),
  (forall t n, In t ts -> vertex t n -> In n (map fst (nodes m))) ->
  link_nodes ts m = Ok {|
    nodes := fold_left (fun d a => dupd Nat.eqb (fst a) (add_node_tria (snd a)) d) (node_tria_ops ts) (nodes m);
    elements := elements m; edges := edges m |}.
Proof.
  induction ts as [|t ts IH]; intros m H; [destruct m; reflexivity|].
  assert (L : forall (m' : mesh T) n, In n (map fst (nodes m')) -> link_node (eid t) n m' =
     Ok {| nodes := dupd Nat.eqb n (add_node_tria (eid t)) (nodes m'); elements := elements m'; edges := edges m' |}).
  { intros m' n Hn. unfold link_node. destruct (get_node_ok m' n Hn) as [d ->]. reflexivity. }
  assert (V := fun n => H t n (or_introl eq_refl)). unfold vertex in V.
  cbn [link_nodes]. unfold link_nodes1. rewrite L by auto. cbn [bind].
  rewrite L by (cbn [nodes]; rewrite !dupd_keys; auto). cbn [bind].
  rewrite L by (cbn [nodes]; rewrite !dupd_keys; auto). cbn [bind].
  rewrite IH; [reflexivity|]. cbn [nodes]. intros t' n Ht V'. rewrite !dupd_keys.
  apply (H t' n); [right; exact Ht|exact V'].
Qed.

Definition tria_edge_ops (es : list ((nat * nat) * edge T)) : list (nat * (nat * nat)) :=
  flat_map (fun ke => map (fun t : nat => (t, fst ke)) (etrias (snd ke))) es.

Lemma link_trias_flat : forall m : mesh T, link_trias m = {|
    nodes := nodes m;
    elements := fold_left (fun d a => dupd Nat.eqb (fst a) (add_tria_edge (snd a)) d)
                  (tria_edge_ops (edges m)) (elements m);
    edges := edges m |}.
Proof.
  intros m; unfold link_trias. f_equal. unfold tria_edge_ops.
  generalize (elements m) as d. induction (edges m) as [|[k e] es IH]; intros d; [reflexivity|].
  cbn [fold_left flat_map fst snd]. rewrite fold_left_app, IH. f_equal.
  generalize d. induction (etrias e) as [|t l IH']; intros d'; [reflexivity|]. cbn. apply IH'.
Qed.

Lemma fold_node_edge : forall l (n : node T),
  fold_left (fun v a => add_node_edge (snd a) v) l n
  = {| nid := nid n; nxyz := nxyz n; nprop := nprop n; nindex := nindex n;
       nedges := fold_left (fun s a => sadd pair_eqb a s) (map (@snd nat (nat * nat)) l) (nedges n);
       ntrias := ntrias n |}.
Proof. induction l as [|a l IH]; intros n; [destruct n; reflexivity|]. cbn [fold_left map]. rewrite IH; reflexivity. Qed.

Lemma fold_node_tria : forall l (n : node T),
  fold_left (fun v a => add_node_tria (snd a) v) l n
  = {| nid := nid n; nxyz := nxyz n; nprop := nprop n; nindex := nindex n; nedges := nedges n;
       ntrias := fold_left (fun s a => sadd Nat.eqb a s) (map (@snd nat nat) l) (ntrias n) |}.
Proof. induction l as [|a l IH]; intros n; [destruct n; reflexivity|]. cbn [fold_left map]. rewrite IH; reflexivity. Qed.

Lemma fold_tria_edge : forall l (t : tria T),
  fold_left (fun v a => add_tria_edge (snd a) v) l t
  = {| eid := eid t; tn1 := tn1 t; tn2 := tn2 t; tn3 := tn3 t; tprop := tprop t;
       tedges := tedges t ++ map (@snd nat (nat * nat)) l |}.
Proof.
  induction l as [|a l IH]; intros t; [destruct t; cbn; rewrite app_nil_r; reflexivity|].
  cbn [fold_left map]. rewrite IH. cbn. rewrite <- app_assoc; reflexivity.
Qed.

(** ** The finished mesh *)

Definition fin_node (ts : list (tria T)) (kn : nat * node T) : nat * node T :=
  let n := snd kn in
  (fst kn,
   {| nid := nid n; nxyz := nxyz n; nprop := nprop n; nindex := nindex n;
      nedges := fold_left (fun s a => sadd pair_eqb a s)
                  (map snd (filter (fun a => Nat.eqb (fst a) (fst kn)) (node_edges_ops (collect_edges ts))))
                  (nedges n);
      ntrias := fold_left (fun s a => sadd Nat.eqb a s)
                  (map snd (filter (fun a => Nat.eqb (fst a) (fst kn)) (node_tria_ops ts))) (ntrias n) |}).

Definition fin_edges (ts : list (tria T)) : list ((nat * nat) * edge T) :=
  map (fun it => (fst it, edge_of (fst it) (snd it))) (collect_edges ts).

Definition fin_tria (ts : list (tria T)) (kt : nat * tria T) : nat * tria T :=
  let t := snd kt in
  (fst kt,
   {| eid := eid t; tn1 := tn1 t; tn2 := tn2 t; tn3 := tn3 t; tprop := tprop t;
      tedges := tedges t ++ map snd (filter (fun a => Nat.eqb (fst a) (fst kt)) (tria_edge_ops (fin_edges ts))) |}).

Lemma finish_mesh_ok : forall (nds : list (nat * node T)) els,
  NoDup (map fst nds) -> NoDup (map fst els) ->
  (forall t n, In t (map snd els) -> vertex t n -> In n (map fst nds)) ->
  finish_mesh nds els = Ok {|
    nodes := map (fin_node (map snd els)) nds;
    elements := map (fin_tria (map snd els)) els;
    edges := fin_edges (map snd els) |}.
Proof.
  intros nds els N NE V. unfold finish_mesh.
  set (ts := map snd els) in *.
  assert (KV : forall k, In k (map fst (collect_edges ts)) -> In (fst k) (map fst nds) /\ In (snd k) (map fst nds)).
  { intros k Hk. apply collect_keys in Hk. destruct Hk as [t [Ht Hs]].
    assert (Vt := fun n => V t n Ht). unfold vertex in Vt.
    unfold sides in Hs; cbn [In] in Hs.
    destruct Hs as [<-|[<-|[<-|[]]]]; cbn [fst snd];
    match goal with |- In (Nat.min ?a ?b) _ /\ _ =>
      destruct (Nat.min_dec a b) as [-> | ->]; destruct (Nat.max_dec a b) as [-> | ->] end; auto. }
  rewrite make_edges_ok; [|exact N|cbn [edges map app]; apply collect_nodup|exact KV].
  cbn [bind nodes elements edges app]. rewrite link_trias_flat. cbn [nodes elements edges].
  rewrite link_nodes_ok; cbn [nodes elements edges].
  - f_equal.
    + rewrite (fold_upd Nat.eqb nat_eqb_spec _ _ (node_edges_ops _)) by exact N.
      rewrite (fold_upd Nat.eqb nat_eqb_spec) by (rewrite map_map; exact N).
      rewrite map_map, (fold_upd Nat.eqb nat_eqb_spec) by exact NE.
      f_equal.
      * apply map_ext. intros [k n]; cbn [fst snd].
        rewrite fold_node_edge, fold_node_tria. reflexivity.
      * apply map_ext. intros [k t]; cbn [fst snd]. rewrite fold_tria_edge. reflexivity.
  - intros t n Ht Vn. rewrite (fold_upd Nat.eqb nat_eqb_spec) by exact N.
    rewrite map_map. cbn [fst]. apply (V t n Ht Vn).
Qed.

Lemma finish_mesh_bad : forall (nds : list (nat * node T)) els t n,
  In t (map snd els) -> vertex t n -> ~ In n (map fst nds) ->
  finish_mesh nds els = Raise KeyError.
Proof.
  intros nds els t n Ht V B. unfold finish_mesh.
  assert (S : exists k, In k (sides t) /\ (fst k = n \/ snd k = n)).
  { unfold sides. destruct V as [->|[->| ->]].
    - exists (Nat.min (tn1 t) (tn2 t), Nat.max (tn1 t) (tn2 t)); split; [left; reflexivity|]; cbn; lia.
    - exists (Nat.min (tn1 t) (tn2 t), Nat.max (tn1 t) (tn2 t)); split; [left; reflexivity|]; cbn; lia.
    - exists (Nat.min (tn2 t) (tn3 t), Nat.max (tn2 t) (tn3 t)); split; [right; left; reflexivity|]; cbn; lia. }
  destruct S as [k [Hk E]].
  rewrite (make_edges_bad _ _ k); [reflexivity| |].
  - apply collect_keys; eauto.
  - cbn [nodes]. destruct E as [-> | ->]; auto.
Qed.

End Any.
