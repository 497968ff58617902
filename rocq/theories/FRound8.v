(** A mesh of doubles and the mesh of their values. *)
From Coq Require Import ZArith Reals List Bool Arith Lra Lia.
From Verif Require Import Num Float Py Mesh Utils CalcK0 Spec SpecK0 SpecRound FDict FWf FOut.
Import ListNotations.
Local Open Scope R_scope.

(** the dictionaries of [M] hold the values of those of [m] *)
Record lock (m : mesh double) (M : mesh R) : Prop := {
  lk_nodes : nodes M = map (fun x => (fst x, node_val (snd x))) (nodes m);
  lk_elements : elements M = map (fun x => (fst x, tria_val (snd x))) (elements m) }.

Lemma lock_val : forall m, lock m (mesh_val m).
Proof. intros m; constructor; reflexivity. Qed.

Lemma dget_map : forall K A B (eqb : K -> K -> bool) (f : A -> B) k l,
  dget eqb k (map (fun x => (fst x, f (snd x))) l) = option_map f (dget eqb k l).
Proof.
  intros K A B eqb f k; induction l as [|[a b] l IH]; [reflexivity|]. cbn [map dget fst snd]. destruct (eqb k a); [reflexivity|exact IH].
Qed.

Definition rmap {A B} (f : A -> B) (r : res A) : res B := match r with Ok a => Ok (f a) | Raise x => Raise x end.

Section Lock.
  Variables (m : mesh double) (M : mesh R).
  Hypothesis LK : lock m M.

  Lemma get_node_lock : forall n, get_node M n = rmap node_val (get_node m n).
  Proof. intros n. unfold get_node. rewrite (lk_nodes _ _ LK), dget_map. destruct (dget Nat.eqb n (nodes m)); reflexivity. Qed.
  Lemma get_tria_lock : forall n, get_tria M n = rmap tria_val (get_tria m n).
  Proof. intros n. unfold get_tria. rewrite (lk_elements _ _ LK), dget_map. destruct (dget Nat.eqb n (elements m)); reflexivity. Qed.
  Lemma get_index_lock : forall n, get_index M n = get_index m n.
  Proof. intros n. unfold get_index. rewrite get_node_lock. destruct (get_node m n); reflexivity. Qed.
  Lemma node_prop_lock : forall n, node_prop M n = rmap prop_val (node_prop m n).
  Proof. intros n. unfold node_prop. rewrite get_node_lock. destruct (get_node m n) as [nd|]; [|reflexivity]. cbn. destruct (nprop nd); reflexivity. Qed.
  Lemma other_prop_lock : forall o, other_prop M o = rmap prop_val (other_prop m o).
  Proof. intros [n|]; [apply node_prop_lock|reflexivity]. Qed.
  Lemma keys_lock : node_keys M = node_keys m.
  Proof. unfold node_keys. rewrite (lk_nodes _ _ LK), map_map. reflexivity. Qed.
  Lemma trias_lock : trias_of M = map tria_val (trias_of m).
  Proof. unfold trias_of. rewrite (lk_elements _ _ LK), !map_map. reflexivity. Qed.
  Lemma tris_on_lock : forall k, tris_on M k = map tria_val (tris_on m k).
  Proof.
    intros k. unfold tris_on. rewrite trias_lock. induction (trias_of m) as [|t l IH]; [reflexivity|]. cbn [map filter].
    change (is_vertex (fst k) (tria_val t)) with (is_vertex (fst k) t). change (is_vertex (snd k) (tria_val t)) with (is_vertex (snd k) t).
    destruct (is_vertex (fst k) t && is_vertex (snd k) t); cbn [map]; rewrite IH; reflexivity.
  Qed.
  Lemma pos_lock : forall n nd, get_node m n = Ok nd -> pos M n = vec_val (nxyz nd).
  Proof.
    intros n nd H. unfold pos. rewrite (lk_nodes _ _ LK), dget_map. unfold get_node in H. destruct (dget Nat.eqb n (nodes m)); [|discriminate].
    injection H as ->. reflexivity.
  Qed.
  Lemma prop_lock : forall n, nodeprop M n = option_map prop_val (nodeprop m n).
  Proof. intros n. unfold nodeprop. rewrite (lk_nodes _ _ LK), dget_map. destruct (dget Nat.eqb n (nodes m)); reflexivity. Qed.
End Lock.

Lemma edge_keys_val : forall m, edge_keys (mesh_val m) = edge_keys m.
Proof. intros m. unfold edge_keys, mesh_val; cbn [edges]. rewrite map_map. reflexivity. Qed.
Lemma edges_val : forall m k e, In (k, e) (edges m) -> In (k, edge_val e) (edges (mesh_val m)).
Proof. intros m k e H. unfold mesh_val; cbn [edges]. apply in_map_iff. exists (k, e). auto. Qed.

Lemma wf_val : forall m, wf_mesh (mesh_val m) -> wf_mesh m.
Proof.
  intros m [A1 A2 A3 A4 A5 A6 A7 A8 A9 A10 A11 A12]. assert (LK := lock_val m).
  rewrite (keys_lock _ _ LK) in A1. rewrite edge_keys_val in A7.
  assert (TI : forall t, In t (trias_of m) -> In (tria_val t) (trias_of (mesh_val m))).
  { intros t H. rewrite (trias_lock _ _ LK). apply in_map, H. }
  constructor.
  - exact A1.
  - intros k n H. apply (A2 k (node_val n)). rewrite (lk_nodes _ _ LK). apply in_map_iff. exists (k, n); auto.
  - rewrite (lk_elements _ _ LK), map_map in A3. exact A3.
  - intros k t H. apply (A4 k (tria_val t)). rewrite (lk_elements _ _ LK). apply in_map_iff. exists (k, t); auto.
  - intros t H. exact (A5 _ (TI t H)).
  - intros t n H V. rewrite <- (keys_lock _ _ LK). exact (A6 _ n (TI t H) V).
  - exact A7.
  - intros k e H. exact (A8 _ _ (edges_val m k e H)).
  - intros k. rewrite <- edge_keys_val. rewrite A9, (trias_lock _ _ LK). split.
    + intros [t [H S]]. apply in_map_iff in H. destruct H as [t' [<- H]]. exists t'. split; [exact H|exact S].
    + intros [t [H S]]. exists (tria_val t). split; [apply in_map, H|exact S].
  - intros k e H. assert (X := A10 _ _ (edges_val m k e H)). rewrite (tris_on_lock _ _ LK), map_map in X. exact X.
  - intros t H. exact (A11 _ (TI t H)).
  - intros t H. exact (A12 _ (TI t H)).
Qed.

Lemma lock_number : forall m es ES, lock (number m es) (number (mesh_val m) ES).
Proof.
  intros m es ES. constructor; [|reflexivity]. unfold number, mesh_val; cbn [nodes].
  generalize 0%nat. induction (nodes m) as [|[k n] l IH]; intros i; [reflexivity|]. cbn [map number_nodes fst snd]. rewrite IH. reflexivity.
Qed.
