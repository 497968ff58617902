(** calc_k0 does not read what earlier calls left in the mesh. *)
From Coq Require Import ZArith Reals List Bool Arith Lra Lia.
From Verif Require Import Num Py Mesh Utils Spec FDict FWf CalcK0 Ops.
Import ListNotations.

Section Any.
Context {T : Type} {NT : Num T}.
Implicit Types (m : mesh T).

Definition forget_node (n : node T) : node T :=
  {| nid := nid n; nxyz := nxyz n; nprop := nprop n; nindex := None; nedges := nedges n; ntrias := ntrias n |}.
Definition forget_edge (e : edge T) : edge T :=
  {| en1 := en1 e; en2 := en2 e; etrias := etrias e; esdomain := []; eipts := []; eAc := None;
     eother1 := None; eother2 := None |}.
Definition onsnd {A B} (f : B -> B) (x : A * B) : A * B := (fst x, f (snd x)).
Definition forget (m : mesh T) : mesh T :=
  {| nodes := map (onsnd forget_node) (nodes m); elements := elements m;
     edges := map (onsnd forget_edge) (edges m) |}.

Definition rmap {A B} (f : A -> B) (x : res A) : res B := match x with Ok a => Ok (f a) | Raise e => Raise e end.

Lemma dget_map : forall K V (eqb : K -> K -> bool) (f : V -> V) k d,
  dget eqb k (map (onsnd f) d) = option_map f (dget eqb k d).
Proof.
  intros K V eqb f k d; induction d as [|[k' v] d IH]; [reflexivity|].
  cbn. destruct (eqb k k'); [reflexivity|exact IH].
Qed.

Lemma dupd_map_comm : forall K V (eqb : K -> K -> bool) (f g : V -> V) k d,
  (forall v, f (g v) = g (f v)) ->
  dupd eqb k f (map (onsnd g) d) = map (onsnd g) (dupd eqb k f d).
Proof.
  intros K V eqb f g k d H; induction d as [|[k' v] d IH]; [reflexivity|].
  cbn [map dupd onsnd fst snd]. destruct (eqb k k'); cbn [map onsnd fst snd]; [rewrite H; reflexivity|].
  rewrite IH; reflexivity.
Qed.

Lemma forget_get_node : forall m n, get_node (forget m) n = rmap forget_node (get_node m n).
Proof.
  intros m n; unfold get_node, forget; cbn [nodes]. rewrite dget_map.
  destruct (dget Nat.eqb n (nodes m)); reflexivity.
Qed.

Lemma forget_get_tria : forall m e, get_tria (forget m) e = get_tria m e.
Proof. reflexivity. Qed.

Lemma forget_getMid : forall m t, getMid (forget m) t = getMid m t.
Proof.
  intros m t; unfold getMid. rewrite !forget_get_node.
  destruct (get_node m (tn1 t)) as [n1|]; [|reflexivity]. cbn [rmap bind].
  destruct (get_node m (tn2 t)) as [n2|]; [|reflexivity]. cbn [rmap bind].
  destruct (get_node m (tn3 t)) as [n3|]; reflexivity.
Qed.

Lemma forget_check_edge : forall m pfn e, check_edge (forget m) pfn (forget_edge e) = check_edge m pfn e.
Proof.
  intros m [|] e; unfold check_edge; cbn [forget_edge en1 en2 etrias].
  - rewrite !forget_get_node. destruct (get_node m (en1 e)) as [n1|]; [|reflexivity]. cbn [rmap bind forget_node nprop].
    destruct (is_none (nprop n1)); [reflexivity|]. destruct (get_node m (en2 e)); reflexivity.
  - reflexivity.
Qed.

Lemma forget_check : forall m pfn es,
  check_edges (forget m) pfn (map (onsnd forget_edge) es) = check_edges m pfn es.
Proof.
  intros m pfn es; induction es as [|[k e] es IH]; [reflexivity|].
  cbn [map onsnd fst snd check_edges]. rewrite forget_check_edge, IH. reflexivity.
Qed.

Lemma forget_othernode : forall t e, othernode_id (T := T) t (forget_edge e) = othernode_id t e.
Proof. reflexivity. Qed.

Lemma forget_trias_data : forall m e, edge_trias_data (forget m) (forget_edge e)
  = rmap (fun td => (onsnd (fun x => x) (let '(t, o, mid) := fst td in (t, forget_node o, mid)),
                     option_map (fun q : nat * node T * vec3 T => let '(t, o, mid) := q in (t, forget_node o, mid)) (snd td)))
         (edge_trias_data m e).
Proof.
  intros m e; unfold edge_trias_data; cbn [forget_edge etrias].
  destruct (etrias e) as [|t1 [|t2 [|t3 l]]]; try reflexivity.
  - rewrite forget_get_tria. destruct (get_tria m t1) as [tr1|]; [|reflexivity]. cbn [bind].
    rewrite forget_othernode. destruct (othernode_id tr1 e) as [o|]; [|reflexivity]. cbn [bind].
    rewrite forget_get_node, forget_getMid. destruct (get_node m o); [|reflexivity]. cbn [bind rmap].
    destruct (getMid m tr1); reflexivity.
  - rewrite !forget_get_tria. destruct (get_tria m t1) as [tr1|]; [|reflexivity]. cbn [bind].
    destruct (get_tria m t2) as [tr2|]; [|reflexivity]. cbn [bind].
    rewrite !forget_othernode. destruct (othernode_id tr1 e) as [o|]; [|reflexivity]. cbn [bind].
    destruct (othernode_id tr2 e) as [o'|]; [|reflexivity]. cbn [bind].
    rewrite !forget_get_node, !forget_getMid. destruct (get_node m o); [|reflexivity]. cbn [bind rmap].
    destruct (get_node m o'); [|reflexivity]. cbn [bind rmap].
    destruct (getMid m tr1); [|reflexivity]. cbn [bind]. destruct (getMid m tr2); reflexivity.
Qed.

Lemma forget_orient : forall mid n1 n2, orient_k0 mid (forget_node n1) (forget_node n2)
  = (let (a, b) := orient_k0 mid n1 n2 in (forget_node a, forget_node b)).
Proof. intros; unfold orient_k0; cbn [forget_node nxyz]. match goal with |- context [if ?c then _ else _] => destruct c end; reflexivity. Qed.

Lemma forget_setup_edge : forall m e, setup_edge (forget m) (forget_edge e) = setup_edge m e.
Proof.
  intros m e; unfold setup_edge. rewrite forget_trias_data, !forget_get_node. cbn [forget_edge en1 en2].
  destruct (edge_trias_data m e) as [[[[t1 o1] mid1] [[[t2 o2] mid2]|]]|]; [| |reflexivity];
  cbn [rmap bind fst snd option_map onsnd];
  (destruct (get_node m (en1 e)) as [n1|]; [|reflexivity]); cbn [rmap bind];
  (destruct (get_node m (en2 e)) as [n2|]; [|reflexivity]); cbn [rmap bind];
  rewrite forget_orient; destruct (orient_k0 mid1 n1 n2) as [a b]; reflexivity.
Qed.

Lemma setup_edge_keep : forall (m : mesh T) e e', setup_edge m e = Ok e' -> forget_edge e' = forget_edge e.
Proof.
  intros m e e'; unfold setup_edge.
  destruct (edge_trias_data m e) as [[[[t1 o1] mid1] [[[t2 o2] mid2]|]]|]; [| |discriminate]; cbn [bind];
  (destruct (get_node m (en1 e)) as [n1|]; [|discriminate]); cbn [bind];
  (destruct (get_node m (en2 e)) as [n2|]; [|discriminate]); cbn [bind];
  destruct (orient_k0 mid1 n1 n2) as [a b]; unfold domain1, domain2; cbv iota beta;
  match goal with |- context [area_of_points ?l] => destruct (area_of_points l) end; cbn [bind]; try discriminate;
  intros H; injection H as <-; reflexivity.
Qed.

Lemma setup_edges_keep : forall (m : mesh T) es,
  map (onsnd forget_edge) (fst (setup_edges m es)) = map (onsnd forget_edge) es.
Proof.
  intros m es; induction es as [|[k e] es IH]; [reflexivity|].
  cbn [setup_edges]. destruct (setup_edge m e) as [e'|] eqn:E; [|reflexivity].
  destruct (setup_edges m es) as [es'' r]. cbn [fst] in *. cbn [map]. rewrite IH. unfold onsnd at 1 3; cbn [fst snd].
  rewrite (setup_edge_keep m e e' E). reflexivity.
Qed.

Lemma forget_setup_edges : forall m es,
  snd (setup_edges (forget m) (map (onsnd forget_edge) es)) = snd (setup_edges m es) /\
  (snd (setup_edges m es) = Ok tt ->
   fst (setup_edges (forget m) (map (onsnd forget_edge) es)) = fst (setup_edges m es)).
Proof.
  intros m es; induction es as [|[k e] es IH]; [split; reflexivity|].
  cbn [map onsnd fst snd setup_edges]. rewrite forget_setup_edge.
  destruct (setup_edge m e) as [e'|x]; [|split; [reflexivity|discriminate]].
  destruct IH as [IH1 IH2].
  destruct (setup_edges (forget m) (map (onsnd forget_edge) es)) as [a r], (setup_edges m es) as [a' r'].
  cbn [fst snd] in *. subst r'. split; [reflexivity|]. intros H. rewrite (IH2 H); reflexivity.
Qed.

Lemma forget_number : forall (nds : list (nat * node T)) i,
  number_nodes i (map (onsnd forget_node) nds) = number_nodes i nds.
Proof. induction nds as [|[k n] nds IH]; intros i; [reflexivity|]. cbn. rewrite IH; reflexivity. Qed.

Lemma number_forget : forall (nds : list (nat * node T)) i,
  map (onsnd forget_node) (number_nodes i nds) = map (onsnd forget_node) nds.
Proof. induction nds as [|[k n] nds IH]; intros i; [reflexivity|]. cbn. rewrite IH; reflexivity. Qed.

Lemma calc_k0_forget : forall m pfn,
  snd (calc_k0 (forget m) pfn) = snd (calc_k0 m pfn) /\
  (forall K, snd (calc_k0 m pfn) = Ok K -> fst (calc_k0 (forget m) pfn) = fst (calc_k0 m pfn)).
Proof.
  intros m pfn. unfold calc_k0. cbn [forget edges]. change (edges (forget m)) with (map (onsnd forget_edge) (edges m)).
  rewrite forget_check. destruct (check_edges m pfn (edges m)) as [[]|x]; [|split; [reflexivity|discriminate]].
  destruct (forget_setup_edges m (edges m)) as [H1 H2].
  destruct (setup_edges (forget m) (map (onsnd forget_edge) (edges m))) as [a r], (setup_edges m (edges m)) as [a' r'].
  cbn [fst snd] in *. subst r'. destruct r as [[]|x]; [|split; [reflexivity|discriminate]].
  rewrite (H2 eq_refl). cbn [nodes forget].
  destruct (nodes m) as [|nd l] eqn:E; [split; [reflexivity|discriminate]|].
  cbn [map]. rewrite <- (forget_number (nd :: l) 0). cbn [map length]. rewrite map_length. split; reflexivity.
Qed.

Lemma forget_calc_k0 : forall m pfn, forget (fst (calc_k0 m pfn)) = forget m.
Proof.
  intros m pfn. unfold calc_k0.
  destruct (check_edges m pfn (edges m)) as [[]|x]; [|reflexivity].
  assert (H := setup_edges_keep m (edges m)).
  destruct (setup_edges m (edges m)) as [es r]. cbn [fst] in H.
  destruct r as [[]|x]; [|cbn [fst]; unfold forget; cbn [nodes elements edges]; rewrite H; reflexivity].
  destruct (nodes m) as [|nd l] eqn:E; cbn [fst]; unfold forget; cbn [nodes elements edges]; rewrite H, E; [reflexivity|].
  rewrite number_forget. reflexivity.
Qed.

Lemma forget_op : forall o m, forget (op_mesh o m) = if is_assignment o then op_mesh o (forget m) else forget m.
Proof.
  intros [] m; cbn [op_mesh is_assignment]; try reflexivity.
  - apply forget_calc_k0.
  - unfold set_node_prop, forget; cbn [nodes elements edges]. rewrite dupd_map_comm; reflexivity.
  - unfold move_node, forget; cbn [nodes elements edges]. rewrite dupd_map_comm; reflexivity.
Qed.

Lemma forget_run : forall ops m m', forget m = forget m' ->
  forget (run ops m) = forget (run (filter is_assignment ops) m').
Proof.
  unfold run. induction ops as [|o ops IH]; intros m m' H; [exact H|].
  cbn [fold_left filter]. destruct (is_assignment o) eqn:E; cbn [fold_left]; apply IH; rewrite !forget_op, E.
  - rewrite H; reflexivity.
  - exact H.
Qed.

Lemma calc_k0_history : forall ops (m : mesh T) pfn,
  snd (calc_k0 (run ops m) pfn) = snd (calc_k0 (run (filter is_assignment ops) m) pfn) /\
  (forall K, snd (calc_k0 (run ops m) pfn) = Ok K ->
     calc_k0 (run ops m) pfn = calc_k0 (run (filter is_assignment ops) m) pfn).
Proof.
  intros ops m pfn. assert (H := forget_run ops m m eq_refl).
  destruct (calc_k0_forget (run ops m) pfn) as [A1 A2].
  destruct (calc_k0_forget (run (filter is_assignment ops) m) pfn) as [B1 B2].
  rewrite H in A1, A2. split; [congruence|].
  intros K E. assert (F := A2 K E). assert (E' : snd (calc_k0 (run (filter is_assignment ops) m) pfn) = Ok K) by congruence.
  assert (G := B2 K E'). rewrite (surjective_pairing (calc_k0 (run ops m) pfn)).
  rewrite (surjective_pairing (calc_k0 (run (filter is_assignment ops) m) pfn)). congruence.
Qed.

End Any.
