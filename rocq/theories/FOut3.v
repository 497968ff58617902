(** Calls before calc_k0, and after nodes have been moved. *)
From Coq Require Import ZArith List Bool Arith Lia.
From Verif Require Import Num Py Mesh Utils CalcK0 CalcKG AddK0s Ops Spec SpecRead SpecK0 SpecK0s FMat FDict FWf FOps FConn FRead FRead2
  FOut FOut2 FAny LRead.
Import ListNotations.

Section Order.
Context {T : Type} {NT : Num T}.
Implicit Types (m : mesh T) (k : nat * nat).

(** nothing has been set by calc_k0 *)
Definition untouched m : Prop :=
  (forall n nd, In (n, nd) (nodes m) -> nindex nd = None) /\
  (forall k e, In (k, e) (edges m) -> eipts e = [] /\ eother1 e = None).

Lemma forget_untouched : forall m, forget m = m -> untouched m.
Proof.
  intros m E. split.
  - intros n nd H. rewrite <- E in H. cbn [nodes forget] in H. apply in_map_iff in H. destruct H as [[n' nd'] [X _]].
    unfold onsnd in X; cbn [fst snd] in X. injection X as _ <-. reflexivity.
  - intros k e H. rewrite <- E in H. cbn [edges forget] in H. apply in_map_iff in H. destruct H as [[k' e'] [X _]].
    unfold onsnd in X; cbn [fst snd] in X. injection X as _ <-. split; reflexivity.
Qed.

Lemma reads_forget : forall m, reads m -> forget m = m.
Proof.
  intros m H. destruct (reads_fresh T NT m H) as [nds [els [F ->]]]. unfold forget, the_mesh; cbn [nodes elements edges]. f_equal.
  - rewrite map_map. apply map_ext_in. intros [n nd] Hin. destruct (fr_nid _ _ F n nd Hin) as [_ [_ [_ [_ Q]]]].
    unfold onsnd, fin_node, forget_node; cbn [fst snd nid nxyz nprop nindex nedges ntrias]. rewrite Q. reflexivity.
  - unfold fin_edges. rewrite map_map. apply map_ext. intros [k l]. reflexivity.
Qed.

Lemma run_forget : forall ops m, (forall b, ~ In (OpCalcK0 b) ops) -> forget m = m -> forget (run ops m) = run ops m.
Proof.
  induction ops as [|o ops IH]; intros m H E; [exact E|]. unfold run; cbn [fold_left].
  apply IH; [intros b Hb; apply (H b); right; exact Hb|]. rewrite forget_op.
  destruct o; cbn [is_assignment]; try (rewrite E; reflexivity). destruct (H prop_from_node); left; reflexivity.
Qed.

Definition never {A} (x : res A) : Prop := exists e, x = Raise e.
Lemma never_bind : forall A B (x : res A) (f : A -> res B), (forall a, x = Ok a -> never (f a)) -> never (bind x f).
Proof. intros A B [a|e] f H; cbn [bind]; [apply H; reflexivity|exists e; reflexivity]. Qed.

Lemma index_never : forall m n nd, untouched m -> get_node m n = Ok nd -> never (node_index nd).
Proof.
  intros m n nd U G. unfold get_node in G. destruct (dget Nat.eqb n (nodes m)) as [nd'|] eqn:E; [|discriminate].
  injection G as ->. apply (dget_in Nat.eqb nat_eqb_spec) in E. unfold node_index. rewrite (proj1 U n nd E). exists TypeError; reflexivity.
Qed.

Lemma cell_never : forall L m pfn alpha mfa t, untouched m -> never (cell_tria L m pfn alpha mfa t).
Proof.
  intros L m pfn alpha mfa t U. unfold cell_tria.
  apply never_bind; intros d1 G1. apply never_bind; intros d2 G2. apply never_bind; intros d3 G3.
  apply never_bind; intros mid _.
  unfold orient_cell. destruct (nltb _ _);
  (apply never_bind; intros ? _; apply never_bind; intros ? _; apply never_bind; intros ? _; apply never_bind; intros ? _;
   apply never_bind; intros s _; apply never_bind; intros l _; destruct (shear_stiffness s alpha l) as [[? ?] ?]).
  - destruct (index_never m _ d2 U G2) as [e ->]. exists e; reflexivity.
  - destruct (index_never m _ d1 U G1) as [e ->]. exists e; reflexivity.
Qed.

Lemma cellns_never : forall m pfn alpha mfa t, untouched m -> never (cellns_tria m pfn alpha mfa t).
Proof.
  intros m pfn alpha mfa t U. unfold cellns_tria.
  apply never_bind; intros d1 G1. apply never_bind; intros d2 G2. apply never_bind; intros d3 G3.
  unfold orient_cellns. destruct (nltb _ _);
  (apply never_bind; intros ? _; apply never_bind; intros s _; apply never_bind; intros l _;
   destruct (shear_stiffness s alpha l) as [[? ?] ?]).
  - destruct (index_never m _ d2 U G2) as [e ->]. exists e; reflexivity.
  - destruct (index_never m _ d1 U G1) as [e ->]. exists e; reflexivity.
Qed.

Lemma edge_never : forall L m pfn alpha mfa k e, untouched m -> In (k, e) (edges m) -> never (edge_shear L m pfn alpha mfa e).
Proof.
  intros L m pfn alpha mfa k e U H. destruct (proj2 U k e H) as [_ O]. unfold edge_shear.
  apply never_bind; intros d1 _. apply never_bind; intros d2 _.
  destruct (etrias e) as [|t1 rest]; [exists IndexError; reflexivity|].
  apply never_bind; intros tr1 _. apply never_bind; intros mid _. destruct (orient_edge mid d1 d2) as [n1 n2].
  destruct rest as [|t2 [|t3 rest]].
  - unfold boundary_edge. apply never_bind; intros mid1 _. rewrite O. exists AttributeError; reflexivity.
  - apply never_bind; intros tr2 _. unfold interior_edge. apply never_bind; intros mid1 _. apply never_bind; intros mid2 _.
    rewrite O. exists AttributeError; reflexivity.
  - exists NotImplementedError; reflexivity.
Qed.

Lemma add_never : forall L method m pfn alpha mfa K, untouched m -> wf_mesh m -> elements m <> [] ->
  exists e, add_k0s L K m pfn method alpha mfa = (K, Raise e).
Proof.
  intros L method m pfn alpha mfa K U W NE. unfold add_k0s.
  assert (EE : elements m = [] \/ exists (i : nat) t l, elements m = (i, t) :: l).
  { destruct (elements m) as [|[k t] l]; [auto|right; eauto]. }
  destruct EE as [EE|[k [t [l EE]]]]; [contradiction|].
  destruct (String.eqb _ _); [|destruct (String.eqb _ _); [|destruct (String.eqb _ _)]].
  - unfold add_k0s_cell. rewrite EE. cbn [map snd for_each]. unfold add_body at 1.
    destruct (cell_never L m pfn alpha mfa t U) as [e ->]. exists e; reflexivity.
  - unfold add_k0s_cellns. rewrite EE. cbn [map snd for_each]. unfold add_body at 1.
    destruct (cellns_never m pfn alpha mfa t U) as [e ->]. exists e; reflexivity.
  - unfold add_k0s_edge.
    assert (X : edges m <> []).
    { assert (Hk : In (Nat.min (tn1 t) (tn2 t), Nat.max (tn1 t) (tn2 t)) (edge_keys m)).
      { apply (wf_edge_keys m W). exists t. split; [unfold trias_of; rewrite EE; left; reflexivity|left; reflexivity]. }
      unfold edge_keys in Hk. intros Z; rewrite Z in Hk; destruct Hk. }
    assert (YY : edges m = [] \/ exists k' e l', edges m = (k', e) :: l').
    { destruct (edges m) as [|[k' e] l']; [auto|right; eauto]. }
    destruct YY as [YY|[k' [e [l' YY]]]]; [contradiction|].
    destruct (edge_never L m pfn alpha mfa k' e U) as [x Ex]; [rewrite YY; left; reflexivity|].
    rewrite YY. cbn [map snd for_each]. unfold add_body at 1. rewrite Ex. exists x; reflexivity.
  - exists ValueError; reflexivity.
Qed.

Lemma kG_never : forall d m pfn, untouched m -> wf_mesh m -> elements m <> [] -> exists e, calc_kG d m pfn = Raise e.
Proof.
  intros d m pfn U W NE. unfold calc_kG.
  destruct (edges m) as [|[k e] l] eqn:YY.
  - exfalso. destruct (elements m) as [|[k t] l] eqn:EE; [contradiction|].
    assert (Hk : In (Nat.min (tn1 t) (tn2 t), Nat.max (tn1 t) (tn2 t)) (edge_keys m)).
    { apply (wf_edge_keys m W). exists t. split; [unfold trias_of; rewrite EE; left; reflexivity|left; reflexivity]. }
    unfold edge_keys in Hk. rewrite YY in Hk; destruct Hk.
  - cbn [kG_assemble]. destruct (proj2 U k e) as [IP _]; [rewrite YY; left; reflexivity|].
    assert (X : never (kG_edge m pfn d e)).
    { unfold kG_edge. apply never_bind; intros ta _. rewrite IP. exists ValueError; reflexivity. }
    destruct X as [x ->]. exists x; reflexivity.
Qed.

(** ** Nodes moved or properties assigned after calc_k0 *)

Lemma number_dupd : forall n (f : node T -> node T) nds i, (forall d j, set_index j (f d) = f (set_index j d)) ->
  number_nodes i (dupd Nat.eqb n f nds) = dupd Nat.eqb n f (number_nodes i nds).
Proof.
  intros n f nds; induction nds as [|[k d] nds IH]; intros i H; [reflexivity|].
  cbn [dupd number_nodes]. destruct (Nat.eqb n k); cbn [number_nodes]; [rewrite H; reflexivity|]. rewrite IH by exact H. reflexivity.
Qed.

Lemma number_twice : forall (nds : list (nat * node T)) i, number_nodes i (number_nodes i nds) = number_nodes i nds.
Proof. induction nds as [|[k d] nds IH]; intros i; [reflexivity|]. cbn [number_nodes]. rewrite IH. reflexivity. Qed.

Lemma numbered_run : forall ops m, forallb is_assignment ops = true -> number_nodes 0 (nodes m) = nodes m ->
  number_nodes 0 (nodes (run ops m)) = nodes (run ops m).
Proof.
  induction ops as [|o ops IH]; intros m H E; [exact E|]. cbn [forallb] in H. apply andb_true_iff in H. destruct H as [H1 H2].
  unfold run; cbn [fold_left]. apply IH; [exact H2|].
  destruct o; try discriminate H1; cbn [op_mesh]; try exact E.
  - unfold set_node_prop; cbn [nodes]. rewrite number_dupd by reflexivity. rewrite E; reflexivity.
  - unfold move_node; cbn [nodes]. rewrite number_dupd by reflexivity. rewrite E; reflexivity.
Qed.

Lemma cell_same : forall L method m1 m2 pfn alpha mfa K, In method cell_methods ->
  nodes m1 = nodes m2 -> elements m1 = elements m2 ->
  add_k0s L K m1 pfn method alpha mfa = add_k0s L K m2 pfn method alpha mfa.
Proof.
  intros L method [n1 e1 x1] [n2 e2 x2] pfn alpha mfa K H E1 E2. cbn [nodes elements] in *. subst n2 e2.
  destruct H as [<-|[<-|[]]]; reflexivity.
Qed.

Lemma cell_stale : forall L method m m' m2 pfn pfn2 K K2 ops, In method cell_methods ->
  calc_k0 m pfn = (m', Ok K) -> forallb is_assignment ops = true -> calc_k0 (run ops m') pfn2 = (m2, Ok K2) ->
  forall (k : matrix T) b alpha mfa, add_k0s L k (run ops m') b method alpha mfa = add_k0s L k m2 b method alpha mfa.
Proof.
  intros L method m m' m2 pfn pfn2 K K2 ops H E A E2 k b alpha mfa.
  destruct (calc_k0_inv T NT m pfn m' K E) as [N _]. destruct (calc_k0_inv T NT _ _ _ _ E2) as [N2 [EL2 _]].
  assert (Q : number_nodes 0 (nodes m') = nodes m') by (rewrite N; apply number_twice).
  apply cell_same; [exact H| |]; [rewrite N2; symmetry; apply numbered_run; assumption|auto].
Qed.
(** *** The calls that follow calc_k0 succeed *)

Lemma conn_corners : forall m m', conn m m' -> forall k,
  map (fun t => (eid t, tn1 t, tn2 t, tn3 t)) (tris_on m k) = map (fun t => (eid t, tn1 t, tn2 t, tn3 t)) (tris_on m' k).
Proof.
  intros m m' C k. unfold tris_on, trias_of. assert (E := cn_elements _ _ C). revert E.
  generalize (elements m) (elements m'). induction l as [|[k1 t1] l IH]; intros [|[k2 t2] l2] E; try discriminate; [reflexivity|].
  cbn [map] in E. injection E; intros. cbn [map filter snd].
  assert (V : forall n, is_vertex n t1 = is_vertex n t2) by (intros n; unfold is_vertex; congruence).
  rewrite !V. destruct (is_vertex (fst k) t2 && is_vertex (snd k) t2); cbn [map]; rewrite (IH l2) by assumption; congruence.
Qed.

Lemma third_corners : forall (t t' : tria T) k, (eid t, tn1 t, tn2 t, tn3 t) = (eid t', tn1 t', tn2 t', tn3 t') -> third t k = third t' k.
Proof. intros t t' k E. injection E as _ E1 E2 E3. unfold third. rewrite E1, E2, E3. reflexivity. Qed.

Lemma conn_shape : forall m m', conn m m' -> forall k e, shape m k e -> shape m' k e.
Proof.
  intros m m' C k e [S1 S2 S3 [n1 [n2 [S4 S5]]]]. assert (Q := conn_corners m m' C k). constructor; auto.
  - rewrite S2. apply conn_tris_on; exact C.
  - exists n1, n2. split; [exact S4|]. destruct S5 as [[t1 [X [Y Z]]]|[t1 [t2 [X [Y [Y2 Z]]]]]]; rewrite X in Q; cbn [map] in Q.
    + destruct (tris_on m' k) as [|t1' [|? ?]]; try discriminate Q. left; exists t1'. injection Q as Q1 Q2 Q3 Q4.
      rewrite <- (third_corners t1 t1' k) by congruence. auto.
    + destruct (tris_on m' k) as [|t1' [|t2' [|? ?]]]; try discriminate Q. right; exists t1', t2'. injection Q as Q1 Q2 Q3 Q4 Q5 Q6 Q7 Q8.
      rewrite <- (third_corners t1 t1' k), <- (third_corners t2 t2' k) by congruence. auto.
Qed.

Lemma conn_twin : forall m m', conn m m' -> forall k, twin_edge m' k -> twin_edge m k.
Proof.
  intros m m' C k [t1 [t2 [X Y]]]. assert (Q := conn_corners m m' C k). rewrite X in Q; cbn [map] in Q.
  destruct (tris_on m k) as [|t1' [|t2' [|? ?]]] eqn:E; try discriminate Q. injection Q as Q1 Q2 Q3 Q4 Q5 Q6 Q7 Q8.
  exists t1', t2'. split; [exact E|]. rewrite (third_corners t1' t1 k), (third_corners t2' t2 k) by congruence. exact Y.
Qed.

Lemma edges_run : forall ops m, forallb is_assignment ops = true -> edges (run ops m) = edges m.
Proof.
  induction ops as [|o ops IH]; intros m H; [reflexivity|]. cbn [forallb] in H. apply andb_true_iff in H. destruct H as [H1 H2].
  unfold run; cbn [fold_left]. fold (run ops (op_mesh o m)). rewrite IH by exact H2. destruct o; try discriminate H1; reflexivity.
Qed.

Lemma dupd_in_some : forall n (f : node T -> node T) nds (i : nat) d, In (i, d) (dupd Nat.eqb n f nds) ->
  exists d0, In (i, d0) nds /\ (d = d0 \/ d = f d0).
Proof.
  intros n f nds i d; induction nds as [|[k' d'] nds IH]; [intros []|]. cbn [dupd]. destruct (Nat.eqb n k').
  - intros [X|X]; [injection X as -> <-; exists d'; split; [left; reflexivity|auto]|exists d; split; [right; exact X|auto]].
  - intros [X|X]; [injection X as -> ->; exists d; split; [left; reflexivity|auto]|].
    destruct (IH X) as [d0 [Y Z]]. exists d0; split; [right; exact Y|exact Z].
Qed.

Lemma keys_run : forall ops m, node_keys (run ops m) = node_keys m.
Proof. intros ops m. symmetry. apply conn_node_keys, conn_run. Qed.

Lemma with_index_run : forall ops m, forallb is_assignment ops = true -> with_index m -> with_index (run ops m).
Proof.
  intros ops m H I n nd. unfold rank. rewrite keys_run.
  revert nd. change (forall nd, In (n, nd) (nodes (run ops m)) -> nindex nd = Some (rank m n)).
  assert (I' : forall nd, In (n, nd) (nodes m) -> nindex nd = Some (rank m n)) by (intros; apply I; assumption).
  revert I'. generalize (Some (rank m n)) as r. clear I. revert m H.
  induction ops as [|o ops IH]; intros m H r I; [exact I|]. cbn [forallb] in H. apply andb_true_iff in H. destruct H as [H1 H2].
  unfold run; cbn [fold_left]. apply (IH (op_mesh o m) H2).
  intros nd. destruct o; try discriminate H1; cbn [op_mesh]; try apply I.
  - intros X. apply dupd_in_some in X. destruct X as [d0 [X [-> | ->]]]; apply I in X; exact X.
  - intros X. apply dupd_in_some in X. destruct X as [d0 [X [-> | ->]]]; apply I in X; exact X.
Qed.

Lemma progress : forall m m' pfn K ops, wf_mesh m -> calc_k0 m pfn = (m', Ok K) -> forallb is_assignment ops = true ->
  let n := run ops m' in
  wf_mesh n /\ with_index n /\ length (nodes n) = length (nodes m) /\
  (forall k e, In (k, e) (edges n) -> shape n k e /\ ~ twin_edge n k).
Proof.
  intros m m' pfn K ops W E A n.
  destruct (calc_k0_any m pfn W) as [[_ X]|[[_ [_ [X _]]]|[[_ [_ [_ X]]]|[_ [_ [_ [_ [m1 [K1 [X [_ [[W1 [I1 [S1 [_ L1]]]] _]]]]]]]]]]]];
    rewrite E in X; try discriminate X. injection X as <- <-.
  split; [apply wf_run; exact W1|]. split; [apply with_index_run; assumption|]. split.
  - rewrite <- L1. assert (Q := keys_run ops m'). unfold node_keys in Q. apply (f_equal (@List.length _)) in Q. rewrite !map_length in Q. exact Q.
  - intros k e H. unfold n in H. rewrite edges_run in H by exact A. destruct (S1 k e H) as [S2 S3].
    assert (C := conn_run ops m'). split; [apply (conn_shape m'); assumption|]. intros Y; apply S3, (conn_twin m' n C), Y.
Qed.
End Order.
