(** calc_k0 in any arithmetic: when it returns and which entries it writes. *)
From Coq Require Import ZArith List Bool Arith Lia Permutation.
From Verif Require Import Num Py Mesh Utils GenK0 CalcK0 Spec SpecK0 FMat FDict FWf.
Import ListNotations.

(** ** Updates *)

(** the numbers written by the entries of a domain with the node indices i1 .. i4 *)
Definition k0_dofs (ix : list Z) : list Z :=
  flat_map (fun i => [i * 5 + 0; i * 5 + 1; i * 5 + 3; i * 5 + 4]%Z) ix.

Definition ins3 (a b c : Z) (s : list Z) : list Z := sadd Z.eqb c (sadd Z.eqb b (sadd Z.eqb a s)).

Lemma ins3_new : forall a b c, a <> b -> c <> a -> c <> b -> ins3 a b c [] = [a; b; c].
Proof.
  intros a b c H1 H2 H3. unfold ins3. rewrite (sadd_new Z.eqb Z.eqb_eq a) by (intros []). cbn [app].
  rewrite (sadd_new Z.eqb Z.eqb_eq b) by (intros [Y|[]]; congruence). cbn [app].
  rewrite (sadd_new Z.eqb Z.eqb_eq c) by (intros [Y|[Y|[]]]; congruence). reflexivity.
Qed.

Lemma ins3_old : forall a b c s, In a s -> In b s -> In c s -> ins3 a b c s = s.
Proof. intros a b c s H1 H2 H3. unfold ins3. rewrite (sadd_old Z.eqb Z.eqb_eq a), (sadd_old Z.eqb Z.eqb_eq b), (sadd_old Z.eqb Z.eqb_eq c) by assumption. reflexivity. Qed.

Lemma ins3_last : forall a b c s, In a s -> In b s -> ~ In c s -> ins3 a b c s = s ++ [c].
Proof.
  intros a b c s H1 H2 H3. unfold ins3. rewrite (sadd_old Z.eqb Z.eqb_eq a), (sadd_old Z.eqb Z.eqb_eq b) by assumption.
  apply (sadd_new Z.eqb Z.eqb_eq); assumption.
Qed.

Section Out.
Context {T : Type} {NT : Num T}.
Implicit Types (m : mesh T) (k : nat * nat).

Lemma mupdates_any : forall us (K : matrix T), upds_ok (mdim K) us ->
  exists K', mupdates us K = (K', Ok tt) /\ mdim K' = mdim K /\
    forall i j, (forall x, In x us -> ~ (nidx (mdim K) (fst (fst x)) = i /\ nidx (mdim K) (snd (fst x)) = j)) ->
      mentry K' i j = mentry K i j.
Proof.
  induction us as [|[[r c] x] us IH]; intros K H.
  - exists K; repeat split; intros; reflexivity.
  - destruct (H ((r, c), x) (or_introl eq_refl)) as [Hr Hc]; cbn [fst snd] in Hr, Hc.
    destruct (pyidx_in_range _ _ Hr) as [Er _].
    destruct (pyidx_in_range _ _ Hc) as [Ec _].
    set (k1 := madd_at (nidx (mdim K) r) (nidx (mdim K) c) x K).
    destruct (IH k1) as [k' [E [D F]]].
    { intros y Hy; apply (H y); right; exact Hy. }
    exists k'; split; [|split].
    + unfold mupdates; cbn [for_each mupdate]; rewrite Er, Ec; exact E.
    + exact D.
    + intros i j N. rewrite F by (intros y Hy; apply N; right; exact Hy).
      assert (N0 := N _ (or_introl eq_refl)). cbn [fst snd] in N0.
      unfold k1, madd_at; cbn [mentry mdim].
      destruct (Nat.eqb_spec i (nidx (mdim K) r)), (Nat.eqb_spec j (nidx (mdim K) c)); cbn [andb]; try reflexivity.
      exfalso; apply N0; auto.
Qed.

Lemma k0_updates_at : forall ix Ac A B D rows (x : Z * Z * T), length ix = 4 ->
  In x (k0_updates ix Ac A B D rows) -> In (fst (fst x)) (k0_dofs ix) /\ In (snd (fst x)) (k0_dofs ix).
Proof.
  intros ix Ac A B D [[[r1 r2] r3] r4] x L H.
  destruct ix as [|i1 [|i2 [|i3 [|i4 [|i5 ix]]]]]; try discriminate. clear L.
  apply (in_map fst) in H. revert H. generalize (fst x). clear x.
  intros p Hp.
  assert (F : Forall (fun p => In (fst p) (k0_dofs [i1; i2; i3; i4]) /\ In (snd p) (k0_dofs [i1; i2; i3; i4]))
    (map fst (k0_updates [i1; i2; i3; i4] Ac A B D (r1, r2, r3, r4)))).
  { unfold k0_updates, k0_entries, k0_dofs. cbn [nth map fst snd flat_map app].
    repeat (apply Forall_cons; [split; cbn [fst snd]; repeat (first [left; reflexivity | right])|]). apply Forall_nil. }
  rewrite Forall_forall in F. apply F; exact Hp.
Qed.

(** ** Look-ups *)

Lemma node_in : forall m, wf_mesh m -> forall n, In n (node_keys m) ->
  exists nd, get_node m n = Ok nd /\ nid nd = n /\ nprop nd = nodeprop m n /\ In (n, nd) (nodes m).
Proof.
  intros m W n H. destruct (dget_some Nat.eqb nat_eqb_spec n (nodes m) H) as [nd E].
  exists nd. unfold get_node, nodeprop. rewrite E.
  assert (In (n, nd) (nodes m)) by (apply (dget_in Nat.eqb nat_eqb_spec); exact E).
  repeat split; auto. exact (wf_nid m W n nd H0).
Qed.

Lemma mid_in : forall m, wf_mesh m -> forall t, In t (trias_of m) -> exists p, getMid m t = Ok p.
Proof.
  intros m W t Ht. unfold getMid.
  destruct (node_in m W (tn1 t)) as [d1 [-> _]]; [apply (wf_vertices m W t); unfold vertex; auto|].
  destruct (node_in m W (tn2 t)) as [d2 [-> _]]; [apply (wf_vertices m W t); unfold vertex; auto|].
  destruct (node_in m W (tn3 t)) as [d3 [-> _]]; [apply (wf_vertices m W t); unfold vertex; auto|].
  eexists; reflexivity.
Qed.

Lemma prop_in : forall m, wf_mesh m -> forall n, In n (node_keys m) -> nodeprop m n <> None ->
  exists p, node_prop m n = Ok p.
Proof.
  intros m W n H P. destruct (node_in m W n H) as [nd [E [_ [Q _]]]]. unfold node_prop. rewrite E. cbn [bind].
  rewrite Q. destruct (nodeprop m n) as [p|]; [|contradiction]. exists p; reflexivity.
Qed.

Lemma key_in : forall m k e, In (k, e) (edges m) -> In k (edge_keys m).
Proof. intros m k e H. unfold edge_keys; apply in_map_iff; exists (k, e); auto. Qed.

Lemma key_edge : forall m k, In k (edge_keys m) -> exists e, In (k, e) (edges m).
Proof.
  intros m k H. unfold edge_keys in H. apply in_map_iff in H. destruct H as [[k' e] [E H]].
  cbn in E; subst k'. exists e; exact H.
Qed.

Lemma ends_in : forall m k n1 n2, wf_mesh m -> In k (edge_keys m) ->
  ((n1, n2) = k \/ (n2, n1) = k) -> In n1 (node_keys m) /\ In n2 (node_keys m) /\ n1 <> n2.
Proof.
  intros m k n1 n2 W Hk E. assert (NE := tris_on_nonempty m W k Hk).
  destruct (tris_on m k) as [|t l] eqn:Q; [contradiction|].
  assert (I1 : In t (tris_on m k)) by (rewrite Q; left; reflexivity).
  destruct (edge_tria m W k t Hk I1) as [_ [D [_ [_ [Ka [Kb _]]]]]].
  destruct E as [<-|<-]; cbn [fst snd] in *; auto.
Qed.

Lemma third_in : forall m k (t : tria T) n1 n2, wf_mesh m -> In k (edge_keys m) ->
  ((n1, n2) = k \/ (n2, n1) = k) -> In t (tris_on m k) ->
  perm3 t n1 n2 (third t k) /\ third t k <> n1 /\ third t k <> n2 /\ In (third t k) (node_keys m) /\ In t (trias_of m).
Proof.
  intros m k t n1 n2 W Hk E I1.
  destruct (edge_tria m W k t Hk I1) as [P [D [D1 [D2 [Ka [Kb Ko]]]]]].
  assert (Ht : In t (trias_of m)) by (apply tris_on_in in I1; tauto).
  destruct E as [<-|<-]; cbn [fst snd] in *; repeat split; auto. apply perm3_swap; exact P.
Qed.

(** ** Property check *)

Lemma check_edge_any : forall m pfn k e, wf_mesh m -> In (k, e) (edges m) ->
  check_edge m pfn e = Raise ValueError /\
    ~ (if pfn then nodeprop m (fst k) <> None /\ nodeprop m (snd k) <> None
       else forall t, In t (tris_on m k) -> tprop t <> None) \/
  check_edge m pfn e = Ok tt /\
    if pfn then nodeprop m (fst k) <> None /\ nodeprop m (snd k) <> None
    else forall t, In t (tris_on m k) -> tprop t <> None.
Proof.
  intros m pfn [a b] e W Hin.
  assert (Hk := key_in _ _ _ Hin).
  destruct (wf_edge_ends m W _ _ Hin) as [Een _]; injection Een as Ea Eb.
  destruct pfn; cbn [check_edge fst snd].
  - destruct (ends_in m (a, b) a b W Hk (or_introl eq_refl)) as [Ka [Kb _]].
    destruct (node_in m W a Ka) as [da [Ga [_ [Qa _]]]].
    destruct (node_in m W b Kb) as [db [Gb [_ [Qb _]]]].
    rewrite Ea, Eb, Ga, Gb. cbn [bind]. rewrite Qa, Qb.
    destruct (nodeprop m a); [|left; split; [reflexivity|tauto]]. destruct (nodeprop m b); [|left; split; [reflexivity|tauto]].
    right; split; [reflexivity|split; discriminate].
  - rewrite (wf_edge_trias m W _ _ Hin).
    assert (A : forall t, In t (tris_on m (a, b)) -> In t (trias_of m)) by
      (intros t Ht; apply tris_on_in in Ht; tauto).
    induction (tris_on m (a, b)) as [|t l IH]; [right; split; [reflexivity|intros ? []]|].
    cbn [map]. rewrite (tria_found m W t) by (apply A; left; reflexivity). cbn [bind].
    destruct (tprop t) eqn:Q; cbn [is_none].
    2: { left; split; [reflexivity|]. intros H. apply (H t (or_introl eq_refl) Q). }
    destruct IH as [[IH1 IH2]|[IH1 IH2]]; [intros x Hx; apply A; right; exact Hx| |].
    + left; split; [exact IH1|]. intros H; apply IH2. intros x Hx; apply H; right; exact Hx.
    + right; split; [exact IH1|]. intros x [<-|Hx]; [congruence|auto].
Qed.

Lemma check_edges_any : forall m pfn, wf_mesh m ->
  check_edges m pfn (edges m) = Raise ValueError /\ ~ props_complete m pfn \/
  check_edges m pfn (edges m) = Ok tt /\ props_complete m pfn.
Proof.
  intros m pfn W.
  set (Q := fun k => if pfn then nodeprop m (fst k) <> None /\ nodeprop m (snd k) <> None
              else forall t, In t (tris_on m k) -> tprop t <> None).
  assert (PQ : props_complete m pfn <-> forall k e, In (k, e) (edges m) -> Q k).
  { unfold props_complete, Q. destruct pfn.
    - split; [intros H k e Hin; apply H, (key_in _ _ _ Hin)|].
      intros H k Hk. destruct (key_edge _ _ Hk) as [e He]. exact (H k e He).
    - split; [intros H k e Hin t Ht; apply H; apply tris_on_in in Ht; tauto|].
      intros H t Ht.
      assert (Hs : In (Nat.min (tn1 t) (tn2 t), Nat.max (tn1 t) (tn2 t)) (sides t)) by (left; reflexivity).
      assert (Hk : In (Nat.min (tn1 t) (tn2 t), Nat.max (tn1 t) (tn2 t)) (edge_keys m)).
      { apply (wf_edge_keys m W). exists t; auto. }
      destruct (key_edge _ _ Hk) as [e He]. apply (H _ e He t). apply tris_on_in. split; [exact Ht|].
      apply sides_vertices; exact Hs. }
  assert (G : forall es, (forall x, In x es -> In x (edges m)) ->
    check_edges m pfn es = Raise ValueError /\ (exists k e, In (k, e) es /\ ~ Q k) \/
    check_edges m pfn es = Ok tt /\ (forall k e, In (k, e) es -> Q k)).
  { induction es as [|[k e] es IH]; intros H; [right; split; [reflexivity|intros ? ? []]|].
    cbn [check_edges]. destruct (check_edge_any m pfn k e W (H _ (or_introl eq_refl))) as [[E NQ]|[E Qk]]; rewrite E; cbn [bind].
    - left; split; [reflexivity|]. exists k, e. split; [left; reflexivity|exact NQ].
    - destruct IH as [[IH1 [k' [e' [H1 H2]]]]|[IH1 IH2]]; [intros x Hx; apply H; right; exact Hx| |].
      + left; split; [exact IH1|]. exists k', e'. split; [right; exact H1|exact H2].
      + right; split; [exact IH1|]. intros k' e' [X|X]; [inversion X; subst; exact Qk|exact (IH2 k' e' X)]. }
  destruct (G (edges m) (fun x H => H)) as [[E [k [e [H1 H2]]]]|[E H]].
  - left; split; [exact E|]. intros P. apply H2. apply (proj1 PQ P k e H1).
  - right; split; [exact E|]. apply PQ; exact H.
Qed.

(** a node of a triangle is an end of an edge *)
Lemma vertex_has_prop : forall m t n, wf_mesh m -> props_complete m true -> In t (trias_of m) ->
  vertex t n -> nodeprop m n <> None.
Proof.
  intros m t n W PC Ht V.
  assert (X : exists n', n <> n' /\ vertex t n').
  { destruct (wf_distinct m W t Ht) as [D1 [D2 D3]].
    unfold vertex in *. destruct V as [->|[->| ->]].
    - exists (tn2 t); auto.
    - exists (tn3 t); auto.
    - exists (tn1 t); auto. }
  destruct X as [n' [NE V']].
  destruct (Nat.lt_trichotomy n n') as [L|[L|L]]; [|contradiction|].
  - assert (Hk : In (n, n') (edge_keys m)).
    { apply (wf_edge_keys m W). exists t; split; [exact Ht|]. apply vertices_sides; assumption. }
    apply (PC _ Hk).
  - assert (Hk : In (n', n) (edge_keys m)).
    { apply (wf_edge_keys m W). exists t; split; [exact Ht|]. apply vertices_sides; assumption. }
    apply (PC _ Hk).
Qed.

(** ** Setup of the edges *)

Definition ipids (p : ipt T) : nat * nat * nat := (ipn1 p, ipn2 p, ipn3 p).

Record shape m k (e : edge T) : Prop := {
  sp_ends : (en1 e, en2 e) = k;
  sp_trias : etrias e = map eid (tris_on m k);
  sp_Ac : exists A, eAc e = Some A;
  sp_dom : exists n1 n2, ((n1, n2) = k \/ (n2, n1) = k) /\
    ((exists t1, tris_on m k = [t1] /\ eother1 e = Some (third t1 k) /\
       map ipids (eipts e) = repeat (n1, n2, third t1 k) 3) \/
     (exists t1 t2, tris_on m k = [t1; t2] /\ eother1 e = Some (third t1 k) /\ eother2 e = Some (third t2 k) /\
       map ipids (eipts e) = repeat (n1, n2, third t1 k) 2 ++ repeat (n1, n2, third t2 k) 2)) }.

Lemma orient_any : forall (mid : vec3 T) nd1 nd2, orient_k0 mid nd1 nd2 = (nd1, nd2) \/ orient_k0 mid nd1 nd2 = (nd2, nd1).
Proof. intros; unfold orient_k0. destruct (nltb _ _); auto. Qed.

Lemma area_any3 : forall p q r : vec3 T, exists A, area_of_points [p; q; r] = Ok A.
Proof. intros; eexists; reflexivity. Qed.
Lemma area_any4 : forall p q r s : vec3 T, exists A, area_of_points [p; q; r; s] = Ok A.
Proof. intros; eexists; reflexivity. Qed.
Lemma area_any5 : forall p q r s t : vec3 T, exists A, area_of_points [p; q; r; s; t] = Ok A.
Proof. intros; eexists; reflexivity. Qed.

Lemma setup_any : forall m k e, wf_mesh m -> In (k, e) (edges m) ->
  (length (tris_on m k) <= 2 /\ exists e', setup_edge m e = Ok e' /\ shape m k e') \/
  (3 <= length (tris_on m k) /\ setup_edge m e = Raise NotImplementedError).
Proof.
  intros m [a b] e W Hin.
  assert (Hk := key_in _ _ _ Hin).
  destruct (wf_edge_ends m W _ _ Hin) as [Een _]; injection Een as Ea Eb.
  assert (Etr := wf_edge_trias m W _ _ Hin).
  destruct (ends_in m (a, b) a b W Hk (or_introl eq_refl)) as [Ka [Kb Nab]].
  destruct (node_in m W a Ka) as [da [Ga [Ia _]]].
  destruct (node_in m W b Kb) as [db [Gb [Ib _]]].
  assert (TT : forall t, In t (tris_on m (a, b)) -> get_tria m (eid t) = Ok t /\
    othernode_id t e = Ok (third t (a, b)) /\
    (exists d, get_node m (third t (a, b)) = Ok d /\ nid d = third t (a, b)) /\
    exists mid, getMid m t = Ok mid).
  { intros t Ht. destruct (third_in m (a, b) t a b W Hk (or_introl eq_refl) Ht) as [P [O1 [O2 [Ko Tt]]]].
    split; [apply tria_found; assumption|]. split; [|split].
    - apply (othernode_third t e a b (third t (a, b))); auto.
    - destruct (node_in m W _ Ko) as [d [G [I' _]]]. exists d; auto.
    - apply mid_in; assumption. }
  assert (NE := tris_on_nonempty m W _ Hk).
  unfold setup_edge, edge_trias_data. rewrite Etr.
  destruct (tris_on m (a, b)) as [|t1 [|t2 [|t3 l]]] eqn:Q; [contradiction| | |].
  - left; split; [cbn; lia|].
    destruct (TT t1 (or_introl eq_refl)) as [G1 [O1 [[d1 [D1 J1]] [mid1 M1]]]]. cbn [map].
    rewrite G1. cbn [bind]. rewrite O1. cbn [bind]. rewrite D1. cbn [bind]. rewrite M1. cbn [bind].
    rewrite Ea, Eb, Ga, Gb. cbn [bind].
    destruct (orient_any mid1 da db) as [-> | ->]; unfold domain1; cbv iota beta;
    match goal with |- context [area_of_points [?p; ?q; ?r; ?s]] => destruct (area_any4 p q r s) as [Ac EA] end;
    rewrite EA; cbn [bind];
    (eexists; split; [reflexivity|]; constructor; cbn [set_domain set_others en1 en2 etrias eAc eother1 eipts];
     [congruence|rewrite Q; exact Etr|eauto|]).
    + exists a, b. split; [left; reflexivity|]. left. exists t1. rewrite Q. split; [reflexivity|]. split; [congruence|].
      unfold ipids. cbn [map repeat make_ipt ipn1 ipn2 ipn3]. rewrite Ia, Ib, J1. reflexivity.
    + exists b, a. split; [right; reflexivity|]. left. exists t1. rewrite Q. split; [reflexivity|]. split; [congruence|].
      unfold ipids. cbn [map repeat make_ipt ipn1 ipn2 ipn3]. rewrite Ia, Ib, J1. reflexivity.
  - left; split; [cbn; lia|].
    destruct (TT t1 (or_introl eq_refl)) as [G1 [O1 [[d1 [D1 J1]] [mid1 M1]]]].
    destruct (TT t2 (or_intror (or_introl eq_refl))) as [G2 [O2 [[d2 [D2 J2]] [mid2 M2]]]]. cbn [map].
    rewrite G1. cbn [bind]. rewrite G2. cbn [bind]. rewrite O1. cbn [bind]. rewrite O2. cbn [bind].
    rewrite D1. cbn [bind]. rewrite D2. cbn [bind]. rewrite M1. cbn [bind]. rewrite M2. cbn [bind].
    rewrite Ea, Eb, Ga, Gb. cbn [bind].
    destruct (orient_any mid1 da db) as [-> | ->]; unfold domain2; cbv iota beta;
    match goal with |- context [area_of_points [?p; ?q; ?r; ?s; ?t]] => destruct (area_any5 p q r s t) as [Ac EA] end;
    rewrite EA; cbn [bind];
    (eexists; split; [reflexivity|]; constructor; cbn [set_domain set_others en1 en2 etrias eAc eother1 eother2 eipts];
     [congruence|rewrite Q; exact Etr|eauto|]).
    + exists a, b. split; [left; reflexivity|]. right. exists t1, t2. rewrite Q.
      split; [reflexivity|]. split; [congruence|]. split; [congruence|].
      unfold ipids. cbn [map repeat app make_ipt ipn1 ipn2 ipn3]. rewrite Ia, Ib, J1, J2. reflexivity.
    + exists b, a. split; [right; reflexivity|]. right. exists t1, t2. rewrite Q.
      split; [reflexivity|]. split; [congruence|]. split; [congruence|].
      unfold ipids. cbn [map repeat app make_ipt ipn1 ipn2 ipn3]. rewrite Ia, Ib, J1, J2. reflexivity.
  - right; split; [cbn; lia|reflexivity].
Qed.

Lemma setup_edges_any : forall m es, wf_mesh m -> (forall x, In x es -> In x (edges m)) ->
  (exists es', setup_edges m es = (es', Ok tt) /\ map fst es' = map fst es /\
    (forall k e, In (k, e) es' -> shape m k e)) /\ (forall k e, In (k, e) es -> length (tris_on m k) <= 2)
  \/ (exists es', setup_edges m es = (es', Raise NotImplementedError)) /\
     (exists k e, In (k, e) es /\ 3 <= length (tris_on m k)).
Proof.
  intros m es W; induction es as [|[k e] es IH]; intros H.
  - left; split; [|intros ? ? []]. exists []; split; [reflexivity|split; [reflexivity|intros ? ? []]].
  - destruct (setup_any m k e W (H _ (or_introl eq_refl))) as [[L [e' [E Sh]]]|[L E]].
    + destruct IH as [[[es' [E' [M' R']]] B]|[[es' E'] B]]; [intros x Hx; apply H; right; exact Hx| |].
      * left. split.
        -- cbn [setup_edges]. rewrite E, E'. exists ((k, e') :: es'). split; [reflexivity|].
           split; [cbn; congruence|]. intros k0 e0 [X|X]; [inversion X; subst; exact Sh|auto].
        -- intros k0 e0 [X|X]; [inversion X; subst; exact L|eauto].
      * right. split; [cbn [setup_edges]; rewrite E, E'; eauto|]. destruct B as [k0 [e0 [X Y]]]. exists k0, e0; split; [right; exact X|exact Y].
    + right. split; [|exists k, e; split; [left; reflexivity|lia]].
      cbn [setup_edges]. rewrite E. eauto.
Qed.

(** ** Numbering *)

Definition with_index m : Prop := forall n nd, In (n, nd) (nodes m) -> nindex nd = Some (rank m n).
Definition zrank m (n : nat) : Z := Z.of_nat (rank m n).

Lemma index_any : forall m n, wf_mesh m -> with_index m -> In n (node_keys m) -> get_index m n = Ok (zrank m n).
Proof.
  intros m n W I H. destruct (node_in m W n H) as [nd [E [_ [_ Hin]]]].
  unfold get_index. rewrite E. cbn [bind]. rewrite (I n nd Hin). reflexivity.
Qed.

Lemma zrank_inj : forall m a b, In a (node_keys m) -> In b (node_keys m) -> zrank m a = zrank m b -> a = b.
Proof. intros m a b Ha Hb E. apply (rank_inj m); auto. unfold zrank in E; lia. Qed.

Lemma number_keys : forall (nds : list (nat * node T)) i, map fst (number_nodes i nds) = map fst nds.
Proof. induction nds as [|[k n] nds IH]; intros i; cbn; [reflexivity|]. rewrite IH; reflexivity. Qed.

Lemma number_get : forall (nds : list (nat * node T)) i n,
  dget Nat.eqb n (number_nodes i nds) = option_map (set_index (i + index_in n (map fst nds))) (dget Nat.eqb n nds).
Proof.
  induction nds as [|[k nd] nds IH]; intros i n; [reflexivity|].
  cbn [number_nodes dget map fst index_in]. destruct (Nat.eqb n k).
  - rewrite Nat.add_0_r; reflexivity.
  - rewrite IH. replace (S i + index_in n (map fst nds)) with (i + S (index_in n (map fst nds))) by lia.
    reflexivity.
Qed.

Definition number m (es : list ((nat * nat) * edge T)) : mesh T :=
  {| nodes := number_nodes 0 (nodes m); elements := elements m; edges := es |}.

Lemma number_node : forall m es n nd, NoDup (node_keys m) -> In (n, nd) (nodes (number m es)) ->
  exists nd0, In (n, nd0) (nodes m) /\ nd = set_index (rank m n) nd0.
Proof.
  intros m es n nd N H. unfold number in H; cbn [nodes] in H.
  apply (in_dget Nat.eqb nat_eqb_spec) in H; [|rewrite number_keys; exact N].
  rewrite number_get in H.
  destruct (dget Nat.eqb n (nodes m)) as [nd0|] eqn:E; [|discriminate].
  exists nd0; split; [apply (dget_in Nat.eqb nat_eqb_spec); exact E|].
  cbn [option_map] in H. injection H as H. symmetry; exact H.
Qed.

Lemma number_prop : forall m es n, nodeprop (number m es) n = nodeprop m n.
Proof.
  intros m es n. unfold nodeprop, number; cbn [nodes]. rewrite number_get.
  destruct (dget Nat.eqb n (nodes m)); reflexivity.
Qed.

Lemma number_rank : forall m es n, rank (number m es) n = rank m n.
Proof. intros m es n. unfold rank, node_keys, number; cbn [nodes]. rewrite number_keys. reflexivity. Qed.

Lemma number_wf : forall m es, wf_mesh m -> map fst es = edge_keys m ->
  (forall k e, In (k, e) es -> shape m k e) -> wf_mesh (number m es).
Proof.
  intros m es W K Sh.
  assert (KN : node_keys (number m es) = node_keys m) by apply number_keys.
  destruct W as [A1 A2 A3 A4 A5 A6 A7 A8 A9 A10 A11 A12].
  assert (KE : edge_keys (number m es) = edge_keys m) by exact K.
  constructor; rewrite ?KN, ?KE; auto.
  - intros n nd Hin. destruct (number_node m es n nd A1 Hin) as [nd0 [H0 ->]]. apply (A2 n nd0 H0).
  - intros k e Hin. split; [apply (sp_ends m k e), Sh; exact Hin|].
    assert (Hk : In k (edge_keys m)) by (rewrite <- K; apply in_map_iff; exists (k, e); auto).
    destruct (key_edge _ _ Hk) as [e' Hin']. apply (A8 k e' Hin').
  - intros k e Hin. apply (sp_trias m k e), Sh; exact Hin.
Qed.

Lemma number_index : forall m es, wf_mesh m -> with_index (number m es).
Proof.
  intros m es W n nd H. destruct (number_node m es n nd (wf_nodes m W) H) as [nd0 [H0 ->]].
  rewrite number_rank. reflexivity.
Qed.

(** ** Assembly *)

Lemma ipt_indices_any : forall m, wf_mesh m -> with_index m -> forall ips s,
  (forall p, In p ips -> In (ipn1 p) (node_keys m) /\ In (ipn2 p) (node_keys m) /\ In (ipn3 p) (node_keys m)) ->
  ipt_indices m ips s = Ok (fold_left (fun s x => ins3 (zrank m (fst (fst x))) (zrank m (snd (fst x))) (zrank m (snd x)) s) (map ipids ips) s).
Proof.
  intros m W I; induction ips as [|p ips IH]; intros s H; [reflexivity|].
  destruct (H p (or_introl eq_refl)) as [H1 [H2 H3]].
  cbn [ipt_indices map fold_left ipids fst snd]. rewrite !index_any by assumption. cbn [bind].
  apply IH. intros q Hq; apply H; right; exact Hq.
Qed.

Lemma pos_some : forall l i d j, (In j l \/ dget Z.eqb j d <> None) -> dget Z.eqb j (enum_pos i l d) <> None.
Proof.
  induction l as [|a l IH]; intros i d j H; cbn [enum_pos].
  - destruct H as [[]|H]; exact H.
  - apply IH. rewrite (dget_dset Z.eqb Z.eqb_eq). destruct (Z.eqb_spec j a); [right; discriminate|].
    destruct H as [[H|H]|H]; auto.
Qed.

Lemma row_any : forall m (p : ipt T) ix, wf_mesh m -> with_index m ->
  In (ipn1 p) (node_keys m) -> In (ipn2 p) (node_keys m) -> In (ipn3 p) (node_keys m) ->
  In (zrank m (ipn1 p)) ix -> In (zrank m (ipn2 p)) ix -> In (zrank m (ipn3 p)) ix ->
  exists s, ipt_row m (indexpos ix) p = Ok s.
Proof.
  intros m p ix W I K1 K2 K3 I1 I2 I3. unfold ipt_row. rewrite !index_any by assumption. cbn [bind].
  assert (X : forall j, In j ix -> exists q, dget Z.eqb j (indexpos ix) = Some q).
  { intros j Hj. assert (Y := pos_some ix 0 [] j (or_introl Hj)). unfold indexpos.
    destruct (dget Z.eqb j (enum_pos 0 ix [])) as [q|]; [exists q; reflexivity|congruence]. }
  destruct (X _ I1) as [q1 ->]. destruct (X _ I2) as [q2 ->]. destruct (X _ I3) as [q3 ->].
  cbn [get_or bind]. eexists; reflexivity.
Qed.

Lemma map_repeat_in : forall A B (f : A -> B) (l : list A) x n, map f l = repeat x n -> forall a, In a l -> f a = x.
Proof.
  intros A B f l x n E a Ha. apply (in_map f) in Ha. rewrite E in Ha. apply repeat_spec in Ha. exact Ha.
Qed.

Section Asm.
Variables (m : mesh T) (pfn : bool).
Hypothesis W : wf_mesh m.
Hypothesis I : with_index m.
Hypothesis PC : props_complete m pfn.

(** the node indices of a domain *)
Definition dom_ix dm k (ix : list Z) : Prop :=
  length ix = 4 /\ forall j, In j ix -> j = dm /\ length (tris_on m k) = 1 \/
    exists n, In n (node_keys m) /\ on_domain m k n /\ j = zrank m n.

Definition twin_edge k : Prop := exists t1 t2, tris_on m k = [t1; t2] /\ third t1 k = third t2 k.

Lemma vertex_domain : forall k t n1 n2, In k (edge_keys m) -> ((n1, n2) = k \/ (n2, n1) = k) -> In t (tris_on m k) ->
  on_domain m k n1 /\ on_domain m k n2 /\ on_domain m k (third t k).
Proof.
  intros k t n1 n2 Hk E Ht. destruct (third_in m k t n1 n2 W Hk E Ht) as [P _].
  destruct (perm3_vertex _ _ _ _ P) as [V1 [V2 V3]].
  repeat split; exists t; auto.
Qed.

Lemma zr_ne : forall a b, In a (node_keys m) -> In b (node_keys m) -> a <> b -> zrank m a <> zrank m b.
Proof. intros a b Ha Hb N E. apply N. apply (zrank_inj m); assumption. Qed.

Lemma rows_any : forall dm k e, In k (edge_keys m) -> shape m k e ->
  (twin_edge k /\ domain_indices m dm (eipts e) = Raise ValueError) \/
  (~ twin_edge k /\ exists ix rows, domain_indices m dm (eipts e) = Ok ix /\ dom_ix dm k ix /\
     ipt_rows m (indexpos ix) (eipts e) = Ok rows).
Proof.
  intros dm k e Hk Sh. destruct (sp_dom m k e Sh) as [n1 [n2 [E X]]].
  destruct (ends_in m k n1 n2 W Hk E) as [K1 [K2 N12]].
  destruct X as [[t1 [Q [_ X]]]|[t1 [t2 [Q [_ [_ X]]]]]].
  - assert (I1 : In t1 (tris_on m k)) by (rewrite Q; left; reflexivity).
    destruct (third_in m k t1 n1 n2 W Hk E I1) as [P [O1 [O2 [Ko Ht]]]].
    destruct (vertex_domain k t1 n1 n2 Hk E I1) as [V1 [V2 V3]].
    right. split.
    { intros [s1 [s2 [Q' _]]]. rewrite Q in Q'; discriminate. }
    set (o := third t1 k) in *.
    assert (KE : forall p, In p (eipts e) -> In (ipn1 p) (node_keys m) /\ In (ipn2 p) (node_keys m) /\ In (ipn3 p) (node_keys m)).
    { intros p Hp. assert (Y := map_repeat_in _ _ _ _ _ _ X p Hp). injection Y as -> -> ->. auto. }
    assert (IX := ipt_indices_any m W I (eipts e) [] KE). rewrite X in IX. cbn [repeat fold_left fst snd] in IX.
    rewrite ins3_new in IX by (apply zr_ne; auto).
    rewrite !(ins3_old _ _ _ [_; _; _]) in IX by (cbn [In]; auto).
    assert (P3 := zsorted_perm [zrank m n1; zrank m n2; zrank m o]).
    assert (L3 := Permutation_length P3). cbn [length] in L3.
    assert (LX : length (eipts e) = 3) by (rewrite <- (map_length ipids), X; reflexivity).
    set (ix := zsorted [zrank m n1; zrank m n2; zrank m o] ++ [dm]).
    assert (EX : domain_indices m dm (eipts e) = Ok ix).
    { unfold domain_indices. rewrite IX. cbn [bind]. rewrite LX. cbn [Nat.eqb]. fold ix.
      unfold ix. rewrite app_length, L3. reflexivity. }
    assert (M : forall j, In j [zrank m n1; zrank m n2; zrank m o] -> In j ix).
    { intros j Hj. unfold ix. apply in_or_app. left. apply (Permutation_in _ (Permutation_sym P3) Hj). }
    assert (ROW : forall p, In p (eipts e) -> exists s, ipt_row m (indexpos ix) p = Ok s).
    { intros p Hp. destruct (KE p Hp) as [Y1 [Y2 Y3]]. assert (Y := map_repeat_in _ _ _ _ _ _ X p Hp).
      apply row_any; auto; injection Y as Z1 Z2 Z3; rewrite ?Z1, ?Z2, ?Z3; apply M; cbn; auto. }
    destruct (eipts e) as [|p1 [|p2 [|p3 [|p4 l]]]]; try discriminate LX.
    destruct (ROW p1) as [s1 S1]; [cbn; auto|]. destruct (ROW p2) as [s2 S2]; [cbn; auto|]. destruct (ROW p3) as [s3 S3]; [cbn; auto|].
    exists ix, (s1, s2, s3, dummy_row). split; [exact EX|]. split; [split|].
    + unfold ix. rewrite app_length, L3. reflexivity.
    + intros j Hj. unfold ix in Hj. apply in_app_or in Hj. destruct Hj as [Hj|[<-|[]]].
      * apply (Permutation_in _ P3) in Hj. cbn [In] in Hj. right.
        destruct Hj as [<-|[<-|[<-|[]]]]; eexists; split; try split; try reflexivity; auto.
      * left. rewrite Q. auto.
    + cbn [ipt_rows]. rewrite S1, S2, S3. reflexivity.
  - assert (I1 : In t1 (tris_on m k)) by (rewrite Q; left; reflexivity).
    assert (I2 : In t2 (tris_on m k)) by (rewrite Q; right; left; reflexivity).
    destruct (third_in m k t1 n1 n2 W Hk E I1) as [P [O1 [O2 [Ko Ht]]]].
    destruct (third_in m k t2 n1 n2 W Hk E I2) as [P' [O1' [O2' [Ko' Ht']]]].
    destruct (vertex_domain k t1 n1 n2 Hk E I1) as [V1 [V2 V3]].
    destruct (vertex_domain k t2 n1 n2 Hk E I2) as [_ [_ V4]].
    set (o := third t1 k) in *. set (o' := third t2 k) in *.
    assert (X' : forall p, In p (eipts e) -> ipids p = (n1, n2, o) \/ ipids p = (n1, n2, o')).
    { intros p Hp. apply (in_map ipids) in Hp. rewrite X in Hp. cbn [repeat app In] in Hp.
      destruct Hp as [Y|[Y|[Y|[Y|[]]]]]; auto. }
    assert (KE : forall p, In p (eipts e) -> In (ipn1 p) (node_keys m) /\ In (ipn2 p) (node_keys m) /\ In (ipn3 p) (node_keys m)).
    { intros p Hp. destruct (X' p Hp) as [Y|Y]; injection Y as -> -> ->; auto. }
    assert (IX := ipt_indices_any m W I (eipts e) [] KE). rewrite X in IX. cbn [repeat app fold_left fst snd] in IX.
    rewrite ins3_new in IX by (apply zr_ne; auto).
    rewrite (ins3_old _ _ _ [_; _; _]) in IX by (cbn [In]; auto).
    assert (LX : length (eipts e) = 4) by (rewrite <- (map_length ipids), X; reflexivity).
    destruct (Nat.eq_dec o o') as [EQ|NE].
    + left. split; [exists t1, t2; auto|].
      unfold domain_indices. rewrite <- EQ in IX. rewrite !(ins3_old _ _ _ [_; _; _]) in IX by (cbn [In]; auto).
      rewrite IX. cbn [bind]. rewrite LX. cbn [Nat.eqb].
      assert (P3 := zsorted_perm [zrank m n1; zrank m n2; zrank m o]).
      assert (L3 := Permutation_length P3). cbn [length] in L3. rewrite app_nil_r, L3. reflexivity.
    + right. split.
      { intros [s1 [s2 [Q' Y]]]. rewrite Q in Q'. injection Q' as <- <-. contradiction. }
      rewrite (ins3_last _ _ (zrank m o') [_; _; _]) in IX
        by (cbn [In]; auto; intros [Y|[Y|[Y|[]]]]; revert Y; apply zr_ne; auto).
      cbn [app] in IX. rewrite ins3_old in IX by (cbn [In]; auto).
      set (ix := zsorted [zrank m n1; zrank m n2; zrank m o; zrank m o']).
      assert (P4 := zsorted_perm [zrank m n1; zrank m n2; zrank m o; zrank m o']). fold ix in P4.
      assert (L4 := Permutation_length P4). cbn [length] in L4.
      assert (EX : domain_indices m dm (eipts e) = Ok ix).
      { unfold domain_indices. rewrite IX. cbn [bind]. rewrite LX. cbn [Nat.eqb]. fold ix. rewrite app_nil_r, L4. reflexivity. }
      assert (M : forall j, In j [zrank m n1; zrank m n2; zrank m o; zrank m o'] -> In j ix).
      { intros j Hj. apply (Permutation_in _ (Permutation_sym P4) Hj). }
      assert (ROW : forall p, In p (eipts e) -> exists s, ipt_row m (indexpos ix) p = Ok s).
      { intros p Hp. destruct (KE p Hp) as [Y1 [Y2 Y3]].
        destruct (X' p Hp) as [Y|Y]; apply row_any; auto; injection Y as Z1 Z2 Z3; rewrite ?Z1, ?Z2, ?Z3; apply M; cbn; auto. }
      destruct (eipts e) as [|p1 [|p2 [|p3 [|p4 [|p5 l]]]]]; try discriminate LX.
      destruct (ROW p1) as [s1 S1]; [cbn; auto|]. destruct (ROW p2) as [s2 S2]; [cbn; auto|].
      destruct (ROW p3) as [s3 S3]; [cbn; auto|]. destruct (ROW p4) as [s4 S4]; [cbn; auto|].
      exists ix, (s1, s2, s3, s4). split; [exact EX|]. split; [split|].
      * exact L4.
      * intros j Hj. apply (Permutation_in _ P4) in Hj. cbn [In] in Hj. right.
        destruct Hj as [<-|[<-|[<-|[<-|[]]]]]; eexists; split; try split; try reflexivity; auto.
      * cbn [ipt_rows]. rewrite S1, S2, S3, S4. reflexivity.
Qed.

Lemma abd_any : forall k e, In k (edge_keys m) -> shape m k e -> forall Ac,
  exists ta abd, edge_areas m e = Ok ta /\ edge_ABD m pfn e Ac ta = Ok abd.
Proof.
  intros k e Hk Sh Ac.
  destruct (sp_dom m k e Sh) as [n1 [n2 [E X]]]. assert (Tr := sp_trias m k e Sh).
  assert (En := sp_ends m k e Sh). destruct k as [a b]; injection En as Ea Eb.
  destruct (ends_in m (a, b) a b W Hk (or_introl eq_refl)) as [Ka [Kb _]].
  destruct (node_in m W a Ka) as [da [Ga _]].
  destruct (node_in m W b Kb) as [db [Gb _]].
  assert (TT : forall t, In t (tris_on m (a, b)) -> get_tria m (eid t) = Ok t /\
    (exists mid, getMid m t = Ok mid) /\
    if pfn then exists p, node_prop m (third t (a, b)) = Ok p else tprop t <> None).
  { intros t Ht. destruct (third_in m (a, b) t a b W Hk (or_introl eq_refl) Ht) as [P [O1 [O2 [Ko Tt]]]].
    split; [apply tria_found; assumption|]. split; [apply mid_in; assumption|].
    destruct pfn.
    + destruct (perm3_vertex _ _ _ _ P) as [_ [_ V]]. apply prop_in; auto. apply (vertex_has_prop m t _ W PC Tt V).
    + apply PC; exact Tt. }
  assert (NP : pfn = true -> exists pa pb, node_prop m a = Ok pa /\ node_prop m b = Ok pb).
  { intros EP. rewrite EP in PC. assert (Pab := PC (a, b) Hk); cbn [fst snd] in Pab; destruct Pab as [Pa Pb].
    destruct (prop_in m W a Ka Pa) as [pa Qa]. destruct (prop_in m W b Kb Pb) as [pb Qb]. exists pa, pb; auto. }
  unfold edge_areas. rewrite Tr, Ea, Eb.
  destruct X as [[t1 [Q [X1 _]]]|[t1 [t2 [Q [X1 [X2 _]]]]]].
  - rewrite Q in *. destruct (TT t1 (or_introl eq_refl)) as [G1 [[mid1 M1] Q1]].
    cbn [map]. rewrite G1; cbn [bind]. rewrite M1; cbn [bind]. rewrite Ga, Gb; cbn [bind].
    destruct (area_any3 mid1 (nxyz db) (nxyz da)) as [A1 ->]; cbn [bind].
    eexists. unfold edge_ABD. destruct pfn.
    + destruct (NP eq_refl) as [pa [pb [Pa Pb]]]. destruct Q1 as [po Po].
      rewrite Ea, Eb, Pa, Pb; cbn [bind]. rewrite X1; cbn [other_prop get_or bind]. rewrite Po; cbn [bind snd].
      eexists; split; reflexivity.
    + cbn [fst snd]. destruct (tprop t1); [|contradiction]. cbn [get_or bind]. eexists; split; reflexivity.
  - rewrite Q in *. destruct (TT t1 (or_introl eq_refl)) as [G1 [[mid1 M1] Q1]].
    destruct (TT t2 (or_intror (or_introl eq_refl))) as [G2 [[mid2 M2] Q2]].
    cbn [map]. rewrite G1; cbn [bind]. rewrite M1; cbn [bind]. rewrite Ga, Gb; cbn [bind].
    destruct (area_any3 mid1 (nxyz db) (nxyz da)) as [A1 ->]; cbn [bind].
    rewrite G2; cbn [bind]. rewrite M2; cbn [bind].
    destruct (area_any3 mid2 (nxyz da) (nxyz db)) as [A2 ->]; cbn [bind].
    eexists. unfold edge_ABD. destruct pfn.
    + destruct (NP eq_refl) as [pa [pb [Pa Pb]]]. destruct Q1 as [po Po]. destruct Q2 as [po' Po'].
      rewrite Ea, Eb, Pa, Pb; cbn [bind]. rewrite X1, X2; cbn [other_prop get_or bind]. rewrite Po; cbn [bind snd].
      rewrite Po'; cbn [bind]. eexists; split; reflexivity.
    + cbn [fst snd]. destruct (tprop t1); [|contradiction]. destruct (tprop t2); [|contradiction].
      cbn [get_or bind]. eexists; split; reflexivity.
Qed.

Lemma edge_any : forall k e, In k (edge_keys m) -> shape m k e ->
  (twin_edge k /\ k0_edge m pfn e = Raise ValueError) \/
  (~ twin_edge k /\ exists ix us, k0_edge m pfn e = Ok us /\ dom_ix (-1)%Z k ix /\
     forall x, In x us -> In (fst (fst x)) (k0_dofs ix) /\ In (snd (fst x)) (k0_dofs ix)).
Proof.
  intros k e Hk Sh. destruct (sp_Ac m k e Sh) as [Ac EAc].
  destruct (abd_any k e Hk Sh Ac) as [ta [abd [Eta Eabd]]]. unfold k0_edge. rewrite Eta; cbn [bind].
  destruct (rows_any (-1)%Z k e Hk Sh) as [[TW ->]|[NT' [ix [rows [E1 [D E2]]]]]].
  - left; split; [exact TW|reflexivity].
  - right; split; [exact NT'|]. rewrite E1; cbn [bind]. rewrite E2; cbn [bind]. rewrite EAc; cbn [get_or bind]. rewrite Eabd; cbn [bind].
    exists ix. eexists; split; [reflexivity|]. split; [exact D|]. intros x Hx. apply (k0_updates_at ix _ _ _ _ _ x (proj1 D) Hx).
Qed.

(** entry (i, j) may be written by edge [k] *)
Definition dof_of k (i : nat) : Prop := exists n c, In n (node_keys m) /\ (c = 0 \/ c = 1 \/ c = 3 \/ c = 4) /\
  i = rank m n * 5 + c /\ (on_domain m k n \/ length (tris_on m k) = 1 /\ S (rank m n) = length (nodes m)).

Lemma dofs_range : forall k ix z, In k (edge_keys m) -> dom_ix (-1)%Z k ix -> In z (k0_dofs ix) ->
  in_range (length (nodes m) * 5) z /\ dof_of k (nidx (length (nodes m) * 5) z).
Proof.
  intros k ix z Hk [_ D] Hz. unfold k0_dofs in Hz. apply in_flat_map in Hz. destruct Hz as [j [Hj Hz]].
  assert (X : exists c, (c = 0 \/ c = 1 \/ c = 3 \/ c = 4) /\ z = (j * 5 + Z.of_nat c)%Z).
  { cbn [In] in Hz. destruct Hz as [<-|[<-|[<-|[<-|[]]]]]; [exists 0|exists 1|exists 3|exists 4]; auto. }
  destruct X as [c [Hc ->]].
  destruct (D j Hj) as [[-> L]|[n [Kn [On ->]]]].
  - destruct (ends_in m k (fst k) (snd k) W Hk) as [Ka _]; [left; destruct k; reflexivity|].
    assert (PN : 0 < length (nodes m)) by (apply rank_lt in Ka; lia).
    assert (RG : in_range (length (nodes m) * 5) (-1 * 5 + Z.of_nat c)) by (unfold in_range; lia).
    split; [exact RG|].
    destruct (nth_error (nodes m) (length (nodes m) - 1)) as [[n nd]|] eqn:EN; [|apply nth_error_None in EN; lia].
    assert (Kn : In n (node_keys m)) by (apply in_map_iff; exists (n, nd); split; [reflexivity|eapply nth_error_In; exact EN]).
    assert (RN : rank m n = length (nodes m) - 1).
    { assert (ND := wf_nodes m W). unfold rank. revert EN ND. clear. unfold node_keys.
      generalize (length (nodes m) - 1) as i. generalize (nodes m) as l.
      induction l as [|[n' nd'] l IH]; intros i EN ND; [destruct i; discriminate|].
      cbn [map fst index_in]. inversion ND as [|? ? H1 H2]; subst. destruct i as [|i].
      - injection EN as -> _. rewrite Nat.eqb_refl; reflexivity.
      - cbn [nth_error] in EN. destruct (Nat.eqb_spec n n') as [->|_].
        + exfalso. apply H1. apply in_map_iff. exists (n', nd). split; [reflexivity|eapply nth_error_In; exact EN].
        + f_equal. apply IH; assumption. }
    exists n, c. split; [exact Kn|]. split; [exact Hc|]. split; [|right; split; [exact L|lia]].
    rewrite RN. unfold nidx, pyidx.
    destruct (Z.leb_spec 0 (-1 * 5 + Z.of_nat c)); [lia|].
    destruct (Z.leb_spec 0 (-1 * 5 + Z.of_nat c + Z.of_nat (length (nodes m) * 5))); lia.
  - assert (RL := rank_lt m n Kn).
    assert (RG : in_range (length (nodes m) * 5) (zrank m n * 5 + Z.of_nat c)) by (unfold in_range, zrank; lia).
    split; [exact RG|]. exists n, c. split; [exact Kn|]. split; [exact Hc|]. split; [|left; exact On].
    unfold zrank. replace (Z.of_nat (rank m n) * 5 + Z.of_nat c)%Z with (Z.of_nat (rank m n * 5 + c)) by lia.
    apply nidx_nat. lia.
Qed.

Lemma assemble_any : forall es K, mdim K = length (nodes m) * 5 ->
  (forall k e, In (k, e) es -> In k (edge_keys m) /\ shape m k e) ->
  ((exists k e, In (k, e) es /\ twin_edge k) /\ k0_assemble m pfn es K = Raise ValueError) \/
  ((forall k e, In (k, e) es -> ~ twin_edge k) /\ exists K', k0_assemble m pfn es K = Ok K' /\ mdim K' = mdim K /\
    forall i j, (forall k, In k (map fst es) -> ~ (dof_of k i /\ dof_of k j)) -> mentry K' i j = mentry K i j).
Proof.
  induction es as [|[k e] es IH]; intros K D H.
  - right. split; [intros k e []|]. exists K. repeat split; reflexivity.
  - destruct (H k e (or_introl eq_refl)) as [Hk Sh]. cbn [k0_assemble].
    destruct (edge_any k e Hk Sh) as [[TW ->]|[NTW [ix [us [-> [DX UP]]]]]].
    + left. split; [|reflexivity]. exists k, e. split; [left; reflexivity|exact TW].
    + cbn [bind].
      assert (OK : upds_ok (mdim K) us).
      { intros x Hx. rewrite D. destruct (UP x Hx) as [U1 U2]. split; eapply dofs_range; eauto. }
      destruct (mupdates_any us K OK) as [K1 [E1 [D1 F1]]]. rewrite E1.
      destruct (IH K1) as [[[k' [e' [Hin TW]]] E2]|[NT2 [K2 [E2 [D2 F2]]]]];
        [congruence|intros k' e' Hin; apply H; right; exact Hin| |].
      * left. split; [|exact E2]. exists k', e'. split; [right; exact Hin|exact TW].
      * right. split.
        -- intros k' e' [X|X]; [inversion X; subst; exact NTW|exact (NT2 k' e' X)].
        -- exists K2. split; [exact E2|]. split; [congruence|]. intros i j N.
           rewrite F2 by (intros k' Hk'; apply N; right; exact Hk'). apply F1.
           intros x Hx [Y1 Y2]. rewrite D in Y1, Y2. destruct (UP x Hx) as [U1 U2].
           destruct (dofs_range k ix _ Hk DX U1) as [_ R1]. destruct (dofs_range k ix _ Hk DX U2) as [_ R2].
           rewrite Y1 in R1. rewrite Y2 in R2. apply (N k); [left; reflexivity|]. split; assumption.
Qed.
End Asm.

(** ** Twins *)

Lemma tris_nodup : forall m k, wf_mesh m -> NoDup (map eid (tris_on m k)).
Proof.
  intros m k W. assert (N : NoDup (map eid (trias_of m))).
  { assert (X := wf_elements m W). assert (Y := wf_eid m W). unfold trias_of. rewrite map_map.
    revert X Y. generalize (elements m) as l. induction l as [|[e t] l IH]; intros X Y; [constructor|].
    cbn [map fst snd] in *. inversion X as [|? ? X1 X2]; subst. constructor.
    - rewrite (Y e t (or_introl eq_refl)). intros H. apply X1. apply in_map_iff in H. destruct H as [[e' t'] [E H]].
      cbn [snd] in E. rewrite (Y e' t' (or_intror H)) in E. subst e'. apply in_map_iff. exists (e, t'); auto.
    - apply IH; [exact X2|]. intros k0 t0 H; apply Y; right; exact H. }
  unfold tris_on. revert N. generalize (trias_of m) as l. induction l as [|t l IH]; intros N; [constructor|].
  cbn [map] in N. inversion N as [|? ? N1 N2]; subst. cbn [filter]. destruct (_ && _); [|apply IH; exact N2].
  cbn [map]. constructor; [|apply IH; exact N2]. intros H. apply N1.
  apply in_map_iff in H. destruct H as [t' [E H]]. apply filter_In in H. apply in_map_iff. exists t'; tauto.
Qed.

Lemma twins_edge : forall m, wf_mesh m -> manifold m ->
  (has_twins m <-> exists k, In k (edge_keys m) /\ twin_edge m k).
Proof.
  intros m W MF. split.
  - intros [t1 [t2 [H1 [H2 [NE V]]]]].
    set (k := (Nat.min (tn1 t1) (tn2 t1), Nat.max (tn1 t1) (tn2 t1))).
    assert (Hs : In k (sides t1)) by (left; reflexivity).
    assert (Hk : In k (edge_keys m)) by (apply (wf_edge_keys m W); exists t1; auto).
    destruct (sides_vertices _ _ Hs) as [VA VB].
    assert (I1 : In t1 (tris_on m k)) by (apply tris_on_in; auto).
    assert (I2 : In t2 (tris_on m k)) by (apply tris_on_in; split; [exact H2|]; split; apply V; assumption).
    exists k. split; [exact Hk|].
    assert (TH : third t1 k = third t2 k).
    { destruct (edge_tria m W k t1 Hk I1) as [P1 [D1 [D2 [D3 _]]]].
      destruct (edge_tria m W k t2 Hk I2) as [P2 [_ [E2 [E3 _]]]].
      destruct (perm3_vertex _ _ _ _ P1) as [_ [_ VT]]. apply V in VT.
      unfold vertex in VT. destruct P2 as [Y|[Y|[Y|[Y|[Y|Y]]]]]; destruct Y as [Y1 [Y2 Y3]];
      rewrite Y1, Y2, Y3 in VT; intuition congruence. }
    assert (L := MF k Hk). assert (NE' : t1 <> t2) by congruence.
    destruct (tris_on m k) as [|s1 [|s2 [|s3 l]]] eqn:Q; cbn [length In] in *; try lia; try tauto.
    + destruct I1 as [<-|[]]. destruct I2 as [<-|[]]. congruence.
    + destruct I1 as [<-|[<-|[]]], I2 as [<-|[<-|[]]]; try congruence.
      * exists s1, s2; auto.
      * exists s1, s2; auto.
  - intros [k [Hk [t1 [t2 [Q TH]]]]].
    assert (I1 : In t1 (tris_on m k)) by (rewrite Q; left; reflexivity).
    assert (I2 : In t2 (tris_on m k)) by (rewrite Q; right; left; reflexivity).
    exists t1, t2. split; [apply tris_on_in in I1; tauto|]. split; [apply tris_on_in in I2; tauto|]. split.
    + assert (N := tris_nodup m k W). rewrite Q in N. cbn [map] in N. inversion N as [|? ? N1 _]; subst.
      intros E; apply N1; left; auto.
    + destruct (edge_tria m W k t1 Hk I1) as [P1 _]. destruct (edge_tria m W k t2 Hk I2) as [P2 _]. rewrite <- TH in P2.
      assert (X : forall (t : tria T) n, perm3 t (fst k) (snd k) (third t1 k) -> (vertex t n <-> n = fst k \/ n = snd k \/ n = third t1 k)).
      { intros t n P. unfold vertex. destruct P as [Y|[Y|[Y|[Y|[Y|Y]]]]]; destruct Y as [-> [-> ->]]; tauto. }
      intros n. rewrite (X t1 n P1), (X t2 n P2). reflexivity.
Qed.

(** ** calc_k0 *)

Lemma calc_k0_any : forall m pfn, wf_mesh m ->
  (~ props_complete m pfn /\ calc_k0 m pfn = (m, Raise ValueError)) \/
  (props_complete m pfn /\ (exists k, In k (edge_keys m) /\ 3 <= length (tris_on m k)) /\
     snd (calc_k0 m pfn) = Raise NotImplementedError /\ nodes (fst (calc_k0 m pfn)) = nodes m) \/
  (props_complete m pfn /\ manifold m /\ (nodes m = [] \/ has_twins m) /\ snd (calc_k0 m pfn) = Raise ValueError) \/
  (props_complete m pfn /\ manifold m /\ nodes m <> [] /\ ~ has_twins m /\
   exists m' K, calc_k0 m pfn = (m', Ok K) /\ mdim K = length (nodes m) * 5 /\
     (wf_mesh m' /\ with_index m' /\ (forall k e, In (k, e) (edges m') -> shape m' k e /\ ~ twin_edge m' k) /\
      (forall b, props_complete m b -> props_complete m' b) /\ length (nodes m') = length (nodes m)) /\
     forall i j, (forall k, In k (edge_keys m) -> ~ (dof_of m k i /\ dof_of m k j)) -> mentry K i j = nofZ 0).
Proof.
  intros m pfn W. unfold calc_k0.
  destruct (check_edges_any m pfn W) as [[-> NP]|[-> PC]]; [left; split; [exact NP|reflexivity]|right].
  destruct (setup_edges_any m (edges m) W (fun x H => H)) as [[[es [E [Ek Sh]]] B]|[[es E] [k [e [Hin L]]]]]; rewrite E.
  2: { left. split; [exact PC|]. split; [exists k; split; [apply (key_in _ _ _ Hin)|exact L]|]. split; reflexivity. }
  right. assert (MF : manifold m) by (intros k Hk; destruct (key_edge _ _ Hk) as [e He]; apply (B k e He)).
  destruct (nodes m) as [|nd nds] eqn:EN.
  { left. split; [exact PC|]. split; [exact MF|]. split; [left; reflexivity|reflexivity]. }
  rewrite <- EN in *. change (Mesh (number_nodes 0 (nodes m)) (elements m) es) with (number m es).
  assert (W' := number_wf m es W Ek Sh). assert (I' := number_index m es W).
  assert (KN : node_keys (number m es) = node_keys m) by apply number_keys.
  assert (LN : length (nodes (number m es)) = length (nodes m)).
  { change (length (number_nodes 0 (nodes m)) = length (nodes m)).
    rewrite <- (map_length fst), number_keys, map_length. reflexivity. }
  assert (PCs : forall b, props_complete m b -> props_complete (number m es) b).
  { clear PC. unfold props_complete. intros [|] PC; [|exact PC].
    intros k Hk. rewrite !number_prop. apply PC. unfold edge_keys in Hk at 1. cbn [edges number] in Hk. rewrite Ek in Hk. exact Hk. }
  assert (Sh' : forall k e, In (k, e) es -> shape (number m es) k e).
  { intros k e Hin. destruct (Sh k e Hin) as [S1 S2 S3 S4]. constructor; assumption. }
  destruct (assemble_any (number m es) pfn W' I' (PCs pfn PC) es (zeros (length (nodes m) * 5))) as [[[k [e [Hin TW]]] EA]|[NTW [K [EA [D F]]]]].
  - cbn [zeros mdim]. rewrite LN; reflexivity.
  - intros k e Hin. split; [apply (key_in (number m es) k e Hin)|]. apply Sh'; exact Hin.
  - left. split; [exact PC|]. split; [exact MF|]. split; [|exact EA]. right. apply (twins_edge m W MF).
    exists k. split; [|exact TW]. unfold edge_keys. rewrite <- Ek. apply in_map_iff; exists (k, e); auto.
  - right. split; [exact PC|]. split; [exact MF|]. split; [rewrite EN; discriminate|]. split.
    + intros HT. apply (twins_edge m W MF) in HT. destruct HT as [k [Hk TW]]. unfold edge_keys in Hk. rewrite <- Ek in Hk.
      apply in_map_iff in Hk. destruct Hk as [[k' e] [E' Hin]]. cbn [fst] in E'; subst k'. apply (NTW k e Hin TW).
    + exists (number m es), K. split; [rewrite EA; reflexivity|]. split; [exact D|].
      split; [split; [exact W'|]; split; [exact I'|]; split; [|split; [exact PCs|exact LN]];
        intros k e Hin; split; [exact (Sh' k e Hin)|exact (NTW k e Hin)]|].
      intros i j N. rewrite F; [reflexivity|]. intros k Hk [D1 D2]. rewrite Ek in Hk. apply (N k Hk).
      unfold dof_of in *. rewrite KN, LN in D1, D2.
      split; [destruct D1 as [n [c Y]]|destruct D2 as [n [c Y]]]; exists n, c; rewrite number_rank in Y; exact Y.
Qed.
End Out.
