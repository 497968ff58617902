(** When calc_k0 returns and when it raises, on meshes that need not be flat. *)
From Coq Require Import ZArith Reals List Bool Arith Lra Lia Permutation.
From Verif Require Import Num Py Mesh Utils Spec SpecK0 FSum FMat FTensor FDict FGeom FWf FSetup FAsm FK0 GenK0 CalcK0.
Import ListNotations.
Local Open Scope R_scope.
Implicit Types (m : mesh R).

(** ** Property check *)

Lemma check_edge_wf : forall m pfn k e, wf_mesh m -> In (k, e) (edges m) ->
  check_edge m pfn e = Raise ValueError \/
  (check_edge m pfn e = Ok tt /\
   if pfn then nodeprop m (fst k) <> None /\ nodeprop m (snd k) <> None
   else forall t, In t (tris_on m k) -> tprop t <> None).
Proof.
  intros m pfn [a b] e W Hin.
  assert (Hk : In (a, b) (edge_keys m)) by (unfold edge_keys; apply in_map_iff; exists ((a, b), e); auto).
  destruct (wf_edge_ends m W _ _ Hin) as [Een _]; injection Een as Ea Eb.
  destruct pfn; cbn [check_edge fst snd].
  - destruct (ready_nodes m (a, b) a b W Hk (or_introl eq_refl)) as [Ka [Kb _]].
    destruct (node_found m W a Ka) as [da [Ga [_ [_ [Qa _]]]]].
    destruct (node_found m W b Kb) as [db [Gb [_ [_ [Qb _]]]]].
    rewrite Ea, Eb, Ga, Gb. cbn [bind]. rewrite Qa, Qb.
    destruct (nodeprop m a); [|left; reflexivity]. destruct (nodeprop m b); [|left; reflexivity].
    right; split; [reflexivity|split; discriminate].
  - rewrite (wf_edge_trias m W _ _ Hin).
    assert (A : forall t, In t (tris_on m (a, b)) -> In t (trias_of m)) by
      (intros t Ht; apply tris_on_in in Ht; tauto).
    induction (tris_on m (a, b)) as [|t l IH]; [right; split; [reflexivity|intros ? []]|].
    cbn [map]. rewrite (tria_found m W t) by (apply A; left; reflexivity). cbn [bind].
    destruct (tprop t) eqn:Q; cbn [is_none]; [|left; reflexivity].
    destruct IH as [IH|[IH1 IH2]]; [intros x Hx; apply A; right; exact Hx|left; exact IH|].
    right; split; [exact IH1|]. intros x [<-|Hx]; [congruence|auto].
Qed.

Lemma check_edges_bad : forall m pfn, wf_mesh m -> ~ props_complete m pfn ->
  check_edges m pfn (edges m) = Raise ValueError.
Proof.
  intros m pfn W NP.
  assert (G : forall es, (forall x, In x es -> In x (edges m)) ->
    check_edges m pfn es = Raise ValueError \/
    (forall k e, In (k, e) es -> if pfn then nodeprop m (fst k) <> None /\ nodeprop m (snd k) <> None
       else forall t, In t (tris_on m k) -> tprop t <> None)).
  { induction es as [|[k e] es IH]; intros H; [right; intros ? ? []|].
    cbn [check_edges]. destruct (check_edge_wf m pfn k e W (H _ (or_introl eq_refl))) as [E|[E Q]]; rewrite E; cbn [bind].
    - left; reflexivity.
    - destruct IH as [IH|IH]; [intros x Hx; apply H; right; exact Hx|left; exact IH|].
      right. intros k' e' [X|X]; [inversion X; subst; exact Q|exact (IH k' e' X)]. }
  destruct (G (edges m) (fun x H => H)) as [E|Q]; [exact E|]. exfalso; apply NP.
  unfold props_complete. destruct pfn.
  - intros k Hk. unfold edge_keys in Hk. apply in_map_iff in Hk. destruct Hk as [[k' e] [<- Hin]]. exact (Q k' e Hin).
  - intros t Ht.
    assert (Hs : In (Nat.min (tn1 t) (tn2 t), Nat.max (tn1 t) (tn2 t)) (sides t)) by (left; reflexivity).
    assert (Hk : In (Nat.min (tn1 t) (tn2 t), Nat.max (tn1 t) (tn2 t)) (edge_keys m)).
    { apply (wf_edge_keys m W). exists t; auto. }
    unfold edge_keys in Hk. apply in_map_iff in Hk. destruct Hk as [[k' e] [E Hin]]. cbn [fst] in E. subst k'.
    apply (Q _ _ Hin t). apply tris_on_in. split; [exact Ht|]. apply sides_vertices; exact Hs.
Qed.

(** ** Setup of the edges *)

Record shaped (m : mesh R) (k : nat * nat) (e : edge R) : Prop := {
  sh_ends : (en1 e, en2 e) = k;
  sh_trias : etrias e = map eid (tris_on m k);
  sh_Ac : exists A, eAc e = Some A;
  sh_dom : exists n1 n2, ((n1, n2) = k \/ (n2, n1) = k) /\
    ((exists t1 f1 f2 f3 v g1 g2 g3 v' h1 h2 h3 v'', tris_on m k = [t1] /\ eother1 e = Some (third t1 k) /\
       eipts e = [the_ipt m (eid t1) n1 n2 (third t1 k) f1 f2 f3 v; the_ipt m (eid t1) n1 n2 (third t1 k) g1 g2 g3 v';
                  the_ipt m (eid t1) n1 n2 (third t1 k) h1 h2 h3 v'']) \/
     (exists t1 t2 f1 f2 f3 v g1 g2 g3 v' h1 h2 h3 v'' i1 i2 i3 v''', tris_on m k = [t1; t2] /\
       eother1 e = Some (third t1 k) /\ eother2 e = Some (third t2 k) /\
       eipts e = [the_ipt m (eid t1) n1 n2 (third t1 k) f1 f2 f3 v; the_ipt m (eid t1) n1 n2 (third t1 k) g1 g2 g3 v';
                  the_ipt m (eid t2) n1 n2 (third t2 k) h1 h2 h3 v''; the_ipt m (eid t2) n1 n2 (third t2 k) i1 i2 i3 v''']))
}.

Lemma orient_either : forall (mid : vec3 R) nd1 nd2, orient_k0 mid nd1 nd2 = (nd1, nd2) \/ orient_k0 mid nd1 nd2 = (nd2, nd1).
Proof. intros; unfold orient_k0. destruct (nltb _ _); auto. Qed.

Lemma setup_shape : forall m k e, wf_mesh m -> In (k, e) (edges m) -> (length (tris_on m k) <= 2)%nat ->
  exists e', setup_edge m e = Ok e' /\ shaped m k e'.
Proof.
  intros m [a b] e W Hin L.
  assert (Hk : In (a, b) (edge_keys m)) by (unfold edge_keys; apply in_map_iff; exists ((a, b), e); auto).
  destruct (wf_edge_ends m W _ _ Hin) as [Een _]; injection Een as Ea Eb.
  assert (Etr := wf_edge_trias m W _ _ Hin).
  destruct (ready_nodes m (a, b) a b W Hk (or_introl eq_refl)) as [Ka [Kb Nab]].
  destruct (node_found m W a Ka) as [da [Ga [Ia [Xa _]]]].
  destruct (node_found m W b Kb) as [db [Gb [Ib [Xb _]]]].
  assert (TT : forall t, In t (tris_on m (a, b)) -> get_tria m (eid t) = Ok t /\
    othernode_id t e = Ok (third t (a, b)) /\
    (exists d, get_node m (third t (a, b)) = Ok d /\ nid d = third t (a, b) /\ nxyz d = pos m (third t (a, b))) /\
    exists mid, getMid m t = Ok mid).
  { intros t Ht. destruct (tria_node m (a, b) t a b W Hk (or_introl eq_refl) Ht) as [P [O1 [O2 [Ko T]]]].
    split; [apply tria_found; assumption|]. split.
    - apply (othernode_third t e a b (third t (a, b))); auto.
    - split.
      + destruct (node_found m W _ Ko) as [d [G [I' [X _]]]]. exists d; auto.
      + exists (mid3 (pos m a) (pos m b) (pos m (third t (a, b)))). apply getMid_perm; assumption. }
  assert (NE := tris_on_nonempty m W _ Hk).
  destruct (tris_on m (a, b)) as [|t1 [|t2 [|t3 l]]] eqn:T; [contradiction| | |cbn in L; lia].
  - destruct (TT t1 (or_introl eq_refl)) as [G1 [O1 [[d1 [D1 [J1 X1]]] [mid1 M1]]]].
    unfold setup_edge, edge_trias_data. rewrite Etr. cbn [map].
    rewrite G1. cbn [bind]. rewrite O1. cbn [bind]. rewrite D1. cbn [bind]. rewrite M1. cbn [bind].
    rewrite Ea, Eb, Ga, Gb. cbn [bind].
    destruct (orient_either mid1 da db) as [-> | ->]; unfold domain1; cbv iota beta; rewrite area4; cbn [bind].
    + eexists. split; [reflexivity|]. constructor; rewrite ?T; cbn [set_domain set_others en1 en2 etrias eAc]; try congruence; eauto.
      exists a, b. split; [left; reflexivity|]. left. exists t1.
      cbn [set_domain set_others eother1 eipts]. rewrite J1. rewrite !(make_ipt_the m _ _ _ _ a b (third t1 (a, b))) by assumption.
      do 12 eexists. split; [reflexivity|]. split; reflexivity.
    + eexists. split; [reflexivity|]. constructor; rewrite ?T; cbn [set_domain set_others en1 en2 etrias eAc]; try congruence; eauto.
      exists b, a. split; [right; reflexivity|]. left. exists t1.
      cbn [set_domain set_others eother1 eipts]. rewrite J1. rewrite !(make_ipt_the m _ _ _ _ b a (third t1 (a, b))) by assumption.
      do 12 eexists. split; [reflexivity|]. split; reflexivity.
  - destruct (TT t1 (or_introl eq_refl)) as [G1 [O1 [[d1 [D1 [J1 X1]]] [mid1 M1]]]].
    destruct (TT t2 (or_intror (or_introl eq_refl))) as [G2 [O2 [[d2 [D2 [J2 X2]]] [mid2 M2]]]].
    unfold setup_edge, edge_trias_data. rewrite Etr. cbn [map].
    rewrite G1. cbn [bind]. rewrite G2. cbn [bind]. rewrite O1. cbn [bind]. rewrite O2. cbn [bind].
    rewrite D1. cbn [bind]. rewrite D2. cbn [bind]. rewrite M1. cbn [bind]. rewrite M2. cbn [bind].
    rewrite Ea, Eb, Ga, Gb. cbn [bind].
    destruct (orient_either mid1 da db) as [-> | ->]; unfold domain2; cbv iota beta; rewrite area5; cbn [bind].
    + eexists. split; [reflexivity|]. constructor; rewrite ?T; cbn [set_domain set_others en1 en2 etrias eAc]; try congruence; eauto.
      exists a, b. split; [left; reflexivity|]. right. exists t1, t2.
      cbn [set_domain set_others eother1 eother2 eipts]. rewrite J1, J2.
      rewrite !(make_ipt_the m _ _ _ d1 a b (third t1 (a, b))), !(make_ipt_the m _ _ _ d2 a b (third t2 (a, b))) by assumption.
      do 16 eexists. repeat (split; [reflexivity|]). reflexivity.
    + eexists. split; [reflexivity|]. constructor; rewrite ?T; cbn [set_domain set_others en1 en2 etrias eAc]; try congruence; eauto.
      exists b, a. split; [right; reflexivity|]. right. exists t1, t2.
      cbn [set_domain set_others eother1 eother2 eipts]. rewrite J1, J2.
      rewrite !(make_ipt_the m _ _ _ d1 b a (third t1 (a, b))), !(make_ipt_the m _ _ _ d2 b a (third t2 (a, b))) by assumption.
      do 16 eexists. repeat (split; [reflexivity|]). reflexivity.
Qed.

Lemma setup_three : forall m k e, wf_mesh m -> In (k, e) (edges m) -> (3 <= length (tris_on m k))%nat ->
  setup_edge m e = Raise NotImplementedError.
Proof.
  intros m k e W Hin L. unfold setup_edge, edge_trias_data. rewrite (wf_edge_trias m W _ _ Hin).
  destruct (tris_on m k) as [|t1 [|t2 [|t3 l]]]; cbn in L; try lia. reflexivity.
Qed.

Lemma setup_edges_shape : forall m es, wf_mesh m -> (forall x, In x es -> In x (edges m)) ->
  (exists es', setup_edges m es = (es', Ok tt) /\ map fst es' = map fst es /\
    (forall k e, In (k, e) es' -> shaped m k e)) /\ (forall k e, In (k, e) es -> (length (tris_on m k) <= 2)%nat)
  \/ (exists es', setup_edges m es = (es', Raise NotImplementedError)) /\
     (exists k e, In (k, e) es /\ (3 <= length (tris_on m k))%nat).
Proof.
  intros m es W; induction es as [|[k e] es IH]; intros H.
  - left; split; [|intros ? ? []]. exists []; split; [reflexivity|split; [reflexivity|intros ? ? []]].
  - destruct (le_lt_dec (length (tris_on m k)) 2) as [L|L].
    + destruct (setup_shape m k e W (H _ (or_introl eq_refl)) L) as [e' [E Sh]].
      destruct IH as [[[es' [E' [M' R']]] B]|[[es' E'] B]]; [intros x Hx; apply H; right; exact Hx| |].
      * left. split.
        -- cbn [setup_edges]. rewrite E, E'. exists ((k, e') :: es'). split; [reflexivity|].
           split; [cbn; congruence|]. intros k0 e0 [X|X]; [inversion X; subst; exact Sh|auto].
        -- intros k0 e0 [X|X]; [inversion X; subst; exact L|eauto].
      * right. split; [cbn [setup_edges]; rewrite E, E'; eauto|]. destruct B as [k0 [e0 [X Y]]]. exists k0, e0; split; [right; exact X|exact Y].
    + right. split; [|exists k, e; split; [left; reflexivity|lia]].
      cbn [setup_edges]. rewrite (setup_three m k e W (H _ (or_introl eq_refl))) by lia. eauto.
Qed.

(** ** Assembly *)

Section Same2.
  Variables m m' : mesh R.
  Hypothesis S : same m m'.
  Lemma same_shaped : forall k e, shaped m k e -> shaped m' k e.
  Proof.
    intros k e [H1 H2 H3 H4]. 
    assert (EI : forall t n1 n2 n3 f1 f2 f3 v, the_ipt m' t n1 n2 n3 f1 f2 f3 v = the_ipt m t n1 n2 n3 f1 f2 f3 v).
    { intros; unfold the_ipt; rewrite (sm_pos _ _ S); reflexivity. }
    constructor; rewrite ?(same_tris_on _ _ S); auto.
    destruct H4 as [n1 [n2 [E [X|X]]]]; exists n1, n2; split; auto; [left|right].
    - destruct X as [t1 [f1 [f2 [f3 [v [g1 [g2 [g3 [v' [h1 [h2 [h3 [v'' [X1 [X2 X3]]]]]]]]]]]]]]].
      exists t1, f1, f2, f3, v, g1, g2, g3, v', h1, h2, h3, v''. rewrite !EI. auto.
    - destruct X as [t1 [t2 [f1 [f2 [f3 [v [g1 [g2 [g3 [v' [h1 [h2 [h3 [v'' [i1 [i2 [i3 [v''' [X1 [X2 [X3 X4]]]]]]]]]]]]]]]]]]]]].
      exists t1, t2, f1, f2, f3, v, g1, g2, g3, v', h1, h2, h3, v'', i1, i2, i3, v'''. rewrite !EI. auto.
  Qed.
End Same2.

(** the positions of the updates do not depend on the numbers *)
Lemma k0_updates_pos : forall ix Ac A B D rows Ac' A' B' D' rows',
  map fst (k0_updates (T := R) ix Ac A B D rows) = map fst (k0_updates ix Ac' A' B' D' rows').
Proof.
  intros ix Ac A B D [[[r1 r2] r3] r4] Ac' A' B' D' [[[r1' r2'] r3'] r4']. reflexivity.
Qed.

Lemma k0_updates_range : forall n ix Ac A B D rows, length ix = 4%nat ->
  (forall j c, In j ix -> (0 <= c < 5)%Z -> in_range n (j * 5 + c)) ->
  upds_ok n (k0_updates (T := R) ix Ac A B D rows).
Proof.
  intros n ix Ac A B D rows L RNG.
  assert (X : upds_ok n (k0_updates (T := R) ix 1 A B D rows)).
  { destruct rows as [[[r1 r2] r3] r4]. unfold k0_updates.
    rewrite FGenK0.k0_entries_tensor by lra. intros x Hx. apply tensor_in in Hx.
    destruct Hx as [p [q [Hp [Hq ->]]]]; cbn [fst snd].
    assert (IX : forall i, (i < 4)%nat -> In (nth i ix 0%Z) ix) by (intros i Hi; apply nth_In; lia).
    split; [revert Hp; clear Hq q|revert Hq; clear Hp p];
    match goal with |- In ?p _ -> _ => intros Hp;
      repeat (apply in_app_or in Hp; destruct Hp as [Hp|Hp]);
      unfold unit_strains in Hp; cbn [In] in Hp;
      repeat (destruct Hp as [<-|Hp]; [cbn [fst]; apply RNG; [apply IX; lia|lia]|]);
      destruct Hp end. }
  intros x Hx. assert (E := k0_updates_pos ix Ac A B D rows 1 A B D rows).
  apply (in_map fst) in Hx. rewrite E in Hx. apply in_map_iff in Hx. destruct Hx as [y [Ey Hy]].
  rewrite <- Ey. apply X; exact Hy.
Qed.

Section Edge.
  Variable m : mesh R.
  Hypothesis W : wf_mesh m.
  Variable pfn : bool.
  Hypothesis PC : props_complete m pfn.
  Hypothesis I : indexed m.
  Hypothesis TWO : forall k, In k (edge_keys m) -> (length (tris_on m k) <= 2)%nat.
  Hypothesis DIFF : forall k t1 t2, In k (edge_keys m) -> tris_on m k = [t1; t2] -> third t1 k <> third t2 k.

  Lemma k0_edge_total : forall k e, In k (edge_keys m) -> shaped m k e ->
    exists us, k0_edge m pfn e = Ok us /\ upds_ok (length (nodes m) * 5) us.
  Proof.
    intros k e Hk Sh.
    assert (POSN : (0 < length (nodes m))%nat).
    { destruct (ready_nodes m k (fst k) (snd k) W Hk) as [Ka _].
      - left; destruct k; reflexivity.
      - apply rank_lt in Ka. lia. }
    assert (ROWS : exists ix rows, domain_indices m (-1)%Z (eipts e) = Ok ix /\ length ix = 4%nat /\
      (forall j, In j ix -> j = (-1)%Z \/ exists n, In n (node_keys m) /\ j = zr m n) /\
      ipt_rows m (indexpos ix) (eipts e) = Ok rows).
    { destruct (sh_dom m k e Sh) as [n1 [n2 [E X]]].
      destruct (ready_nodes m k n1 n2 W Hk E) as [K1 [K2 N12]].
      assert (ROW : forall ix o p, length ix = 4%nat -> In o (node_keys m) -> o <> n1 -> o <> n2 ->
        In (zr m n1) ix -> In (zr m n2) ix -> In (zr m o) ix ->
        ipn1 p = n1 -> ipn2 p = n2 -> ipn3 p = o ->
        exists s, ipt_row m (indexpos ix) p = Ok s).
      { intros ix o p L Ko O1 O2 I1 I2 I3 E1 E2 E3.
        assert (X' := ipt_row_spec m (zr m) (fun n => In n (node_keys m))
                     (fun n => get_index_ok m n W I) ix p L).
        rewrite E1, E2, E3 in X'. destruct X' as [s [Es _]]; auto; try (apply zr_inj; auto). exists s; exact Es. }
      destruct X as [X|X].
      - destruct X as [t1 [f1 [f2 [f3 [v [g1 [g2 [g3 [v' [h1 [h2 [h3 [v'' [T [X2 X3]]]]]]]]]]]]]]].
        assert (I1 : In t1 (tris_on m k)) by (rewrite T; left; reflexivity).
        destruct (tria_node m k t1 n1 n2 W Hk E I1) as [P [O1 [O2 [Ko Ht]]]].
        rewrite X3.
        destruct (domain_indices3 m W I n1 n2 K1 K2 N12 (third t1 k) (-1)%Z (eid t1) f1 f2 f3 v g1 g2 g3 v' h1 h2 h3 v'' Ko O1 O2)
          as [ix [EX [L PM]]].
        assert (M : forall j, In j [zr m n1; zr m n2; zr m (third t1 k); (-1)%Z] -> In j ix).
        { intros j; apply Permutation_in; symmetry; exact PM. }
        destruct (ROW ix (third t1 k) (the_ipt m (eid t1) n1 n2 (third t1 k) f1 f2 f3 v)) as [s1 S1]; try reflexivity; auto; try (apply M; cbn; auto).
        destruct (ROW ix (third t1 k) (the_ipt m (eid t1) n1 n2 (third t1 k) g1 g2 g3 v')) as [s2 S2]; try reflexivity; auto; try (apply M; cbn; auto).
        destruct (ROW ix (third t1 k) (the_ipt m (eid t1) n1 n2 (third t1 k) h1 h2 h3 v'')) as [s3 S3]; try reflexivity; auto; try (apply M; cbn; auto).
        exists ix, (s1, s2, s3, dummy_row). split; [exact EX|]. split; [exact L|]. split.
        + intros j Hj. apply (Permutation_in _ PM) in Hj. cbn [In] in Hj.
          destruct Hj as [<-|[<-|[<-|[<-|[]]]]]; auto; right; eexists; split; [|reflexivity| |reflexivity| |reflexivity]; assumption.
        + cbn [ipt_rows]. rewrite S1, S2, S3. reflexivity.
      - destruct X as [t1 [t2 [f1 [f2 [f3 [v [g1 [g2 [g3 [v' [h1 [h2 [h3 [v'' [i1 [i2 [i3 [v''' [T [X2 [X3 X4]]]]]]]]]]]]]]]]]]]]].
        assert (I1 : In t1 (tris_on m k)) by (rewrite T; left; reflexivity).
        assert (I2 : In t2 (tris_on m k)) by (rewrite T; right; left; reflexivity).
        destruct (tria_node m k t1 n1 n2 W Hk E I1) as [P [O1 [O2 [Ko Ht]]]].
        destruct (tria_node m k t2 n1 n2 W Hk E I2) as [P' [O1' [O2' [Ko' Ht']]]].
        assert (NO := DIFF k t1 t2 Hk T).
        rewrite X4.
        destruct (domain_indices4 m W I n1 n2 K1 K2 N12 (third t1 k) (third t2 k) (-1)%Z (eid t1) (eid t2)
                   f1 f2 f3 v g1 g2 g3 v' h1 h2 h3 v'' i1 i2 i3 v''' Ko O1 O2 Ko' O1' O2' NO)
          as [ix [EX [L PM]]].
        assert (M : forall j, In j [zr m n1; zr m n2; zr m (third t1 k); zr m (third t2 k)] -> In j ix).
        { intros j; apply Permutation_in; symmetry; exact PM. }
        destruct (ROW ix (third t1 k) (the_ipt m (eid t1) n1 n2 (third t1 k) f1 f2 f3 v)) as [s1 S1]; try reflexivity; auto; try (apply M; cbn; auto).
        destruct (ROW ix (third t1 k) (the_ipt m (eid t1) n1 n2 (third t1 k) g1 g2 g3 v')) as [s2 S2]; try reflexivity; auto; try (apply M; cbn; auto).
        destruct (ROW ix (third t2 k) (the_ipt m (eid t2) n1 n2 (third t2 k) h1 h2 h3 v'')) as [s3 S3]; try reflexivity; auto; try (apply M; cbn; auto).
        destruct (ROW ix (third t2 k) (the_ipt m (eid t2) n1 n2 (third t2 k) i1 i2 i3 v''')) as [s4 S4]; try reflexivity; auto; try (apply M; cbn; auto).
        exists ix, (s1, s2, s3, s4). split; [exact EX|]. split; [exact L|]. split.
        + intros j Hj. apply (Permutation_in _ PM) in Hj. cbn [In] in Hj.
          destruct Hj as [<-|[<-|[<-|[<-|[]]]]]; right; eexists; split; [|reflexivity| |reflexivity| |reflexivity| |reflexivity]; assumption.
        + cbn [ipt_rows]. rewrite S1, S2, S3, S4. reflexivity. }
    destruct ROWS as [ix [rows [E1 [L [B E2]]]]].
    destruct (sh_Ac m k e Sh) as [Ac EAc].
    assert (ABD : exists ta abd, edge_areas m e = Ok ta /\ edge_ABD m pfn e Ac ta = Ok abd).
    { destruct (sh_dom m k e Sh) as [n1 [n2 [E X]]]. assert (Tr := sh_trias m k e Sh).
      assert (En := sh_ends m k e Sh). destruct k as [a b]; injection En as Ea Eb.
      destruct (ready_nodes m (a, b) a b W Hk (or_introl eq_refl)) as [Ka [Kb _]].
      destruct (node_found m W a Ka) as [da [Ga [_ [_ [Qa _]]]]].
      destruct (node_found m W b Kb) as [db [Gb [_ [_ [Qb _]]]]].
      assert (TT : forall t, In t (tris_on m (a, b)) -> get_tria m (eid t) = Ok t /\
        (exists mid, getMid m t = Ok mid) /\
        if pfn then exists p, node_prop m (third t (a, b)) = Ok p else tprop t <> None).
      { intros t Ht. destruct (tria_node m (a, b) t a b W Hk (or_introl eq_refl) Ht) as [P [O1 [O2 [Ko T]]]].
        split; [apply tria_found; assumption|]. split.
        - exists (mid3 (pos m a) (pos m b) (pos m (third t (a, b)))). apply getMid_perm; assumption.
        - destruct pfn.
          + destruct (perm3_vertex _ _ _ _ P) as [_ [_ V]].
            assert (NN := vertex_prop m t _ W PC T V).
            destruct (nodeprop m (third t (a, b))) as [po|] eqn:Q; [|contradiction].
            exists po. apply node_prop_found; assumption.
          + apply PC; exact T. }
      assert (NP : pfn = true -> exists pa pb, node_prop m a = Ok pa /\ node_prop m b = Ok pb).
      { intros ->. assert (Pab := PC (a, b) Hk); cbn [fst snd] in Pab; destruct Pab as [Pa Pb].
        destruct (nodeprop m a) as [pa|] eqn:Q1; [|contradiction].
        destruct (nodeprop m b) as [pb|] eqn:Q2; [|contradiction].
        exists pa, pb. split; apply node_prop_found; assumption. }
      unfold edge_areas. rewrite Tr, Ea, Eb.
      destruct X as [X|X].
      - destruct X as [t1 [f1 [f2 [f3 [v [g1 [g2 [g3 [v' [h1 [h2 [h3 [v'' [T [X2 X3]]]]]]]]]]]]]]].
        rewrite T in *. destruct (TT t1 (or_introl eq_refl)) as [G1 [[mid1 M1] Q1]].
        cbn [map]. rewrite G1; cbn [bind]. rewrite M1; cbn [bind]. rewrite Ga, Gb; cbn [bind]. rewrite area3; cbn [bind].
        eexists. unfold edge_ABD. destruct pfn.
        + destruct (NP eq_refl) as [pa [pb [Pa Pb]]]. destruct Q1 as [po Po].
          rewrite Ea, Eb, Pa, Pb; cbn [bind]. rewrite X2; cbn [other_prop get_or bind]. rewrite Po; cbn [bind snd].
          eexists; split; reflexivity.
        + cbn [fst snd]. destruct (tprop t1); [|contradiction]. cbn [get_or bind]. eexists; split; reflexivity.
      - destruct X as [t1 [t2 [f1 [f2 [f3 [v [g1 [g2 [g3 [v' [h1 [h2 [h3 [v'' [i1 [i2 [i3 [v''' [T [X2 [X3 X4]]]]]]]]]]]]]]]]]]]]].
        rewrite T in *. destruct (TT t1 (or_introl eq_refl)) as [G1 [[mid1 M1] Q1]].
        destruct (TT t2 (or_intror (or_introl eq_refl))) as [G2 [[mid2 M2] Q2]].
        cbn [map]. rewrite G1; cbn [bind]. rewrite M1; cbn [bind]. rewrite Ga, Gb; cbn [bind]. rewrite area3; cbn [bind].
        rewrite G2; cbn [bind]. rewrite M2; cbn [bind]. rewrite area3; cbn [bind].
        eexists. unfold edge_ABD. destruct pfn.
        + destruct (NP eq_refl) as [pa [pb [Pa Pb]]]. destruct Q1 as [po Po]. destruct Q2 as [po' Po'].
          rewrite Ea, Eb, Pa, Pb; cbn [bind]. rewrite X2, X3; cbn [other_prop get_or bind]. rewrite Po; cbn [bind snd].
          rewrite Po'; cbn [bind]. eexists; split; reflexivity.
        + cbn [fst snd]. destruct (tprop t1); [|contradiction]. destruct (tprop t2); [|contradiction].
          cbn [get_or bind]. eexists; split; reflexivity. }
    destruct ABD as [ta [abd [Eta Eabd]]].
    exists (k0_updates ix Ac (abd pA) (abd pB) (abd pD) rows). split.
    - unfold k0_edge. rewrite Eta; cbn [bind]. rewrite E1; cbn [bind]. rewrite E2; cbn [bind].
      rewrite EAc; cbn [get_or bind]. rewrite Eabd; reflexivity.
    - apply k0_updates_range; [exact L|]. intros j c Hj Hc. unfold in_range.
      destruct (B j Hj) as [->|[n [Kn ->]]].
      + lia.
      + apply rank_lt in Kn. unfold zr. lia.
  Qed.

  Lemma k0_assemble_total : forall es K, mdim K = (length (nodes m) * 5)%nat ->
    (forall k e, In (k, e) es -> In k (edge_keys m) /\ shaped m k e) ->
    exists K', k0_assemble m pfn es K = Ok K'.
  Proof.
    induction es as [|[k e] es IH]; intros K D H; [exists K; reflexivity|].
    destruct (H k e (or_introl eq_refl)) as [Hk Sh].
    destruct (k0_edge_total k e Hk Sh) as [us [E OK]].
    destruct (mupdates_spec us K) as [K1 [E1 [D1 _]]]; [rewrite D; exact OK|].
    destruct (IH K1) as [K2 E2]; [congruence|intros k' e' Hin; apply H; right; exact Hin|].
    exists K2. cbn [k0_assemble]. rewrite E; cbn [bind]. rewrite E1. exact E2.
  Qed.
End Edge.

Lemma shaped_wf : forall m es, wf_mesh m -> map fst es = edge_keys m ->
  (forall k e, In (k, e) es -> shaped m k e) -> wf_mesh (numbered m es).
Proof.
  intros m es W K Sh. assert (S := numbered_same m es K).
  destruct W as [A1 A2 A3 A4 A5 A6 A7 A8 A9 A10 A11 A12].
  constructor; rewrite ?(sm_keys _ _ S), ?(same_trias _ _ S), ?(sm_edges _ _ S), ?(sm_elements _ _ S); auto.
  - intros n nd Hin. destruct (numbered_nid m es n nd A1 Hin) as [nd0 [H0 ->]]. apply (A2 n nd0 H0).
  - intros k e Hin. cbn [edges numbered] in Hin. split; [apply (sh_ends m k e), Sh; exact Hin|].
    assert (Hk : In k (edge_keys m)) by (rewrite <- K; apply in_map_iff; exists (k, e); auto).
    unfold edge_keys in Hk. apply in_map_iff in Hk. destruct Hk as [[k' e'] [E Hin']]. cbn [fst] in E; subst k'.
    apply (A8 k e' Hin').
  - intros k e Hin. cbn [edges numbered] in Hin. rewrite (same_tris_on _ _ S). apply (sh_trias m k e), Sh; exact Hin.
Qed.

Lemma calc_k0_total : forall m pfn, wf_mesh m -> props_complete m pfn -> nodes m <> [] ->
  (forall k, In k (edge_keys m) -> (length (tris_on m k) <= 2)%nat) ->
  (forall k t1 t2, In k (edge_keys m) -> tris_on m k = [t1; t2] -> third t1 k <> third t2 k) ->
  exists m' K, calc_k0 m pfn = (m', Ok K).
Proof.
  intros m pfn W PC NE TWO DIFF.
  destruct (setup_edges_shape m (edges m) W (fun x H => H)) as [[[es [E [Ek Sh]]] _]|[_ [k [e [Hin L]]]]].
  2: { assert (In k (edge_keys m)) by (unfold edge_keys; apply in_map_iff; exists (k, e); auto).
       specialize (TWO k H). lia. }
  assert (S := numbered_same m es Ek).
  assert (W' := shaped_wf m es W Ek Sh).
  assert (I' := numbered_indexed m es W Ek).
  destruct (k0_assemble_total (numbered m es) W' pfn (same_props _ _ S pfn PC) I') with (es := es) (K := zeros (T := R) (length (nodes m) * 5)) as [K EK].
  - intros k t1 t2. rewrite (sm_edges _ _ S), (same_tris_on _ _ S). apply DIFF.
  - cbn [zeros mdim]. rewrite (sm_len _ _ S); reflexivity.
  - intros k e Hin. split; [|apply (same_shaped _ _ S); auto].
    unfold edge_keys; cbn [edges numbered]. apply in_map_iff; exists (k, e); auto.
  - exists (numbered m es), K. unfold calc_k0. rewrite (check_edges_ok m pfn (edges m) W PC (fun x H => H)), E.
    destruct (nodes m) as [|x l] eqn:En; [contradiction|].
    rewrite <- En in *. unfold numbered in EK |- *. rewrite En in EK |- *. rewrite EK. reflexivity.
Qed.

Lemma calc_k0_three : forall m pfn k, wf_mesh m -> props_complete m pfn -> In k (edge_keys m) ->
  (3 <= length (tris_on m k))%nat -> snd (calc_k0 m pfn) = Raise NotImplementedError.
Proof.
  intros m pfn k W PC Hk L. unfold calc_k0. rewrite (check_edges_ok m pfn (edges m) W PC (fun x H => H)).
  destruct (setup_edges_shape m (edges m) W (fun x H => H)) as [[_ B]|[[es E] _]].
  - unfold edge_keys in Hk. apply in_map_iff in Hk. destruct Hk as [[k' e] [E Hin]]. cbn [fst] in E; subst k'.
    specialize (B k e Hin). lia.
  - rewrite E. reflexivity.
Qed.
