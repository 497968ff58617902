(** add_k0s on any mesh: where it adds. *)
From Coq Require Import ZArith Reals List Bool Arith Lra Lia String.
From Verif Require Import Num Py Mesh Utils GenCell GenCellNS GenEdgeB GenEdgeI CalcK0 AddK0s Spec SpecK0 SpecKG SpecK0s FSum FMat FTensor
  FDict FWf FAsm FK0 FK0s FK0p.
Import ListNotations.
Local Open Scope R_scope.
Implicit Types (m : mesh R).

(** every index in [is] is that of a node satisfying [P] *)
Definition from_nodes (m : mesh R) (P : nat -> Prop) (is : list Z) : Prop :=
  forall z, In z is -> exists x i, P x /\ has_index m x i /\ z = Z.of_nat i.

Lemma node_ix : forall (m : mesh R) x nd z (P : nat -> Prop), get_node m x = Ok nd -> node_index nd = Ok z -> P x ->
  exists y i, P y /\ has_index m y i /\ z = Z.of_nat i.
Proof.
  intros m x nd z P G H Px. unfold get_node, get_or in G. destruct (dget Nat.eqb x (nodes m)) as [d|] eqn:E; [|discriminate].
  injection G as ->. unfold node_index in H. destruct (nindex nd) as [i|] eqn:Ei; [|discriminate]. injection H as <-.
  exists x, i. split; [exact Px|]. split; [|reflexivity]. exists nd; auto.
Qed.

Ltac inv1 H := match type of H with
  | bind ?x _ = Ok _ => let v := fresh "v" in let E := fresh "E" in destruct x as [v|] eqn:E; [cbn [bind] in H|discriminate H]
  end.

Lemma cell_tria_inv : forall L (m : mesh R) pfn alpha mfa t us, cell_tria L m pfn alpha mfa t = Ok us ->
  exists is, from_nodes m (vertex t) is /\ forall y, In y us -> at_dofs is (fst y).
Proof.
  intros L m pfn alpha mfa t us H. unfold cell_tria in H.
  destruct (get_node m (tn1 t)) as [d1|] eqn:G1; [cbn [bind] in H|discriminate]. destruct (get_node m (tn2 t)) as [d2|] eqn:G2; [cbn [bind] in H|discriminate].
  destruct (get_node m (tn3 t)) as [d3|] eqn:G3; [cbn [bind] in H|discriminate]. inv1 H.
  assert (O : orient_cell v d1 d2 d3 = (d1, d2, d3) \/ orient_cell v d1 d2 d3 = (d2, d1, d3))
    by (unfold orient_cell; destruct (_ <? _)%num; auto).
  destruct O as [O|O]; rewrite O in H; repeat (inv1 H || destruct (shear_stiffness _ _ _) as [[? ?] ?]); injection H as <-;
    (eexists; split; [|apply cell_pos]); intros z [<-|[<-|[<-|[]]]];
    (eapply node_ix; [|eassumption|]; [first [exact G1|exact G2|exact G3]|unfold vertex; auto]).
Qed.

Lemma cellns_tria_inv : forall (m : mesh R) pfn alpha mfa t us, cellns_tria m pfn alpha mfa t = Ok us ->
  exists is, from_nodes m (vertex t) is /\ forall y, In y us -> at_dofs is (fst y).
Proof.
  intros m pfn alpha mfa t us H. unfold cellns_tria in H.
  destruct (get_node m (tn1 t)) as [d1|] eqn:G1; [cbn [bind] in H|discriminate]. destruct (get_node m (tn2 t)) as [d2|] eqn:G2; [cbn [bind] in H|discriminate].
  destruct (get_node m (tn3 t)) as [d3|] eqn:G3; [cbn [bind] in H|discriminate].
  assert (O : orient_cellns d1 d2 d3 = (d1, d2, d3) \/ orient_cellns d1 d2 d3 = (d2, d1, d3))
    by (unfold orient_cellns; destruct (_ <? _)%num; auto).
  destruct O as [O|O]; rewrite O in H; repeat (inv1 H || destruct (shear_stiffness _ _ _) as [[? ?] ?]); injection H as <-;
    (eexists; split; [|apply cellns_pos]); intros z [<-|[<-|[<-|[]]]];
    (eapply node_ix; [|eassumption|]; [first [exact G1|exact G2|exact G3]|unfold vertex; auto]).
Qed.

Lemma boundary_edge_inv : forall L (m : mesh R) pfn alpha mfa e tr d1 d2 us (P : nat -> Prop) x1 x2,
  get_node m x1 = Ok d1 -> get_node m x2 = Ok d2 -> P x1 -> P x2 -> (forall x, of_edge e x -> P x) ->
  boundary_edge L m pfn alpha mfa e tr d1 d2 = Ok us ->
  exists is, from_nodes m P is /\ forall y, In y us -> at_dofs is (fst y).
Proof.
  intros L m pfn alpha mfa e tr d1 d2 us P x1 x2 G1 G2 P1 P2 PO H. unfold boundary_edge in H. inv1 H.
  destruct (other_node m (eother1 e)) as [d3|] eqn:G3; [cbn [bind] in H|discriminate].
  unfold other_node in G3. destruct (eother1 e) as [x3|] eqn:E3; [cbn [get_or bind] in G3|discriminate].
  assert (P3 : P x3) by (apply PO; unfold of_edge; rewrite E3; auto).
  repeat (inv1 H || destruct (shear_stiffness _ _ _) as [[? ?] ?]). injection H as <-.
  eexists; split; [|apply edgeb_pos]. intros z [<-|[<-|[<-|[]]]];
    (eapply node_ix; [|eassumption|]; [first [exact G1|exact G2|exact G3]|assumption]).
Qed.

Lemma interior_edge_inv : forall L (m : mesh R) pfn alpha mfa e tr tr' d1 d2 us (P : nat -> Prop) x1 x2,
  get_node m x1 = Ok d1 -> get_node m x2 = Ok d2 -> P x1 -> P x2 -> (forall x, of_edge e x -> P x) ->
  interior_edge L m pfn alpha mfa e tr tr' d1 d2 = Ok us ->
  exists is, from_nodes m P is /\ forall y, In y us -> at_dofs is (fst y).
Proof.
  intros L m pfn alpha mfa e tr tr' d1 d2 us P x1 x2 G1 G2 P1 P2 PO H. unfold interior_edge in H. inv1 H. inv1 H.
  destruct (other_node m (eother1 e)) as [d3|] eqn:G3; [cbn [bind] in H|discriminate].
  unfold other_node in G3. destruct (eother1 e) as [x3|] eqn:E3; [cbn [get_or bind] in G3|discriminate].
  assert (P3 : P x3) by (apply PO; unfold of_edge; rewrite E3; auto).
  destruct (other_node m (eother2 e)) as [d4|] eqn:G4; [cbn [bind] in H|discriminate].
  unfold other_node in G4. destruct (eother2 e) as [x4|] eqn:E4; [cbn [get_or bind] in G4|discriminate].
  assert (P4 : P x4) by (apply PO; unfold of_edge; rewrite E4; auto).
  repeat (inv1 H || destruct (shear_stiffness_int _ _ _) as [[? ?] ?]). injection H as <-.
  eexists; split; [|apply edgei_pos]. intros z [<-|[<-|[<-|[<-|[]]]]];
    (eapply node_ix; [|eassumption|]; [first [exact G1|exact G2|exact G3|exact G4]|assumption]).
Qed.

Lemma edge_shear_inv : forall L (m : mesh R) pfn alpha mfa e us, edge_shear L m pfn alpha mfa e = Ok us ->
  exists is, from_nodes m (of_edge e) is /\ forall y, In y us -> at_dofs is (fst y).
Proof.
  intros L m pfn alpha mfa e us H. unfold edge_shear in H.
  destruct (get_node m (en1 e)) as [d1|] eqn:G1; [cbn [bind] in H|discriminate]. destruct (get_node m (en2 e)) as [d2|] eqn:G2; [cbn [bind] in H|discriminate].
  destruct (etrias e) as [|t1 rest]; [discriminate|]. inv1 H. inv1 H.
  assert (O : orient_edge v0 d1 d2 = (d1, d2) \/ orient_edge v0 d1 d2 = (d2, d1))
    by (unfold orient_edge; destruct (_ <? _)%num; auto).
  assert (Q1 : of_edge e (en1 e)) by (left; reflexivity). assert (Q2 : of_edge e (en2 e)) by (right; left; reflexivity).
  destruct rest as [|t2 [|]]; [| |destruct O as [O|O]; rewrite O in H; discriminate].
  - destruct O as [O|O]; rewrite O in H.
    + exact (boundary_edge_inv _ _ _ _ _ _ _ _ _ _ (of_edge e) _ _ G1 G2 Q1 Q2 (fun x h => h) H).
    + exact (boundary_edge_inv _ _ _ _ _ _ _ _ _ _ (of_edge e) _ _ G2 G1 Q2 Q1 (fun x h => h) H).
  - destruct O as [O|O]; rewrite O in H; inv1 H.
    + exact (interior_edge_inv _ _ _ _ _ _ _ _ _ _ _ (of_edge e) _ _ G1 G2 Q1 Q2 (fun x h => h) H).
    + exact (interior_edge_inv _ _ _ _ _ _ _ _ _ _ _ (of_edge e) _ _ G2 G1 Q2 Q1 (fun x h => h) H).
Qed.

Lemma pyidx_dof : forall N i c r, (2 <= c < 5)%Z -> pyidx N (Z.of_nat i * 5 + c) = Some r ->
  (r / 5 = i /\ 2 <= r mod 5)%nat.
Proof.
  intros N i c r Hc H. unfold pyidx in H. destruct (Z.leb_spec 0 (Z.of_nat i * 5 + c)); [|lia].
  destruct (Z.ltb_spec (Z.of_nat i * 5 + c) (Z.of_nat N)); [|discriminate]. injection H as <-.
  replace (Z.to_nat (Z.of_nat i * 5 + c)) with (Z.to_nat c + i * 5)%nat by lia.
  rewrite Nat.div_add, Nat.mod_add by lia. rewrite Nat.div_small, Nat.mod_small by lia. lia.
Qed.

Lemma where_pair : forall m (P : nat -> Prop) N is (us : list (Z * Z * R)) y i j,
  from_nodes m P is -> (forall y, In y us -> at_dofs is (fst y)) -> In y us ->
  pyidx N (fst (fst y)) = Some i -> pyidx N (snd (fst y)) = Some j ->
  (2 <= i mod 5)%nat /\ (2 <= j mod 5)%nat /\ exists a b, P a /\ P b /\ has_index m a (i / 5) /\ has_index m b (j / 5).
Proof.
  intros m P N is us y i j F A Hy Hi Hj. destruct (A y Hy) as [a [b [c [d [E [Ha [Hb [Hc Hd]]]]]]]]. rewrite E in Hi, Hj; cbn [fst snd] in Hi, Hj.
  destruct (F a Ha) as [xa [ia [Pa [Ia ->]]]]. destruct (F b Hb) as [xb [ib [Pb [Ib ->]]]].
  destruct (pyidx_dof _ _ _ _ Hc Hi) as [<- M1]. destruct (pyidx_dof _ _ _ _ Hd Hj) as [<- M2].
  split; [exact M1|]. split; [exact M2|]. exists xa, xb. auto.
Qed.

Lemma zero_entries : forall N : nat, exists k : matrix R, mdim k = N /\ forall i j, mentry k i j = 0.
Proof. intros N. exists (zeros N). split; reflexivity. Qed.

Lemma delta_coupled : forall X (f : X -> res (list (Z * Z * R))) l N (P : nat -> nat -> Prop),
  (forall x us y i j, In x l -> f x = Ok us -> In y us -> pyidx N (fst (fst y)) = Some i -> pyidx N (snd (fst y)) = Some j -> P i j) ->
  exists D r, forall k : matrix R, mdim k = N ->
    exists k', for_each (add_body f) l k = (k', r) /\ mdim k' = N /\ (forall i j, mentry k' i j = mentry k i j + D i j) /\
    forall i j, D i j <> 0 -> P i j.
Proof.
  intros X f l N P H. destruct (for_each_delta X f l N) as [D [r HD]]. exists D, r. intros k Hk.
  destruct (HD k Hk) as [k' [E [Q F]]]. exists k'. split; [exact E|]. split; [exact Q|]. split; [exact F|].
  intros i j NZ. destruct (for_each_where X f l k k' r E i j) as [x [us [y [H1 [H2 [H3 [H4 H5]]]]]]].
  - rewrite F. lra.
  - rewrite Hk in H4, H5. apply (H x us y i j H1 H2 H3 H4 H5).
Qed.

Lemma add_k0s_any : forall L (m : mesh R) pfn method alpha mfa N, exists D r, forall k, mdim k = N ->
  exists k', add_k0s L k m pfn method alpha mfa = (k', r) /\ mdim k' = N /\ (forall i j, mentry k' i j = mentry k i j + D i j) /\
  forall i j, D i j <> 0 -> (2 <= i mod 5 /\ 2 <= j mod 5)%nat /\ coupled m method (i / 5) (j / 5).
Proof.
  intros L m pfn method alpha mfa N. unfold add_k0s, coupled.
  destruct (String.eqb method "cell-based") eqn:E1; [apply String.eqb_eq in E1; subst method|
    destruct (String.eqb method "cell-based-no-smoothing") eqn:E2; [apply String.eqb_eq in E2; subst method|
      destruct (String.eqb method "edge-based") eqn:E3]].
  - apply delta_coupled. intros t us y i j Ht E Hy Hi Hj. destruct (cell_tria_inv _ _ _ _ _ _ _ E) as [is [F A]].
    destruct (where_pair m _ N is us y i j F A Hy Hi Hj) as [M1 [M2 [a [b [Pa [Pb [Ia Ib]]]]]]]. split; [auto|].
    exists t, a, b. auto.
  - apply delta_coupled. intros t us y i j Ht E Hy Hi Hj. destruct (cellns_tria_inv _ _ _ _ _ _ E) as [is [F A]].
    destruct (where_pair m _ N is us y i j F A Hy Hi Hj) as [M1 [M2 [a [b [Pa [Pb [Ia Ib]]]]]]]. split; [auto|].
    exists t, a, b. auto.
  - apply delta_coupled. intros e us y i j He E Hy Hi Hj. destruct (edge_shear_inv _ _ _ _ _ _ _ E) as [is [F A]].
    destruct (where_pair m _ N is us y i j F A Hy Hi Hj) as [M1 [M2 [a [b [Pa [Pb [Ia Ib]]]]]]]. split; [auto|].
    apply in_map_iff in He. destruct He as [[k e'] [He1 He2]]. cbn [snd] in He1; subst e'. exists k, e, a, b. auto.
  - exists (fun _ _ => 0), (Raise ValueError). intros k Hk. exists k. split; [reflexivity|]. split; [exact Hk|]. split; [intros; ring|].
    intros i j H; contradiction H; reflexivity.
Qed.
