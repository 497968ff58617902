(** What calc_k0 does to an edge. *)
From Coq Require Import ZArith Reals List Bool Arith Lra Lia FunctionalExtensionality.
From Verif Require Import Num Py Mesh Utils Spec FSum FMat FDict FGeom FWf CalcK0.
Import ListNotations.
Local Open Scope R_scope.
Implicit Types (m : mesh R).

(** An integration point on the segment with vector [vec] *)
Definition the_ipt (m : mesh R) (t n1 n2 n3 : nat) (f1 f2 f3 : R) (vec : vec3 R) : ipt R :=
  let nrm := unitvec (cross vec ZGLOBAL) in
  {| ipxyz := vadd (vadd (vscale f1 (pos m n1)) (vscale f2 (pos m n2))) (vscale f3 (pos m n3));
     iptria := t; ipn1 := n1; ipn2 := n2; ipn3 := n3;
     ipf1 := f1; ipf2 := f2; ipf3 := f3;
     ipnx := vx nrm; ipny := vy nrm; ipnz := vz nrm; iple := norm vec |}.

Definition the_mid (m : mesh R) (n1 n2 o : nat) : vec3 R := mid3 (pos m n1) (pos m n2) (pos m o).

Record ready1 (m : mesh R) (k : nat * nat) (e : edge R) (n1 n2 : nat) (t1 : tria R) : Prop := {
  r1_tris : tris_on m k = [t1];
  r1_det : 0 < det2 (pos m n1) (pos m n2) (pos m (third t1 k));
  r1_o1 : eother1 e = Some (third t1 k);
  r1_o2 : eother2 e = None;
  r1_sdomain : esdomain e
    = [pos m n1; the_mid m n1 n2 (third t1 k); pos m n2; pos m n1];
  r1_ipts : eipts e =
    [the_ipt m (eid t1) n1 n2 (third t1 k) (2/3) (1/6) (1/6)
       (vsub (pos m n1) (the_mid m n1 n2 (third t1 k)));
     the_ipt m (eid t1) n1 n2 (third t1 k) (1/6) (2/3) (1/6)
       (vsub (the_mid m n1 n2 (third t1 k)) (pos m n2));
     the_ipt m (eid t1) n1 n2 (third t1 k) (1/2) (1/2) 0 (vsub (pos m n2) (pos m n1))]
}.

Record ready2 (m : mesh R) (k : nat * nat) (e : edge R) (n1 n2 : nat) (t1 t2 : tria R) : Prop := {
  r2_tris : tris_on m k = [t1; t2];
  r2_det1 : 0 < det2 (pos m n1) (pos m n2) (pos m (third t1 k));
  r2_det2 : det2 (pos m n1) (pos m n2) (pos m (third t2 k)) < 0;
  r2_o1 : eother1 e = Some (third t1 k);
  r2_o2 : eother2 e = Some (third t2 k);
  r2_sdomain : esdomain e
    = [pos m n1; the_mid m n1 n2 (third t1 k); pos m n2; the_mid m n1 n2 (third t2 k); pos m n1];
  r2_ipts : eipts e =
    [the_ipt m (eid t1) n1 n2 (third t1 k) (2/3) (1/6) (1/6)
       (vsub (pos m n1) (the_mid m n1 n2 (third t1 k)));
     the_ipt m (eid t1) n1 n2 (third t1 k) (1/6) (2/3) (1/6)
       (vsub (the_mid m n1 n2 (third t1 k)) (pos m n2));
     the_ipt m (eid t2) n1 n2 (third t2 k) (1/6) (2/3) (1/6)
       (vsub (pos m n2) (the_mid m n1 n2 (third t2 k)));
     the_ipt m (eid t2) n1 n2 (third t2 k) (2/3) (1/6) (1/6)
       (vsub (the_mid m n1 n2 (third t2 k)) (pos m n1))]
}.

Record ready (m : mesh R) (k : nat * nat) (e : edge R) : Prop := {
  rd_ends : (en1 e, en2 e) = k;
  rd_trias : etrias e = map eid (tris_on m k);
  rd_Ac : eAc e = Some (dom_area m k);
  rd_dom : exists n1 n2, ((n1, n2) = k \/ (n2, n1) = k) /\
     ((exists t1, ready1 m k e n1 n2 t1) \/ (exists t1 t2, ready2 m k e n1 n2 t1 t2))
}.

Lemma make_ipt_the : forall m t d1 d2 d3 n1 n2 n3 f1 f2 f3 vec,
  nid d1 = n1 -> nid d2 = n2 -> nid d3 = n3 ->
  nxyz d1 = pos m n1 -> nxyz d2 = pos m n2 -> nxyz d3 = pos m n3 ->
  make_ipt t d1 d2 d3 f1 f2 f3 vec = the_ipt m t n1 n2 n3 f1 f2 f3 vec.
Proof.
  intros. unfold make_ipt, the_ipt. congruence.
Qed.

Lemma mid3_comm12 : forall p1 p2 po : vec3 R, mid3 p1 p2 po = mid3 p2 p1 po.
Proof. intros; unfold mid3, vdivs, vadd; cbn; f_equal; f_equal; ring. Qed.

Lemma orient_k0_spec : forall (nd1 nd2 : node R) p1 p2 po,
  nxyz nd1 = p1 -> nxyz nd2 = p2 -> det2 p1 p2 po <> 0 ->
  (orient_k0 (mid3 p1 p2 po) nd1 nd2 = (nd1, nd2) /\ 0 < det2 p1 p2 po) \/
  (orient_k0 (mid3 p1 p2 po) nd1 nd2 = (nd2, nd1) /\ 0 < det2 p2 p1 po).
Proof.
  intros nd1 nd2 p1 p2 po E1 E2 D. unfold orient_k0. rewrite E1, E2.
  assert (X : dot (cross (vsub (mid3 p1 p2 po) p2) (vsub p1 p2)) ZGLOBAL = det2 p1 p2 po / 3).
  { unfold dot, cross, vsub, mid3, vdivs, vadd, ZGLOBAL, det2; cbn; field. }
  rewrite X. rnum. destruct (Rlt_dec (det2 p1 p2 po / 3) 0) as [L|L].
  - right; split; [reflexivity|]. rewrite det2_swap12; lra.
  - left; split; [reflexivity|]. lra.
Qed.

Lemma det_mid : forall p1 p2 po, det2 p1 (mid3 p1 p2 po) p2 = - (det2 p1 p2 po / 3).
Proof. intros; unfold det2, mid3, vdivs, vadd; cbn; field. Qed.
Lemma det_mid' : forall p1 p2 po, det2 p1 p2 (mid3 p1 p2 po) = det2 p1 p2 po / 3.
Proof. intros; unfold det2, mid3, vdivs, vadd; cbn; field. Qed.

Lemma dom_area1 : forall m k t1, tris_on m k = [t1] -> dom_area m k = tarea m t1 / 3.
Proof. intros m k t1 E; unfold dom_area; rewrite E, Sum_cons, Sum_nil; field. Qed.
Lemma dom_area2 : forall m k t1 t2, tris_on m k = [t1; t2] ->
  dom_area m k = (tarea m t1 + tarea m t2) / 3.
Proof. intros m k t1 t2 E; unfold dom_area; rewrite E, !Sum_cons, Sum_nil; field. Qed.

Lemma setup1 : forall m k e t1, wf_mesh m -> plate m -> In (k, e) (edges m) ->
  tris_on m k = [t1] ->
  exists e' n1 n2, setup_edge m e = Ok e' /\ ((n1, n2) = k \/ (n2, n1) = k) /\
     (en1 e', en2 e') = k /\ etrias e' = map eid (tris_on m k) /\ eAc e' = Some (dom_area m k) /\
     ready1 m k e' n1 n2 t1.
Proof.
  intros m [a b] e t1 W PL Hin Ht1.
  assert (Hk : In (a, b) (edge_keys m)).
  { unfold edge_keys; apply in_map_iff; exists ((a, b), e); auto. }
  destruct (wf_edge_ends m W _ _ Hin) as [Een _]; injection Een as Ea Eb.
  assert (Etr := wf_edge_trias m W _ _ Hin).
  assert (I1 : In t1 (tris_on m (a, b))) by (rewrite Ht1; left; reflexivity).
  assert (T1 : In t1 (trias_of m)) by (apply tris_on_in in I1; tauto).
  destruct (edge_tria m W _ _ Hk I1) as [P1 [N1 [N2 [N3 [Ka [Kb Ko]]]]]]; cbn [fst snd] in *.
  set (o1 := third t1 (a, b)) in *.
  destruct (node_found m W a Ka) as [da [Ga [Ia [Xa _]]]].
  destruct (node_found m W b Kb) as [db [Gb [Ib [Xb _]]]].
  destruct (node_found m W o1 Ko) as [d1 [G1 [I1' [X1 _]]]].
  assert (D : det2 (pos m a) (pos m b) (pos m o1) <> 0).
  { intros Z. apply (pl_nondeg m PL t1 T1). destruct (tdet_perm m t1 a b o1 P1) as [-> | ->]; lra. }
  assert (AR := tarea_perm m t1 a b o1 P1).
  unfold setup_edge, edge_trias_data. rewrite Etr, Ht1. cbn [map].
  rewrite (tria_found m W t1 T1). cbn [bind].
  rewrite (othernode_third t1 e a b o1) by auto. cbn [bind].
  rewrite G1. cbn [bind]. rewrite (getMid_perm m W t1 a b o1 T1 P1). cbn [bind].
  rewrite Ea, Eb, Ga, Gb. cbn [bind].
  destruct (orient_k0_spec da db (pos m a) (pos m b) (pos m o1) Xa Xb D) as [[-> S]|[-> S]].
  - unfold domain1. rewrite Xa, Xb, area4, det_mid. cbn [bind].
    eexists; exists a, b. split; [reflexivity|]. split; [left; reflexivity|].
    split; [cbn; congruence|]. split; [cbn; rewrite Etr, Ht1; reflexivity|].
    split.
    { cbn. f_equal. rewrite (dom_area1 m _ t1 Ht1), AR, Rabs_Ropp, !Rabs_right by lra. field. }
    constructor; try (cbn [eother1 eother2 set_domain set_others]; rewrite ?I1'; auto; fail).
    cbn [set_domain eipts]. rnum.
    rewrite !(make_ipt_the m _ _ _ _ a b o1) by assumption. reflexivity.
  - unfold domain1. rewrite Xa, Xb, area4, (mid3_comm12 (pos m a)), det_mid. cbn [bind].
    eexists; exists b, a. split; [reflexivity|]. split; [right; reflexivity|].
    split; [cbn; congruence|]. split; [cbn; rewrite Etr, Ht1; reflexivity|].
    split.
    { cbn. f_equal. rewrite (dom_area1 m _ t1 Ht1), AR, Rabs_Ropp.
      rewrite (det2_swap12 (pos m b)), Rabs_Ropp, !Rabs_right by lra. field. }
    constructor; try (cbn [eother1 eother2 set_domain set_others]; rewrite ?I1'; auto; fail).
    cbn [set_domain eipts]. rnum.
    rewrite !(make_ipt_the m _ _ _ _ b a o1) by assumption. reflexivity.
Qed.

Lemma setup2 : forall m k e t1 t2, wf_mesh m -> plate m -> In (k, e) (edges m) ->
  tris_on m k = [t1; t2] ->
  exists e' n1 n2, setup_edge m e = Ok e' /\ ((n1, n2) = k \/ (n2, n1) = k) /\
     (en1 e', en2 e') = k /\ etrias e' = map eid (tris_on m k) /\ eAc e' = Some (dom_area m k) /\
     ready2 m k e' n1 n2 t1 t2.
Proof.
  intros m [a b] e t1 t2 W PL Hin Ht.
  assert (Hk : In (a, b) (edge_keys m)).
  { unfold edge_keys; apply in_map_iff; exists ((a, b), e); auto. }
  destruct (wf_edge_ends m W _ _ Hin) as [Een _]; injection Een as Ea Eb.
  assert (Etr := wf_edge_trias m W _ _ Hin).
  assert (I1 : In t1 (tris_on m (a, b))) by (rewrite Ht; left; reflexivity).
  assert (I2 : In t2 (tris_on m (a, b))) by (rewrite Ht; right; left; reflexivity).
  assert (T1 : In t1 (trias_of m)) by (apply tris_on_in in I1; tauto).
  assert (T2 : In t2 (trias_of m)) by (apply tris_on_in in I2; tauto).
  destruct (edge_tria m W _ _ Hk I1) as [P1 [N1 [N2 [N3 [Ka [Kb Ko1]]]]]]; cbn [fst snd] in *.
  destruct (edge_tria m W _ _ Hk I2) as [P2 [_ [N5 [N6 [_ [_ Ko2]]]]]]; cbn [fst snd] in *.
  assert (OPP := pl_sides m PL _ _ _ Hk Ht); cbn [fst snd] in OPP.
  set (o1 := third t1 (a, b)) in *. set (o2 := third t2 (a, b)) in *.
  destruct (node_found m W a Ka) as [da [Ga [Ia [Xa _]]]].
  destruct (node_found m W b Kb) as [db [Gb [Ib [Xb _]]]].
  destruct (node_found m W o1 Ko1) as [d1 [G1 [J1 [X1 _]]]].
  destruct (node_found m W o2 Ko2) as [d2 [G2 [J2 [X2 _]]]].
  assert (D : det2 (pos m a) (pos m b) (pos m o1) <> 0).
  { intros Z. rewrite Z in OPP; lra. }
  assert (AR1 := tarea_perm m t1 a b o1 P1).
  assert (AR2 := tarea_perm m t2 a b o2 P2).
  unfold setup_edge, edge_trias_data. rewrite Etr, Ht. cbn [map].
  rewrite (tria_found m W t1 T1), (tria_found m W t2 T2). cbn [bind].
  rewrite (othernode_third t1 e a b o1), (othernode_third t2 e a b o2) by auto. cbn [bind].
  rewrite G1, G2. cbn [bind].
  rewrite (getMid_perm m W t1 a b o1 T1 P1), (getMid_perm m W t2 a b o2 T2 P2). cbn [bind].
  rewrite Ea, Eb, Ga, Gb. cbn [bind].
  destruct (orient_k0_spec da db (pos m a) (pos m b) (pos m o1) Xa Xb D) as [[-> S]|[-> S]].
  - assert (S2 : det2 (pos m a) (pos m b) (pos m o2) < 0) by nra.
    unfold domain2. rewrite Xa, Xb, area5, det_mid, det_mid'. cbn [bind].
    eexists; exists a, b. split; [reflexivity|]. split; [left; reflexivity|].
    split; [cbn; congruence|]. split; [cbn; rewrite Etr, Ht; reflexivity|].
    split.
    { cbn. f_equal. rewrite (dom_area2 m _ t1 t2 Ht), AR1, AR2.
      rewrite (Rabs_right (det2 _ _ (pos m o1))), (Rabs_left (det2 _ _ (pos m o2))), Rabs_left by lra.
      field. }
    constructor; try (cbn [eother1 eother2 set_domain set_others]; rewrite ?J1, ?J2; auto; fail).
    cbn [set_domain eipts]. rnum.
    rewrite !(make_ipt_the m _ _ _ _ a b o1), !(make_ipt_the m _ _ _ _ a b o2) by assumption.
      reflexivity.
  - assert (S2 : det2 (pos m b) (pos m a) (pos m o2) < 0).
    { rewrite (det2_swap12 (pos m b)), (det2_swap12 (pos m b) (pos m a) (pos m o2)) in OPP. nra. }
    unfold domain2. rewrite Xa, Xb, area5, !(mid3_comm12 (pos m a)), det_mid, det_mid'. cbn [bind].
    eexists; exists b, a. split; [reflexivity|]. split; [right; reflexivity|].
    split; [cbn; congruence|]. split; [cbn; rewrite Etr, Ht; reflexivity|].
    split.
    { cbn. f_equal. rewrite (dom_area2 m _ t1 t2 Ht), AR1, AR2.
      rewrite !(det2_swap12 (pos m b) (pos m a)), !Rabs_Ropp.
      rewrite (Rabs_right (det2 _ _ (pos m o1))), (Rabs_left (det2 _ _ (pos m o2))), Rabs_left by lra.
      field. }
    constructor; try (cbn [eother1 eother2 set_domain set_others]; rewrite ?J1, ?J2; auto; fail).
    cbn [set_domain eipts]. rnum.
    rewrite !(make_ipt_the m _ _ _ _ b a o1), !(make_ipt_the m _ _ _ _ b a o2) by assumption.
      reflexivity.
Qed.

Lemma tris_on_cases : forall m k, wf_mesh m -> plate m -> In k (edge_keys m) ->
  (exists t1, tris_on m k = [t1]) \/ (exists t1 t2, tris_on m k = [t1; t2]).
Proof.
  intros m k W PL Hk. assert (NE := tris_on_nonempty m W k Hk). assert (L := pl_two m PL k Hk).
  destruct (tris_on m k) as [|t1 [|t2 [|t3 l]]]; [contradiction|eauto|eauto|cbn in L; lia].
Qed.

Lemma setup_edge_ready : forall m k e, wf_mesh m -> plate m -> In (k, e) (edges m) ->
  exists e', setup_edge m e = Ok e' /\ ready m k e'.
Proof.
  intros m k e W PL Hin.
  assert (Hk : In k (edge_keys m)) by (unfold edge_keys; apply in_map_iff; exists (k, e); auto).
  destruct (tris_on_cases m k W PL Hk) as [[t1 H]|[t1 [t2 H]]].
  - destruct (setup1 m k e t1 W PL Hin H) as [e' [n1 [n2 [E [K [H1 [H2 [H3 H4]]]]]]]].
    exists e'; split; [exact E|]. constructor; eauto 8.
  - destruct (setup2 m k e t1 t2 W PL Hin H) as [e' [n1 [n2 [E [K [H1 [H2 [H3 H4]]]]]]]].
    exists e'; split; [exact E|]. constructor; eauto 8.
Qed.

Lemma setup_edges_ready : forall m es, wf_mesh m -> plate m -> (forall x, In x es -> In x (edges m)) ->
  exists es', setup_edges m es = (es', Ok tt) /\ map fst es' = map fst es /\
    forall k e, In (k, e) es' -> ready m k e.
Proof.
  intros m es W PL; induction es as [|[k e] es IH]; intros H.
  - exists []; split; [reflexivity|split; [reflexivity|intros ? ? []]].
  - destruct (setup_edge_ready m k e W PL (H _ (or_introl eq_refl))) as [e' [E Rd]].
    destruct IH as [es' [E' [M' R']]]; [intros x Hx; apply H; right; exact Hx|].
    cbn [setup_edges]. rewrite E, E'. exists ((k, e') :: es'). split; [reflexivity|].
    split; [cbn; congruence|]. intros k0 e0 [X|X]; [inversion X; subst; exact Rd|auto].
Qed.
