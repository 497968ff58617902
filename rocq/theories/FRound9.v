(** Setup of the edges in doubles and in reals. *)
From Coq Require Import ZArith Reals List Bool Arith Lra Lia QArith Qreals.
From Flocq Require Import Core.
From Verif Require Import Num Float Py Mesh Utils CalcK0 Spec SpecK0 SpecRound FDict FWf FOut FSetup FFloat FTree FRound FRound2 FRound3 FRound4 FRound5 FRound6 FRound7 FRound8.
Import ListNotations.
Local Open Scope R_scope.

Section Setup.
  Variables (m : mesh double) (h rho s kappa : R).
  Hypothesis KS : k0_scale m h rho kappa s.
  Hypothesis WM : wf_mesh (mesh_val m).
  Hypothesis PL : plate (mesh_val m).
  Notation M := (mesh_val m).
  Let delta := kappa * roundoff.

  Lemma kh : h <= kappa * h.
  Proof. assert (X := ks_h _ _ _ _ _ KS). assert (Y := ks_kappa _ _ _ _ _ KS). rewrite <- (Rmult_1_l h) at 1. apply Rmult_le_compat_r; lra. Qed.
  Lemma SL : scales h rho s (kappa * roundoff).
  Proof.
    assert (X := ks_h _ _ _ _ _ KS). assert (Y := ks_kappa _ _ _ _ _ KS). assert (Z := kh).
    constructor; [unfold in64; lra|apply (ks_s _ _ _ _ _ KS)|apply (ks_rho _ _ _ _ _ KS)| |apply (ks_small _ _ _ _ _ KS)].
    rewrite <- (Rmult_1_l roundoff) at 1. apply Rmult_le_compat_r; [unfold roundoff; lra|exact Y].
  Qed.
  Lemma KX : in64 (kappa * h).
  Proof. assert (X := ks_h _ _ _ _ _ KS). assert (Z := kh). unfold in64. lra. Qed.
  Lemma K1 : 1 <= kappa.
  Proof. exact (ks_kappa _ _ _ _ _ KS). Qed.
  Lemma Wm : wf_mesh m.
  Proof. apply wf_val, WM. Qed.
  Notation LK := (lock_val m).

  Lemma node_ex : forall n, In n (node_keys m) -> exists nd, get_node m n = Ok nd /\ nid nd = n /\ exact h kappa (nxyz nd) (pos M n) /\ vec_val (nxyz nd) = pos M n /\
    (forall x, In x [vx (nxyz nd); vy (nxyz nd); vz (nxyz nd)] -> finite x /\ Rabs (val x) <= kappa * h).
  Proof.
    intros n H. destruct (node_in m Wm n H) as [nd [G [I [_ IN]]]]. exists nd. split; [exact G|]. split; [exact I|].
    rewrite (pos_lock _ _ LK n nd G). assert (C := ks_coords _ _ _ _ _ KS n nd IN). split; [|split; [reflexivity|exact C]].
    split; [|split; reflexivity]. split; [|split]; apply cl_node; apply C; cbn; auto.
  Qed.

  Lemma mid_lock : forall t a b o, In t (trias_of m) -> perm3 t a b o ->
    exists mid, getMid m t = Ok mid /\ getMid M (tria_val t) = Ok (mid3 (pos M a) (pos M b) (pos M o)) /\ clv h kappa 3 mid (mid3 (pos M a) (pos M b) (pos M o)).
  Proof.
    intros t a b o Ht P.
    assert (HT : In (tria_val t) (trias_of M)) by (rewrite (trias_lock _ _ LK); apply in_map, Ht).
    assert (G := getMid_perm M WM (tria_val t) a b o HT P).
    destruct (node_ex (tn1 t)) as [d1 [G1 [_ [_ [E1 C1]]]]]; [apply (wf_vertices m Wm t); unfold vertex; auto|].
    destruct (node_ex (tn2 t)) as [d2 [G2 [_ [_ [E2 C2]]]]]; [apply (wf_vertices m Wm t); unfold vertex; auto|].
    destruct (node_ex (tn3 t)) as [d3 [G3 [_ [_ [E3 C3]]]]]; [apply (wf_vertices m Wm t); unfold vertex; auto|].
    exists (mid3 (nxyz d1) (nxyz d2) (nxyz d3)). split; [unfold getMid; rewrite G1, G2, G3; reflexivity|]. split; [exact G|].
    assert (Q : mid3 (vec_val (nxyz d1)) (vec_val (nxyz d2)) (vec_val (nxyz d3)) = mid3 (pos M a) (pos M b) (pos M o)).
    { unfold getMid in G. rewrite !(get_node_lock _ _ LK) in G. change (tn1 (tria_val t)) with (tn1 t) in G. change (tn2 (tria_val t)) with (tn2 t) in G. change (tn3 (tria_val t)) with (tn3 t) in G.
      rewrite G1, G2, G3 in G. cbn [rmap bind] in G. injection G as Gx Gy Gz. unfold mid3, vdivs, vadd; cbn [vx vy vz]. rnum. f_equal; assumption. }
    rewrite <- Q. split; [|split]; apply (cl_mid h rho s kappa SL KX); first [apply C1; cbn; auto; fail | apply C2; cbn; auto; fail | apply C3; cbn; auto; fail].
  Qed.

  Lemma tri_lock : forall k t, In k (edge_keys m) -> In t (tris_on m k) ->
    tri h rho (pos M (fst k)) (pos M (snd k)) (pos M (third t k)) (mid3 (pos M (fst k)) (pos M (snd k)) (pos M (third t k))).
  Proof.
    intros k t Hk Ht. destruct (edge_tria m Wm k t Hk Ht) as [P [_ [_ [_ [Ka [Kb Ko]]]]]].
    assert (T1 : In t (trias_of m)) by (apply tris_on_in in Ht; tauto).
    assert (HT : In (tria_val t) (trias_of M)) by (rewrite (trias_lock _ _ LK); apply in_map, T1).
    destruct (perm3_vertex _ _ _ _ P) as [Va [Vb Vo]]. destruct (pl_flat M PL) as [z Z]. rewrite (keys_lock _ _ LK) in Z.
    constructor.
    - apply (ks_size _ _ _ _ _ KS t); assumption.
    - apply (ks_size _ _ _ _ _ KS t); assumption.
    - apply (ks_size _ _ _ _ _ KS t); assumption.
    - rewrite !Z by assumption. split; [reflexivity|]. split; [reflexivity|]. unfold mid3, vdivs, vadd; cbn [vx vy vz]; rnum. rewrite !Z by assumption. field.
    - unfold mid3, vdivs, vadd; cbn [vx vy vz]; rnum. split; field.
    - assert (F := ks_fat _ _ _ _ _ KS _ HT). rewrite (tarea_perm M (tria_val t) (fst k) (snd k) (third t k) P) in F. lra.
  Qed.

  Record near_edge (e : edge double) (E : edge R) : Prop := {
    ne_1 : en1 e = en1 E; ne_2 : en2 e = en2 E; ne_t : etrias e = etrias E; ne_o1 : eother1 e = eother1 E; ne_o2 : eother2 e = eother2 E;
    ne_Ac : exists a A, eAc e = Some a /\ eAc E = Some A /\ finite a /\ Rabs (val a - A) <= 30 * (delta * (h * h));
    ne_ipts : Forall2 (near_ipt h rho s kappa) (eipts e) (eipts E) }.

  Lemma f23 : nearF h rho s delta f1b (ndiv (nofZ 2) (nofZ 3)) (2 / 3).
  Proof. apply (const_near h rho s kappa SL 2 3). vm_compute. reflexivity. Qed.
  Lemma f16 : nearF h rho s delta f1b (ndiv (nofZ 1) (nofZ 6)) (1 / 6).
  Proof. apply (const_near h rho s kappa SL 1 6). vm_compute. reflexivity. Qed.
  Lemma f12 : nearF h rho s delta f1b (ndiv (nofZ 1) (nofZ 2)) (1 / 2).
  Proof. apply (const_near h rho s kappa SL 1 2). vm_compute. reflexivity. Qed.
  Lemma f0 : nearF h rho s delta f1b (nofZ 0) 0.
  Proof. apply (nearF_le _ _ _ _ SL (zb 0 0)); [reflexivity|]. exact (zero_near h rho s kappa SL (zb 0 0) eq_refl eq_refl ltac:(cbn; lia)). Qed.

  (** the three segments: from an end to the centroid, from the centroid to an end, between the ends *)
  Section Segs.
    Variables (p1 p2 mid : vec3 double) (P1 P2 O MM : vec3 R).
    Hypothesis E1 : exact h kappa p1 P1.
    Hypothesis E2 : exact h kappa p2 P2.
    Hypothesis CM : clv h kappa 3 mid MM.
    Hypothesis TR : tri h rho P1 P2 O MM.

    Ltac qs := first [ split; unfold Qle; cbn; lia | unfold Qle; cbn; lia ].
    Lemma seg_out : forall t a1 a2 a3 b1 b2 b3 (f1 f2 f3 : double) (g1 g2 g3 : R), nid a1 = nid b1 -> nid a2 = nid b2 -> nid a3 = nid b3 ->
      nearF h rho s delta f1b f1 g1 -> nearF h rho s delta f1b f2 g2 -> nearF h rho s delta f1b f3 g3 ->
      near_ipt h rho s kappa (make_ipt t a1 a2 a3 f1 f2 f3 (vsub p1 mid)) (make_ipt t b1 b2 b3 g1 g2 g3 (vsub P1 MM)).
    Proof.
      intros t a1 a2 a3 b1 b2 b3 f1 f2 f3 g1 g2 g3 N1 N2 N3 F1 F2 F3. destruct (tr_z _ _ _ _ _ _ TR) as [Z1 [Z2 Z3]].
      destruct (seg_vec h rho s kappa SL 0 3 p1 mid P1 MM (proj1 E1) CM ltac:(qs) ltac:(qs) ltac:(qs) (proj2 (tri_m h rho s kappa SL _ _ _ _ TR)) ltac:(congruence)) as [VX [VY VZ]].
      apply (make_near h rho s kappa SL); try assumption; [unfold vsub; cbn [vz]; rnum; lra|]. unfold vsub; cbn [vx vy]; rnum. apply (tri_low h rho s kappa SL _ _ _ _ TR).
    Qed.
    Lemma seg_in : forall t a1 a2 a3 b1 b2 b3 (f1 f2 f3 : double) (g1 g2 g3 : R), nid a1 = nid b1 -> nid a2 = nid b2 -> nid a3 = nid b3 ->
      nearF h rho s delta f1b f1 g1 -> nearF h rho s delta f1b f2 g2 -> nearF h rho s delta f1b f3 g3 ->
      near_ipt h rho s kappa (make_ipt t a1 a2 a3 f1 f2 f3 (vsub mid p1)) (make_ipt t b1 b2 b3 g1 g2 g3 (vsub MM P1)).
    Proof.
      intros t a1 a2 a3 b1 b2 b3 f1 f2 f3 g1 g2 g3 N1 N2 N3 F1 F2 F3. destruct (tr_z _ _ _ _ _ _ TR) as [Z1 [Z2 Z3]].
      destruct (seg_vec h rho s kappa SL 3 0 mid p1 MM P1 CM (proj1 E1) ltac:(qs) ltac:(qs) ltac:(qs) (apart_sym _ _ _ (proj2 (tri_m h rho s kappa SL _ _ _ _ TR))) ltac:(congruence)) as [VX [VY VZ]].
      apply (make_near h rho s kappa SL); try assumption; [unfold vsub; cbn [vz]; rnum; lra|]. unfold vsub; cbn [vx vy]; rnum.
      rewrite (Rabs_minus_sym (vx MM)), (Rabs_minus_sym (vy MM)). apply (tri_low h rho s kappa SL _ _ _ _ TR).
    Qed.
    Lemma seg_ends : forall t a1 a2 a3 b1 b2 b3 (f1 f2 f3 : double) (g1 g2 g3 : R), nid a1 = nid b1 -> nid a2 = nid b2 -> nid a3 = nid b3 ->
      nearF h rho s delta f1b f1 g1 -> nearF h rho s delta f1b f2 g2 -> nearF h rho s delta f1b f3 g3 ->
      near_ipt h rho s kappa (make_ipt t a1 a2 a3 f1 f2 f3 (vsub p2 p1)) (make_ipt t b1 b2 b3 g1 g2 g3 (vsub P2 P1)).
    Proof.
      intros t a1 a2 a3 b1 b2 b3 f1 f2 f3 g1 g2 g3 N1 N2 N3 F1 F2 F3. destruct (tr_z _ _ _ _ _ _ TR) as [Z1 [Z2 Z3]].
      destruct (seg_vec h rho s kappa SL 0 0 p2 p1 P2 P1 (proj1 E2) (proj1 E1) ltac:(qs) ltac:(qs) ltac:(qs) (apart_sym _ _ _ (tr_12 _ _ _ _ _ _ TR)) ltac:(congruence)) as [VX [VY VZ]].
      apply (make_near h rho s kappa SL); try assumption; [unfold vsub; cbn [vz]; rnum; lra|]. unfold vsub; cbn [vx vy]; rnum.
      apply (tri_low2 h rho s kappa SL _ _ _ _ TR).
    Qed.
  End Segs.

  Lemma orient_lock : forall (da db : node double) mid O MM, exact h kappa (nxyz da) (vec_val (nxyz da)) -> exact h kappa (nxyz db) (vec_val (nxyz db)) ->
    clv h kappa 3 mid MM -> tri h rho (vec_val (nxyz da)) (vec_val (nxyz db)) O MM ->
    (orient_k0 mid da db = (da, db) /\ orient_k0 MM (node_val da) (node_val db) = (node_val da, node_val db)) \/
    (orient_k0 mid da db = (db, da) /\ orient_k0 MM (node_val da) (node_val db) = (node_val db, node_val da)).
  Proof.
    intros da db mid O MM E1 E2 C T. assert (X := orient_near h rho s kappa SL _ _ _ _ _ _ _ E1 E2 C T). unfold orient_k0.
    change (nxyz (node_val da)) with (vec_val (nxyz da)). change (nxyz (node_val db)) with (vec_val (nxyz db)). rewrite X.
    match goal with |- context [if ?c then _ else _] => destruct c end; [right|left]; split; reflexivity.
  Qed.

  (** domain of an edge with one triangle, after the orientation *)
  Lemma dom1_lock : forall t mid MM (n1 n2 o : node double) O, exact h kappa (nxyz n1) (vec_val (nxyz n1)) -> exact h kappa (nxyz n2) (vec_val (nxyz n2)) ->
    clv h kappa 3 mid MM -> tri h rho (vec_val (nxyz n1)) (vec_val (nxyz n2)) O MM ->
    (exists a A, area_of_points (fst (domain1 t mid n1 n2 o)) = Ok a /\ area_of_points (fst (domain1 t MM (node_val n1) (node_val n2) (node_val o))) = Ok A /\
      finite a /\ Rabs (val a - A) <= 30 * (delta * (h * h))) /\
    Forall2 (near_ipt h rho s kappa) (snd (domain1 t mid n1 n2 o)) (snd (domain1 t MM (node_val n1) (node_val n2) (node_val o))).
  Proof.
    intros t mid MM n1 n2 o O E1 E2 C T. assert (T' := tri_swap _ _ _ _ _ _ T).
    destruct (tri_m h rho s kappa SL _ _ _ _ T) as [_ A1]. destruct (tri_m h rho s kappa SL _ _ _ _ T') as [_ A2].
    split.
    - exact (area4 h rho s kappa SL K1 KX _ _ _ _ _ _ E1 E2 C (tr_12 _ _ _ _ _ _ T) A1).
    - unfold domain1; cbn [snd]. change (nxyz (node_val n1)) with (vec_val (nxyz n1)). change (nxyz (node_val n2)) with (vec_val (nxyz n2)). rnum.
      constructor; [|constructor; [|constructor; [|constructor]]].
      + apply (seg_out _ _ _ _ _ _ E1 C T); try reflexivity; first [exact f23|exact f16].
      + apply (seg_in _ _ _ _ _ _ E2 C T'); try reflexivity; first [exact f23|exact f16].
      + apply (seg_ends _ _ _ _ _ _ E1 E2 T); try reflexivity; first [exact f12|exact f0].
  Qed.
  Lemma dom2_lock : forall t1 t2 mid1 MM1 mid2 MM2 (n1 n2 o1 o2 : node double) O1 O2, exact h kappa (nxyz n1) (vec_val (nxyz n1)) -> exact h kappa (nxyz n2) (vec_val (nxyz n2)) ->
    clv h kappa 3 mid1 MM1 -> tri h rho (vec_val (nxyz n1)) (vec_val (nxyz n2)) O1 MM1 ->
    clv h kappa 3 mid2 MM2 -> tri h rho (vec_val (nxyz n1)) (vec_val (nxyz n2)) O2 MM2 ->
    (exists a A, area_of_points (fst (domain2 t1 t2 mid1 mid2 n1 n2 o1 o2)) = Ok a /\ area_of_points (fst (domain2 t1 t2 MM1 MM2 (node_val n1) (node_val n2) (node_val o1) (node_val o2))) = Ok A /\
      finite a /\ Rabs (val a - A) <= 30 * (delta * (h * h))) /\
    Forall2 (near_ipt h rho s kappa) (snd (domain2 t1 t2 mid1 mid2 n1 n2 o1 o2)) (snd (domain2 t1 t2 MM1 MM2 (node_val n1) (node_val n2) (node_val o1) (node_val o2))).
  Proof.
    intros t1 t2 mid1 MM1 mid2 MM2 n1 n2 o1 o2 O1 O2 E1 E2 C1 T1 C2 T2. assert (T1' := tri_swap _ _ _ _ _ _ T1). assert (T2' := tri_swap _ _ _ _ _ _ T2).
    destruct (tri_m h rho s kappa SL _ _ _ _ T1) as [B1 A1]. destruct (tri_m h rho s kappa SL _ _ _ _ T1') as [_ A1'].
    destruct (tri_m h rho s kappa SL _ _ _ _ T2) as [B2 A2]. destruct (tri_m h rho s kappa SL _ _ _ _ T2') as [_ A2'].
    assert (AM : apart (4 / 3 * h) MM1 MM2).
    { destruct B1 as [X1 Y1]. destruct B2 as [X2 Y2]. apply abs_split in X1, Y1, X2, Y2. split; apply abs_join; lra. }
    split.
    - exact (area5 h rho s kappa SL K1 KX _ _ _ _ _ _ _ _ E1 E2 C1 C2 (tr_12 _ _ _ _ _ _ T1) A1 A2 AM).
    - unfold domain2; cbn [snd]. change (nxyz (node_val n1)) with (vec_val (nxyz n1)). change (nxyz (node_val n2)) with (vec_val (nxyz n2)). rnum.
      constructor; [|constructor; [|constructor; [|constructor; [|constructor]]]].
      + apply (seg_out _ _ _ _ _ _ E1 C1 T1); try reflexivity; first [exact f23|exact f16].
      + apply (seg_in _ _ _ _ _ _ E2 C1 T1'); try reflexivity; first [exact f23|exact f16].
      + apply (seg_out _ _ _ _ _ _ E2 C2 T2'); try reflexivity; first [exact f23|exact f16].
      + apply (seg_in _ _ _ _ _ _ E1 C2 T2); try reflexivity; first [exact f23|exact f16].
  Qed.

  Lemma setup_lock : forall k e, In (k, e) (edges m) -> exists e' E', setup_edge m e = Ok e' /\ setup_edge M (edge_val e) = Ok E' /\ near_edge e' E'.
  Proof.
    intros [a b] e Hin. assert (W := Wm). assert (Hk := key_in _ _ _ Hin).
    destruct (wf_edge_ends m W _ _ Hin) as [Een _]; injection Een as Ea Eb.
    assert (Etr := wf_edge_trias m W _ _ Hin).
    destruct (ends_in m (a, b) a b W Hk (or_introl eq_refl)) as [Ka [Kb Nab]].
    destruct (node_ex a Ka) as [da [Ga [Ia [Xa [Va _]]]]]. destruct (node_ex b Kb) as [db [Gb [Ib [Xb [Vb _]]]]].
    assert (TT : forall t, In t (tris_on m (a, b)) -> get_tria m (eid t) = Ok t /\ othernode_id t e = Ok (third t (a, b)) /\
      (exists d, get_node m (third t (a, b)) = Ok d) /\
      exists mid MM, getMid m t = Ok mid /\ getMid M (tria_val t) = Ok MM /\ clv h kappa 3 mid MM /\ tri h rho (pos M a) (pos M b) (pos M (third t (a, b))) MM).
    { intros t Ht. destruct (third_in m (a, b) t a b W Hk (or_introl eq_refl) Ht) as [P [N1 [N2 [Ko Tt]]]].
      split; [apply tria_found; assumption|]. split; [apply (othernode_third t e a b (third t (a, b))); auto|].
      split; [destruct (node_ex _ Ko) as [d [G _]]; exists d; exact G|].
      destruct (mid_lock t a b (third t (a, b)) Tt P) as [mid [G1 [G2 C]]]. eexists; eexists. split; [exact G1|]. split; [exact G2|]. split; [exact C|].
      exact (tri_lock (a, b) t Hk Ht). }
    rewrite <- Va in Xa, TT. rewrite <- Vb in Xb, TT.
    unfold setup_edge, edge_trias_data. change (etrias (edge_val e)) with (etrias e). rewrite Etr.
    change (en1 (edge_val e)) with (en1 e). change (en2 (edge_val e)) with (en2 e).
    assert (L2 : (length (tris_on m (a, b)) <= 2)%nat).
    { assert (X := pl_two M PL (a, b)). rewrite edge_keys_val, (tris_on_lock _ _ LK), map_length in X. apply X, Hk. }
    assert (NE := tris_on_nonempty m W _ Hk).
    assert (OO : forall t, othernode_id (tria_val t) (edge_val e) = othernode_id t e) by reflexivity.
    destruct (tris_on m (a, b)) as [|t1 [|t2 [|t3 l]]] eqn:Q; [contradiction| | |cbn in L2; lia]; cbn [map].
    - destruct (TT t1 (or_introl eq_refl)) as [G1 [O1 [[d1 D1] [mid1 [MM1 [M1 [N1 [C1 T1]]]]]]]].
      rewrite (get_tria_lock _ _ LK), G1. cbn [bind rmap]. rewrite OO, O1. cbn [bind]. rewrite (get_node_lock _ _ LK), D1. cbn [bind rmap]. rewrite M1, N1. cbn [bind].
      rewrite Ea, Eb, !(get_node_lock _ _ LK), Ga, Gb. cbn [bind rmap].
      destruct (orient_lock da db mid1 _ MM1 Xa Xb C1 T1) as [[-> ->]|[-> ->]]; cbv iota beta.
      + destruct (dom1_lock (eid t1) mid1 MM1 da db d1 _ Xa Xb C1 T1) as [[ac [AC [A1 [A2 [F A3]]]]] IP].
        destruct (domain1 (eid t1) mid1 da db d1) as [sd ips]. destruct (domain1 (eid t1) MM1 (node_val da) (node_val db) (node_val d1)) as [SD IPS]. cbn [fst snd] in *.
        rewrite A1, A2. cbn [bind]. eexists; eexists. split; [reflexivity|]. split; [reflexivity|].
        constructor; cbn [set_domain set_others en1 en2 etrias eother1 eother2 eAc eipts]; try reflexivity; [exists ac, AC; auto|exact IP].
      + destruct (dom1_lock (eid t1) mid1 MM1 db da d1 _ Xb Xa C1 (tri_swap _ _ _ _ _ _ T1)) as [[ac [AC [A1 [A2 [F A3]]]]] IP].
        destruct (domain1 (eid t1) mid1 db da d1) as [sd ips]. destruct (domain1 (eid t1) MM1 (node_val db) (node_val da) (node_val d1)) as [SD IPS]. cbn [fst snd] in *.
        rewrite A1, A2. cbn [bind]. eexists; eexists. split; [reflexivity|]. split; [reflexivity|].
        constructor; cbn [set_domain set_others en1 en2 etrias eother1 eother2 eAc eipts]; try reflexivity; [exists ac, AC; auto|exact IP].
    - destruct (TT t1 (or_introl eq_refl)) as [G1 [O1 [[d1 D1] [mid1 [MM1 [M1 [N1 [C1 T1]]]]]]]].
      destruct (TT t2 (or_intror (or_introl eq_refl))) as [G2 [O2 [[d2 D2] [mid2 [MM2 [M2 [N2 [C2 T2]]]]]]]].
      rewrite !(get_tria_lock _ _ LK), G1, G2. cbn [bind rmap]. rewrite !OO, O1, O2. cbn [bind]. rewrite !(get_node_lock _ _ LK), D1, D2. cbn [bind rmap]. rewrite M1, N1, M2, N2. cbn [bind].
      rewrite Ea, Eb, Ga, Gb. cbn [bind rmap].
      destruct (orient_lock da db mid1 _ MM1 Xa Xb C1 T1) as [[-> ->]|[-> ->]]; cbv iota beta.
      + destruct (dom2_lock (eid t1) (eid t2) mid1 MM1 mid2 MM2 da db d1 d2 _ _ Xa Xb C1 T1 C2 T2) as [[ac [AC [A1 [A2 [F A3]]]]] IP].
        destruct (domain2 (eid t1) (eid t2) mid1 mid2 da db d1 d2) as [sd ips]. destruct (domain2 (eid t1) (eid t2) MM1 MM2 (node_val da) (node_val db) (node_val d1) (node_val d2)) as [SD IPS]. cbn [fst snd] in *.
        rewrite A1, A2. cbn [bind]. eexists; eexists. split; [reflexivity|]. split; [reflexivity|].
        constructor; cbn [set_domain set_others en1 en2 etrias eother1 eother2 eAc eipts]; try reflexivity; [exists ac, AC; auto|exact IP].
      + destruct (dom2_lock (eid t1) (eid t2) mid1 MM1 mid2 MM2 db da d1 d2 _ _ Xb Xa C1 (tri_swap _ _ _ _ _ _ T1) C2 (tri_swap _ _ _ _ _ _ T2)) as [[ac [AC [A1 [A2 [F A3]]]]] IP].
        destruct (domain2 (eid t1) (eid t2) mid1 mid2 db da d1 d2) as [sd ips]. destruct (domain2 (eid t1) (eid t2) MM1 MM2 (node_val db) (node_val da) (node_val d1) (node_val d2)) as [SD IPS]. cbn [fst snd] in *.
        rewrite A1, A2. cbn [bind]. eexists; eexists. split; [reflexivity|]. split; [reflexivity|].
        constructor; cbn [set_domain set_others en1 en2 etrias eother1 eother2 eAc eipts]; try reflexivity; [exists ac, AC; auto|exact IP].
  Qed.
End Setup.
