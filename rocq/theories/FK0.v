(** calc_k0 computes the smoothed strain energy. *)
From Coq Require Import ZArith Reals List Bool Arith Lra Lia Permutation FunctionalExtensionality.
From Verif Require Import Num Py Mesh Utils Spec FSum FMat FTensor FGenK0 FDict FGeom FWf FSetup FAsm CalcK0.
Import ListNotations.
Local Open Scope R_scope.
Implicit Types (m : mesh R).

(** ** Meshes with the same geometry, connectivity and properties *)

Record same (m m' : mesh R) : Prop := {
  sm_keys : node_keys m' = node_keys m;
  sm_len : length (nodes m') = length (nodes m);
  sm_pos : pos m' = pos m;
  sm_prop : nodeprop m' = nodeprop m;
  sm_elements : elements m' = elements m;
  sm_edges : edge_keys m' = edge_keys m
}.

Section Same.
  Variables m m' : mesh R.
  Hypothesis S : same m m'.

  Lemma same_trias : trias_of m' = trias_of m.
  Proof. unfold trias_of; rewrite (sm_elements _ _ S); reflexivity. Qed.
  Lemma same_tris_on : tris_on m' = tris_on m.
  Proof. apply functional_extensionality; intros k. unfold tris_on; rewrite same_trias; reflexivity. Qed.
  Lemma same_rank : rank m' = rank m.
  Proof. apply functional_extensionality; intros k. unfold rank; rewrite (sm_keys _ _ S); reflexivity. Qed.
  Lemma same_comp : comp m' = comp m.
  Proof. unfold comp; rewrite same_rank; reflexivity. Qed.
  Lemma same_tdet : tdet m' = tdet m.
  Proof. unfold tdet; rewrite (sm_pos _ _ S); reflexivity. Qed.
  Lemma same_tarea : tarea m' = tarea m.
  Proof. unfold tarea; rewrite same_tdet; reflexivity. Qed.
  Lemma same_tgx : tgx m' = tgx m.
  Proof. unfold tgx; rewrite same_tdet, (sm_pos _ _ S); reflexivity. Qed.
  Lemma same_tgy : tgy m' = tgy m.
  Proof. unfold tgy; rewrite same_tdet, (sm_pos _ _ S); reflexivity. Qed.
  Lemma same_dom_area : dom_area m' = dom_area m.
  Proof. unfold dom_area; rewrite same_tarea, same_tris_on; reflexivity. Qed.
  Lemma same_sgx : sgx m' = sgx m.
  Proof. unfold sgx; rewrite same_tarea, same_tris_on, same_tgx; reflexivity. Qed.
  Lemma same_sgy : sgy m' = sgy m.
  Proof. unfold sgy; rewrite same_tarea, same_tris_on, same_tgy; reflexivity. Qed.
  Lemma same_strain : smoothed_strain m' = smoothed_strain m.
  Proof. unfold smoothed_strain; rewrite same_sgx, same_sgy, same_comp; reflexivity. Qed.
  Lemma same_stiffness : edge_stiffness m' = edge_stiffness m.
  Proof.
    unfold edge_stiffness, node_stiffness, tria_stiffness.
    rewrite same_tris_on, same_tarea, (sm_prop _ _ S); reflexivity.
  Qed.
  Lemma same_energy : k0_energy m' = k0_energy m.
  Proof.
    unfold k0_energy; rewrite same_dom_area, same_strain, same_stiffness, (sm_edges _ _ S); reflexivity.
  Qed.
  Lemma same_total_area : total_area m' = total_area m.
  Proof. unfold total_area; rewrite same_tarea, same_trias; reflexivity. Qed.

  Lemma same_plate : plate m -> plate m'.
  Proof.
    intros [H1 H2 H3 H4]. constructor.
    - destruct H1 as [z H1]; exists z. rewrite (sm_keys _ _ S), (sm_pos _ _ S); exact H1.
    - rewrite same_trias, same_tdet; exact H2.
    - rewrite same_tris_on, (sm_edges _ _ S); exact H3.
    - rewrite same_tris_on, (sm_edges _ _ S), (sm_pos _ _ S); exact H4.
  Qed.

  Lemma same_props : forall pfn, props_complete m pfn -> props_complete m' pfn.
  Proof.
    intros [|]; unfold props_complete.
    - rewrite (sm_edges _ _ S), (sm_prop _ _ S); auto.
    - rewrite same_trias; auto.
  Qed.

  Lemma same_ready : forall k e, ready m k e -> ready m' k e.
  Proof.
    assert (EI : the_ipt m' = the_ipt m) by (unfold the_ipt; rewrite (sm_pos _ _ S); reflexivity).
    assert (EM : the_mid m' = the_mid m) by (unfold the_mid; rewrite (sm_pos _ _ S); reflexivity).
    intros k e [H1 H2 H3 [n1 [n2 [H4 H5]]]]. constructor.
    - exact H1.
    - rewrite same_tris_on; exact H2.
    - rewrite same_dom_area; exact H3.
    - exists n1, n2; split; [exact H4|].
      destruct H5 as [[t1 X]|[t1 [t2 X]]].
      + left; exists t1. destruct X. constructor;
        rewrite ?same_tris_on, ?EI, ?EM, ?(sm_pos _ _ S); assumption.
      + right; exists t1, t2. destruct X. constructor;
        rewrite ?same_tris_on, ?EI, ?EM, ?(sm_pos _ _ S); assumption.
  Qed.
End Same.

(** ** Property checks *)

Lemma check_edge_ok : forall m pfn k e, wf_mesh m -> props_complete m pfn -> In (k, e) (edges m) ->
  check_edge m pfn e = Ok tt.
Proof.
  intros m pfn k e W PC Hin.
  assert (Hk : In k (edge_keys m)) by (unfold edge_keys; apply in_map_iff; exists (k, e); auto).
  destruct (wf_edge_ends m W _ _ Hin) as [Een _]; destruct k as [a b]; injection Een as Ea Eb.
  destruct pfn; cbn [check_edge]; unfold props_complete in PC.
  - destruct (PC _ Hk) as [P1 P2]; cbn [fst snd] in *.
    destruct (ready_nodes m (a, b) a b W Hk (or_introl eq_refl)) as [Ka [Kb _]].
    destruct (node_found m W a Ka) as [da [Ga [_ [_ [Qa _]]]]].
    destruct (node_found m W b Kb) as [db [Gb [_ [_ [Qb _]]]]].
    rewrite Ea, Eb, Ga, Gb. cbn [bind]. rewrite Qa, Qb.
    destruct (nodeprop m a); [|contradiction]. destruct (nodeprop m b); [|contradiction]. reflexivity.
  - rewrite (wf_edge_trias m W _ _ Hin).
    assert (A : forall t, In t (tris_on m (a, b)) -> In t (trias_of m)) by
      (intros t Ht; apply tris_on_in in Ht; tauto).
    induction (tris_on m (a, b)) as [|t l IH]; [reflexivity|].
    cbn [map]. rewrite (tria_found m W t) by (apply A; left; reflexivity). cbn [bind].
    assert (Q := PC t (A t (or_introl eq_refl))).
    destruct (tprop t); [|contradiction]. cbn [is_none]. apply IH. intros x Hx; apply A; right; exact Hx.
Qed.

Lemma check_edges_ok : forall m pfn es, wf_mesh m -> props_complete m pfn ->
  (forall x, In x es -> In x (edges m)) -> check_edges m pfn es = Ok tt.
Proof.
  intros m pfn es W PC; induction es as [|[k e] es IH]; intros H; [reflexivity|].
  cbn [check_edges]. rewrite (check_edge_ok m pfn k e W PC (H _ (or_introl eq_refl))). cbn [bind].
  apply IH. intros x Hx; apply H; right; exact Hx.
Qed.

Lemma vertex_prop : forall m t n, wf_mesh m -> props_complete m true -> In t (trias_of m) ->
  vertex t n -> nodeprop m n <> None.
Proof.
  intros m t n W PC Ht V.
  assert (X : exists n', n <> n' /\ vertex t n').
  { destruct (wf_distinct m W t Ht) as [D1 [D2 D3]].
    unfold vertex in *. destruct V as [->|[->| ->]].
    - exists (tn2 t); auto.
    - exists (tn3 t); auto.
    - exists (tn1 t); auto. }
  destruct X as [n' [NE V']].
  destruct (Nat.lt_trichotomy n n') as [L|[L|L]]; [|contradiction|].
  - assert (Hk : In (n, n') (edge_keys m)).
    { apply (wf_edge_keys m W). exists t; split; [exact Ht|]. apply vertices_sides; assumption. }
    apply (PC _ Hk).
  - assert (Hk : In (n', n) (edge_keys m)).
    { apply (wf_edge_keys m W). exists t; split; [exact Ht|]. apply vertices_sides; assumption. }
    apply (PC _ Hk).
Qed.

(** ** Stiffness of an edge *)

Lemma mat3_eq : forall A B : mat3 R, m00 A = m00 B -> m01 A = m01 B -> m02 A = m02 B ->
  m10 A = m10 B -> m11 A = m11 B -> m12 A = m12 B -> m20 A = m20 B -> m21 A = m21 B -> m22 A = m22 B ->
  A = B.
Proof. intros [] []; cbn; intros; subst; reflexivity. Qed.

Lemma wsum3_get : forall A (w : A -> R) (M : A -> mat3 R) l,
  m00 (wsum3 w M l) = Sum (fun a => w a * m00 (M a)) l / Sum w l /\
  m01 (wsum3 w M l) = Sum (fun a => w a * m01 (M a)) l / Sum w l /\
  m02 (wsum3 w M l) = Sum (fun a => w a * m02 (M a)) l / Sum w l /\
  m10 (wsum3 w M l) = Sum (fun a => w a * m10 (M a)) l / Sum w l /\
  m11 (wsum3 w M l) = Sum (fun a => w a * m11 (M a)) l / Sum w l /\
  m12 (wsum3 w M l) = Sum (fun a => w a * m12 (M a)) l / Sum w l /\
  m20 (wsum3 w M l) = Sum (fun a => w a * m20 (M a)) l / Sum w l /\
  m21 (wsum3 w M l) = Sum (fun a => w a * m21 (M a)) l / Sum w l /\
  m22 (wsum3 w M l) = Sum (fun a => w a * m22 (M a)) l / Sum w l.
Proof. intros; repeat split; reflexivity. Qed.

Lemma cent_perm : forall (M : nat -> mat3 R) (t : tria R) a b o, perm3 t a b o ->
  wsum3 (fun _ => 1) M [tn1 t; tn2 t; tn3 t] = wsum3 (fun _ => 1) M [a; b; o].
Proof.
  intros M t a b o P. destruct P as [H|[H|[H|[H|[H|H]]]]]; destruct H as [-> [-> ->]];
  apply mat3_eq; unfold wsum3; cbn [m00 m01 m02 m10 m11 m12 m20 m21 m22];
  rewrite !Sum_cons, !Sum_nil; field.
Qed.

Section Edge.
  Variable m : mesh R.
  Hypothesis W : wf_mesh m.
  Hypothesis PL : plate m.
  Variable pfn : bool.
  Hypothesis PC : props_complete m pfn.
  Variables (k : nat * nat) (e : edge R).
  Hypothesis Hk : In k (edge_keys m).
  Hypothesis RD : ready m k e.

  Lemma edge_areas_ready :
    (exists t1, tris_on m k = [t1] /\ edge_areas m e = Ok ((t1, tarea m t1 / 3), None)) \/
    (exists t1 t2, tris_on m k = [t1; t2] /\
       edge_areas m e = Ok ((t1, tarea m t1 / 3), Some (t2, tarea m t2 / 3))).
  Proof.
    destruct k as [a b] eqn:Ek.
    assert (En := rd_ends m _ e RD); injection En as Ea Eb.
    destruct (ready_nodes m (a, b) a b W Hk (or_introl eq_refl)) as [Ka [Kb _]].
    destruct (node_found m W a Ka) as [da [Ga [_ [Xa _]]]].
    destruct (node_found m W b Kb) as [db [Gb [_ [Xb _]]]].
    assert (MID : forall t, In t (tris_on m (a, b)) ->
      get_tria m (eid t) = Ok t /\
      getMid m t = Ok (mid3 (pos m a) (pos m b) (pos m (third t (a, b)))) /\
      tarea m t / 3 = Rabs (det2 (mid3 (pos m a) (pos m b) (pos m (third t (a, b)))) (pos m a) (pos m b)) / 2).
    { intros t Ht. destruct (tria_node m (a, b) t a b W Hk (or_introl eq_refl) Ht) as [P [_ [_ [_ T]]]].
      split; [apply tria_found; assumption|]. split; [apply getMid_perm; assumption|].
      rewrite (tarea_perm m t a b _ P).
      replace (det2 (mid3 (pos m a) (pos m b) (pos m (third t (a, b)))) (pos m a) (pos m b))
        with (det2 (pos m a) (pos m b) (pos m (third t (a, b))) * / 3)
        by (unfold det2, mid3, vdivs, vadd; cbn; field).
      rewrite Rabs_mult, (Rabs_right (/3)) by lra. field. }
    unfold edge_areas. rewrite (rd_trias m _ e RD), Ea, Eb.
    destruct (tris_on_cases m (a, b) W PL Hk) as [[t1 T]|[t1 [t2 T]]].
    - left; exists t1; split; [exact T|]. rewrite T.
      destruct (MID t1) as [G1 [M1 A1]]; [rewrite T; left; reflexivity|].
      cbn [map]. rewrite G1; cbn [bind]. rewrite M1; cbn [bind]. rewrite Ga, Gb; cbn [bind].
      rewrite Xa, Xb, area3; cbn [bind]. rewrite A1, det2_swap23, Rabs_Ropp. reflexivity.
    - right; exists t1, t2; split; [exact T|]. rewrite T.
      destruct (MID t1) as [G1 [M1 A1]]; [rewrite T; left; reflexivity|].
      destruct (MID t2) as [G2 [M2 A2]]; [rewrite T; right; left; reflexivity|].
      cbn [map]. rewrite G1; cbn [bind]. rewrite M1; cbn [bind]. rewrite Ga, Gb; cbn [bind].
      rewrite Xa, Xb, area3; cbn [bind]. rewrite G2; cbn [bind]. rewrite M2; cbn [bind].
      rewrite area3; cbn [bind]. rewrite A1, A2, det2_swap23, Rabs_Ropp. reflexivity.
  Qed.

  Lemma node_prop_found : forall n p, In n (node_keys m) -> nodeprop m n = Some p -> node_prop m n = Ok p.
  Proof.
    intros n p Kn Hn. destruct (node_found m W n Kn) as [d [G [_ [_ [Q _]]]]].
    unfold node_prop. rewrite G; cbn [bind]. rewrite Q, Hn; reflexivity.
  Qed.

  Lemma edge_ABD_ready : forall ta, edge_areas m e = Ok ta ->
    exists abd, edge_ABD m pfn e (dom_area m k) ta = Ok abd /\
      forall sel, abd sel = edge_stiffness m pfn sel k.
  Proof.
    intros ta Hta. assert (EAR := edge_areas_ready). destruct (rd_dom m k e RD) as [n1 [n2 [E RR]]].
    assert (En := rd_ends m _ e RD).
    destruct (ready_nodes m k n1 n2 W Hk E) as [K1 [K2 N12]].
    destruct k as [a b]; injection En as Ea Eb.
    unfold edge_ABD, edge_stiffness. destruct pfn.
    - assert (Pab := PC (a, b) Hk); cbn [fst snd] in Pab; destruct Pab as [Pa Pb].
      destruct (ready_nodes m (a, b) a b W Hk (or_introl eq_refl)) as [Ka [Kb _]].
      destruct (nodeprop m a) as [pa|] eqn:Qa; [|contradiction].
      destruct (nodeprop m b) as [pb|] eqn:Qb; [|contradiction].
      rewrite Ea, Eb, (node_prop_found a pa Ka Qa), (node_prop_found b pb Kb Qb); cbn [bind].
      assert (TH : forall t, In t (tris_on m (a, b)) -> exists po,
        nodeprop m (third t (a, b)) = Some po /\ node_prop m (third t (a, b)) = Ok po /\
        forall sel, wsum3 (fun _ => 1) (fun n => getp sel (nodeprop m n)) [tn1 t; tn2 t; tn3 t]
         = wsum3 (fun _ => 1) (fun n => getp sel (nodeprop m n)) [a; b; third t (a, b)]).
      { intros t Ht. destruct (tria_node m (a, b) t a b W Hk (or_introl eq_refl) Ht) as [P [_ [_ [Ko T]]]].
        destruct (perm3_vertex _ _ _ _ P) as [_ [_ V]].
        assert (NN := vertex_prop m t _ W PC T V).
        destruct (nodeprop m (third t (a, b))) as [po|] eqn:Q; [|contradiction].
        exists po; split; [reflexivity|]. split; [apply node_prop_found; assumption|].
        intros sel; apply cent_perm; exact P. }
      destruct EAR as [[t1 [T HA]]|[t1 [t2 [T HA]]]];
        rewrite Hta in HA; injection HA as ->; cbn [snd fst].
      + destruct RR as [[t1' R1]|[t1' [t2' R2]]]; [|rewrite (r2_tris _ _ _ _ _ _ _ R2) in T; discriminate].
        assert (t1' = t1) by (rewrite (r1_tris _ _ _ _ _ _ R1) in T; congruence); subst t1'.
        destruct (TH t1) as [po [Q1 [Q2 Q3]]]; [rewrite T; left; reflexivity|].
        rewrite (r1_o1 _ _ _ _ _ _ R1). unfold other_prop; cbn [get_or bind]. rewrite Q2; cbn [bind].
        eexists; split; [reflexivity|]. intros sel. unfold node_stiffness. cbn [fst snd].
        rewrite T. cbn [map]. rewrite Q3.
        apply mat3_eq; unfold comb3, m3add, m3scale, m3map2, m3map, wsum3;
        cbn [m00 m01 m02 m10 m11 m12 m20 m21 m22];
        rewrite ?Sum_cons, ?Sum_nil; cbn [m00 m01 m02 m10 m11 m12 m20 m21 m22];
        rewrite ?Sum_cons, ?Sum_nil, Qa, Qb, Q1; cbn [getp]; rnum; field.
      + destruct RR as [[t1' R1]|[t1' [t2' R2]]]; [rewrite (r1_tris _ _ _ _ _ _ R1) in T; discriminate|].
        assert (t1' = t1 /\ t2' = t2) as [-> ->] by
          (rewrite (r2_tris _ _ _ _ _ _ _ R2) in T; injection T as X Y; auto).
        destruct (TH t1) as [po [Q1 [Q2 Q3]]]; [rewrite T; left; reflexivity|].
        destruct (TH t2) as [po' [Q1' [Q2' Q3']]]; [rewrite T; right; left; reflexivity|].
        rewrite (r2_o1 _ _ _ _ _ _ _ R2), (r2_o2 _ _ _ _ _ _ _ R2).
        unfold other_prop; cbn [get_or bind]. rewrite Q2; cbn [bind]. rewrite Q2'; cbn [bind].
        eexists; split; [reflexivity|]. intros sel. unfold node_stiffness. cbn [fst snd].
        rewrite T. cbn [map]. rewrite Q3, Q3'.
        apply mat3_eq; unfold comb4, m3add, m3scale, m3map2, m3map, wsum3;
        cbn [m00 m01 m02 m10 m11 m12 m20 m21 m22];
        rewrite ?Sum_cons, ?Sum_nil; cbn [m00 m01 m02 m10 m11 m12 m20 m21 m22];
        rewrite ?Sum_cons, ?Sum_nil, Qa, Qb, Q1, Q1'; cbn [getp]; rnum; field.
    - assert (AP : forall t, In t (tris_on m (a, b)) -> exists p, tprop t = Some p /\ tarea m t <> 0).
      { intros t Ht. apply tris_on_in in Ht. assert (Q := PC t (proj1 Ht)).
        destruct (tprop t) as [p|]; [|contradiction]. exists p; split; [reflexivity|].
        unfold tarea. assert (D := Rabs_no_R0 _ (pl_nondeg m PL t (proj1 Ht))). lra. }
      assert (POS := dom_area_pos m W PL (a, b) Hk).
      destruct EAR as [[t1 [T HA]]|[t1 [t2 [T HA]]]];
        rewrite Hta in HA; injection HA as ->; cbn [snd fst].
      + destruct (AP t1) as [p [Q NZ]]; [rewrite T; left; reflexivity|].
        rewrite Q; cbn [get_or bind]. eexists; split; [reflexivity|].
        intros sel; unfold tria_stiffness. rewrite T.
        apply mat3_eq; unfold wsum3; cbn [m00 m01 m02 m10 m11 m12 m20 m21 m22];
        rewrite !Sum_cons, !Sum_nil, Q; cbn [getp]; field; lra.
      + destruct (AP t1) as [p [Q NZ]]; [rewrite T; left; reflexivity|].
        destruct (AP t2) as [p' [Q' NZ']]; [rewrite T; right; left; reflexivity|].
        rewrite Q; cbn [get_or bind]. rewrite Q'; cbn [get_or bind].
        eexists; split; [reflexivity|].
        intros sel; unfold tria_stiffness.
        assert (DA := dom_area2 m (a, b) t1 t2 T). rewrite DA in POS. rewrite DA, T.
        apply mat3_eq; unfold combA, m3divs, m3add, m3scale, m3map2, m3map, wsum3;
        cbn [m00 m01 m02 m10 m11 m12 m20 m21 m22];
        rewrite !Sum_cons, !Sum_nil, Q, Q'; cbn [getp]; rnum; field; lra.
  Qed.

  Hypothesis I : indexed m.

  Lemma k0_edge_ready : exists us,
    k0_edge m pfn e = Ok us /\ upds_ok (length (nodes m) * 5) us /\
    forall u v, upd_form (length (nodes m) * 5) us u v
      = dom_area m k * dens (edge_stiffness m pfn pA k) (edge_stiffness m pfn pB k)
          (edge_stiffness m pfn pD k) (smoothed_strain m u k) (smoothed_strain m v k).
  Proof.
    assert (POS := dom_area_pos m W PL k Hk).
    destruct (edge_rows m W PL I k e Hk RD (-1)%Z) as [ix [rows [E1 [L [B [E2 G]]]]]].
    assert (ETA : exists ta, edge_areas m e = Ok ta)
      by (destruct edge_areas_ready as [[t1 [_ H]]|[t1 [t2 [_ H]]]]; eauto).
    destruct ETA as [ta Eta].
    destruct (edge_ABD_ready ta Eta) as [abd [E3 S]].
    exists (k0_updates ix (dom_area m k) (abd pA) (abd pB) (abd pD) rows).
    split; [|split].
    - unfold k0_edge. rewrite Eta; cbn [bind]. rewrite E1; cbn [bind]. rewrite E2; cbn [bind].
      rewrite (rd_Ac m k e RD); cbn [get_or bind]. rewrite E3; reflexivity.
    - assert (POSN : (0 < length (nodes m))%nat).
      { destruct (ready_nodes m k (fst k) (snd k) W Hk) as [Ka _].
        - left; destruct k; reflexivity.
        - apply rank_lt in Ka. lia. }
      assert (RNG : forall j c, In j ix -> (0 <= c < 5)%Z -> in_range (length (nodes m) * 5) (j * 5 + c)).
      { intros j c Hj Hc. unfold in_range. destruct (B j Hj) as [->|[n [Kn [-> _]]]].
        - lia.
        - apply rank_lt in Kn. unfold zr. lia. }
      destruct rows as [[[r1 r2] r3] r4]. unfold k0_updates.
      rewrite k0_entries_tensor by lra. intros x Hx. apply tensor_in in Hx.
      destruct Hx as [p [q [Hp [Hq ->]]]]; cbn [fst snd].
      assert (IX : forall i, (i < 4)%nat -> In (nth i ix 0%Z) ix) by (intros i Hi; apply nth_In; lia).
      assert (ALL : forall p, In p
        (unit_strains (dom_area m k) (nth 0 ix 0%Z)
          (nth0 0 (s_f r1) * s_le r1 * s_nx r1 + nth0 0 (s_f r2) * s_le r2 * s_nx r2 +
           nth0 0 (s_f r3) * s_le r3 * s_nx r3 + nth0 0 (s_f r4) * s_le r4 * s_nx r4)
          (nth0 0 (s_f r1) * s_le r1 * s_ny r1 + nth0 0 (s_f r2) * s_le r2 * s_ny r2 +
           nth0 0 (s_f r3) * s_le r3 * s_ny r3 + nth0 0 (s_f r4) * s_le r4 * s_ny r4) ++
        unit_strains (dom_area m k) (nth 1 ix 0%Z)
          (nth0 1 (s_f r1) * s_le r1 * s_nx r1 + nth0 1 (s_f r2) * s_le r2 * s_nx r2 +
           nth0 1 (s_f r3) * s_le r3 * s_nx r3 + nth0 1 (s_f r4) * s_le r4 * s_nx r4)
          (nth0 1 (s_f r1) * s_le r1 * s_ny r1 + nth0 1 (s_f r2) * s_le r2 * s_ny r2 +
           nth0 1 (s_f r3) * s_le r3 * s_ny r3 + nth0 1 (s_f r4) * s_le r4 * s_ny r4) ++
        unit_strains (dom_area m k) (nth 2 ix 0%Z)
          (nth0 2 (s_f r1) * s_le r1 * s_nx r1 + nth0 2 (s_f r2) * s_le r2 * s_nx r2 +
           nth0 2 (s_f r3) * s_le r3 * s_nx r3 + nth0 2 (s_f r4) * s_le r4 * s_nx r4)
          (nth0 2 (s_f r1) * s_le r1 * s_ny r1 + nth0 2 (s_f r2) * s_le r2 * s_ny r2 +
           nth0 2 (s_f r3) * s_le r3 * s_ny r3 + nth0 2 (s_f r4) * s_le r4 * s_ny r4) ++
        unit_strains (dom_area m k) (nth 3 ix 0%Z)
          (nth0 3 (s_f r1) * s_le r1 * s_nx r1 + nth0 3 (s_f r2) * s_le r2 * s_nx r2 +
           nth0 3 (s_f r3) * s_le r3 * s_nx r3 + nth0 3 (s_f r4) * s_le r4 * s_nx r4)
          (nth0 3 (s_f r1) * s_le r1 * s_ny r1 + nth0 3 (s_f r2) * s_le r2 * s_ny r2 +
           nth0 3 (s_f r3) * s_le r3 * s_ny r3 + nth0 3 (s_f r4) * s_le r4 * s_ny r4)) ->
        in_range (length (nodes m) * 5) (fst p)).
      { clear p q Hp Hq. intros p Hp.
        repeat (apply in_app_or in Hp; destruct Hp as [Hp|Hp]);
        unfold unit_strains in Hp; cbn [In] in Hp;
        repeat (destruct Hp as [<-|Hp]; [cbn [fst]; apply RNG; [apply IX; lia|lia]|]);
        destruct Hp. }
      split; apply ALL; assumption.
    - intros u v. rewrite k0_updates_form by lra. rewrite !S.
      assert (RS : forall w, row_strain (length (nodes m) * 5) ix (dom_area m k) rows w
                             = smoothed_strain m w k).
      { intros w. unfold row_strain, smoothed_strain.
        assert (GX : forall c, (c < 5)%nat ->
          row_x ix (dom_area m k) rows (gcomp (length (nodes m) * 5) w (Z.of_nat c)) = sgx m k (comp m w c)
          /\ row_y ix (dom_area m k) rows (gcomp (length (nodes m) * 5) w (Z.of_nat c)) = sgy m k (comp m w c)).
        { intros c Hc. destruct (G (gcomp (length (nodes m) * 5) w (Z.of_nat c))) as [-> ->].
          assert (Q : forall t, In t (tris_on m k) ->
             gcomp (length (nodes m) * 5) w (Z.of_nat c) (zr m (tn1 t)) = comp m w c (tn1 t) /\
             gcomp (length (nodes m) * 5) w (Z.of_nat c) (zr m (tn2 t)) = comp m w c (tn2 t) /\
             gcomp (length (nodes m) * 5) w (Z.of_nat c) (zr m (tn3 t)) = comp m w c (tn3 t)).
          { intros t Ht. apply tris_on_in in Ht; destruct Ht as [Ht _].
            repeat split; apply gcomp_comp; auto; apply (wf_vertices m W t); auto; unfold vertex; auto. }
          unfold sgx, sgy. split; f_equal; apply Sum_ext_in; intros t Ht;
          destruct (Q t Ht) as [Q1 [Q2 Q3]]; unfold tgx, tgy; rewrite Q1, Q2, Q3; reflexivity. }
        destruct (GX 0%nat) as [X0 Y0]; [lia|]. destruct (GX 1%nat) as [X1 Y1]; [lia|].
        destruct (GX 3%nat) as [X3 Y3]; [lia|]. destruct (GX 4%nat) as [X4 Y4]; [lia|].
        change (Z.of_nat 0) with 0%Z in *. change (Z.of_nat 1) with 1%Z in *.
        change (Z.of_nat 3) with 3%Z in *. change (Z.of_nat 4) with 4%Z in *.
        rewrite X0, X1, X3, X4, Y0, Y1, Y3, Y4. reflexivity. }
      rewrite !RS. reflexivity.
  Qed.
End Edge.

(** ** Assembly *)

Lemma k0_assemble_ready : forall m pfn, wf_mesh m -> plate m -> props_complete m pfn -> indexed m ->
  forall es K, mdim K = (length (nodes m) * 5)%nat ->
  (forall k e, In (k, e) es -> In k (edge_keys m) /\ ready m k e) ->
  exists K', k0_assemble m pfn es K = Ok K' /\ mdim K' = (length (nodes m) * 5)%nat /\
    forall u v, form K' u v = form K u v +
      Sum (fun k => dom_area m k *
         dens (edge_stiffness m pfn pA k) (edge_stiffness m pfn pB k) (edge_stiffness m pfn pD k)
              (smoothed_strain m u k) (smoothed_strain m v k)) (map fst es).
Proof.
  intros m pfn W PL PC I es; induction es as [|[k e] es IH]; intros K D H.
  - exists K; split; [reflexivity|]. split; [exact D|]. intros u v; cbn [map]; rewrite Sum_nil; ring.
  - destruct (H k e (or_introl eq_refl)) as [Hk RD].
    destruct (k0_edge_ready m W PL pfn PC k e Hk RD I) as [us [E [OK F]]].
    destruct (mupdates_form us K) as [K1 [E1 [D1 [_ F1]]]]; [rewrite D; exact OK|].
    destruct (IH K1) as [K2 [E2 [D2 F2]]]; [congruence|intros k' e' Hin; apply H; right; exact Hin|].
    exists K2. cbn [k0_assemble]. rewrite E; cbn [bind]. rewrite E1. split; [exact E2|].
    split; [exact D2|]. intros u v. rewrite F2, F1, D, F. cbn [map fst]. rewrite Sum_cons. ring.
Qed.

(** ** Numbering *)

Lemma number_nodes_keys : forall nds i, map fst (number_nodes (T := R) i nds) = map fst nds.
Proof. induction nds as [|[k n] nds IH]; intros i; cbn; [reflexivity|]. rewrite IH; reflexivity. Qed.

Lemma number_nodes_length : forall nds i, length (number_nodes (T := R) i nds) = length nds.
Proof. intros. rewrite <- (map_length fst), number_nodes_keys, map_length; reflexivity. Qed.

Lemma number_nodes_get : forall nds i n,
  dget Nat.eqb n (number_nodes (T := R) i nds)
  = option_map (set_index (i + index_in n (map fst nds))) (dget Nat.eqb n nds).
Proof.
  induction nds as [|[k nd] nds IH]; intros i n; [reflexivity|].
  cbn [number_nodes dget map fst index_in]. destruct (Nat.eqb n k).
  - rewrite Nat.add_0_r; reflexivity.
  - rewrite IH. replace (S i + index_in n (map fst nds))%nat with (i + S (index_in n (map fst nds)))%nat by lia.
    reflexivity.
Qed.

Definition numbered (m : mesh R) (es : list ((nat * nat) * edge R)) : mesh R :=
  {| nodes := number_nodes 0 (nodes m); elements := elements m; edges := es |}.

Lemma numbered_same : forall m es, map fst es = edge_keys m -> same m (numbered m es).
Proof.
  intros m es H. constructor.
  - unfold node_keys; apply number_nodes_keys.
  - apply number_nodes_length.
  - apply functional_extensionality; intros n. unfold pos, numbered; cbn [nodes].
    rewrite number_nodes_get. destruct (dget Nat.eqb n (nodes m)); reflexivity.
  - apply functional_extensionality; intros n. unfold nodeprop, numbered; cbn [nodes].
    rewrite number_nodes_get. destruct (dget Nat.eqb n (nodes m)); reflexivity.
  - reflexivity.
  - exact H.
Qed.

Lemma numbered_nid : forall (m : mesh R) es n nd, NoDup (node_keys m) ->
  In (n, nd) (nodes (numbered m es)) ->
  exists nd0, In (n, nd0) (nodes m) /\ nd = set_index (rank m n) nd0.
Proof.
  intros m es n nd N H. unfold numbered in H; cbn [nodes] in H.
  apply (in_dget Nat.eqb nat_eqb_spec) in H; [|rewrite number_nodes_keys; exact N].
  rewrite number_nodes_get in H.
  destruct (dget Nat.eqb n (nodes m)) as [nd0|] eqn:E; [|discriminate].
  exists nd0; split; [apply (dget_in Nat.eqb nat_eqb_spec); exact E|].
  cbn [option_map] in H. injection H as H. symmetry; exact H.
Qed.

Lemma numbered_wf : forall m es, wf_mesh m -> map fst es = edge_keys m ->
  (forall k e, In (k, e) es -> ready m k e) -> wf_mesh (numbered m es).
Proof.
  intros m es W K RD. assert (S := numbered_same m es K).
  constructor; try (rewrite ?(sm_keys _ _ S), ?(same_trias _ _ S), ?(sm_edges _ _ S); apply W; fail).
  - intros n nd H. destruct (numbered_nid m es n nd (wf_nodes m W) H) as [nd0 [H0 ->]].
    exact (wf_nid m W n nd0 H0).
  - intros k e H. assert (Rk := RD k e H). split; [apply (rd_ends m k e Rk)|].
    apply (edge_key_lt m W). rewrite <- K. apply in_map_iff; exists (k, e); auto.
  - intros k e H. rewrite (same_tris_on _ _ S). apply (rd_trias m k e (RD k e H)).
Qed.

Lemma numbered_indexed : forall m es, wf_mesh m -> map fst es = edge_keys m -> indexed (numbered m es).
Proof.
  intros m es W K n nd H.
  destruct (numbered_nid m es n nd (wf_nodes m W) H) as [nd0 [H0 ->]].
  rewrite (same_rank _ _ (numbered_same m es K)). reflexivity.
Qed.

(** ** calc_k0 *)

Record prepared (m : mesh R) : Prop := {
  pr_wf : wf_mesh m;
  pr_indexed : indexed m;
  pr_ready : forall k e, In (k, e) (edges m) -> ready m k e
}.

Theorem calc_k0_spec : forall m pfn, wf_mesh m -> plate m -> props_complete m pfn -> nodes m <> [] ->
  exists m' K, calc_k0 m pfn = (m', Ok K) /\ mdim K = (length (nodes m) * 5)%nat /\
    (forall u v, form K u v = k0_energy m pfn u v) /\ same m m' /\ prepared m'.
Proof.
  intros m pfn W PL PC NE.
  destruct (setup_edges_ready m (edges m) W PL (fun x H => H)) as [es [E [Ek RD]]].
  assert (S := numbered_same m es Ek).
  assert (W' := numbered_wf m es W Ek RD).
  assert (I' := numbered_indexed m es W Ek).
  assert (PL' := same_plate _ _ S PL).
  assert (PC' := same_props _ _ S pfn PC).
  assert (RD' : forall k e, In (k, e) es -> In k (edge_keys (numbered m es)) /\ ready (numbered m es) k e).
  { intros k e H; split; [|apply (same_ready _ _ S); auto].
    unfold edge_keys; cbn [edges numbered]. apply in_map_iff; exists (k, e); auto. }
  destruct (k0_assemble_ready (numbered m es) pfn W' PL' PC' I' es (zeros (length (nodes m) * 5)))
    as [K [EK [DK FK]]].
  { cbn [zeros mdim]. rewrite (sm_len _ _ S); reflexivity. }
  { exact RD'. }
  exists (numbered m es), K. split; [|split; [|split; [|split]]].
  - unfold calc_k0. rewrite (check_edges_ok m pfn (edges m) W PC (fun x H => H)), E.
    destruct (nodes m) as [|x l] eqn:En; [contradiction|].
    rewrite <- En in *. unfold numbered in EK |- *. rewrite En in EK |- *. rewrite EK. reflexivity.
  - rewrite DK, (sm_len _ _ S); reflexivity.
  - intros u v. rewrite FK, form_zeros, Rplus_0_l, Ek, <- (same_energy _ _ S).
    unfold k0_energy. rewrite (sm_edges _ _ S). reflexivity.
  - exact S.
  - constructor; [exact W'|exact I'|]. intros k e H; apply RD'; exact H.
Qed.
