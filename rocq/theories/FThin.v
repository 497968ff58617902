(** Plates with thinner laminates. *)
From Coq Require Import ZArith Reals List Bool Arith Lra Lia String.
From Verif Require Import Num Py Mesh Utils CalcK0 AddK0s Spec SpecK0 SpecKG SpecK0s SpecStab SpecStat SpecUnits SpecThin FSum FMat FTensor
  FGeom FDict FWf FAsm FSmooth FConn FDom FAny FK0s FK0u FStab FStab2 FStab3 FUnits FLin2 LStab.
Import ListNotations.
Local Open Scope R_scope.
Implicit Types (m : mesh R).

Section Thin.
  Variable s : R.
  Hypothesis Hs : 0 < s.
  Variable m : mesh R.
  Hypothesis W : wf_mesh m.
  Let m' := mesh_thin s m.
  Let tr (t : tria R) : tria R :=
    {| eid := eid t; tn1 := tn1 t; tn2 := tn2 t; tn3 := tn3 t; tprop := option_map (prop_thin s) (tprop t); tedges := tedges t |}.

  Lemma th_conn : conn m m'.
  Proof.
    constructor; unfold m'; cbn [mesh_thin nodes elements edges]; try reflexivity.
    - rewrite map_map. apply map_ext. intros [k x]; reflexivity.
    - rewrite map_map. apply map_ext. intros [k x]; reflexivity.
  Qed.
  Lemma th_wf : wf_mesh m'.
  Proof. apply (conn_wf m _ th_conn W). Qed.
  Lemma th_keys : node_keys m' = node_keys m.
  Proof. symmetry; apply conn_node_keys, th_conn. Qed.
  Lemma th_len : List.length (nodes m') = List.length (nodes m).
  Proof. unfold m'; cbn [mesh_thin nodes]. apply map_length. Qed.
  Lemma th_trias : trias_of m' = map tr (trias_of m).
  Proof. unfold trias_of, m'; cbn [mesh_thin elements]. rewrite !map_map. reflexivity. Qed.
  Lemma th_tris : forall k, tris_on m' k = map tr (tris_on m k).
  Proof.
    intros k. unfold tris_on. rewrite th_trias. induction (trias_of m) as [|t l IH]; [reflexivity|].
    cbn [map filter]. rewrite IH. change (is_vertex (fst k) (tr t)) with (is_vertex (fst k) t).
    change (is_vertex (snd k) (tr t)) with (is_vertex (snd k) t). destruct (_ && _); reflexivity.
  Qed.
  Lemma th_dget : forall n, dget Nat.eqb n (nodes m') =
    option_map (fun nd => {| nid := nid nd; nxyz := nxyz nd; nprop := option_map (prop_thin s) (nprop nd); nindex := nindex nd;
                             nedges := nedges nd; ntrias := ntrias nd |}) (dget Nat.eqb n (nodes m)).
  Proof.
    intros n. unfold m'; cbn [mesh_thin nodes]. induction (nodes m) as [|[k nd] l IH]; [reflexivity|].
    cbn [map dget fst snd]. destruct (Nat.eqb_spec n k) as [->|_]; [reflexivity|exact IH].
  Qed.
  Lemma th_pos : forall n, pos m' n = pos m n.
  Proof. intros n. unfold pos. rewrite th_dget. destruct (dget Nat.eqb n (nodes m)) as [nd|]; reflexivity. Qed.
  Lemma th_prop : forall n, nodeprop m' n = option_map (prop_thin s) (nodeprop m n).
  Proof. intros n. unfold nodeprop. rewrite th_dget. destruct (dget Nat.eqb n (nodes m)); reflexivity. Qed.
  Lemma th_comp : comp m' = comp m.
  Proof. unfold comp, rank. rewrite th_keys. reflexivity. Qed.
  Lemma th_tdet : forall t, tdet m' (tr t) = tdet m t.
  Proof. intros t. unfold tdet. cbn [tr tn1 tn2 tn3]. rewrite !th_pos. reflexivity. Qed.
  Lemma th_tarea : forall t, tarea m' (tr t) = tarea m t.
  Proof. intros t. unfold tarea. rewrite th_tdet. reflexivity. Qed.
  Lemma th_plate : plate m -> plate m'.
  Proof.
    intros PL. constructor.
    - destruct (pl_flat m PL) as [z H]. exists z. intros n. rewrite th_keys. intros Hn. rewrite th_pos. apply H, Hn.
    - intros t. rewrite th_trias. intros H. apply in_map_iff in H. destruct H as [t0 [<- Ht]]. rewrite th_tdet. apply (pl_nondeg m PL t0 Ht).
    - intros k Hk. rewrite th_tris, map_length. apply (pl_two m PL k Hk).
    - intros k t1 t2 Hk T. rewrite th_tris in T.
      destruct (tris_on m k) as [|a [|b [|]]] eqn:E; try discriminate T. injection T as <- <-.
      change (third (tr a) k) with (third a k). change (third (tr b) k) with (third b k). rewrite !th_pos. apply (pl_sides m PL k a b Hk E).
  Qed.
  Lemma th_props : forall pfn, props_complete m pfn -> props_complete m' pfn.
  Proof.
    intros [|]; unfold props_complete.
    - intros H k Hk. rewrite !th_prop. destruct (H k Hk) as [A B].
      split; [destruct (nodeprop m (fst k))|destruct (nodeprop m (snd k))]; try congruence; discriminate.
    - intros H t. rewrite th_trias. intros Ht. apply in_map_iff in Ht. destruct Ht as [t0 [<- Ht]]. cbn [tr tprop].
      assert (X := H t0 Ht). destruct (tprop t0); [discriminate|congruence].
  Qed.
  Lemma th_valid : forall pfn, valid m pfn -> valid m' pfn.
  Proof.
    intros pfn [_ PL PC N]. constructor; [exact th_wf|apply th_plate; exact PL|apply th_props; exact PC|].
    unfold m'; cbn [mesh_thin nodes]. destruct (nodes m); [congruence|discriminate].
  Qed.
  Lemma th_all : forall (P Q : prop R -> Prop), (forall p, P p -> Q (prop_thin s p)) -> all_props m P -> all_props m' Q.
  Proof.
    intros P Q H [PN PT]. split.
    - intros n p. rewrite th_prop. destruct (nodeprop m n) as [q|] eqn:E; [|discriminate]. intros X; injection X as <-. apply H, (PN n q E).
    - intros t p. rewrite th_trias. intros Ht. apply in_map_iff in Ht. destruct Ht as [t0 [<- Ht]]. cbn [tr tprop].
      destruct (tprop t0) as [q|] eqn:E; [|discriminate]. intros X; injection X as <-. apply H, (PT t0 q Ht E).
  Qed.
  Lemma th_sp : all_props m shear_pos -> all_props m' shear_pos.
  Proof.
    apply th_all. intros p [H1 [H2 [H3 [H4 H5]]]]. cbn [prop_thin ph pk13 pk23 pE scale2 e00 e11]. unfold shear_pos. cbn [prop_thin ph pk13 pk23 pE scale2 e00 e11].
    repeat split; try assumption; apply Rmult_lt_0_compat; assumption.
  Qed.
  Lemma th_dens : forall p e, dens (pA (prop_thin s p)) (pB (prop_thin s p)) (pD (prop_thin s p)) e e =
    s * dens (pA p) (pB p) (pD p) (Strain (exx e) (eyy e) (exy e) (s * kxx e) (s * kyy e) (s * kxy e)) (Strain (exx e) (eyy e) (exy e) (s * kxx e) (s * kyy e) (s * kxy e)).
  Proof. intros p e. unfold dens, quad3, prop_thin, scale3; cbn [pA pB pD exx eyy exy kxx kyy kxy m00 m01 m02 m10 m11 m12 m20 m21 m22]. ring. Qed.
  Lemma th_pd : all_props m pos_def -> all_props m' pos_def.
  Proof.
    apply th_all. intros p H e N. rewrite th_dens. apply Rmult_lt_0_compat; [exact Hs|]. apply H. intros E. apply N. destruct e as [a b c d e f]; cbn [exx eyy exy kxx kyy kxy] in E.
    injection E as -> -> -> E1 E2 E3. assert (Z : forall x, s * x = 0 -> x = 0) by (intros x X; apply Rmult_integral in X; destruct X; lra).
    rewrite (Z _ E1), (Z _ E2), (Z _ E3). reflexivity.
  Qed.

  Hypothesis PL : plate m.
  Lemma th_sg : forall k q, sgx m' k q = sgx m k q /\ sgy m' k q = sgy m k q.
  Proof.
    intros k q. assert (G : forall t, tgx m' (tr t) q = tgx m t q /\ tgy m' (tr t) q = tgy m t q) by (intros t; unfold tgx, tgy; rewrite th_tdet; cbn [tr tn1 tn2 tn3]; rewrite !th_pos; auto).
    unfold sgx, sgy. rewrite th_tris, !Sum_map.
    rewrite (Sum_ext _ (fun t => tarea m' (tr t)) (tarea m)) by apply th_tarea.
    split; f_equal; apply Sum_ext; intros t; rewrite th_tarea; [rewrite (proj1 (G t))|rewrite (proj2 (G t))]; reflexivity.
  Qed.
  Lemma th_dof : forall u i n, (i < 5)%nat -> comp m (thin_field s u) i n = (if (i <? 2)%nat then s else 1) * comp m u i n.
  Proof. intros u i n Hi. unfold comp, thin_field. rewrite Nat.add_comm, Nat.mod_add, (Nat.mod_small i) by lia. reflexivity. Qed.
  Lemma th_sgu : forall k u i, (i < 5)%nat ->
    sgx m' k (comp m' (thin_field s u) i) = (if (i <? 2)%nat then s else 1) * sgx m k (comp m u i) /\
    sgy m' k (comp m' (thin_field s u) i) = (if (i <? 2)%nat then s else 1) * sgy m k (comp m u i).
  Proof.
    intros k u i Hi. rewrite th_comp. destruct (th_sg k (comp m (thin_field s u) i)) as [-> ->].
    rewrite (sgx_ext m k _ (fun n => (if (i <? 2)%nat then s else 1) * comp m u i n)) by (intros n _; apply th_dof, Hi).
    rewrite (sgy_ext m k _ (fun n => (if (i <? 2)%nat then s else 1) * comp m u i n)) by (intros n _; apply th_dof, Hi).
    split; [apply (proj1 (sg_scal m k _ _))|apply (proj2 (sg_scal m k _ _))].
  Qed.
  Lemma th_strain : forall u k, let e := smoothed_strain m u k in
    smoothed_strain m' (thin_field s u) k = Strain (s * exx e) (s * eyy e) (s * exy e) (kxx e) (kyy e) (kxy e).
  Proof.
    intros u k e. unfold e, smoothed_strain; cbn [exx eyy exy kxx kyy kxy].
    rewrite !(fun i H => proj1 (th_sgu k u i H)), !(fun i H => proj2 (th_sgu k u i H)) by lia. cbn [Nat.ltb Nat.leb]. f_equal; ring.
  Qed.
  Lemma th_dom : forall k, dom_area m' k = dom_area m k.
  Proof. intros k. unfold dom_area. rewrite th_tris, Sum_map. rewrite (Sum_ext _ _ (tarea m)) by apply th_tarea. reflexivity. Qed.

  Lemma th_stiffness : forall sel c pfn k, (forall p, sel (prop_thin s p) = scale3 c (sel p)) -> edge_stiffness m' pfn sel k = scale3 c (edge_stiffness m pfn sel k).
  Proof.
    intros sel c pfn k HS.
    assert (Z : forall o, getp sel (option_map (prop_thin s) o) = scale3 c (getp sel o)).
    { intros [p|]; cbn [getp option_map]; [apply HS|]. unfold scale3, zero3; cbn. f_equal; ring. }
    unfold edge_stiffness. destruct pfn.
    - unfold node_stiffness. rewrite th_tris, !th_prop, !Z, map_map. cbn [tr tn1 tn2 tn3].
      assert (X : map (fun t => wsum3 (fun _ => 1) (fun n => getp sel (nodeprop m' n)) [tn1 t; tn2 t; tn3 t]) (tris_on m k)
        = map (scale3 c) (map (fun t => wsum3 (fun _ => 1) (fun n => getp sel (nodeprop m n)) [tn1 t; tn2 t; tn3 t]) (tris_on m k))).
      { rewrite map_map. apply map_ext. intros t. apply wsum3_scale. intros n _. rewrite th_prop. apply Z. }
      rewrite X. rewrite <- (wsum3_scale _ (fun _ => 1) (fun X => X) (fun X => scale3 c X)) by reflexivity.
      match goal with |- wsum3 _ _ (?a :: ?b :: map ?g ?l) = wsum3 _ _ (?a0 :: ?b0 :: ?l) => change (a :: b :: map g l) with (map g (a0 :: b0 :: l)); generalize (a0 :: b0 :: l) end.
      intros l. unfold wsum3. rewrite !Sum_map. reflexivity.
    - unfold tria_stiffness. rewrite th_tris. rewrite <- (wsum3_scale _ (tarea m) (fun t => getp sel (tprop t)) (fun t => getp sel (tprop (tr t)))) by (intros t _; apply Z).
      unfold wsum3. rewrite !Sum_map. rewrite (Sum_ext _ (fun t => tarea m' (tr t)) (tarea m)) by apply th_tarea.
      f_equal; f_equal; apply Sum_ext; intros t; rewrite th_tarea; reflexivity.
  Qed.
  Lemma th_energy : forall pfn u v, k0_energy m' pfn (thin_field s u) (thin_field s v) = s ^ 3 * k0_energy m pfn u v.
  Proof.
    intros pfn u v. unfold k0_energy. change (edge_keys m') with (edge_keys m). rewrite <- Sum_scal. apply Sum_ext. intros k.
    rewrite th_dom, !th_strain, (th_stiffness pA s), (th_stiffness pB (s ^ 2)), (th_stiffness pD (s ^ 3)) by reflexivity.
    unfold dens, quad3, scale3; cbn [exx eyy exy kxx kyy kxy m00 m01 m02 m10 m11 m12 m20 m21 m22]. ring.
  Qed.
  Lemma th_kG : forall pfn d u v, kG_energy m' pfn (thin_field s d) (thin_field s u) (thin_field s v) = s ^ 2 * kG_energy m pfn d u v.
  Proof.
    intros pfn d u v. unfold kG_energy. change (edge_keys m') with (edge_keys m). rewrite <- Sum_scal. apply Sum_ext. intros k. unfold edge_work.
    rewrite th_dom, !th_strain, (th_stiffness pA s), (th_stiffness pB (s ^ 2)) by reflexivity.
    rewrite !(fun u => proj1 (th_sgu k u 2 ltac:(lia))), !(fun u => proj2 (th_sgu k u 2 ltac:(lia))). cbn [Nat.ltb Nat.leb].
    unfold work, membrane, scale3; cbn [exx eyy exy kxx kyy kxy m00 m01 m02 m10 m11 m12 m20 m21 m22 vx vy vz]. ring.
  Qed.

  (** ** Shear *)
  Lemma th_at_node : forall u n, at_node m' (thin_field s u) n = at_node m u n.
  Proof. intros u n. unfold at_node. rewrite th_comp, th_pos, !th_dof by lia. cbn [Nat.ltb Nat.leb]. rewrite !Rmult_1_l. reflexivity. Qed.
  Lemma th_method : forall method u t, method_strain method m' (thin_field s u) (tr t) = method_strain method m u t.
  Proof.
    intros method u t. unfold method_strain. destruct (String.eqb method "cell-based").
    - unfold strain_cell. cbn [tr tn1 tn2 tn3]. rewrite !th_at_node. reflexivity.
    - unfold strain_ns. rewrite th_tdet. cbn [tr tn1 tn2 tn3]. rewrite !th_at_node. reflexivity.
  Qed.
  Lemma th_size : forall mfa t, tria_size m' mfa (tr t) = tria_size m mfa t.
  Proof. intros mfa t. unfold tria_size, dist. rewrite th_tarea. cbn [tr tn1 tn2 tn3]. rewrite !th_pos. reflexivity. Qed.
  Lemma th_pval : forall (g : prop R -> R) c o, (forall p, g (prop_thin s p) = c * g p) -> pval g (option_map (prop_thin s) o) = c * pval g o.
  Proof. intros g c [p|] H; cbn [pval option_map]; [apply H|ring]. Qed.
  Lemma th_val : forall pfn g c t, (forall p, g (prop_thin s p) = c * g p) -> tria_val m' pfn g (tr t) = c * tria_val m pfn g t.
  Proof.
    intros pfn g c t H. unfold tria_val. cbn [tr tn1 tn2 tn3 tprop]. rewrite !th_prop, !(th_pval g c) by exact H. destruct pfn; [field|reflexivity].
  Qed.

  (** shear energy without correction *)
  Definition shear_term (method : string) (pfn : bool) (u v : nat -> R) (t : tria R) : R :=
    tarea m t * (tria_G44 m pfn t * fst (method_strain method m u t) * fst (method_strain method m v t) + tria_G55 m pfn t * snd (method_strain method m u t) * snd (method_strain method m v t)).
  Lemma th_shear : forall method pfn alpha mfa u v,
    shear_energy (method_strain method m') m' pfn alpha mfa (thin_field s u) (thin_field s v) =
    Sum (fun t => s * corr alpha (s * tria_val m pfn ph t) (tria_size m mfa t) * shear_term method pfn u v t) (trias_of m).
  Proof.
    intros method pfn alpha mfa u v. unfold shear_energy, shear_term. rewrite th_trias, Sum_map. apply Sum_ext. intros t. rewrite !th_method, th_tarea, th_size.
    rewrite (th_val pfn ph s) by reflexivity. unfold tria_G44, tria_G55.
    rewrite (th_val pfn pk23 1), (th_val pfn pk13 1) by (intros; cbn; ring).
    rewrite (th_val pfn (fun p => e00 (pE p)) s), (th_val pfn (fun p => e11 (pE p)) s) by reflexivity. ring.
  Qed.
  Lemma sh_shear : forall method pfn alpha mfa u v,
    shear_energy (method_strain method m) m pfn alpha mfa u v = Sum (fun t => corr alpha (tria_val m pfn ph t) (tria_size m mfa t) * shear_term method pfn u v t) (trias_of m).
  Proof. intros. unfold shear_energy, shear_term. apply Sum_ext. intros t. ring. Qed.

  Variable pfn : bool.
  Hypothesis V : valid m pfn.
  Hypothesis SP : all_props m shear_pos.

  Lemma shear_term_nn : forall method u t, In t (trias_of m) -> 0 <= shear_term method pfn u u t.
  Proof.
    intros method u t Ht. unfold shear_term. apply Rmult_le_pos; [left; apply (area_pos m PL t Ht)|].
    assert (G4 : 0 < tria_G44 m pfn t) by (apply Rmult_lt_0_compat; apply (tria_val_pos m pfn V); try exact Ht; apply (all_imp m shear_pos); try exact SP; intros p P; apply P).
    assert (G5 : 0 < tria_G55 m pfn t) by (apply Rmult_lt_0_compat; apply (tria_val_pos m pfn V); try exact Ht; apply (all_imp m shear_pos); try exact SP; intros p P; apply P).
    assert (SQ : forall c x, 0 < c -> 0 <= c * x * x) by (intros c x Hc; rewrite Rmult_assoc; apply Rmult_le_pos; [lra|apply Rle_0_sqr]).
    apply Rplus_le_le_0_compat; apply SQ; assumption.
  Qed.
  Lemma h_pos : forall t, In t (trias_of m) -> 0 < tria_val m pfn ph t.
  Proof. intros t Ht. apply (tria_val_pos m pfn V); [|exact Ht]. apply (all_imp m shear_pos); [|exact SP]. intros p P; apply P. Qed.
  Lemma tria_val_le : forall f h t, 0 <= h -> all_props m (fun p => f p <= h) -> tria_val m pfn f t <= h \/ ~ In t (trias_of m).
  Proof.
    intros f h t Hh [H1 H2]. destruct pfn; unfold tria_val.
    - left. assert (X : forall n, pval f (nodeprop m n) <= h) by (intros n; destruct (nodeprop m n) as [p|] eqn:E; cbn [pval]; [apply (H1 n p E)|exact Hh]).
      assert (X1 := X (tn1 t)). assert (X2 := X (tn2 t)). assert (X3 := X (tn3 t)). lra.
    - destruct (tprop t) as [p|] eqn:E; cbn [pval]; [|left; exact Hh].
      destruct (Rle_dec (f p) h) as [L|L]; [left; exact L|right; intros Ht; apply L, (H2 t p Ht E)].
  Qed.

  (** correction factors *)
  Lemma corr_thin : forall alpha h l, 0 <= alpha -> 0 < h -> s <= 1 -> 0 < l ->
    s ^ 3 * corr alpha h l <= s * corr alpha (s * h) l.
  Proof.
    intros alpha h l A Hh S1 Hl. unfold corr. assert (HH := Rmult_lt_0_compat _ _ Hh Hh). assert (AL := Rmult_le_pos _ _ A (Rlt_le _ _ (Rmult_lt_0_compat _ _ Hl Hl))).
    assert (SS := Rmult_lt_0_compat _ _ Hs Hs). assert (SH := Rmult_lt_0_compat _ _ SS HH).
    assert (S2 : s * s <= 1) by (replace 1 with (1 * 1) by ring; apply Rmult_le_compat; lra).
    assert (LE : s * s * (h * h) <= h * h) by (rewrite <- (Rmult_1_l (h * h)) at 2; apply Rmult_le_compat_r; lra).
    replace (s ^ 3 * (h * h / (h * h + alpha * (l * l)))) with (s * (s * s * (h * h)) * / (h * h + alpha * (l * l))) by (field; lra).
    replace (s * (s * h * (s * h) / (s * h * (s * h) + alpha * (l * l)))) with (s * (s * s * (h * h)) * / (s * s * (h * h) + alpha * (l * l))) by (field; lra).
    apply Rmult_le_compat_l; [left; apply Rmult_lt_0_compat; lra|]. apply Rinv_le_contravar; lra.
  Qed.
  Lemma corr_thick : forall alpha h l r, 0 < alpha -> 0 < h -> 0 < l -> 0 <= r -> h * h <= r * (alpha * (l * l)) ->
    s * corr alpha (s * h) l <= s ^ 3 * ((1 + r) * corr alpha h l).
  Proof.
    intros alpha h l r A Hh Hl Hr LE. unfold corr. assert (HH := Rmult_lt_0_compat _ _ Hh Hh). assert (AL := Rmult_lt_0_compat _ _ A (Rmult_lt_0_compat _ _ Hl Hl)).
    assert (SS := Rmult_lt_0_compat _ _ Hs Hs). assert (SH := Rmult_lt_0_compat _ _ SS HH).
    replace (s ^ 3 * ((1 + r) * (h * h / (h * h + alpha * (l * l))))) with (s * (s * s * (h * h)) * ((1 + r) * / (h * h + alpha * (l * l)))) by (field; lra).
    replace (s * (s * h * (s * h) / (s * h * (s * h) + alpha * (l * l)))) with (s * (s * s * (h * h)) * / (s * s * (h * h) + alpha * (l * l))) by (field; lra).
    apply Rmult_le_compat_l; [left; apply Rmult_lt_0_compat; lra|].
    apply Rle_trans with (/ (alpha * (l * l))); [apply Rinv_le_contravar; lra|].
    set (x := alpha * (l * l)) in *. set (y := h * h) in *.
    replace (/ x) with ((x + y) * / (x * (x + y))) by (field; lra). replace ((1 + r) * / (y + x)) with ((1 + r) * x * / (x * (x + y))) by (field; lra).
    apply Rmult_le_compat_r; [left; apply Rinv_0_lt_compat, Rmult_lt_0_compat; lra|lra].
  Qed.
  Lemma corr_none : forall h l, 0 < h -> corr 0 h l = 1.
  Proof. exact corr_zero. Qed.

  Lemma size_pos : forall mfa t, In t (trias_of m) -> 0 < tria_size m mfa t.
  Proof.
    intros mfa t Ht. unfold tria_size. destruct mfa; [apply sqrt_lt_R0, (area_pos m PL t Ht)|].
    apply Rlt_le_trans with (dist m (tn1 t) (tn2 t)); [|apply Rmax_l]. unfold dist.
    apply sqrt_lt_R0. assert (N := pl_nondeg m PL t Ht).
    set (dx := vx (pos m (tn1 t)) - vx (pos m (tn2 t))). set (dy := vy (pos m (tn1 t)) - vy (pos m (tn2 t))). set (dz := vz (pos m (tn1 t)) - vz (pos m (tn2 t))).
    assert (Q1 := Rle_0_sqr dx). assert (Q2 := Rle_0_sqr dy). assert (Q3 := Rle_0_sqr dz). unfold Rsqr in *.
    destruct (Req_dec dx 0) as [E|E]; [|apply Rsqr_pos_lt in E; unfold Rsqr in E; lra]. destruct (Req_dec dy 0) as [E'|E']; [|apply Rsqr_pos_lt in E'; unfold Rsqr in E'; lra].
    exfalso. apply N. unfold tdet, det2. replace (vx (pos m (tn2 t)) - vx (pos m (tn1 t))) with (- dx) by (unfold dx; ring). replace (vy (pos m (tn2 t)) - vy (pos m (tn1 t))) with (- dy) by (unfold dy; ring).
    rewrite E, E'. ring.
  Qed.

  Lemma Sum_mono : forall A (f g : A -> R) l, (forall a, In a l -> f a <= g a) -> Sum f l <= Sum g l.
  Proof. intros A f g l. induction l as [|a l IH]; intros H; [rewrite !Sum_nil; lra|]. rewrite !Sum_cons. apply Rplus_le_compat; [apply H; left; reflexivity|apply IH; intros; apply H; right; assumption]. Qed.

  Lemma shear_lower : forall method alpha mfa u, 0 <= alpha -> s <= 1 ->
    s ^ 3 * shear_energy (method_strain method m) m pfn alpha mfa u u <= shear_energy (method_strain method m') m' pfn alpha mfa (thin_field s u) (thin_field s u).
  Proof.
    intros method alpha mfa u A S1. rewrite th_shear, sh_shear, <- Sum_scal. apply Sum_mono. intros t Ht. rewrite <- Rmult_assoc.
    apply Rmult_le_compat_r; [apply shear_term_nn, Ht|]. apply corr_thin; [exact A|apply h_pos, Ht|exact S1|apply size_pos, Ht].
  Qed.
  Lemma shear_upper : forall method alpha mfa r u, 0 < alpha -> 0 <= r -> thinner m mfa alpha r ->
    shear_energy (method_strain method m') m' pfn alpha mfa (thin_field s u) (thin_field s u) <= s ^ 3 * ((1 + r) * shear_energy (method_strain method m) m pfn alpha mfa u u).
  Proof.
    intros method alpha mfa r u A Hr [h [TH LE]]. rewrite th_shear, sh_shear, <- !Sum_scal. apply Sum_mono. intros t Ht. rewrite <- !Rmult_assoc.
    apply Rmult_le_compat_r; [apply shear_term_nn, Ht|]. rewrite (Rmult_assoc (s ^ 3)). assert (HP := h_pos t Ht).
    apply corr_thick; [exact A|exact HP|apply size_pos, Ht|exact Hr|]. apply Rle_trans with (2 := LE t Ht).
    assert (L : tria_val m pfn ph t <= h).
    { destruct (Rle_dec 0 h) as [Q|Q]; [destruct (tria_val_le ph h t Q TH) as [X|X]; [exact X|contradiction]|].
      exfalso. apply Q. clear -TH HP Ht V SP Q. destruct TH as [T1 T2]. destruct SP as [P1 P2]. assert (VP := vertex_prop m pfn V). assert (PC := va_props _ _ V). destruct pfn.
      - specialize (VP eq_refl t (tn1 t) Ht (or_introl eq_refl)). destruct (nodeprop m (tn1 t)) as [p|] eqn:E; [|congruence]. assert (X := T1 _ _ E). assert (Y := proj1 (P1 _ _ E)). lra.
      - specialize (PC t Ht). destruct (tprop t) as [p|] eqn:E; [|congruence]. assert (X := T2 _ _ Ht E). assert (Y := proj1 (P2 _ _ Ht E)). lra. }
    apply Rmult_le_compat; lra.
  Qed.
  Lemma shear_uncorrected : forall method mfa u, shear_energy (method_strain method m') m' pfn 0 mfa (thin_field s u) (thin_field s u) = s * shear_energy (method_strain method m) m pfn 0 mfa u u.
  Proof.
    intros method mfa u. rewrite th_shear, sh_shear, <- Sum_scal. apply Sum_ext_in. intros t Ht. assert (HP := h_pos t Ht).
    rewrite !corr_zero; [ring|exact HP|apply Rmult_lt_0_compat; [exact Hs|exact HP]].
  Qed.

  Lemma th_admissible : forall S n u, admissible n S u -> admissible n S (thin_field s u).
  Proof. intros S n u A i Hi Si. unfold thin_field. rewrite (A i Hi Si). ring. Qed.
  Lemma th_work : forall n load u, load_work n (thin_load s load) (thin_field s u) = s ^ 3 * load_work n load u.
  Proof. intros n load u. unfold load_work. rewrite <- Sum_scal. apply Sum_ext. intros i. unfold thin_load, thin_field. destruct (_ <? _)%nat; ring. Qed.
  Lemma th_back : forall u i, thin_field s (thin_field (/ s) u) i = u i.
  Proof. intros u i. unfold thin_field. destruct (_ <? _)%nat; field; lra. Qed.
End Thin.
