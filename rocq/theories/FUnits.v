(** Meshes in other units. *)
From Coq Require Import ZArith Reals List Bool Arith Lra Lia.
From Verif Require Import Num Py Mesh Utils GenEdgeB GenEdgeI CalcK0 AddK0s Spec SpecK0 SpecKG SpecK0s SpecEdge SpecUnits FTree FSum FMat FTensor
  FGeom FDict FWf FSetup FAsm FK0 FSmooth FConn FDom FAny FKG FK0s FK0e FK0t FMove FK0u FEdge FEdge2.
Import ListNotations.
Local Open Scope R_scope.
Implicit Types (m : mesh R).

(** ** Dimensions of the statements of the edge-based method *)

(** powers of length and force *)
Definition kdim (k : kind) : Z * Z := match k with Length => (1, 0) | Area => (2, 0) | Stiffness => (-1, 1) end%Z.
Fixpoint edim (kd : nat -> kind) (e : expr) : option (Z * Z) :=
  let same a b := obind a (fun x => obind b (fun y => if (Z.eqb (fst x) (fst y) && Z.eqb (snd x) (snd y))%bool then Some x else None)) in
  match e with
  | EV i => Some (kdim (kd i))
  | EL _ | EZ _ => Some (0, 0)%Z
  | Eadd a b | Esub a b => same (edim kd a) (edim kd b)
  | Emul a b => obind (edim kd a) (fun x => obind (edim kd b) (fun y => Some (fst x + fst y, snd x + snd y)%Z))
  | Ediv a b => obind (edim kd a) (fun x => obind (edim kd b) (fun y => Some (fst x - fst y, snd x - snd y)%Z))
  | Eopp a => edim kd a
  end.

Lemma edim_ok : forall kd c f L r r', 0 < c -> 0 < f ->
  (forall i, r' i = powerRZ c (fst (kdim (kd i))) * powerRZ f (snd (kdim (kd i))) * r i) ->
  forall e d, edim kd e = Some d -> eval L r' e = powerRZ c (fst d) * powerRZ f (snd d) * eval L r e.
Proof.
  intros kd c f L r r' Hc Hf H. assert (Nc : c <> 0) by lra. assert (Nf : f <> 0) by lra.
  assert (PC : forall z, powerRZ c z <> 0) by (intros; apply powerRZ_NOR; exact Nc). assert (PF : forall z, powerRZ f z <> 0) by (intros; apply powerRZ_NOR; exact Nf).
  induction e as [i|j|z|a IHa b IHb|a IHa b IHb|a IHa b IHb|a IHa b IHb|a IHa]; intros d E; cbn [edim eval] in *.
  - injection E as <-. apply H.
  - injection E as <-. cbn. ring.
  - injection E as <-. cbn. ring.
  - destruct (edim kd a) as [x|]; [|discriminate]. destruct (edim kd b) as [y|]; [|discriminate]. cbn [obind] in E.
    destruct (Z.eqb_spec (fst x) (fst y)) as [E1|]; [|discriminate]. destruct (Z.eqb_spec (snd x) (snd y)) as [E2|]; [|discriminate]. injection E as <-.
    rewrite (IHa _ eq_refl), (IHb _ eq_refl), E1, E2. ring.
  - destruct (edim kd a) as [x|]; [|discriminate]. destruct (edim kd b) as [y|]; [|discriminate]. cbn [obind] in E.
    destruct (Z.eqb_spec (fst x) (fst y)) as [E1|]; [|discriminate]. destruct (Z.eqb_spec (snd x) (snd y)) as [E2|]; [|discriminate]. injection E as <-.
    rewrite (IHa _ eq_refl), (IHb _ eq_refl), E1, E2. ring.
  - destruct (edim kd a) as [x|]; [|discriminate]. destruct (edim kd b) as [y|]; [|discriminate]. injection E as <-. cbn [fst snd].
    rewrite (IHa _ eq_refl), (IHb _ eq_refl), !powerRZ_add by assumption. ring.
  - destruct (edim kd a) as [x|]; [|discriminate]. destruct (edim kd b) as [y|]; [|discriminate]. injection E as <-. cbn [fst snd].
    rewrite (IHa _ eq_refl), (IHb _ eq_refl). unfold Z.sub. rewrite !powerRZ_add, !powerRZ_neg' by assumption.
    unfold Rdiv. rewrite !Rinv_mult. ring.
  - rewrite (IHa _ E). ring.
Qed.

Definition dim_entry (n : Z) (kd : nat -> kind) (x : Z * Z * expr) : bool :=
  match edim kd (snd x) with
  | Some d => Z.eqb (fst d) (sz (fst (fst x)) + sz (snd (fst x)) - 1) && Z.eqb (snd d) 1
      && (Z.leb 2 (fst (fst x) mod 5) && Z.leb 2 (snd (fst x) mod 5))
      && (Z.leb 0 (fst (fst x)) && Z.ltb (fst (fst x)) (n * 5)) && (Z.leb 0 (snd (fst x)) && Z.ltb (snd (fst x)) (n * 5))
  | None => false
  end%bool.
Lemma eb_dim : forallb (dim_entry 3 kb) eb = true.
Proof. vm_compute. reflexivity. Qed.
Lemma ei_dim : forallb (dim_entry 4 ki) ei = true.
Proof. vm_compute. reflexivity. Qed.

Section Units.
  Variables c f : R.
  Hypothesis Hc : 0 < c.
  Hypothesis Hf : 0 < f.
  Variable m : mesh R.
  Hypothesis W : wf_mesh m.
  Let m' := mesh_units c f m.
  Let tr (t : tria R) : tria R :=
    {| eid := eid t; tn1 := tn1 t; tn2 := tn2 t; tn3 := tn3 t; tprop := option_map (prop_units c f) (tprop t); tedges := tedges t |}.

  Lemma un_nc : c <> 0. Proof. lra. Qed.
  Lemma un_nf : f <> 0. Proof. lra. Qed.
  Lemma un_conn : conn m m'.
  Proof.
    constructor; unfold m'; cbn [mesh_units nodes elements edges]; try reflexivity.
    - rewrite map_map. apply map_ext. intros [k x]; reflexivity.
    - rewrite map_map. apply map_ext. intros [k x]; reflexivity.
  Qed.
  Lemma un_wf : wf_mesh m'.
  Proof. apply (conn_wf m _ un_conn W). Qed.
  Lemma un_keys : node_keys m' = node_keys m.
  Proof. symmetry; apply conn_node_keys, un_conn. Qed.
  Lemma un_len : length (nodes m') = length (nodes m).
  Proof. unfold m'; cbn [mesh_units nodes]. apply map_length. Qed.
  Lemma un_edges : edge_keys m' = edge_keys m.
  Proof. reflexivity. Qed.
  Lemma un_trias : trias_of m' = map tr (trias_of m).
  Proof. unfold trias_of, m'; cbn [mesh_units elements]. rewrite !map_map. reflexivity. Qed.
  Lemma un_tris : forall k, tris_on m' k = map tr (tris_on m k).
  Proof.
    intros k. unfold tris_on. rewrite un_trias. induction (trias_of m) as [|t l IH]; [reflexivity|].
    cbn [map filter]. rewrite IH. change (is_vertex (fst k) (tr t)) with (is_vertex (fst k) t).
    change (is_vertex (snd k) (tr t)) with (is_vertex (snd k) t). destruct (_ && _); reflexivity.
  Qed.
  Lemma un_dget : forall n, dget Nat.eqb n (nodes m') =
    option_map (fun nd => {| nid := nid nd; nxyz := scale_pos c (nxyz nd); nprop := option_map (prop_units c f) (nprop nd); nindex := nindex nd;
                             nedges := nedges nd; ntrias := ntrias nd |}) (dget Nat.eqb n (nodes m)).
  Proof.
    intros n. unfold m'; cbn [mesh_units nodes]. induction (nodes m) as [|[k nd] l IH]; [reflexivity|].
    cbn [map dget fst snd]. destruct (Nat.eqb_spec n k) as [->|_]; [reflexivity|exact IH].
  Qed.
  (** also for nodes that do not exist: their position is the origin *)
  Lemma un_pos : forall n, pos m' n = scale_pos c (pos m n).
  Proof.
    intros n. unfold pos. rewrite un_dget. destruct (dget Nat.eqb n (nodes m)) as [nd|]; [reflexivity|].
    unfold scale_pos; cbn. f_equal; ring.
  Qed.
  Lemma un_prop : forall n, nodeprop m' n = option_map (prop_units c f) (nodeprop m n).
  Proof. intros n. unfold nodeprop. rewrite un_dget. destruct (dget Nat.eqb n (nodes m)); reflexivity. Qed.
  Lemma un_comp : comp m' = comp m.
  Proof. unfold comp, rank. rewrite un_keys. reflexivity. Qed.
  Lemma un_zr : zr m' = zr m.
  Proof. unfold zr, rank. rewrite un_keys. reflexivity. Qed.

  Lemma un_det2 : forall p q r, det2 (scale_pos c p) (scale_pos c q) (scale_pos c r) = c * c * det2 p q r.
  Proof. intros; unfold det2, scale_pos; cbn [vx vy]; ring. Qed.
  Lemma un_tdet : forall t, tdet m' (tr t) = c * c * tdet m t.
  Proof. intros t. unfold tdet. cbn [tr tn1 tn2 tn3]. rewrite !un_pos. apply un_det2. Qed.
  Lemma cc : 0 < c * c.
  Proof. apply Rmult_lt_0_compat; exact Hc. Qed.
  Lemma un_tarea : forall t, tarea m' (tr t) = c * c * tarea m t.
  Proof. intros t. unfold tarea. rewrite un_tdet, Rabs_mult, (Rabs_right (c * c)) by (left; apply cc). field. Qed.
  Lemma un_plate : plate m -> plate m'.
  Proof.
    intros PL. constructor.
    - destruct (pl_flat m PL) as [z H]. exists (c * z). intros n. rewrite un_keys. intros Hn. rewrite un_pos. cbn [scale_pos vz]. rewrite (H n Hn). reflexivity.
    - intros t. rewrite un_trias. intros H. apply in_map_iff in H. destruct H as [t0 [<- Ht]]. rewrite un_tdet.
      apply Rmult_integral_contrapositive_currified; [apply Rgt_not_eq, cc|apply (pl_nondeg m PL t0 Ht)].
    - intros k Hk. rewrite un_tris, map_length. apply (pl_two m PL k Hk).
    - intros k t1 t2 Hk T. rewrite un_tris in T.
      destruct (tris_on m k) as [|a [|b [|]]] eqn:E; try discriminate T. injection T as <- <-.
      change (third (tr a) k) with (third a k). change (third (tr b) k) with (third b k). rewrite !un_pos, !un_det2.
      assert (X := pl_sides m PL k a b Hk E). assert (S := cc).
      match goal with |- ?d * ?x * (?d * ?y) < 0 => assert (Q := Rmult_lt_0_compat _ _ (Rmult_lt_0_compat _ _ S S) (Ropp_0_gt_lt_contravar _ X)); replace (d * x * (d * y)) with (- (d * d * - (x * y))) by ring end. lra.
  Qed.
  Lemma un_props : forall pfn, props_complete m pfn -> props_complete m' pfn.
  Proof.
    intros [|]; unfold props_complete.
    - intros H k Hk. rewrite !un_prop. destruct (H k Hk) as [A B].
      split; [destruct (nodeprop m (fst k))|destruct (nodeprop m (snd k))]; try congruence; discriminate.
    - intros H t. rewrite un_trias. intros Ht. apply in_map_iff in Ht. destruct Ht as [t0 [<- Ht]]. cbn [tr tprop].
      assert (X := H t0 Ht). destruct (tprop t0); [discriminate|congruence].
  Qed.
  Lemma un_valid : forall pfn, valid m pfn -> valid m' pfn.
  Proof.
    intros pfn [_ PL PC N]. constructor; [exact un_wf|apply un_plate; exact PL|apply un_props; exact PC|].
    unfold m'; cbn [mesh_units nodes]. destruct (nodes m); [congruence|discriminate].
  Qed.
  Lemma un_all : forall (P Q : prop R -> Prop), (forall p, P p -> Q (prop_units c f p)) -> all_props m P -> all_props m' Q.
  Proof.
    intros P Q H [PN PT]. split.
    - intros n p. rewrite un_prop. destruct (nodeprop m n) as [q|] eqn:E; [|discriminate]. intros X; injection X as <-. apply H, (PN n q E).
    - intros t p. rewrite un_trias. intros Ht. apply in_map_iff in Ht. destruct Ht as [t0 [<- Ht]]. cbn [tr tprop].
      destruct (tprop t0) as [q|] eqn:E; [|discriminate]. intros X; injection X as <-. apply H, (PT t0 q Ht E).
  Qed.
  Lemma un_thick : thick m -> thick m'.
  Proof. apply un_all. intros p H. cbn [prop_units ph]. apply Rmult_lt_0_compat; assumption. Qed.

  (** ** Gradients *)
  Hypothesis PL : plate m.

  Lemma un_tg : forall t q, In t (trias_of m) -> tgx m' (tr t) q = tgx m t q / c /\ tgy m' (tr t) q = tgy m t q / c.
  Proof.
    intros t q Ht. assert (N := pl_nondeg m PL t Ht). assert (Nc := un_nc).
    unfold tgx, tgy. rewrite un_tdet. cbn [tr tn1 tn2 tn3]. rewrite !un_pos. unfold scale_pos; cbn [vx vy]. split; field; auto.
  Qed.
  Lemma un_sg : forall k q, In k (edge_keys m) -> sgx m' k q = sgx m k q / c /\ sgy m' k q = sgy m k q / c.
  Proof.
    intros k q Hk. assert (A := Rgt_not_eq _ _ (tris_area_pos m W PL k Hk)). assert (N := un_nc).
    assert (T : forall t, In t (tris_on m k) -> In t (trias_of m)) by (intros t Ht; apply tris_on_in in Ht; tauto).
    assert (S : Sum (fun t => tarea m' (tr t)) (tris_on m k) = c * c * Sum (tarea m) (tris_on m k)).
    { rewrite <- Sum_scal. apply Sum_ext. intros t. apply un_tarea. }
    split; unfold sgx, sgy; rewrite un_tris, !Sum_map, S.
    - rewrite (Sum_ext_in _ _ (fun t => c * (tarea m t * tgx m t q))) by (intros t Ht; rewrite un_tarea, (proj1 (un_tg t q (T t Ht))); field; exact N).
      rewrite Sum_scal. field. auto.
    - rewrite (Sum_ext_in _ _ (fun t => c * (tarea m t * tgy m t q))) by (intros t Ht; rewrite un_tarea, (proj2 (un_tg t q (T t Ht))); field; exact N).
      rewrite Sum_scal. field. auto.
  Qed.
  Lemma un_dof : forall u i n, (i < 5)%nat -> comp m (in_units c u) i n = (if (i <? 3)%nat then c else 1) * comp m u i n.
  Proof.
    intros u i n Hi. unfold comp, in_units, dof_unit. rewrite Nat.add_comm, Nat.mod_add, (Nat.mod_small i) by lia. reflexivity.
  Qed.
  Lemma sg_scal : forall k s q, sgx m k (fun n => s * q n) = s * sgx m k q /\ sgy m k (fun n => s * q n) = s * sgy m k q.
  Proof.
    intros k s q. unfold sgx, sgy, Rdiv. split.
    - rewrite (Sum_ext _ _ (fun t => s * (tarea m t * tgx m t q))) by (intros t; unfold tgx, Rdiv; ring). rewrite Sum_scal. ring.
    - rewrite (Sum_ext _ _ (fun t => s * (tarea m t * tgy m t q))) by (intros t; unfold tgy, Rdiv; ring). rewrite Sum_scal. ring.
  Qed.
  Lemma un_sgu : forall k u i, In k (edge_keys m) -> (i < 5)%nat ->
    sgx m' k (comp m' (in_units c u) i) = (if (i <? 3)%nat then 1 else / c) * sgx m k (comp m u i) /\
    sgy m' k (comp m' (in_units c u) i) = (if (i <? 3)%nat then 1 else / c) * sgy m k (comp m u i).
  Proof.
    intros k u i Hk Hi. rewrite un_comp. destruct (un_sg k (comp m (in_units c u) i) Hk) as [-> ->]. assert (N := un_nc).
    rewrite (sgx_ext m k _ (fun n => (if (i <? 3)%nat then c else 1) * comp m u i n)) by (intros n _; apply un_dof, Hi).
    rewrite (sgy_ext m k _ (fun n => (if (i <? 3)%nat then c else 1) * comp m u i n)) by (intros n _; apply un_dof, Hi).
    rewrite !(proj1 (sg_scal _ _ _)), !(proj2 (sg_scal _ _ _)). destruct (i <? 3)%nat; split; field; exact N.
  Qed.
  Lemma un_strain : forall u k, In k (edge_keys m) -> let s := smoothed_strain m u k in
    smoothed_strain m' (in_units c u) k = Strain (exx s) (eyy s) (exy s) (/ c * kxx s) (/ c * kyy s) (/ c * kxy s).
  Proof.
    intros u k Hk s. unfold s, smoothed_strain; cbn [exx eyy exy kxx kyy kxy].
    rewrite !(fun i H => proj1 (un_sgu k u i Hk H)), !(fun i H => proj2 (un_sgu k u i Hk H)) by lia. cbn [Nat.ltb Nat.leb]. f_equal; ring.
  Qed.
  Lemma un_dom : forall k, dom_area m' k = c * c * dom_area m k.
  Proof.
    intros k. unfold dom_area. rewrite un_tris, Sum_map. rewrite (Sum_ext _ _ (fun t => c * c * tarea m t)) by (intros t; apply un_tarea).
    rewrite Sum_scal. field.
  Qed.

  (** ** Laminates *)
  Lemma wsum3_scale : forall A (w : A -> R) (M M' : A -> mat3 R) s l, (forall a, In a l -> M' a = scale3 s (M a)) -> wsum3 w M' l = scale3 s (wsum3 w M l).
  Proof.
    intros A w M M' s l H. unfold wsum3. cbv zeta.
    assert (X : forall g : mat3 R -> R, (forall a, g (scale3 s a) = s * g a) -> Sum (fun a => w a * g (M' a)) l / Sum w l = s * (Sum (fun a => w a * g (M a)) l / Sum w l)).
    { intros g G. rewrite (Sum_ext_in _ _ (fun a => s * (w a * g (M a)))) by (intros a Ha; rewrite (H a Ha), G; ring). rewrite Sum_scal. unfold Rdiv. ring. }
    unfold scale3; cbn [m00 m01 m02 m10 m11 m12 m20 m21 m22]. f_equal; apply X; reflexivity.
  Qed.
  Lemma wsum3_weight : forall A (w w' : A -> R) (M : A -> mat3 R) s l, s <> 0 -> Sum w l <> 0 -> (forall a, w' a = s * w a) -> wsum3 w' M l = wsum3 w M l.
  Proof.
    intros A w w' M s l Ns N H. unfold wsum3. cbv zeta.
    assert (X : forall g : mat3 R -> R, Sum (fun a => w' a * g (M a)) l / Sum w' l = Sum (fun a => w a * g (M a)) l / Sum w l).
    { intros g. rewrite (Sum_ext _ _ (fun a => s * (w a * g (M a)))) by (intros a; rewrite H; ring). rewrite (Sum_ext _ w' (fun a => s * w a)) by exact H.
      rewrite !Sum_scal. field. auto. }
    f_equal; apply X.
  Qed.
  Lemma un_stiffness : forall sel s pfn k, (forall p, sel (prop_units c f p) = scale3 s (sel p)) -> In k (edge_keys m) ->
    edge_stiffness m' pfn sel k = scale3 s (edge_stiffness m pfn sel k).
  Proof.
    intros sel s pfn k HS Hk.
    assert (Z : forall o, getp sel (option_map (prop_units c f) o) = scale3 s (getp sel o)).
    { intros [p|]; cbn [getp option_map]; [apply HS|]. unfold scale3, zero3; cbn. f_equal; ring. }
    unfold edge_stiffness. destruct pfn.
    - unfold node_stiffness. rewrite un_tris, !un_prop, !Z, map_map. cbn [tr tn1 tn2 tn3].
      assert (X : map (fun t => wsum3 (fun _ => 1) (fun n => getp sel (nodeprop m' n)) [tn1 t; tn2 t; tn3 t]) (tris_on m k)
        = map (scale3 s) (map (fun t => wsum3 (fun _ => 1) (fun n => getp sel (nodeprop m n)) [tn1 t; tn2 t; tn3 t]) (tris_on m k))).
      { rewrite map_map. apply map_ext. intros t. apply wsum3_scale. intros n _. rewrite un_prop. apply Z. }
      rewrite X. rewrite <- (wsum3_scale _ (fun _ => 1) (fun X => X) (fun X => scale3 s X)) by reflexivity.
      match goal with |- wsum3 _ _ (?a :: ?b :: map ?g ?l) = wsum3 _ _ (?a0 :: ?b0 :: ?l) => change (a :: b :: map g l) with (map g (a0 :: b0 :: l)); generalize (a0 :: b0 :: l) end.
      intros l. unfold wsum3. rewrite !Sum_map. reflexivity.
    - unfold tria_stiffness. rewrite un_tris. rewrite <- (wsum3_scale _ (tarea m) (fun t => getp sel (tprop t)) (fun t => getp sel (tprop (tr t)))) by (intros t _; apply Z).
      rewrite <- (wsum3_weight _ (tarea m) (fun t => tarea m' (tr t)) _ (c * c)).
      + unfold wsum3. rewrite !Sum_map. reflexivity.
      + apply Rgt_not_eq, cc.
      + apply Rgt_not_eq, (tris_area_pos m W PL k Hk).
      + apply un_tarea.
  Qed.
  Lemma un_energy : forall pfn u v, k0_energy m' pfn (in_units c u) (in_units c v) = f * c * k0_energy m pfn u v.
  Proof.
    intros pfn u v. unfold k0_energy. rewrite un_edges, <- Sum_scal. apply Sum_ext_in. intros k Hk. assert (N := un_nc).
    rewrite un_dom, !un_strain, (un_stiffness pA (f / c)), (un_stiffness pB f), (un_stiffness pD (f * c)) by (try exact Hk; reflexivity).
    unfold dens, quad3, scale3; cbn [exx eyy exy kxx kyy kxy m00 m01 m02 m10 m11 m12 m20 m21 m22]. field. exact N.
  Qed.
  Lemma un_work : forall pfn d u v, kG_energy m' pfn (in_units c d) (in_units c u) (in_units c v) = f * c * kG_energy m pfn d u v.
  Proof.
    intros pfn d u v. unfold kG_energy. rewrite un_edges, <- Sum_scal. apply Sum_ext_in. intros k Hk. unfold edge_work. assert (N := un_nc).
    rewrite un_dom, !un_strain, (un_stiffness pA (f / c)), (un_stiffness pB f) by (try exact Hk; reflexivity).
    rewrite !(fun u => proj1 (un_sgu k u 2 Hk ltac:(lia))), !(fun u => proj2 (un_sgu k u 2 Hk ltac:(lia))). cbn [Nat.ltb Nat.leb].
    unfold work, membrane, scale3; cbn [exx eyy exy kxx kyy kxy m00 m01 m02 m10 m11 m12 m20 m21 m22 vx vy vz]. field. exact N.
  Qed.

  (** ** Shear of the cell-based methods *)
  Definition un_pt (p : pt) : pt := Pt (c * ptx p) (c * pty p) (c * ptw p) (ptfx p) (ptfy p).
  Lemma un_at_node : forall u n, at_node m' (in_units c u) n = un_pt (at_node m u n).
  Proof. intros u n. unfold at_node, un_pt; cbn [ptx pty ptw ptfx ptfy]. rewrite un_comp, un_pos, !un_dof by lia. cbn [Nat.ltb Nat.leb]. rewrite !Rmult_1_l. reflexivity. Qed.
  Lemma un_gap : forall p q, gap (un_pt p) (un_pt q) = c * gap p q.
  Proof. intros; unfold gap, un_pt; cbn [ptx pty ptw ptfx ptfy]; ring. Qed.
  Lemma un_pdet : forall p q r, pdet (un_pt p) (un_pt q) (un_pt r) = c * c * pdet p q r.
  Proof. intros; unfold pdet, un_pt; cbn [ptx pty]; ring. Qed.
  Lemma un_ratio : forall a b, c * c * a / (c * c * b) = a / b.
  Proof. intros a b. unfold Rdiv. rewrite Rinv_mult. replace (c * c * a * (/ (c * c) * / b)) with (c * c * / (c * c) * (a * / b)) by ring. rewrite Rinv_r by (apply Rgt_not_eq, cc). ring. Qed.
  Lemma un_dsg : forall p q r, dsg (un_pt p) (un_pt q) (un_pt r) = dsg p q r.
  Proof.
    intros; unfold dsg. rewrite un_pdet, !un_gap. unfold un_pt; cbn [ptx pty].
    f_equal; (rewrite <- (un_ratio _ (pdet p q r)); f_equal; ring).
  Qed.
  Lemma un_center : forall th p q r, center th (un_pt p) (un_pt q) (un_pt r) = un_pt (center th p q r).
  Proof. intros; unfold center, un_pt; cbn [ptx pty ptw ptfx ptfy]; f_equal; field. Qed.
  Lemma un_parea : forall p q r, parea (un_pt p) (un_pt q) (un_pt r) = c * c * parea p q r.
  Proof. intros; unfold parea. rewrite un_pdet, Rabs_mult, (Rabs_right (c * c)) by (left; apply cc). field. Qed.
  Lemma un_cell : forall th u t, strain_cell th m' (in_units c u) (tr t) = strain_cell th m u t.
  Proof.
    intros th u t. unfold strain_cell. cbn [tr tn1 tn2 tn3]. rewrite !un_at_node. unfold cell_shear. rewrite un_center, !un_dsg, !un_parea.
    f_equal; (match goal with |- _ = _ / ?d => rewrite <- (un_ratio _ d) end; f_equal; ring).
  Qed.
  Lemma un_ns : forall u t, strain_ns m' (in_units c u) (tr t) = strain_ns m u t.
  Proof.
    intros u t. unfold strain_ns. rewrite un_tdet. cbn [tr tn1 tn2 tn3]. rewrite !un_at_node, !un_dsg. assert (S := cc).
    destruct (Rlt_dec (c * c * tdet m t) 0) as [A|A], (Rlt_dec (tdet m t) 0) as [B|B]; try reflexivity; exfalso; nra.
  Qed.
  Lemma un_sqrt : forall a, sqrt (c * c * a) = c * sqrt a.
  Proof. intros a. rewrite sqrt_mult_alt by (left; apply cc). rewrite sqrt_square by lra. reflexivity. Qed.
  Lemma un_vdist : forall p q, vdist (scale_pos c p) (scale_pos c q) = c * vdist p q.
  Proof.
    intros p q. unfold vdist, scale_pos; cbn [vx vy vz]. rewrite <- un_sqrt. f_equal. ring.
  Qed.
  Lemma un_dist : forall a b, dist m' a b = c * dist m a b.
  Proof. intros a b. change (vdist (pos m' a) (pos m' b) = c * vdist (pos m a) (pos m b)). rewrite !un_pos. apply un_vdist. Qed.
  Lemma un_max : forall a b, Rmax (c * a) (c * b) = c * Rmax a b.
  Proof. intros a b. apply RmaxRmult. lra. Qed.
  Lemma un_size : forall mfa t, tria_size m' mfa (tr t) = c * tria_size m mfa t.
  Proof.
    intros mfa t. unfold tria_size. rewrite un_tarea. cbn [tr tn1 tn2 tn3]. rewrite !un_dist, !un_max, un_sqrt. destruct mfa; reflexivity.
  Qed.
  Lemma un_pval : forall (g : prop R -> R) s o, (forall p, g (prop_units c f p) = s * g p) -> pval g (option_map (prop_units c f) o) = s * pval g o.
  Proof. intros g s [p|] H; cbn [pval option_map]; [apply H|ring]. Qed.
  Lemma un_val : forall pfn g s t, (forall p, g (prop_units c f p) = s * g p) -> tria_val m' pfn g (tr t) = s * tria_val m pfn g t.
  Proof.
    intros pfn g s t H. unfold tria_val. cbn [tr tn1 tn2 tn3 tprop]. rewrite !un_prop, !(un_pval g s) by exact H. destruct pfn; [field|reflexivity].
  Qed.
  Lemma un_corr : forall alpha h l, corr alpha (c * h) (c * l) = corr alpha h l.
  Proof. intros alpha h l. unfold corr. rewrite <- (un_ratio _ (h * h + alpha * (l * l))). f_equal; ring. Qed.
  Lemma un_shear : forall g g' pfn alpha mfa u v,
    (forall u t, g' (in_units c u) (tr t) = g u t) -> shear_energy g' m' pfn alpha mfa (in_units c u) (in_units c v) = f * c * shear_energy g m pfn alpha mfa u v.
  Proof.
    intros g g' pfn alpha mfa u v H. unfold shear_energy. rewrite un_trias, Sum_map, <- Sum_scal. apply Sum_ext. intros t. rewrite !H, un_tarea, un_size.
    rewrite (un_val pfn ph c) by reflexivity. rewrite un_corr. unfold tria_G44, tria_G55.
    rewrite (un_val pfn pk23 1), (un_val pfn pk13 1) by (intros; cbn; ring).
    rewrite (un_val pfn (fun p => e00 (pE p)) (f / c)), (un_val pfn (fun p => e11 (pE p)) (f / c)) by reflexivity. field. apply un_nc.
  Qed.

  (** ** Shear of the edge-based method *)
  Lemma un_on : forall k t, In t (tris_on m k) -> In t (trias_of m).
  Proof. intros k t Ht. apply tris_on_in in Ht; tauto. Qed.
  Lemma un_edge_val : forall pfn g s k, (forall p, g (prop_units c f p) = s * g p) -> edge_val m' pfn g k = s * edge_val m pfn g k.
  Proof.
    intros pfn g s k H. unfold edge_val. rewrite un_tris.
    assert (V : forall n, pval g (nodeprop m' n) = s * pval g (nodeprop m n)) by (intros n; rewrite un_prop; apply un_pval, H).
    assert (V' : forall t, pval g (tprop (tr t)) = s * pval g (tprop t)) by (intros t; cbn [tr tprop]; apply un_pval, H).
    destruct (tris_on m k) as [|t [|t' [|]]]; cbn [map]; [ring| | |ring]; change (fun t0 : tria R => third (tr t0) k) with (fun t0 : tria R => third t0 k).
    - rewrite !V, V'. change (third (tr t) k) with (third t k). destruct pfn; [field|reflexivity].
    - rewrite !V, !V', !un_tarea. change (third (tr t) k) with (third t k). change (third (tr t') k) with (third t' k). destruct pfn; [field|].
      replace (c * c * tarea m t + c * c * tarea m t') with (c * c * (tarea m t + tarea m t')) by ring.
      replace (c * c * tarea m t * (s * pval g (tprop t)) + c * c * tarea m t' * (s * pval g (tprop t'))) with (c * c * (s * (tarea m t * pval g (tprop t) + tarea m t' * pval g (tprop t')))) by ring.
      rewrite un_ratio. unfold Rdiv. ring.
  Qed.
  Lemma un_centroid : forall t, centroid m' (tr t) = scale_pos c (centroid m t).
  Proof. intros t. unfold centroid. cbn [tr tn1 tn2 tn3]. rewrite !un_pos. unfold scale_pos; cbn [vx vy vz]. f_equal; field. Qed.
  Lemma un_edge_size : forall mfa k, edge_size m' mfa k = c * edge_size m mfa k.
  Proof.
    intros mfa k. unfold edge_size. rewrite un_dom, un_sqrt. destruct mfa; [reflexivity|]. cbv zeta. rewrite !un_pos, un_tris.
    induction (tris_on m k) as [|t l IH]; cbn [map fold_right]; [apply un_vdist|]. rewrite IH, un_centroid, !un_vdist, !un_max. reflexivity.
  Qed.
  Lemma un_ccw : forall k, ccw m' k = ccw m k.
  Proof.
    intros k. unfold ccw. rewrite un_tris. destruct (tris_on m k) as [|t l]; [reflexivity|]. cbn [map]. change (third (tr t) k) with (third t k).
    rewrite !un_pos, un_det2. assert (S := cc). set (d := det2 _ _ _). destruct (Rlt_dec 0 (c * c * d)) as [A|A], (Rlt_dec 0 d) as [B|B]; try reflexivity; exfalso.
    - apply B. assert (0 <= d \/ d < 0) as [Q|Q] by lra; [|nra]. destruct Q as [Q|Q]; [exact Q|]. rewrite <- Q, Rmult_0_r in A. lra.
    - apply A. apply Rmult_lt_0_compat; assumption.
  Qed.
  Lemma un_edge_G : forall pfn k, let G := edge_G m pfn k in
    edge_G m' pfn k = (f / c * fst (fst G), f / c * snd (fst G), f / c * snd G).
  Proof.
    intros pfn k. cbv zeta. unfold edge_G. rewrite un_tris.
    assert (K : edge_val m' pfn pk13 k = edge_val m pfn pk13 k /\ edge_val m' pfn pk23 k = edge_val m pfn pk23 k) by (split; rewrite (un_edge_val pfn _ 1) by (intros; cbn; ring); ring).
    destruct K as [-> ->]. rewrite !(un_edge_val pfn (fun p => e00 (pE p)) (f / c)), !(un_edge_val pfn (fun p => e01 (pE p)) (f / c)), !(un_edge_val pfn (fun p => e11 (pE p)) (f / c)) by reflexivity.
    assert (P3 : forall a b d a' b' d' : R, a = a' -> b = b' -> d = d' -> (a, b, d) = (a', b', d')) by (intros; subst; reflexivity).
    destruct (tris_on m k) as [|t [|t' l]]; cbn [map fst snd]; apply P3; ring.
  Qed.

  Lemma un_at : forall u ns, (forall x, In x ns -> In x (node_keys m)) -> forall z, (0 <= z < Z.of_nat (List.length ns) * 5)%Z -> (2 <= z mod 5)%Z ->
    let i := nidx (List.length (nodes m) * 5) (relab (map (zr m) ns) z) in in_units c u i = powerRZ c (1 - sz z) * u i.
  Proof.
    intros u ns HN z Z1 Z2. cbv zeta. unfold relab.
    assert (LT : (Z.to_nat (z / 5) < List.length ns)%nat).
    { assert (0 <= z / 5)%Z by (apply Z.div_pos; lia). assert (z / 5 < Z.of_nat (List.length ns))%Z by (apply Z.div_lt_upper_bound; lia). lia. }
    set (x := nth (Z.to_nat (z / 5)) ns 0%nat). assert (Hx : In x ns) by (apply nth_In, LT).
    assert (E : nth (Z.to_nat (z / 5)) (map (zr m) ns) 0%Z = zr m x).
    { rewrite (nth_indep _ 0%Z (zr m 0%nat)) by (rewrite map_length; exact LT). apply map_nth. }
    rewrite E. clear E. destruct (dof_at m u x (HN x Hx)) as [D2 [D3 D4]]. destruct (dof_at m (in_units c u) x (HN x Hx)) as [E2 [E3 E4]].
    assert (MB := Z.mod_pos_bound z 5 ltac:(lia)). unfold sz.
    assert (C : (z mod 5 = 2 \/ z mod 5 = 3 \/ z mod 5 = 4)%Z) by lia.
    destruct C as [C|[C|C]]; rewrite C; cbn [Z.eqb Pos.eqb].
    - rewrite D2, E2, un_dof by lia. change (1 - 0)%Z with 1%Z. rewrite powerRZ_1. reflexivity.
    - rewrite D3, E3, un_dof by lia. change (1 - 1)%Z with 0%Z. reflexivity.
    - rewrite D4, E4, un_dof by lia. change (1 - 1)%Z with 0%Z. reflexivity.
  Qed.
  Lemma un_terms : forall L kd vals vals' ns u v l, (forall x, In x ns -> In x (node_keys m)) ->
    (forall i, nth i vals' 0 = powerRZ c (fst (kdim (kd i))) * powerRZ f (snd (kdim (kd i))) * nth i vals 0) ->
    forallb (dim_entry (Z.of_nat (List.length ns)) kd) l = true ->
    upd_form (List.length (nodes m) * 5) (map (plug L (map (zr m) ns) vals') l) (in_units c u) (in_units c v) =
    f * c * upd_form (List.length (nodes m) * 5) (map (plug L (map (zr m) ns) vals) l) u v.
  Proof.
    intros L kd vals vals' ns u v l HN HV OK. rewrite !plug_form, <- Sum_scal. rewrite forallb_forall in OK. apply Sum_ext_in. intros [[a b] x] Hx.
    specialize (OK _ Hx). unfold dim_entry in OK. cbn [fst snd] in *. destruct (edim kd x) as [d|] eqn:E; [|discriminate].
    apply andb_prop in OK. destruct OK as [OK C2]. apply andb_prop in OK. destruct OK as [OK C1]. apply andb_prop in OK. destruct OK as [OK M].
    apply andb_prop in OK. destruct OK as [DL DF]. apply andb_prop in C1, C2, M. destruct C1 as [C1 C1'], C2 as [C2 C2'], M as [M1 M2].
    apply Z.leb_le in C1, C2, M1, M2. apply Z.ltb_lt in C1', C2'. apply Z.eqb_eq in DL, DF.
    rewrite (un_at u ns HN a (conj C1 C1') M1), (un_at v ns HN b (conj C2 C2') M2).
    rewrite (edim_ok kd c f L (fun i => nth i vals 0) (fun i => nth i vals' 0) Hc Hf HV x d E), DL, DF.
    assert (P : powerRZ c (1 - sz a) * powerRZ c (1 - sz b) * powerRZ c (sz a + sz b - 1) = c).
    { rewrite <- !powerRZ_add by apply un_nc. replace (1 - sz a + (1 - sz b) + (sz a + sz b - 1))%Z with 1%Z by lia. apply powerRZ_1. }
    rewrite powerRZ_1. set (p := powerRZ c (1 - sz a)) in *. set (q := powerRZ c (1 - sz b)) in *. set (r := powerRZ c (sz a + sz b - 1)) in *.
    set (x1 := u _). set (x2 := v _). set (y := eval _ _ _). transitivity (f * (p * q * r) * (x1 * y * x2)); [ring|]. rewrite P. ring.
  Qed.
  Lemma un_kind : forall k, powerRZ c (fst (kdim k)) * powerRZ f (snd (kdim k)) = match k with Length => c | Area => c * c | Stiffness => f / c end.
  Proof. intros [| |]; cbn [kdim fst snd]; rewrite ?powerRZ_O, ?powerRZ_1; [ring| |].
    - change 2%Z with (1 + 1)%Z. rewrite powerRZ_add, powerRZ_1 by exact un_nc. ring.
    - change (-1)%Z with (- (1))%Z. rewrite powerRZ_neg', powerRZ_1. field. exact un_nc.
  Qed.
  Lemma un_edge_Q : forall L pfn k u v, In k (edge_keys m) ->
    edge_Q L m' pfn k (in_units c u) (in_units c v) = f * c * edge_Q L m pfn k u v.
  Proof.
    intros L pfn k u v Hk. unfold edge_Q. rewrite un_len, un_ccw. set (n1 := fst (ccw m k)). set (n2 := snd (ccw m k)).
    assert (OR : (n1, n2) = k \/ (n2, n1) = k).
    { unfold n1, n2, ccw. destruct (tris_on m k); [left; symmetry; apply surjective_pairing|]. destruct Rlt_dec; [left|right]; symmetry; apply surjective_pairing. }
    destruct (ready_nodes m k n1 n2 W Hk OR) as [K1 [K2 _]].
    assert (TH : forall t, In t (tris_on m k) -> In (third t k) (node_keys m)).
    { intros t Ht. destruct (tria_node m k t n1 n2 W Hk OR Ht) as [_ [_ [_ [A _]]]]. exact A. }
    assert (Nc := un_nc).
    unfold edge_upds. rewrite un_edge_G, un_tris, un_dom, un_zr. cbn [fst snd].
    destruct (tris_on m k) as [|t [|t' [|]]]; cbn [map]; [unfold upd_form; cbn; unfold Sum; cbn; ring| | |unfold upd_form; cbn; unfold Sum; cbn; ring].
    - change (third (tr t) k) with (third t k). rewrite !eb_eval, un_centroid, !un_pos. unfold scale_pos; cbn [vx vy vz].
      apply (un_terms L kb _ _ [n1; n2; third t k]).
      + intros x [<-|[<-|[<-|[]]]]; auto. apply TH; left; reflexivity.
      + intros i. do 8 (destruct i as [|i]; [rewrite un_kind; cbn [nth kb]; field; exact Nc|]). cbn [nth]. destruct i; ring.
      + exact eb_dim.
    - change (third (tr t) k) with (third t k). change (third (tr t') k) with (third t' k). rewrite !ei_eval, !un_centroid, !un_pos, !un_tarea. unfold scale_pos; cbn [vx vy vz].
      apply (un_terms L ki _ _ [n1; n2; third t k; third t' k]).
      + intros x [<-|[<-|[<-|[<-|[]]]]]; auto; apply TH; cbn; auto.
      + intros i. do 14 (destruct i as [|i]; [rewrite un_kind; cbn [nth ki]; field; exact Nc|]). cbn [nth]. destruct i; ring.
      + exact ei_dim.
  Qed.
End Units.
