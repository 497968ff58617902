(** Meshes in other coordinates. *)
From Coq Require Import ZArith Reals List Bool Arith Lra Lia Permutation FunctionalExtensionality.
From Verif Require Import Num Py Mesh Utils CalcK0 CalcKG Spec SpecK0 SpecKG SpecK0s SpecFrame FSum FMat FTensor
  FGeom FDict FWf FSetup FAsm FK0 FSmooth FConn FDom.
Import ListNotations.
Local Open Scope R_scope.
Implicit Types (m : mesh R).

(** what orthonormality gives: [d = s a], [c = - s b] with [s = +-1] *)
Lemma ortho_sign : forall F, orthonormal F -> exists s, s * s = 1 /\ fyy F = s * fxx F /\ fyx F = - s * fxy F /\
  fxx F * fxx F + fxy F * fxy F = 1 /\ s = fxx F * fyy F - fxy F * fyx F.
Proof.
  intros [a b c d r tx ty tz] [H1 [H2 [H3 _]]]; cbn [fxx fxy fyx fyy] in *.
  exists (a * d - b * c).
  assert (S : (a * d - b * c) * (a * d - b * c) = 1).
  { replace ((a * d - b * c) * (a * d - b * c)) with ((a * a + c * c) * (b * b + d * d) - (a * b + c * d) * (a * b + c * d)) by ring.
    rewrite H1, H2, H3. ring. }
  assert (D : d = (a * d - b * c) * a).
  { replace ((a * d - b * c) * a) with ((a * a + c * c) * d - c * (a * b + c * d)) by ring. rewrite H1, H3. ring. }
  assert (C : c = - (a * d - b * c) * b).
  { replace (- (a * d - b * c) * b) with ((b * b + d * d) * c - d * (a * b + c * d)) by ring. rewrite H2, H3. ring. }
  split; [exact S|]. split; [exact D|]. split; [exact C|]. split; [|reflexivity].
  assert (X : (a * d - b * c) * (a * d - b * c) * (a * a + b * b) = d * d + c * c).
  { replace ((a * d - b * c) * (a * d - b * c) * (a * a + b * b)) with
      (((a * d - b * c) * a) * ((a * d - b * c) * a) + (- (a * d - b * c) * b) * (- (a * d - b * c) * b)) by ring.
    rewrite <- D, <- C. reflexivity. }
  rewrite S in X. lra.
Qed.

Section Frame.
  Variable F : frame.
  Hypothesis O : orthonormal F.
  Variable P : prop R -> prop R.
  Variable m : mesh R.
  Hypothesis W : wf_mesh m.
  Let m' := seen_from F P m.
  Let tr (t : tria R) : tria R :=
    {| eid := eid t; tn1 := tn1 t; tn2 := tn2 t; tn3 := tn3 t; tprop := option_map P (tprop t); tedges := tedges t |}.

  Lemma fr_conn : conn m m'.
  Proof.
    constructor; unfold m'; cbn [seen_from nodes elements edges]; try reflexivity.
    - rewrite map_map. apply map_ext. intros [k x]; reflexivity.
    - rewrite map_map. apply map_ext. intros [k x]; reflexivity.
  Qed.
  Lemma fr_wf : wf_mesh m'.
  Proof. apply (conn_wf m _ fr_conn W). Qed.
  Lemma fr_keys : node_keys m' = node_keys m.
  Proof. symmetry; apply conn_node_keys, fr_conn. Qed.
  Lemma fr_len : length (nodes m') = length (nodes m).
  Proof. unfold m'; cbn [seen_from nodes]. apply map_length. Qed.
  Lemma fr_edges : edge_keys m' = edge_keys m.
  Proof. reflexivity. Qed.
  Lemma fr_trias : trias_of m' = map tr (trias_of m).
  Proof. unfold trias_of, m'; cbn [seen_from elements]. rewrite !map_map. reflexivity. Qed.
  Lemma fr_tris : forall k, tris_on m' k = map tr (tris_on m k).
  Proof.
    intros k. unfold tris_on. rewrite fr_trias. induction (trias_of m) as [|t l IH]; [reflexivity|].
    cbn [map filter]. rewrite IH. change (is_vertex (fst k) (tr t)) with (is_vertex (fst k) t).
    change (is_vertex (snd k) (tr t)) with (is_vertex (snd k) t). destruct (_ && _); reflexivity.
  Qed.
  Lemma fr_dget : forall n, dget Nat.eqb n (nodes m') =
    option_map (fun nd => {| nid := nid nd; nxyz := place F (nxyz nd); nprop := option_map P (nprop nd); nindex := nindex nd;
                             nedges := nedges nd; ntrias := ntrias nd |}) (dget Nat.eqb n (nodes m)).
  Proof.
    intros n. unfold m'; cbn [seen_from nodes]. induction (nodes m) as [|[k nd] l IH]; [reflexivity|].
    cbn [map dget fst snd]. destruct (Nat.eqb_spec n k) as [->|_]; [reflexivity|exact IH].
  Qed.
  Lemma fr_pos : forall n, In n (node_keys m) -> pos m' n = place F (pos m n).
  Proof.
    intros n H. unfold pos. rewrite fr_dget. destruct (dget_some Nat.eqb nat_eqb_spec n (nodes m) H) as [nd ->]. reflexivity.
  Qed.
  Lemma fr_prop : forall n, nodeprop m' n = option_map P (nodeprop m n).
  Proof. intros n. unfold nodeprop. rewrite fr_dget. destruct (dget Nat.eqb n (nodes m)); reflexivity. Qed.
  Lemma fr_comp : comp m' = comp m.
  Proof. unfold comp, rank. rewrite fr_keys. reflexivity. Qed.
  Lemma fr_vertex : forall t n, In t (trias_of m) -> vertex t n -> pos m' n = place F (pos m n).
  Proof. intros t n Ht V. apply fr_pos, (wf_vertices m W t n Ht V). Qed.

  Let sg := fxx F * fyy F - fxy F * fyx F.
  Lemma sg_sq : sg * sg = 1.
  Proof. destruct (ortho_sign F O) as [s [S [_ [_ [_ E]]]]]. unfold sg. rewrite <- E. exact S. Qed.
  Lemma fr_det2 : forall p q r, det2 (place F p) (place F q) (place F r) = fscale F * fscale F * sg * det2 p q r.
  Proof. intros; unfold det2, place, turn_x, turn_y, sg; cbn [vx vy]; ring. Qed.
  Lemma sg_abs : Rabs sg = 1.
  Proof.
    assert (H := sg_sq). unfold Rabs. destruct (Rcase_abs sg) as [L|L]; nra.
  Qed.

  Lemma fr_tdet : forall t, In t (trias_of m) -> tdet m' (tr t) = fscale F * fscale F * sg * tdet m t.
  Proof.
    intros t Ht. unfold tdet. cbn [tr tn1 tn2 tn3]. rewrite !(fr_vertex t) by (unfold vertex; auto). apply fr_det2.
  Qed.
  Lemma fr_tarea : forall t, In t (trias_of m) -> tarea m' (tr t) = fscale F * fscale F * tarea m t.
  Proof.
    intros t Ht. unfold tarea. rewrite fr_tdet, !Rabs_mult, sg_abs by exact Ht.
    assert (Rabs (fscale F) * Rabs (fscale F) = fscale F * fscale F) by (rewrite <- Rabs_mult; apply Rabs_right, Rle_ge, Rle_0_sqr).
    rewrite H. field.
  Qed.
  Lemma scale2 : fscale F * fscale F <> 0.
  Proof. destruct O as [_ [_ [_ N]]]. apply Rmult_integral_contrapositive; auto. Qed.

  Lemma fr_plate : plate m -> plate m'.
  Proof.
    intros PL. constructor.
    - destruct (pl_flat m PL) as [z H]. exists (z + ftz F). intros n. rewrite fr_keys. intros Hn.
      rewrite fr_pos by exact Hn. cbn [place vz]. rewrite (H n Hn). reflexivity.
    - intros t. rewrite fr_trias. intros H. apply in_map_iff in H. destruct H as [t0 [<- Ht]]. rewrite (fr_tdet t0 Ht).
      assert (N := pl_nondeg m PL t0 Ht). assert (S := sg_sq). assert (N2 := scale2).
      repeat apply Rmult_integral_contrapositive_currified; try assumption; try apply (proj2 (proj2 (proj2 O))).
      intros Z; rewrite Z in S; lra.
    - intros k Hk. rewrite fr_tris, map_length. apply (pl_two m PL k Hk).
    - intros k t1 t2 Hk T. rewrite fr_tris in T.
      destruct (tris_on m k) as [|a [|b [|]]] eqn:E; try discriminate T. injection T as <- <-.
      destruct (ready_nodes m k (fst k) (snd k) W Hk (or_introl (eq_sym (surjective_pairing k)))) as [KA [KB _]].
      assert (TH : forall t, In t (tris_on m k) -> In (third t k) (node_keys m)).
      { intros t Ht. destruct (tria_node m k t (fst k) (snd k) W Hk (or_introl (eq_sym (surjective_pairing k))) Ht) as [_ [_ [_ [A _]]]]. exact A. }
      rewrite E in TH. change (third (tr a) k) with (third a k). change (third (tr b) k) with (third b k).
      rewrite !fr_pos by (try assumption; apply TH; cbn; auto). rewrite !fr_det2.
      assert (X := pl_sides m PL k a b Hk E). assert (S := sg_sq). assert (N2 := scale2).
      match goal with |- ?c * ?s * ?x * (?c * ?s * ?y) < 0 => replace (c * s * x * (c * s * y)) with (c * c * (s * s) * (x * y)) by ring end.
      rewrite S. assert (0 < fscale F * fscale F * (fscale F * fscale F)) by nra. nra.
  Qed.
  Lemma fr_props : forall pfn, props_complete m pfn -> props_complete m' pfn.
  Proof.
    intros [|]; unfold props_complete.
    - intros H k Hk. rewrite !fr_prop. destruct (H k Hk) as [A B].
      split; [destruct (nodeprop m (fst k))|destruct (nodeprop m (snd k))]; try congruence; discriminate.
    - intros H t. rewrite fr_trias. intros Ht. apply in_map_iff in Ht. destruct Ht as [t0 [<- Ht]]. cbn [tr tprop].
      assert (X := H t0 Ht). destruct (tprop t0); [discriminate|congruence].
  Qed.
  Lemma fr_valid : forall pfn, valid m pfn -> valid m' pfn.
  Proof.
    intros pfn [_ PL PC N]. constructor; [exact fr_wf|apply fr_plate; exact PL|apply fr_props; exact PC|].
    unfold m'; cbn [seen_from nodes]. destruct (nodes m); [congruence|discriminate].
  Qed.

  (** ** Gradients *)
  Hypothesis PL : plate m.

  Lemma fr_tg : forall t q, In t (trias_of m) ->
    tgx m' (tr t) q = turn_x F (tgx m t q) (tgy m t q) / fscale F /\ tgy m' (tr t) q = turn_y F (tgx m t q) (tgy m t q) / fscale F.
  Proof.
    intros t q Ht. assert (N := pl_nondeg m PL t Ht). destruct (ortho_sign F O) as [s [S [D [C [U E]]]]].
    assert (Ns : s <> 0) by (intros Z; rewrite Z in S; lra). assert (Nr := proj2 (proj2 (proj2 O))).
    unfold tgx, tgy. rewrite fr_tdet by exact Ht. unfold sg. rewrite <- E. cbn [tr tn1 tn2 tn3].
    rewrite !(fr_vertex t) by (unfold vertex; auto). unfold place, turn_x, turn_y; cbn [vx vy].
    assert (SI : / s = s) by (apply (Rmult_eq_reg_l s); [rewrite S; field; exact Ns|exact Ns]).
    split; rewrite D, C.
    - transitivity (/ s * (s * (fxx F * ((q (tn2 t) - q (tn1 t)) * (vy (pos m (tn3 t)) - vy (pos m (tn1 t))) - (q (tn3 t) - q (tn1 t)) * (vy (pos m (tn2 t)) - vy (pos m (tn1 t))))
        + fxy F * ((q (tn3 t) - q (tn1 t)) * (vx (pos m (tn2 t)) - vx (pos m (tn1 t))) - (q (tn2 t) - q (tn1 t)) * (vx (pos m (tn3 t)) - vx (pos m (tn1 t)))))) / (fscale F * tdet m t)).
      + field. auto.
      + field. auto.
    - transitivity (/ s * (- fxy F * ((q (tn2 t) - q (tn1 t)) * (vy (pos m (tn3 t)) - vy (pos m (tn1 t))) - (q (tn3 t) - q (tn1 t)) * (vy (pos m (tn2 t)) - vy (pos m (tn1 t))))
        + fxx F * ((q (tn3 t) - q (tn1 t)) * (vx (pos m (tn2 t)) - vx (pos m (tn1 t))) - (q (tn2 t) - q (tn1 t)) * (vx (pos m (tn3 t)) - vx (pos m (tn1 t))))) / (fscale F * tdet m t)).
      + field. auto.
      + rewrite SI. field. auto.
  Qed.

  Lemma fr_sum : forall k f g, In k (edge_keys m) -> (forall t, In t (trias_of m) -> f (tr t) = g t) ->
    Sum (fun t => tarea m' t * f t) (tris_on m' k) / Sum (tarea m') (tris_on m' k) =
    Sum (fun t => tarea m t * g t) (tris_on m k) / Sum (tarea m) (tris_on m k).
  Proof.
    intros k f g Hk H. rewrite fr_tris, !Sum_map.
    assert (T : forall t, In t (tris_on m k) -> In t (trias_of m)) by (intros t Ht; apply tris_on_in in Ht; tauto).
    rewrite (Sum_ext_in _ _ (fun t => fscale F * fscale F * (tarea m t * g t))) by (intros t Ht; rewrite fr_tarea, H by auto; ring).
    rewrite (Sum_ext_in _ (fun t => tarea m' (tr t)) (fun t => fscale F * fscale F * tarea m t)) by (intros t Ht; apply fr_tarea; auto).
    rewrite !Sum_scal. assert (A := tris_area_pos m W PL k Hk). assert (N := scale2). field.
    split; [apply Rgt_not_eq, A|]. exact (proj2 (proj2 (proj2 O))).
  Qed.
  Lemma fr_sg : forall k q, In k (edge_keys m) ->
    sgx m' k q = turn_x F (sgx m k q) (sgy m k q) / fscale F /\ sgy m' k q = turn_y F (sgx m k q) (sgy m k q) / fscale F.
  Proof.
    intros k q Hk. assert (A := Rgt_not_eq _ _ (tris_area_pos m W PL k Hk)). assert (N := proj2 (proj2 (proj2 O))).
    split; unfold sgx, sgy.
    - rewrite (fr_sum k _ (fun t => turn_x F (tgx m t q) (tgy m t q) / fscale F) Hk) by (intros t Ht; apply (fr_tg t q Ht)).
      rewrite (Sum_ext _ _ (fun t => fxx F / fscale F * (tarea m t * tgx m t q) + fxy F / fscale F * (tarea m t * tgy m t q)))
        by (intros t; unfold turn_x; field; exact N).
      rewrite Sum_plus, !Sum_scal. unfold turn_x. field. auto.
    - rewrite (fr_sum k _ (fun t => turn_y F (tgx m t q) (tgy m t q) / fscale F) Hk) by (intros t Ht; apply (fr_tg t q Ht)).
      rewrite (Sum_ext _ _ (fun t => fyx F / fscale F * (tarea m t * tgx m t q) + fyy F / fscale F * (tarea m t * tgy m t q)))
        by (intros t; unfold turn_y; field; exact N).
      rewrite Sum_plus, !Sum_scal. unfold turn_y. field. auto.
  Qed.
  Lemma sg_lin : forall k a b q1 q2, sgx m k (fun n => a * q1 n + b * q2 n) = a * sgx m k q1 + b * sgx m k q2 /\
    sgy m k (fun n => a * q1 n + b * q2 n) = a * sgy m k q1 + b * sgy m k q2.
  Proof.
    intros k a b q1 q2. unfold sgx, sgy, Rdiv. split.
    - rewrite (Sum_ext _ _ (fun t => a * (tarea m t * tgx m t q1) + b * (tarea m t * tgx m t q2))) by (intros t; unfold tgx, Rdiv; ring).
      rewrite Sum_plus, !Sum_scal. ring.
    - rewrite (Sum_ext _ _ (fun t => a * (tarea m t * tgy m t q1) + b * (tarea m t * tgy m t q2))) by (intros t; unfold tgy, Rdiv; ring).
      rewrite Sum_plus, !Sum_scal. ring.
  Qed.
  Lemma fr_strain : forall u u' k, turned_field F m u u' -> In k (edge_keys m) ->
    smoothed_strain m' u' k = sscale (/ fscale F) (turn_strain F (smoothed_strain m u k)).
  Proof.
    intros u u' k H Hk. unfold smoothed_strain. rewrite fr_comp.
    assert (X : forall c q, (forall n, In n (node_keys m) -> comp m u' c n = q n) ->
      sgx m' k (comp m u' c) = turn_x F (sgx m k q) (sgy m k q) / fscale F /\ sgy m' k (comp m u' c) = turn_y F (sgx m k q) (sgy m k q) / fscale F).
    { intros c q Q. destruct (fr_sg k (comp m u' c) Hk) as [-> ->].
      rewrite (sgx_ext m k _ q), (sgy_ext m k _ q) by (intros n Hn; apply Q, (on_domain_key m W k n Hn)). split; reflexivity. }
    destruct (X 0%nat (fun n => fxx F * comp m u 0 n + fxy F * comp m u 1 n)) as [-> ->]; [intros n Hn; apply (H n Hn)|].
    destruct (X 1%nat (fun n => fyx F * comp m u 0 n + fyy F * comp m u 1 n)) as [-> ->]; [intros n Hn; apply (H n Hn)|].
    destruct (X 3%nat (fun n => fxx F * comp m u 3 n + fxy F * comp m u 4 n)) as [-> ->]; [intros n Hn; apply (H n Hn)|].
    destruct (X 4%nat (fun n => fyx F * comp m u 3 n + fyy F * comp m u 4 n)) as [-> ->]; [intros n Hn; apply (H n Hn)|].
    assert (LX := fun a b c c' => proj1 (sg_lin k a b (comp m u c) (comp m u c'))).
    assert (LY := fun a b c c' => proj2 (sg_lin k a b (comp m u c) (comp m u c'))).
    rewrite !LX, !LY. unfold sscale, turn_strain, turn_xx, turn_yy, turn_xy, turn_x, turn_y; cbn [exx eyy exy kxx kyy kxy].
    assert (N := proj2 (proj2 (proj2 O))). f_equal; field; exact N.
  Qed.
  Lemma fr_dom : forall k, dom_area m' k = fscale F * fscale F * dom_area m k.
  Proof.
    intros k. unfold dom_area. rewrite fr_tris, Sum_map.
    rewrite (Sum_ext_in _ _ (fun t => fscale F * fscale F * tarea m t)).
    - rewrite Sum_scal. field.
    - intros t Ht. apply fr_tarea. apply tris_on_in in Ht; tauto.
  Qed.

  (** ** Laminates *)
  (** anything linear in the laminate: averaged, it is the average *)
  Lemma fr_stiffness : forall (G : mat3 R -> mat3 R -> mat3 R -> R) (G' : mat3 R -> mat3 R -> mat3 R -> R) pfn k,
    (forall A (w : A -> R) (MA MB MD : A -> mat3 R) l, G (wsum3 w MA l) (wsum3 w MB l) (wsum3 w MD l) = Sum (fun a => w a * G (MA a) (MB a) (MD a)) l / Sum w l) ->
    (forall A (w : A -> R) (MA MB MD : A -> mat3 R) l, G' (wsum3 w MA l) (wsum3 w MB l) (wsum3 w MD l) = Sum (fun a => w a * G' (MA a) (MB a) (MD a)) l / Sum w l) ->
    G zero3 zero3 zero3 = G' zero3 zero3 zero3 ->
    all_props m (fun p => G' (pA (P p)) (pB (P p)) (pD (P p)) = G (pA p) (pB p) (pD p)) -> In k (edge_keys m) ->
    G' (edge_stiffness m' pfn pA k) (edge_stiffness m' pfn pB k) (edge_stiffness m' pfn pD k) =
    G (edge_stiffness m pfn pA k) (edge_stiffness m pfn pB k) (edge_stiffness m pfn pD k).
  Proof.
    intros G G' pfn k LG LG' Z0 [PN PT] Hk.
    assert (Z : forall o, (forall p, o = Some p -> G' (pA (P p)) (pB (P p)) (pD (P p)) = G (pA p) (pB p) (pD p)) ->
      G' (getp pA (option_map P o)) (getp pB (option_map P o)) (getp pD (option_map P o)) = G (getp pA o) (getp pB o) (getp pD o)).
    { intros [p|] H; cbn [getp option_map]; [apply H; reflexivity|symmetry; exact Z0]. }
    unfold edge_stiffness. destruct pfn.
    - unfold node_stiffness. rewrite fr_tris. set (l := tris_on m k).
      assert (EV : forall mm sel, wsum3 (fun _ : mat3 R => 1) (fun X => X)
          (getp sel (nodeprop mm (fst k)) :: getp sel (nodeprop mm (snd k)) ::
           map (fun t => wsum3 (fun _ => 1) (fun n => getp sel (nodeprop mm n)) [tn1 t; tn2 t; tn3 t]) l)
        = wsum3 (fun _ : (prop R -> mat3 R) -> mat3 R => 1) (fun f => f sel)
          ((fun sel => getp sel (nodeprop mm (fst k))) :: (fun sel => getp sel (nodeprop mm (snd k))) ::
           map (fun t sel => wsum3 (fun _ => 1) (fun n => getp sel (nodeprop mm n)) [tn1 t; tn2 t; tn3 t]) l)).
      { intros mm sel. unfold wsum3. rewrite !Sum_cons, !Sum_map. reflexivity. }
      rewrite !map_map. cbn [tr tn1 tn2 tn3]. rewrite !EV, LG, LG'. f_equal.
      + rewrite !Sum_cons, !Sum_map. rewrite !fr_prop, !(fun n H => Z (nodeprop m n) H) by (intros p; apply PN). do 2 f_equal.
        apply Sum_ext. intros t. rewrite LG, LG'. do 2 f_equal. apply Sum_ext. intros n. rewrite fr_prop, Z by (intros p; apply PN). reflexivity.
      + rewrite !Sum_cons, !Sum_map. reflexivity.
    - unfold tria_stiffness. rewrite LG, LG'.
      assert (T : forall t, In t (tris_on m k) -> In t (trias_of m)) by (intros t Ht; apply tris_on_in in Ht; tauto).
      rewrite fr_tris, !Sum_map.
      rewrite (Sum_ext_in _ _ (fun t => fscale F * fscale F * (tarea m t * G (getp pA (tprop t)) (getp pB (tprop t)) (getp pD (tprop t))))).
      2: { intros t Ht. cbn [tr tprop]. rewrite fr_tarea by auto. rewrite Z by (intros p; apply (PT t); auto). ring. }
      rewrite (Sum_ext_in _ (fun t => tarea m' (tr t)) (fun t => fscale F * fscale F * tarea m t)) by (intros t Ht; apply fr_tarea; auto).
      rewrite !Sum_scal. assert (A := tris_area_pos m W PL k Hk). field. split; [apply Rgt_not_eq, A|]. exact (proj2 (proj2 (proj2 O))).
  Qed.

  Lemma fr_dens : forall pfn k e f, all_props m (fun p => same_laminate F p (P p)) -> In k (edge_keys m) ->
    dens (edge_stiffness m' pfn pA k) (edge_stiffness m' pfn pB k) (edge_stiffness m' pfn pD k) (turn_strain F e) (turn_strain F f) =
    dens (edge_stiffness m pfn pA k) (edge_stiffness m pfn pB k) (edge_stiffness m pfn pD k) e f.
  Proof.
    intros pfn k e f [PN PT] Hk.
    apply (fr_stiffness (fun A B D => dens A B D e f) (fun A B D => dens A B D (turn_strain F e) (turn_strain F f)) pfn k).
    - intros; apply dens_wsum3.
    - intros; apply dens_wsum3.
    - unfold dens, quad3, zero3; cbn; ring.
    - split; [intros n p H; apply (PN n p H)|intros t p Ht H; apply (PT t p Ht H)].
    - exact Hk.
  Qed.

  Lemma fr_energy : forall pfn u u' v v', all_props m (fun p => same_laminate F p (P p)) ->
    turned_field F m u u' -> turned_field F m v v' -> k0_energy m' pfn u' v' = k0_energy m pfn u v.
  Proof.
    intros pfn u u' v v' AP Hu Hv. unfold k0_energy. rewrite fr_edges. apply Sum_ext_in. intros k Hk.
    rewrite fr_dom, (fr_strain u u' k Hu Hk), (fr_strain v v' k Hv Hk), dens_scale_l, dens_scale_r, fr_dens by assumption.
    field. exact (proj2 (proj2 (proj2 O))).
  Qed.

  (** ** Geometric stiffness *)
  Lemma wm_wsum3 : forall A (w : A -> R) (MA MB : A -> mat3 R) l s a b c d,
    work (membrane (wsum3 w MA l) (wsum3 w MB l) s) a b c d = Sum (fun x => w x * work (membrane (MA x) (MB x) s) a b c d) l / Sum w l.
  Proof.
    intros A w MA MB l s a b c d. unfold wsum3. cbv zeta. generalize (Sum w l); intros S.
    unfold work, membrane; cbn [vx vy vz m00 m01 m02 m10 m11 m12 m20 m21 m22].
    induction l as [|x l IH].
    - rewrite !Sum_nil. unfold Rdiv; ring.
    - rewrite !Sum_cons. unfold Rdiv in *. match goal with |- _ = (?a + ?b) * ?c => replace ((a + b) * c) with (a * c + b * c) by ring end.
      rewrite <- IH. ring.
  Qed.
  Lemma work_turn : forall N a b c d, work (turn_force F N) (turn_x F a b) (turn_y F a b) (turn_x F c d) (turn_y F c d) = work N a b c d.
  Proof.
    intros N a b c d. destruct O as [H1 [H2 [H3 _]]]. unfold work, turn_force, turn_xx, turn_yy, turn_xy, turn_x, turn_y; cbn [vx vy vz].
    set (q := fxx F) in *. set (r := fxy F) in *. set (s := fyx F) in *. set (t := fyy F) in *.
    set (X := vx N). set (Y := vy N). set (Z := vz N).
    transitivity ((a * (q * q + s * s) + b * (q * r + s * t)) * (X * (c * (q * q + s * s) + d * (q * r + s * t)) + Z * (c * (q * r + s * t) + d * (r * r + t * t)))
      + (a * (q * r + s * t) + b * (r * r + t * t)) * (Z * (c * (q * q + s * s) + d * (q * r + s * t)) + Y * (c * (q * r + s * t) + d * (r * r + t * t)))).
    - ring.
    - rewrite H1, H2, H3. ring.
  Qed.
  Lemma strain_scale : forall c u k, smoothed_strain m (fun i => c * u i) k = sscale c (smoothed_strain m u k).
  Proof.
    intros c u k. unfold smoothed_strain.
    assert (X : forall i, sgx m k (comp m (fun i => c * u i) i) = c * sgx m k (comp m u i) /\ sgy m k (comp m (fun i => c * u i) i) = c * sgy m k (comp m u i)).
    { intros i. destruct (sg_lin k c 0 (comp m u i) (comp m u i)) as [A B].
      rewrite (sgx_ext m k (comp m (fun i => c * u i) i) (fun n => c * comp m u i n + 0 * comp m u i n)) by (intros; unfold comp; ring).
      rewrite (sgy_ext m k (comp m (fun i => c * u i) i) (fun n => c * comp m u i n + 0 * comp m u i n)) by (intros; unfold comp; ring).
      rewrite A, B. split; ring. }
    rewrite !(fun i => proj1 (X i)), !(fun i => proj2 (X i)). unfold sscale; cbn [exx eyy exy kxx kyy kxy]. f_equal; ring.
  Qed.
  Lemma fr_work : forall pfn d d' u v, all_props m (fun p => same_forces F p (P p)) ->
    turned_field F m (fun i => fscale F * d i) d' -> kG_energy m' pfn d' u v = kG_energy m pfn d u v.
  Proof.
    intros pfn d d' u v [PN PT] Hd. unfold kG_energy. rewrite fr_edges. apply Sum_ext_in. intros k Hk. unfold edge_work.
    rewrite fr_dom, (fr_strain _ _ k Hd Hk), strain_scale, fr_comp. assert (Nr := proj2 (proj2 (proj2 O))).
    replace (sscale (/ fscale F) (turn_strain F (sscale (fscale F) (smoothed_strain m d k)))) with (turn_strain F (smoothed_strain m d k)).
    2: { unfold sscale, turn_strain, turn_xx, turn_yy, turn_xy; cbn [exx eyy exy kxx kyy kxy]. f_equal; field; exact Nr. }
    destruct (fr_sg k (comp m u 2) Hk) as [-> ->]. destruct (fr_sg k (comp m v 2) Hk) as [-> ->].
    set (a := sgx m k (comp m u 2)). set (b := sgy m k (comp m u 2)). set (e := sgx m k (comp m v 2)). set (f := sgy m k (comp m v 2)).
    set (s := smoothed_strain m d k).
    rewrite <- (fr_stiffness (fun A B _ => work (membrane A B s) a b e f)
      (fun A B _ => work (membrane A B (turn_strain F s)) (turn_x F a b) (turn_y F a b) (turn_x F e f) (turn_y F e f)) pfn k).
    - unfold work. field. exact Nr.
    - intros; apply wm_wsum3.
    - intros; apply wm_wsum3.
    - unfold work, membrane, zero3; cbn; ring.
    - split; [intros n p H; rewrite (PN n p H)|intros t p Ht H; rewrite (PT t p Ht H)]; apply work_turn.
    - exact Hk.
  Qed.

  (** ** Shear *)
  Hypothesis R1 : fscale F = 1.
  Definition turn_pt (p : pt) : pt := Pt (turn_x F (ptx p) (pty p) + ftx F) (turn_y F (ptx p) (pty p) + fty F) (ptw p)
    (turn_x F (ptfx p) (ptfy p)) (turn_y F (ptfx p) (ptfy p)).
  Definition turn2 (g : R * R) : R * R := (turn_x F (fst g) (snd g), turn_y F (fst g) (snd g)).
  Lemma fr_at_node : forall u u' n, turned_field F m u u' -> In n (node_keys m) -> at_node m' u' n = turn_pt (at_node m u n).
  Proof.
    intros u u' n H Hn. unfold at_node, turn_pt; cbn [ptx pty ptw ptfx ptfy]. rewrite fr_comp, fr_pos by exact Hn.
    destruct (H n Hn) as [_ [_ [-> [-> ->]]]]. unfold place; cbn [vx vy]. rewrite R1. f_equal; ring.
  Qed.
  Lemma turn_dot : forall a b c d, turn_x F a b * turn_x F c d + turn_y F a b * turn_y F c d = a * c + b * d.
  Proof.
    intros a b c d. destruct O as [H1 [H2 [H3 _]]]. unfold turn_x, turn_y.
    transitivity (a * c * (fxx F * fxx F + fyx F * fyx F) + b * d * (fxy F * fxy F + fyy F * fyy F) + (a * d + b * c) * (fxx F * fxy F + fyx F * fyy F)).
    - ring.
    - rewrite H1, H2, H3. ring.
  Qed.
  Lemma gap_turn : forall p q, gap (turn_pt p) (turn_pt q) = gap p q.
  Proof.
    intros p q. unfold gap, turn_pt; cbn [ptx pty ptw ptfx ptfy].
    assert (H := turn_dot ((ptfx p + ptfx q) / 2) ((ptfy p + ptfy q) / 2) (ptx q - ptx p) (pty q - pty p)).
    unfold turn_x, turn_y in *. lra.
  Qed.
  Lemma pdet_turn : forall p q r, pdet (turn_pt p) (turn_pt q) (turn_pt r) = sg * pdet p q r.
  Proof. intros; unfold pdet, turn_pt, turn_x, turn_y, sg; cbn [ptx pty]; ring. Qed.
  Lemma dsg_turn : forall p q r, dsg (turn_pt p) (turn_pt q) (turn_pt r) = turn2 (dsg p q r).
  Proof.
    intros p q r. unfold dsg at 1. rewrite pdet_turn, !gap_turn. unfold dsg, turn2; cbn [fst snd].
    destruct (ortho_sign F O) as [s [S [D [C [U E]]]]]. unfold sg. rewrite <- E.
    assert (Ns : s <> 0) by (intros Z; rewrite Z in S; lra).
    assert (SI : / s = s) by (apply (Rmult_eq_reg_l s); [rewrite S; field; exact Ns|exact Ns]).
    unfold turn_pt, turn_x, turn_y; cbn [ptx pty]. unfold Rdiv. rewrite Rinv_mult, SI. set (i := / pdet p q r). rewrite D, C.
    set (g := gap p q). set (h := gap p r). f_equal.
    - transitivity (s * s * (fxx F * ((g * (pty r - pty p) - h * (pty q - pty p)) * i) + fxy F * ((h * (ptx q - ptx p) - g * (ptx r - ptx p)) * i))).
      + ring.
      + rewrite S. ring.
    - ring.
  Qed.
  Lemma center_turn : forall th p q r, center th (turn_pt p) (turn_pt q) (turn_pt r) = turn_pt (center th p q r).
  Proof. intros; unfold center, turn_pt, turn_x, turn_y; cbn [ptx pty ptw ptfx ptfy]; f_equal; field. Qed.
  Lemma parea_turn : forall p q r, parea (turn_pt p) (turn_pt q) (turn_pt r) = parea p q r.
  Proof. intros; unfold parea. rewrite pdet_turn, Rabs_mult, sg_abs. f_equal; ring. Qed.
  Lemma cell_turn : forall th p q r, cell_shear th (turn_pt p) (turn_pt q) (turn_pt r) = turn2 (cell_shear th p q r).
  Proof.
    intros; unfold cell_shear. rewrite center_turn, !dsg_turn, !parea_turn. unfold turn2, turn_x, turn_y; cbn [fst snd].
    unfold Rdiv. f_equal; ring.
  Qed.
  Lemma fr_cell : forall th u u' t, turned_field F m u u' -> In t (trias_of m) -> strain_cell th m' u' (tr t) = turn2 (strain_cell th m u t).
  Proof.
    intros th u u' t H Ht. unfold strain_cell. cbn [tr tn1 tn2 tn3].
    rewrite !(fr_at_node u u' _ H) by (apply (wf_vertices m W t _ Ht); unfold vertex; auto). apply cell_turn.
  Qed.
  Lemma fr_ns : forall u u' t, proper F -> turned_field F m u u' -> In t (trias_of m) -> strain_ns m' u' (tr t) = turn2 (strain_ns m u t).
  Proof.
    intros u u' t PF H Ht. unfold strain_ns. rewrite fr_tdet by exact Ht. cbn [tr tn1 tn2 tn3].
    rewrite !(fr_at_node u u' _ H) by (apply (wf_vertices m W t _ Ht); unfold vertex; auto).
    assert (S1 : sg = 1). { assert (A := sg_sq). unfold proper in PF. fold sg in PF. nra. }
    rewrite S1, R1. replace (1 * 1 * 1 * tdet m t) with (tdet m t) by ring. destruct Rlt_dec; apply dsg_turn.
  Qed.
  Lemma fr_dist : forall a b, In a (node_keys m) -> In b (node_keys m) -> dist m' a b = dist m a b.
  Proof.
    intros a b Ha Hb. unfold dist. rewrite !fr_pos by assumption. unfold place; cbn [vx vy vz]. rewrite R1. f_equal.
    assert (H := turn_dot (vx (pos m a) - vx (pos m b)) (vy (pos m a) - vy (pos m b)) (vx (pos m a) - vx (pos m b)) (vy (pos m a) - vy (pos m b))).
    unfold turn_x, turn_y in *. lra.
  Qed.
  Lemma fr_size : forall mfa t, In t (trias_of m) -> tria_size m' mfa (tr t) = tria_size m mfa t.
  Proof.
    intros mfa t Ht. unfold tria_size. rewrite fr_tarea, R1 by exact Ht. cbn [tr tn1 tn2 tn3].
    rewrite !fr_dist by (apply (wf_vertices m W t _ Ht); unfold vertex; auto). rewrite !Rmult_1_l. reflexivity.
  Qed.
  Lemma fr_val : forall pfn f t, all_props m (fun p => f (P p) = f p) -> In t (trias_of m) -> tria_val m' pfn f (tr t) = tria_val m pfn f t.
  Proof.
    intros pfn f t [PN PT] Ht. unfold tria_val. cbn [tr tn1 tn2 tn3 tprop].
    assert (Z : forall o, (forall p, o = Some p -> f (P p) = f p) -> pval f (option_map P o) = pval f o).
    { intros [p|] H; cbn; [apply H|]; reflexivity. }
    rewrite !fr_prop, !Z; try reflexivity; intros p; try apply PN. apply (PT t p Ht).
  Qed.
  Lemma fr_shear : forall g g' pfn alpha mfa u u' v v', all_props m (fun p => shear_isotropic p /\ same_shear p (P p)) ->
    (forall t, In t (trias_of m) -> g' u' (tr t) = turn2 (g u t) /\ g' v' (tr t) = turn2 (g v t)) ->
    shear_energy g' m' pfn alpha mfa u' v' = shear_energy g m pfn alpha mfa u v.
  Proof.
    intros g g' pfn alpha mfa u u' v v' [PN PT] H. unfold shear_energy. rewrite fr_trias, Sum_map. apply Sum_ext_in. intros t Ht.
    destruct (H t Ht) as [-> ->]. rewrite fr_tarea, fr_size, R1 by exact Ht.
    assert (X : forall f, (forall p, same_shear p (P p) -> f (P p) = f p) -> tria_val m' pfn f (tr t) = tria_val m pfn f t).
    { intros f Q. apply fr_val; [|exact Ht]. split; [intros n p Hp; apply Q, (PN n p Hp)|intros t0 p Ht0 Hp; apply Q, (PT t0 p Ht0 Hp)]. }
    assert (Y : forall f f', (forall p, shear_isotropic p -> f p = f' p) -> tria_val m pfn f t = tria_val m pfn f' t).
    { intros f f' Q. unfold tria_val.
      assert (Z : forall o, (forall p, o = Some p -> shear_isotropic p) -> pval f o = pval f' o).
      { intros [p|] HH; cbn [pval]; [apply Q, HH|]; reflexivity. }
      rewrite !Z; try reflexivity; intros p Hp; try apply (PN _ p Hp). apply (PT t p Ht Hp). }
    unfold tria_G44, tria_G55. rewrite !X by (intros p [A [B [C D]]]; congruence).
    rewrite <- (Y pk13 pk23) by (intros p [A _]; exact A).
    rewrite <- (Y (fun p => e00 (pE p)) (fun p => e11 (pE p))) by (intros p [_ A]; exact A).
    assert (TD := turn_dot (fst (g u t)) (snd (g u t)) (fst (g v t)) (snd (g v t))). unfold turn2; cbn [fst snd].
    set (c := corr _ _ _). set (G := tria_val m pfn pk13 t * _).
    transitivity (tarea m t * c * G * (turn_x F (fst (g u t)) (snd (g u t)) * turn_x F (fst (g v t)) (snd (g v t)) + turn_y F (fst (g u t)) (snd (g u t)) * turn_y F (fst (g v t)) (snd (g v t)))).
    - ring.
    - rewrite TD. ring.
  Qed.
End Frame.
