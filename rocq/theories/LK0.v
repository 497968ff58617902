(** Lemmas behind the properties of calc_k0 (C16-C29). *)
(* P: Num Py Mesh Utils CalcK0 Ops Spec SpecRead SpecK0 Ex ExK0 *)
From Coq Require Import ZArith Reals List Bool Arith Lra Lia Permutation.
From Verif Require Import Num Py Mesh Utils CalcK0 Ops Spec SpecRead SpecK0 FSum FMat FDict FGeom FWf FSetup FAsm FK0
  FTensor FOps FConn LRead FSmooth FDom FTot FRenum FAny FOut Ex ExK0.
Import ListNotations.
Local Open Scope R_scope.
Implicit Types (m : mesh R).

(** ** From the master theorem *)

Lemma valid_spec : forall m pfn, valid m pfn ->
  exists m' K, calc_k0 m pfn = (m', Ok K) /\ mdim K = (length (nodes m) * 5)%nat /\
    (forall u v, form K u v = k0_energy m pfn u v) /\ same m m' /\ prepared m'.
Proof. intros m pfn [W P PC N]. apply calc_k0_spec; assumption. Qed.

Lemma valid_result : forall m pfn m' K, valid m pfn -> calc_k0 m pfn = (m', Ok K) ->
  mdim K = (length (nodes m) * 5)%nat /\
  (forall u v, form K u v = k0_energy m pfn u v) /\ same m m' /\ prepared m'.
Proof.
  intros m pfn m' K V E. destruct (valid_spec m pfn V) as [m1 [K1 [E1 H]]]. rewrite E in E1. injection E1 as <- <-. exact H.
Qed.

Lemma ready_area : forall m k e, ready m k e -> eAc e = Some (dom_area m k).
Proof. intros m k e H. apply (rd_Ac m k e H). Qed.

(** Smoothing domains tile the plate: after calc_k0 each edge stores a positive area, one
    third of the areas of the triangles on it, and these areas add up to the area of the
    plate. *)
Lemma c16_tiling : forall m pfn, valid m pfn -> exists m' K, calc_k0 m pfn = (m', Ok K) /\
  (forall k e, In (k, e) (edges m') -> exists A, eAc e = Some A /\ 0 < A /\
     A = Sum (tarea m) (tris_on m k) / 3) /\
  Sum (fun ke => stored_area (snd ke)) (edges m') = total_area m.
Proof.
  intros m pfn V. destruct (valid_spec m pfn V) as [m' [K [E [_ [_ [S P]]]]]]. exists m', K. split; [exact E|].
  assert (PL := same_plate m m' S (va_plate m pfn V)).
  assert (X : forall k e, In (k, e) (edges m') -> eAc e = Some (dom_area m k) /\ 0 < dom_area m k).
  { intros k e H. rewrite (ready_area _ _ _ (pr_ready m' P k e H)), (same_dom_area m m' S). split; [reflexivity|].
    apply (dom_area_pos m (va_wf m pfn V) (va_plate m pfn V)). rewrite <- (sm_edges _ _ S).
    apply in_map_iff; exists (k, e); auto. }
  split.
  - intros k e H. exists (dom_area m k). destruct (X k e H). repeat split; auto.
  - rewrite (Sum_ext_in _ _ (fun ke => dom_area m (fst ke))).
    + rewrite <- (Sum_map _ _ fst (dom_area m)). change (map fst (edges m')) with (edge_keys m').
      rewrite (sm_edges _ _ S). apply Sum_dom_area. apply (va_wf m pfn V).
    + intros [k e] H. unfold stored_area; cbn [fst snd]. rewrite (proj1 (X k e H)). reflexivity.
Qed.

(** The hypothesis is met by a concrete plate of area 12, for both property sources. *)
Lemma c16_tiling_ex : forall pfn, valid ex_mesh pfn /\ total_area ex_mesh = 12.
Proof. intros pfn; split; [apply ex_valid|apply ex_area]. Qed.

(** Integration points describe the closed outward boundary of the smoothing domains. *)
Lemma c17_boundary : forall m pfn, valid m pfn -> exists m' K, calc_k0 m pfn = (m', Ok K) /\
  edge_keys m' = edge_keys m /\ forall k e, In (k, e) (edges m') -> domain_ok m k e.
Proof.
  intros m pfn V. destruct (valid_spec m pfn V) as [m' [K [E [_ [_ [S P]]]]]]. exists m', K. split; [exact E|].
  split; [apply (sm_edges _ _ S)|]. intros k e H.
  assert (Hk : In k (edge_keys m)).
  { rewrite <- (sm_edges _ _ S). apply in_map_iff; exists (k, e); auto. }
  apply ready_domain; [apply (va_wf m pfn V)|apply (va_plate m pfn V)|exact Hk|].
  assert (R := pr_ready m' P k e H).
  assert (S' : same m' m).
  { destruct S; constructor; congruence. }
  apply (same_ready m' m S' k e R).
Qed.

(** The plate has edges with one and with two triangles. *)
Lemma c17_boundary_ex : forall pfn, valid ex_mesh pfn /\
  map (fun k => length (tris_on ex_mesh k)) (edge_keys ex_mesh) = [1; 2; 2; 1; 2; 1; 2; 1]%nat.
Proof. intros pfn; split; [apply ex_valid|reflexivity]. Qed.

(** Numbering: on any mesh whatsoever, if calc_k0 returns, the nodes have the indices
    0 .. n-1 in dictionary order and the matrix is 5n x 5n. *)
Lemma c18_numbering : forall (T : Type) (NT : Num T) (m : mesh T) pfn (m' : mesh T) K, calc_k0 m pfn = (m', Ok K) ->
  node_keys m' = node_keys m /\
  map (fun kn => nindex (snd kn)) (nodes m') = map Some (seq 0 (length (nodes m))) /\
  mdim K = (length (nodes m) * 5)%nat.
Proof.
  intros T NT m pfn m' K E. destruct (calc_k0_inv T NT m pfn m' K E) as [N [_ [_ [_ A]]]]. unfold node_keys. rewrite N.
  split; [apply number_keys|]. split; [apply number_nodes_index|]. apply k0_assemble_dim in A. exact A.
Qed.

Lemma c18_numbering_ex : forall pfn, exists m' K, calc_k0 ex_mesh pfn = (m', Ok K) /\ mdim K = 30%nat.
Proof.
  intros pfn. destruct (valid_spec ex_mesh pfn (ex_valid pfn)) as [m' [K [E [D _]]]]. exists m', K. auto.
Qed.

(** k0 is the smoothed strain energy: the sum over the edges of the area of the smoothing
    domain times the product of the strains with the laminate stiffness of the edge, the
    strains being the boundary integrals of the displacements over the stored
    integration points. *)
Lemma c19_energy : forall m pfn, valid m pfn -> exists m' K, calc_k0 m pfn = (m', Ok K) /\
  forall u v, form K u v =
    Sum (fun ke => let Ac := stored_area (snd ke) in
           Ac * dens (edge_stiffness m pfn pA (fst ke)) (edge_stiffness m pfn pB (fst ke))
                     (edge_stiffness m pfn pD (fst ke))
                     (edge_strain m (snd ke) Ac u) (edge_strain m (snd ke) Ac v)) (edges m').
Proof.
  intros m pfn V. destruct (valid_spec m pfn V) as [m' [K [E [_ [F [S P]]]]]]. exists m', K. split; [exact E|].
  intros u v. rewrite F. unfold k0_energy. rewrite <- (sm_edges _ _ S). unfold edge_keys. rewrite Sum_map.
  apply Sum_ext_in. intros [k e] H. cbn [fst snd]. cbv zeta.
  assert (R := pr_ready m' P k e H). assert (A := ready_area _ _ _ R). rewrite (same_dom_area m m' S) in A.
  unfold stored_area; rewrite A.
  assert (S' : same m' m) by (destruct S; constructor; congruence).
  assert (Hk : In k (edge_keys m)).
  { rewrite <- (sm_edges _ _ S). apply in_map_iff; exists (k, e); auto. }
  assert (B := fun q => ready_bint m k e q (va_wf m pfn V) (va_plate m pfn V) Hk (same_ready m' m S' k e R)).
  assert (X : forall u, edge_strain m e (dom_area m k) u = smoothed_strain m u k).
  { intros u0. unfold edge_strain, smoothed_strain. rewrite !(fun q => proj1 (B q)), !(fun q => proj2 (B q)). reflexivity. }
  rewrite !X. reflexivity.
Qed.

(** The same with the strains as averages over the triangles on the edge, and calc_k0
    changes none of the data of the mesh. *)
Lemma c19_average : forall m pfn, valid m pfn -> exists m' K, calc_k0 m pfn = (m', Ok K) /\
  (forall u v, form K u v = k0_energy m pfn u v) /\ same_data m m'.
Proof.
  intros m pfn V. destruct (valid_spec m pfn V) as [m' [K [E [_ [F [S P]]]]]]. exists m', K. split; [exact E|].
  split; [exact F|]. constructor.
  - apply (sm_keys _ _ S).
  - intros n; rewrite (sm_pos _ _ S); reflexivity.
  - intros n; rewrite (sm_prop _ _ S); reflexivity.
  - apply (sm_elements _ _ S).
  - apply (sm_edges _ _ S).
  - destruct (calc_k0_inv R _ m pfn m' K E) as [_ [_ [Q _]]]. assert (X := setup_edges_keep m (edges m)).
    rewrite Q in X. cbn [fst] in X.
    apply (f_equal (map (fun ke : (nat * nat) * edge R => etrias (snd ke)))) in X. rewrite !map_map in X. exact X.
Qed.

(** k0 is symmetric, on any mesh whatsoever on which calc_k0 returns and none of the
    smoothing domains is degenerate (numpy would divide by zero), for any A, B, D. *)
Lemma c20_symmetric : forall (m : mesh R) pfn m' K, calc_k0 m pfn = (m', Ok K) ->
  (forall k e, In (k, e) (edges m') -> eAc e <> Some 0) -> symmetric K.
Proof.
  intros m pfn m' K E H. destruct (calc_k0_inv R _ m pfn m' K E) as [_ [_ [_ [_ A]]]].
  apply form_symmetric. apply (proj2 (k0_assemble_sym _ _ _ _ _ A H)). intros; rewrite !form_zeros; reflexivity.
Qed.

Lemma c20_symmetric_ex : forall pfn, exists m' K, calc_k0 ex_mesh pfn = (m', Ok K) /\
  (forall k e, In (k, e) (edges m') -> eAc e <> Some 0).
Proof.
  intros pfn. destruct (c16_tiling ex_mesh pfn (ex_valid pfn)) as [m' [K [E [H _]]]]. exists m', K. split; [exact E|].
  intros k e He. destruct (H k e He) as [A [-> [P _]]]. intros X; injection X as X. lra.
Qed.

Lemma stiffness_psd : forall m pfn k e, valid m pfn -> all_props m psd -> In k (edge_keys m) ->
  0 <= dens (edge_stiffness m pfn pA k) (edge_stiffness m pfn pB k) (edge_stiffness m pfn pD k) e e.
Proof.
  intros m pfn k e V [PN PT] Hk.
  assert (Z : forall o : option (prop R), (forall p, o = Some p -> psd p) -> 0 <= dens (getp pA o) (getp pB o) (getp pD o) e e).
  { intros [p|] H; cbn [getp]; [apply H; reflexivity|]. unfold dens, quad3, zero3; cbn. lra. }
  unfold edge_stiffness. destruct pfn.
  - unfold node_stiffness. set (l := tris_on m k).
    assert (EV : forall sel, wsum3 (fun _ : mat3 R => 1) (fun X => X)
        (getp sel (nodeprop m (fst k)) :: getp sel (nodeprop m (snd k)) ::
         map (fun t => wsum3 (fun _ => 1) (fun n => getp sel (nodeprop m n)) [tn1 t; tn2 t; tn3 t]) l)
      = wsum3 (fun _ : (prop R -> mat3 R) -> mat3 R => 1) (fun f => f sel)
        ((fun sel => getp sel (nodeprop m (fst k))) :: (fun sel => getp sel (nodeprop m (snd k))) ::
         map (fun t sel => wsum3 (fun _ => 1) (fun n => getp sel (nodeprop m n)) [tn1 t; tn2 t; tn3 t]) l)).
    { intros sel. unfold wsum3. rewrite !Sum_cons, !Sum_map. reflexivity. }
    rewrite !EV. apply wsum3_psd.
    + intros; lra.
    + intros f Hf. cbn [In] in Hf. destruct Hf as [<-|[<-|Hf]].
      * apply Z; intros p; apply PN.
      * apply Z; intros p; apply PN.
      * apply in_map_iff in Hf. destruct Hf as [t [<- _]]. apply wsum3_psd; [intros; lra| |apply Sum_one_pos].
        intros n _. apply Z; intros p; apply PN.
    + apply Sum_one_pos.
  - unfold tria_stiffness. apply wsum3_psd.
    + intros t _. unfold tarea. assert (X := Rabs_pos (tdet m t)). lra.
    + intros t Ht. apply Z. intros p Hp. apply (PT t p); [|exact Hp]. apply tris_on_in in Ht; tauto.
    + apply (tris_area_pos m (va_wf _ _ V) (va_plate _ _ V) k Hk).
Qed.

(** k0 is positive semi-definite if all the laminate matrices are. *)
Lemma c21_psd : forall m pfn, valid m pfn -> all_props m psd -> exists m' K, calc_k0 m pfn = (m', Ok K) /\
  forall u, 0 <= form K u u.
Proof.
  intros m pfn V A. destruct (valid_spec m pfn V) as [m' [K [E [_ [F [S P]]]]]]. exists m', K. split; [exact E|].
  intros u. rewrite F. unfold k0_energy. apply Sum_nonneg. intros k Hk.
  apply Rmult_le_pos; [|apply stiffness_psd; assumption].
  apply Rlt_le, (dom_area_pos m (va_wf m pfn V) (va_plate m pfn V) k Hk).
Qed.

Lemma c21_psd_ex : forall pfn, valid ex_mesh pfn /\ all_props ex_mesh psd.
Proof. intros pfn; split; [apply ex_valid|apply ex_all_psd]. Qed.

Lemma dens_zero_r : forall A B D e, dens A B D e strain0 = 0.
Proof. intros; unfold dens, quad3, strain0; cbn; ring. Qed.
Lemma dens_zero_l : forall A B D e, dens A B D strain0 e = 0.
Proof. intros; unfold dens, quad3, strain0; cbn; ring. Qed.

Lemma affine_strain_spec : forall m pfn u a b d k, valid m pfn -> affine_field m u a b d -> In k (edge_keys m) ->
  smoothed_strain m u k = affine_strain b d.
Proof.
  intros m pfn u a b d k V H Hk.
  rewrite (strain_affine m u k (fun c => ((a c, b c), d c)) (va_wf _ _ V) (va_plate _ _ V) Hk); [reflexivity|].
  intros c n Hc H2 Hn. cbn [fst snd]. apply H; assumption.
Qed.

(** Rigid body motions are in the null space of k0. *)
Lemma c22_rigid : forall m pfn, valid m pfn -> exists m' K, calc_k0 m pfn = (m', Ok K) /\
  forall u, rigid m u -> forall i, (i < mdim K)%nat -> mulv K u i = 0.
Proof.
  intros m pfn V. destruct (valid_spec m pfn V) as [m' [K [E [_ [F [S P]]]]]]. exists m', K. split; [exact E|].
  intros u [tx [ty [th [px [py H]]]]] i Hi. rewrite (mulv_form K u i Hi), F. apply Sum_zero. intros k Hk.
  rewrite (affine_strain_spec m pfn u
    (fun c => match c with 0%nat => tx | 1%nat => ty | 3%nat => px | _ => py end)
    (fun c => match c with 1%nat => th | _ => 0 end)
    (fun c => match c with 0%nat => - th | _ => 0 end) k V); [| |exact Hk].
  - replace (affine_strain _ _) with strain0.
    + rewrite dens_zero_r; ring.
    + unfold affine_strain, strain0. f_equal; ring.
  - intros c n Hc H2 Hn. destruct (H n Hn) as [H0 [H1 [H3 H4]]]. unfold affine.
    destruct c as [|[|[|[|[|c]]]]]; try lia; rewrite ?H0, ?H1, ?H3, ?H4; ring.
Qed.

(** a rotation about (1, 1) together with an arbitrary w *)
Lemma c22_rigid_ex : forall pfn, valid ex_mesh pfn /\ rigid ex_mesh ex_rot.
Proof. intros pfn; split; [apply ex_valid|apply ex_rigid]. Qed.

Lemma dens_one : forall m pfn p k e f, valid m pfn -> all_props m (fun q => q = p) -> In k (edge_keys m) ->
  dens (edge_stiffness m pfn pA k) (edge_stiffness m pfn pB k) (edge_stiffness m pfn pD k) e f
  = dens (pA p) (pB p) (pD p) e f.
Proof.
  intros m pfn p k e f V [PN PT] Hk.
  assert (W1 : forall A (w : A -> R) (MA MB MD : A -> mat3 R) l, Sum w l <> 0 ->
    (forall a, In a l -> dens (MA a) (MB a) (MD a) e f = dens (pA p) (pB p) (pD p) e f) ->
    dens (wsum3 w MA l) (wsum3 w MB l) (wsum3 w MD l) e f = dens (pA p) (pB p) (pD p) e f).
  { intros A w MA MB MD l NZ H. rewrite dens_wsum3.
    rewrite (Sum_ext_in _ _ (fun a => w a * dens (pA p) (pB p) (pD p) e f)).
    - rewrite Sum_scal_r. field. exact NZ.
    - intros a Ha. rewrite (H a Ha). reflexivity. }
  assert (PC := va_props _ _ V). unfold props_complete in PC.
  unfold edge_stiffness. destruct pfn.
  - assert (VP : forall n, In n (node_keys m) -> nodeprop m n <> None -> forall sel, getp sel (nodeprop m n) = sel p).
    { intros n _ H sel. destruct (nodeprop m n) as [q|] eqn:Eq; [|congruence]. cbn [getp]. rewrite (PN n q Eq). reflexivity. }
    unfold node_stiffness. set (l := tris_on m k).
    assert (EV : forall sel, wsum3 (fun _ : mat3 R => 1) (fun X => X)
        (getp sel (nodeprop m (fst k)) :: getp sel (nodeprop m (snd k)) ::
         map (fun t => wsum3 (fun _ => 1) (fun n => getp sel (nodeprop m n)) [tn1 t; tn2 t; tn3 t]) l)
      = wsum3 (fun _ : (prop R -> mat3 R) -> mat3 R => 1) (fun f => f sel)
        ((fun sel => getp sel (nodeprop m (fst k))) :: (fun sel => getp sel (nodeprop m (snd k))) ::
         map (fun t sel => wsum3 (fun _ => 1) (fun n => getp sel (nodeprop m n)) [tn1 t; tn2 t; tn3 t]) l)).
    { intros sel. unfold wsum3. rewrite !Sum_cons, !Sum_map. reflexivity. }
    rewrite !EV. destruct (PC k Hk) as [C1 C2].
    destruct (ready_nodes m k (fst k) (snd k) (va_wf _ _ V) Hk) as [K1 [K2 _]]; [left; destruct k; reflexivity|].
    apply W1; [apply Rgt_not_eq, Sum_one_pos|].
    intros g Hg. cbn [In] in Hg. destruct Hg as [<-|[<-|Hg]].
    + rewrite !VP by assumption. reflexivity.
    + rewrite !VP by assumption. reflexivity.
    + apply in_map_iff in Hg. destruct Hg as [t [<- Ht]]. apply tris_on_in in Ht. destruct Ht as [Ht _].
      apply W1; [apply Rgt_not_eq, Sum_one_pos|].
      intros n Hn. assert (VX : vertex t n) by (cbn [In] in Hn; unfold vertex; intuition).
      assert (NP := vertex_prop m t n (va_wf _ _ V) (va_props _ _ V) Ht VX).
      rewrite !VP; try assumption; try reflexivity; apply (wf_vertices m (va_wf _ _ V) t n Ht VX).
  - unfold tria_stiffness. apply W1.
    + apply Rgt_not_eq, (tris_area_pos m (va_wf _ _ V) (va_plate _ _ V) k Hk).
    + intros t Ht. apply tris_on_in in Ht. destruct Ht as [Ht _]. assert (NP := PC t Ht).
      destruct (tprop t) as [q|] eqn:Eq; [|congruence]. cbn [getp]. rewrite (PT t q Ht Eq). reflexivity.
Qed.

(** Constant strain: for displacements that are affine in x and y the strain of every edge
    is the exact constant strain; with one property for the whole plate the energy is the
    area of the plate times the energy density. *)
Lemma c23_constant_strain : forall m pfn, valid m pfn -> exists m' K, calc_k0 m pfn = (m', Ok K) /\
  (forall u a b d, affine_field m u a b d -> forall k e, In (k, e) (edges m') ->
     edge_strain m e (stored_area e) u = affine_strain b d) /\
  (forall p, all_props m (fun q => q = p) ->
   forall u a b d u' a' b' d', affine_field m u a b d -> affine_field m u' a' b' d' ->
     form K u u' = total_area m * dens (pA p) (pB p) (pD p) (affine_strain b d) (affine_strain b' d')).
Proof.
  intros m pfn V. destruct (valid_spec m pfn V) as [m' [K [E [_ [F [S P]]]]]]. exists m', K. split; [exact E|]. split.
  - intros u a b d H k e He.
    assert (Hk : In k (edge_keys m)).
    { rewrite <- (sm_edges _ _ S). apply in_map_iff; exists (k, e); auto. }
    rewrite <- (affine_strain_spec m pfn u a b d k V H Hk).
    assert (R := pr_ready m' P k e He). assert (A := ready_area _ _ _ R). rewrite (same_dom_area m m' S) in A.
    unfold stored_area; rewrite A.
    assert (S' : same m' m) by (destruct S; constructor; congruence).
    assert (B := fun q => ready_bint m k e q (va_wf m pfn V) (va_plate m pfn V) Hk (same_ready m' m S' k e R)).
    unfold edge_strain, smoothed_strain. rewrite !(fun q => proj1 (B q)), !(fun q => proj2 (B q)). reflexivity.
  - intros p AP u a b d u' a' b' d' H H'. rewrite F. unfold k0_energy.
    rewrite (Sum_ext_in _ _ (fun k => dom_area m k * dens (pA p) (pB p) (pD p) (affine_strain b d) (affine_strain b' d'))).
    + rewrite Sum_scal_r, Sum_dom_area; [reflexivity|apply (va_wf _ _ V)].
    + intros k Hk. rewrite (affine_strain_spec m pfn u a b d k V H Hk), (affine_strain_spec m pfn u' a' b' d' k V H' Hk).
      rewrite (dens_one m pfn p k _ _ V AP Hk). reflexivity.
Qed.

(** one laminate on the whole plate and a field with non-zero strain and curvature *)
Lemma c23_constant_strain_ex : forall pfn, valid ex_one pfn /\ all_props ex_one (fun q => q = ex_prop 2) /\
  exists a b d, affine_field ex_one ex_lin a b d /\ affine_strain b d = Strain 1 3 (2 + 5) 0 4 (6 + 0).
Proof.
  intros pfn; split; [apply ex_one_valid|]. split; [apply ex_one_props|]. do 3 eexists. split; [apply ex_one_affine|]. reflexivity.
Qed.

(** Missing properties are rejected with ValueError and the mesh is left unchanged; if no
    property is missing calc_k0 returns (on a mesh of at least one node in which every
    edge has one or two triangles, two triangles on an edge not being twins). *)
Lemma c24_missing_properties : forall (T : Type) (NT : Num T) (m : mesh T) pfn, wf_mesh m ->
  (~ props_complete m pfn -> calc_k0 m pfn = (m, Raise ValueError)) /\
  (props_complete m pfn -> nodes m <> [] -> manifold m -> ~ has_twins m ->
   exists (m' : mesh T) K, calc_k0 m pfn = (m', Ok K)).
Proof.
  intros T NT m pfn W. destruct (calc_k0_any m pfn W) as [[H E]|[[P [[k [Hk L]] _]]|[[P [_ [H _]]]|[P [_ [_ [_ [m' [K [E _]]]]]]]]]].
  - split; [intros _; exact E|contradiction].
  - split; [contradiction|]. intros _ _ M _. specialize (M k Hk). lia.
  - split; [contradiction|]. intros _ N _ TW. tauto.
  - split; [contradiction|]. intros _ _ _ _. exists m', K; exact E.
Qed.

(** the plate before properties are assigned, and after *)
Lemma c24_missing_properties_ex : forall pfn, wf_mesh ex_read /\ ~ props_complete ex_read pfn /\
  wf_mesh ex_mesh /\ props_complete ex_mesh pfn.
Proof. intros pfn. split; [apply ex_wf_read|]. split; [apply ex_missing|]. split; [apply ex_wf|apply ex_props]. Qed.

(** NotImplementedError is raised exactly if some edge has three or more triangles. *)
Lemma c25_non_manifold : forall (T : Type) (NT : Num T) (m : mesh T) pfn, wf_mesh m -> props_complete m pfn ->
  (snd (calc_k0 m pfn) = Raise NotImplementedError <->
   exists k, In k (edge_keys m) /\ (3 <= length (tris_on m k))%nat).
Proof.
  intros T NT m pfn W PC.
  destruct (calc_k0_any m pfn W) as [[H _]|[[_ [H [E _]]]|[[_ [M [_ E]]]|[_ [M [_ [_ [m' [K [E _]]]]]]]]]].
  - contradiction.
  - split; auto.
  - split; [intros X; rewrite X in E; discriminate|]. intros [k [Hk L]]. specialize (M k Hk). lia.
  - split; [rewrite E; discriminate|]. intros [k [Hk L]]. specialize (M k Hk). lia.
Qed.

Lemma c25_non_manifold_ex : forall pfn, wf_mesh ex_three /\ props_complete ex_three pfn /\
  In (1, 2)%nat (edge_keys ex_three) /\ length (tris_on ex_three (1, 2)%nat) = 3%nat.
Proof.
  intros pfn. split; [apply ex_three_wf|]. split; [apply ex_three_props|]. split; [left; reflexivity|reflexivity].
Qed.

(** k0 couples only vertices of the triangles on a common edge, does not touch w, and has
    zero rows for nodes that belong to no triangle. *)
Lemma c26_sparsity : forall m pfn, valid m pfn -> exists m' K, calc_k0 m pfn = (m', Ok K) /\
  (forall n n' c c', In n (node_keys m) -> In n' (node_keys m) -> (c < 5)%nat -> (c' < 5)%nat ->
   mentry K (rank m n * 5 + c) (rank m n' * 5 + c') <> 0 ->
   c <> 2%nat /\ c' <> 2%nat /\ exists k, In k (edge_keys m) /\ on_domain m k n /\ on_domain m k n') /\
  (forall n c j, In n (node_keys m) -> (c < 5)%nat -> (j < mdim K)%nat ->
   (forall t, In t (trias_of m) -> ~ vertex t n) ->
   mentry K (rank m n * 5 + c) j = 0 /\ mentry K j (rank m n * 5 + c) = 0).
Proof.
  intros m pfn V. destruct (valid_spec m pfn V) as [m' [K [E [D [F [S P]]]]]]. exists m', K. split; [exact E|].
  assert (W := va_wf _ _ V).
  assert (RK : forall n c, In n (node_keys m) -> (c < 5)%nat -> (rank m n * 5 + c < mdim K)%nat).
  { intros n c Hn Hc. rewrite D. assert (H := index_in_lt _ _ Hn). unfold rank. unfold node_keys in H at 2.
    rewrite map_length in H. lia. }
  assert (SP : forall n n' c c', In n (node_keys m) -> In n' (node_keys m) -> (c < 5)%nat -> (c' < 5)%nat ->
   mentry K (rank m n * 5 + c) (rank m n' * 5 + c') <> 0 ->
   c <> 2%nat /\ c' <> 2%nat /\ exists k, In k (edge_keys m) /\ on_domain m k n /\ on_domain m k n').
  { intros n n' c c' Hn Hn' Hc Hc' NZ.
    assert (SZ : forall n c k, In n (node_keys m) -> (c < 5)%nat -> (c = 2%nat \/ ~ on_domain m k n) ->
              smoothed_strain m (delta (rank m n * 5 + c)) k = strain0).
    { intros n0 c0 k H0 H1 [H2|H2]; apply strain_zero; intros c1 n1 H3 H4 H5.
      - apply comp_delta; auto; [apply (on_domain_key m W k n1 H5)|right; congruence].
      - apply comp_delta; auto; [apply (on_domain_key m W k n1 H5)|left; intros ->; contradiction]. }
    rewrite <- (form_delta K), F in NZ by (apply RK; assumption).
    split; [|split].
    - intros C. apply NZ. apply Sum_zero. intros k Hk. rewrite (SZ n c k Hn Hc (or_introl C)), dens_zero_l; ring.
    - intros C. apply NZ. apply Sum_zero. intros k Hk. rewrite (SZ n' c' k Hn' Hc' (or_introl C)), dens_zero_r; ring.
    - unfold k0_energy in NZ.
      set (f := fun k => _) in NZ.
      assert (DD : (exists k, In k (edge_keys m) /\ f k <> 0) \/ forall k, In k (edge_keys m) -> f k = 0).
      { clear -f. induction (edge_keys m) as [|k l IH]; [right; intros k []|].
        destruct (Req_dec (f k) 0) as [Z|Z]; [|left; exists k; split; [left; reflexivity|exact Z]].
        destruct IH as [[k' [H1 H2]]|H]; [left; exists k'; split; [right|]; assumption|].
        right. intros k' [<-|H']; auto. }
      destruct DD as [[k [Hk NZk]]|Z]; [|exfalso; apply NZ; apply Sum_zero; exact Z].
      assert (DC : forall n, on_domain m k n \/ ~ on_domain m k n).
      { intros n0. unfold on_domain. induction (tris_on m k) as [|t l IH].
        - right. intros [t [[] _]].
        - destruct IH as [[t' [H1 H2]]|H]; [left; exists t'; split; [right|]; assumption|].
          destruct (is_vertex n0 t) eqn:IV.
          + left. exists t. split; [left; reflexivity|]. apply is_vertex_iff; exact IV.
          + right. intros [t' [[<-|H1] H2]]; [|apply H; exists t'; auto]. apply is_vertex_iff in H2. congruence. }
      exists k. split; [exact Hk|]. unfold f in NZk. split.
      + destruct (DC n) as [O|O]; [exact O|]. exfalso; apply NZk. rewrite (SZ n c k Hn Hc (or_intror O)), dens_zero_l; ring.
      + destruct (DC n') as [O|O]; [exact O|]. exfalso; apply NZk. rewrite (SZ n' c' k Hn' Hc' (or_intror O)), dens_zero_r; ring. }
  split; [exact SP|].
  intros n c j Hn Hc Hj NT.
  assert (J : exists n' c', In n' (node_keys m) /\ (c' < 5)%nat /\ j = (rank m n' * 5 + c')%nat).
  { assert (L : (j / 5 < length (nodes m))%nat) by (rewrite D in Hj; apply Nat.div_lt_upper_bound; lia).
    destruct (rank_onto m (j / 5) L (wf_nodes m W)) as [n' [Hn' R]].
    exists n', (j mod 5)%nat. split; [exact Hn'|]. split; [apply Nat.mod_upper_bound; lia|].
    rewrite R. rewrite (Nat.div_mod j 5) at 1 by lia. lia. }
  destruct J as [n' [c' [Hn' [Hc' ->]]]].
  assert (X : forall k, ~ on_domain m k n).
  { intros k [t [Ht VT]]. apply tris_on_in in Ht. apply (NT t); tauto. }
  split.
  - destruct (Req_dec (mentry K (rank m n * 5 + c) (rank m n' * 5 + c')) 0) as [Z|Z]; [exact Z|].
    destruct (SP n n' c c' Hn Hn' Hc Hc' Z) as [_ [_ [k [_ [O _]]]]]. destruct (X k O).
  - destruct (Req_dec (mentry K (rank m n' * 5 + c') (rank m n * 5 + c)) 0) as [Z|Z]; [exact Z|].
    destruct (SP n' n c' c Hn' Hn Hc' Hc Z) as [_ [_ [k [_ [_ O]]]]]. destruct (X k O).
Qed.

(** In any arithmetic (also in that of the computer): an entry that no edge reaches is the
    zero that np.zeros wrote. *)
Lemma c26_any_arithmetic : forall (T : Type) (NT : Num T) (m : mesh T) pfn (m' : mesh T) K, wf_mesh m ->
  calc_k0 m pfn = (m', Ok K) ->
  forall n n' c c', In n (node_keys m) -> In n' (node_keys m) -> (c < 5)%nat -> (c' < 5)%nat ->
  (forall k, In k (edge_keys m) -> ~ (c <> 2%nat /\ c' <> 2%nat /\ reaches m k n /\ reaches m k n')) ->
  mentry K (rank m n * 5 + c) (rank m n' * 5 + c') = nofZ 0.
Proof.
  intros T NT m pfn m' K W E n n' c c' Kn Kn' C C' H.
  destruct (calc_k0_any m pfn W) as [[_ X]|[[_ [_ [X _]]]|[[_ [_ [_ X]]]|[_ [_ [_ [_ [m1 [K1 [X [_ [_ F]]]]]]]]]]]];
    rewrite E in X; try discriminate. injection X as <- <-.
  apply F. intros k Hk [[n1 [c1 [K1' [C1 [E1 R1]]]]] [n2 [c2 [K2' [C2 [E2 R2]]]]]].
  assert (rank m n = rank m n1 /\ c = c1) as [Q1 ->] by lia.
  assert (rank m n' = rank m n2 /\ c' = c2) as [Q2 ->] by lia.
  apply rank_inj in Q1; auto. apply rank_inj in Q2; auto. subst n1 n2.
  apply (H k Hk). repeat split; try lia; assumption.
Qed.

(** node 6 belongs to no triangle; nodes 1 and 3 share no edge but the domain of (2, 5) *)
Lemma c26_sparsity_ex : forall pfn, valid ex_mesh pfn /\ In 6%nat (node_keys ex_mesh) /\
  (forall t, In t (trias_of ex_mesh) -> ~ vertex t 6).
Proof.
  intros pfn. split; [apply ex_valid|]. split; [rewrite ex_keys; cbn [In]; auto 10|].
  intros t H. apply (in_map (fun t => (tn1 t, tn2 t, tn3 t))) in H. rewrite ex_trias in H. cbn [In] in H. unfold vertex.
  repeat (destruct H as [H|H]; [injection H; intros <- <- <-; lia|]). destruct H.
Qed.

(** Whatever happened to the mesh before (calc_k0 with either setting, add_k0s, calc_kG,
    property assignments, node moves, also failed calls), the result of calc_k0 is that of
    the mesh on which only the assignments and moves were made. *)
Lemma c27_history : forall (T : Type) (NT : Num T) ops (m : mesh T) pfn,
  snd (calc_k0 (run ops m) pfn) = snd (calc_k0 (run (filter is_assignment ops) m) pfn) /\
  (forall K, snd (calc_k0 (run ops m) pfn) = Ok K ->
     calc_k0 (run ops m) pfn = calc_k0 (run (filter is_assignment ops) m) pfn).
Proof. intros T NT. exact calc_k0_history. Qed.

(** In particular a second call returns the same matrix. *)
Lemma c27_twice : forall (T : Type) (NT : Num T) (m : mesh T) pfn pfn',
  snd (calc_k0 (fst (calc_k0 m pfn')) pfn) = snd (calc_k0 m pfn).
Proof. intros T NT m pfn pfn'. apply (proj1 (calc_k0_history [OpCalcK0 pfn'] m pfn)). Qed.

(** A mesh made by a reader from triangles with distinct vertices is well formed and stays
    so whatever happens to it. *)
Lemma c27_well_formed : forall (T : Type) (NT : Num T) (m : mesh T) ops, reads m -> (forall t, In t (trias_of m) -> distinct t) -> wf_mesh (run ops m).
Proof. intros T NT m ops H D. apply wf_run. apply reads_wf; assumption. Qed.

(** a history with failed and successful calls, assignments and a move *)
Lemma c27_well_formed_ex : reads ex_read /\ (forall t, In t (trias_of ex_read) -> distinct t) /\
  filter is_assignment (OpCalcK0 true :: ex_ops ++ [OpCalcK0 false; OpMove 5 (V3 2 1 0); OpCalcKG [] true])
  = ex_ops ++ [OpMove 5 (V3 2 1 0)].
Proof. split; [apply (reads_delaunay _ _ _ ex_reads)|]. split; [exact ex_distinct|reflexivity]. Qed.

(** The order of the elements, their ids and the order of their vertices do not matter. *)
Lemma c28_renumbering : forall m m' pfn, valid m pfn -> wf_mesh m' -> same_plate_as m m' ->
  exists m1 K m1' K', calc_k0 m pfn = (m1, Ok K) /\ calc_k0 m' pfn = (m1', Ok K') /\ meq K K'.
Proof.
  intros m m' pfn V W' SP. assert (W := va_wf _ _ V). assert (PL := va_plate _ _ V).
  assert (V' : valid m' pfn).
  { constructor; [exact W'|apply (rn_plate m m' W W' PL SP)|apply (rn_props m m' W W' SP), (va_props _ _ V)|].
    intros N. apply (va_nodes _ _ V). assert (X := sp_keys _ _ SP). unfold node_keys in X. rewrite N in X.
    destruct (nodes m); [reflexivity|discriminate]. }
  destruct (valid_spec m pfn V) as [m1 [K [E [D [F _]]]]].
  destruct (valid_spec m' pfn V') as [m1' [K' [E' [D' [F' _]]]]].
  exists m1, K, m1', K'. split; [exact E|]. split; [exact E'|].
  apply meq_form.
  - rewrite D, D'. assert (X := sp_keys _ _ SP). apply (f_equal (@length nat)) in X. unfold node_keys in X.
    rewrite !map_length in X. lia.
  - intros u v. rewrite F, F'. symmetry. apply (rn_energy m m' W W' PL SP).
Qed.

(** the same plate with the elements in another order, with other vertex orders *)
Lemma c28_renumbering_ex : forall pfn, valid ex_mesh pfn /\ wf_mesh ex_mesh2 /\ same_plate_as ex_mesh ex_mesh2 /\
  map eid (trias_of ex_mesh2) = [1; 2; 3; 4]%nat /\ edge_keys ex_mesh2 <> edge_keys ex_mesh.
Proof.
  intros pfn. split; [apply ex_valid|]. split; [apply ex_wf2|]. split; [apply ex_same_plate|]. split; [reflexivity|discriminate].
Qed.

(** k0 is linear in the laminate stiffness: if every property is c times one plus c' times
    another, then so is k0. *)
Lemma c29_linear : forall m np tp np1 tp1 np2 tp2 c c' pfn,
  valid (with_props np tp m) pfn ->
  (forall n, lin_opt c c' (np n) (np1 n) (np2 n)) -> (forall e, lin_opt c c' (tp e) (tp1 e) (tp2 e)) ->
  exists m' K m1 K1 m2 K2,
    calc_k0 (with_props np tp m) pfn = (m', Ok K) /\
    calc_k0 (with_props np1 tp1 m) pfn = (m1, Ok K1) /\
    calc_k0 (with_props np2 tp2 m) pfn = (m2, Ok K2) /\ is_lin K c K1 c' K2.
Proof.
  intros m np tp np1 tp1 np2 tp2 c c' pfn V HN HT.
  assert (W : wf_mesh m) by (apply (conn_wf _ _ (conn_sym _ _ (wp_conn m np tp)) (va_wf _ _ V))).
  assert (PC := wp_complete m W np tp np1 tp1 np2 tp2 c c' HN HT pfn (va_props _ _ V)).
  assert (PL : plate m).
  { assert (Q := va_plate _ _ V). constructor.
    - destruct (pl_flat _ Q) as [z H]. exists z. intros n. rewrite <- (wp_keys m np tp), <- (wp_pos m np tp). apply H.
    - intros t Ht. assert (H := pl_nondeg _ Q (wp_tria tp t)). rewrite (wp_trias m W) in H.
      specialize (H (in_map _ _ _ Ht)). unfold tdet in H. rewrite wp_pos in H. exact H.
    - intros k Hk. assert (H := pl_two _ Q k Hk). rewrite (wp_tris_on m W), map_length in H. exact H.
    - intros k t1 t2 Hk T. assert (H := pl_sides _ Q k (wp_tria tp t1) (wp_tria tp t2) Hk).
      rewrite (wp_tris_on m W), T in H. specialize (H eq_refl). rewrite wp_pos in H. exact H. }
  assert (N0 : nodes m <> []).
  { intros N. apply (va_nodes _ _ V). cbn [with_props nodes]. rewrite N. reflexivity. }
  assert (VV : forall np0 tp0, props_complete (with_props np0 tp0 m) pfn -> valid (with_props np0 tp0 m) pfn).
  { intros np0 tp0 P0. constructor; [apply wp_wf, W|apply wp_plate; assumption|exact P0|].
    cbn [with_props nodes]. destruct (nodes m); [congruence|discriminate]. }
  destruct (valid_spec _ pfn V) as [m' [K [E [D [F _]]]]].
  destruct (valid_spec _ pfn (VV np1 tp1 (proj1 PC))) as [m1 [K1 [E1 [D1 [F1 _]]]]].
  destruct (valid_spec _ pfn (VV np2 tp2 (proj2 PC))) as [m2 [K2 [E2 [D2 [F2 _]]]]].
  exists m', K, m1, K1, m2, K2. split; [exact E|]. split; [exact E1|]. split; [exact E2|].
  cbn [with_props nodes] in D, D1, D2. rewrite map_length in D, D1, D2.
  assert (Q1 : mdim K = mdim K1) by congruence. assert (Q2 : mdim K = mdim K2) by congruence.
  split; [exact Q1|]. split; [exact Q2|]. intros i j Hi Hj.
  rewrite <- (form_delta K i j Hi Hj), <- (form_delta K1 i j), <- (form_delta K2 i j) by congruence.
  rewrite F, F1, F2. apply (wp_energy m W np tp np1 tp1 np2 tp2 c c' HN HT).
Qed.

(** different laminates in all nodes and triangles *)
Lemma c29_linear_ex : forall pfn, let np (n : nat) := Some (ex_prop (2 * INR n + 3 * 5)) in
  valid (with_props np np ex_mesh) pfn /\
  forall n, lin_opt 2 3 (np n) (Some (ex_prop (INR n))) (Some (ex_prop 5)).
Proof. intros pfn np. split; [apply ex_with_valid; discriminate|]. intros n; apply ex_lin_opt. Qed.

(** What calc_k0 does, in any arithmetic, is decided by the connectivity and the
    properties: it returns exactly if all properties are there, there are nodes, every edge
    has at most two triangles and no two elements have the same vertices. *)
Lemma c71_outcome : forall (T : Type) (NT : Num T) (m : mesh T) pfn, wf_mesh m ->
  match snd (calc_k0 m pfn) with
  | Ok K => props_complete m pfn /\ nodes m <> [] /\ manifold m /\ ~ has_twins m /\
      mdim K = (length (nodes m) * 5)%nat
  | Raise ValueError => ~ props_complete m pfn \/ manifold m /\ (nodes m = [] \/ has_twins m)
  | Raise NotImplementedError => props_complete m pfn /\ ~ manifold m
  | Raise _ => False
  end.
Proof.
  intros T NT m pfn W.
  destruct (calc_k0_any m pfn W) as [[H E]|[[P [[k [Hk L]] [E _]]]|[[P [M [H E]]]|[P [M [N [TW [m' [K [E [D _]]]]]]]]]]];
    rewrite E; cbn [snd].
  - left; exact H.
  - split; [exact P|]. intros M. specialize (M k Hk). lia.
  - right; split; assumption.
  - auto.
Qed.

(** the four outcomes *)
Lemma c71_outcome_ex : forall pfn, wf_mesh ex_mesh /\ (exists K, snd (calc_k0 ex_mesh pfn) = Ok K) /\
  wf_mesh ex_read /\ snd (calc_k0 ex_read pfn) = Raise ValueError /\
  wf_mesh ex_three /\ snd (calc_k0 ex_three pfn) = Raise NotImplementedError /\
  wf_mesh ex_twins /\ snd (calc_k0 ex_twins pfn) = Raise ValueError.
Proof.
  intros pfn. split; [apply ex_wf|]. split.
  { destruct (valid_spec ex_mesh pfn (ex_valid pfn)) as [m' [K [E _]]]. exists K. rewrite E; reflexivity. }
  split; [apply ex_wf_read|]. split.
  { rewrite (proj1 (c24_missing_properties R _ ex_read pfn ex_wf_read) (ex_missing pfn)). reflexivity. }
  split; [apply ex_three_wf|]. split.
  { apply (c25_non_manifold R _ ex_three pfn ex_three_wf (ex_three_props pfn)). exists (1, 2)%nat. split; [left; reflexivity|]. apply Nat.leb_le; reflexivity. }
  split; [apply ex_twins_wf|].
  assert (H := c71_outcome R _ ex_twins pfn ex_twins_wf). destruct (snd (calc_k0 ex_twins pfn)) as [K|[]]; try contradiction; try reflexivity.
  - destruct H as [_ [_ [_ [H _]]]]. destruct (H ex_twins_twins).
  - destruct H as [_ H]. destruct (H ex_twins_manifold).
Qed.
