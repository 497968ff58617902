(** Lemmas behind the equilibrium properties (C58-C59). *)
(* P: Num Py Mesh Utils CalcK0 CalcKG Spec SpecK0 SpecKG SpecEq Ex ExK0 *)
From Coq Require Import ZArith Reals List Bool Arith Lra Lia Permutation.
From Verif Require Import Num Py Mesh Utils CalcK0 CalcKG Spec SpecK0 SpecKG SpecEq FSum FMat FDict FGeom FWf FSetup FAsm FK0
  FTensor FSmooth FDom FAny FKG FRenum FEq LK0 LKG Ex ExK0.
Import ListNotations.
Local Open Scope R_scope.
Implicit Types (m : mesh R).

Lemma comp_delta_same : forall m n c, comp m (delta (rank m n * 5 + c)) c n = 1.
Proof. intros m n c. unfold comp, delta. rewrite Nat.eqb_refl. reflexivity. Qed.

Lemma comp_delta_hat : forall m n c c' n', In n (node_keys m) -> In n' (node_keys m) -> (c < 5)%nat -> (c' < 5)%nat ->
  comp m (delta (rank m n * 5 + c)) c' n' = (if Nat.eqb c' c then 1 else 0) * hat n n'.
Proof.
  intros m n c c' n' Hn Hn' Hc Hc'. destruct (Nat.eqb_spec c' c) as [->|N].
  - unfold hat. destruct (Nat.eqb_spec n' n) as [->|N].
    + rewrite comp_delta_same. ring.
    + rewrite comp_delta by auto. ring.
  - rewrite comp_delta by auto. ring.
Qed.

(** smoothed gradients of a unit displacement *)
Lemma sg_delta : forall m n c c' k, wf_mesh m -> In n (node_keys m) -> (c < 5)%nat -> (c' < 5)%nat ->
  sgx m k (comp m (delta (rank m n * 5 + c)) c') = (if Nat.eqb c' c then 1 else 0) * sgx m k (hat n) /\
  sgy m k (comp m (delta (rank m n * 5 + c)) c') = (if Nat.eqb c' c then 1 else 0) * sgy m k (hat n).
Proof.
  intros m n c c' k W Hn Hc Hc'. set (z := if Nat.eqb c' c then 1 else 0).
  assert (X : forall n', on_domain m k n' -> comp m (delta (rank m n * 5 + c)) c' n' = z * hat n n' + 0 * 0).
  { intros n' Hn'. rewrite comp_delta_hat by (try assumption; apply (on_domain_key m W k n' Hn')). fold z. ring. }
  rewrite (sgx_ext m k _ _ X), (sgy_ext m k _ _ X), (sgx_lin m k z 0 (hat n) (fun _ => 0)), (sgy_lin m k z 0 (hat n) (fun _ => 0)).
  rewrite sgx_zero, sgy_zero. split; ring.
Qed.

(** unit membrane and bending strains *)
Definition unit_s (c : nat) (gx gy : R) : strain :=
  Strain (if Nat.eqb 0 c then gx else 0) (if Nat.eqb 1 c then gy else 0)
    ((if Nat.eqb 0 c then gy else 0) + (if Nat.eqb 1 c then gx else 0))
    (if Nat.eqb 3 c then gx else 0) (if Nat.eqb 4 c then gy else 0)
    ((if Nat.eqb 3 c then gy else 0) + (if Nat.eqb 4 c then gx else 0)).

Lemma strain_delta : forall m n c k, wf_mesh m -> In n (node_keys m) -> (c < 5)%nat ->
  smoothed_strain m (delta (rank m n * 5 + c)) k = unit_s c (sgx m k (hat n)) (sgy m k (hat n)).
Proof.
  intros m n c k W Hn Hc. unfold smoothed_strain, unit_s.
  destruct (sg_delta m n c 0 k W Hn Hc ltac:(lia)) as [-> ->]. destruct (sg_delta m n c 1 k W Hn Hc ltac:(lia)) as [-> ->].
  destruct (sg_delta m n c 3 k W Hn Hc ltac:(lia)) as [-> ->]. destruct (sg_delta m n c 4 k W Hn Hc ltac:(lia)) as [-> ->].
  destruct c as [|[|[|[|[|c]]]]]; try lia; cbn [Nat.eqb]; f_equal; ring.
Qed.

(** Equilibrium: on a plate of one laminate with displacements that are affine in x and y the
    nodal forces of k0 are those of the constant forces and moments acting on the boundary,
    half of each boundary edge to each of its ends; nothing acts on w. *)
Lemma c58_equilibrium : forall m pfn p, valid m pfn -> all_props m (fun q => q = p) ->
  exists m' K, calc_k0 m pfn = (m', Ok K) /\
  forall u a b d n L, affine_field m u a b d -> In n (node_keys m) ->
    (forall k, In k (boundary_at m n) -> outward m k (L k)) ->
    let N := forces p (affine_strain b d) in let M := moments p (affine_strain b d) in
    mulv K u (rank m n * 5 + 0) = edge_load_x m L N n /\
    mulv K u (rank m n * 5 + 1) = edge_load_y m L N n /\
    mulv K u (rank m n * 5 + 2) = 0 /\
    mulv K u (rank m n * 5 + 3) = edge_load_x m L M n /\
    mulv K u (rank m n * 5 + 4) = edge_load_y m L M n.
Proof.
  intros m pfn p V AP. destruct (valid_spec m pfn V) as [m' [K [E [D [F _]]]]]. exists m', K. split; [exact E|].
  intros u a b d n L AF Hn HL N M. assert (W := va_wf _ _ V). assert (PL := va_plate _ _ V).
  destruct (hat_total m W PL n L HL) as [GX GY].
  set (s := affine_strain b d) in *.
  assert (X : forall c, (c < 5)%nat -> exists P Q,
    mulv K u (rank m n * 5 + c) = Sum (fun k => (fst (L k) * P + snd (L k) * Q) / 2) (boundary_at m n) /\
    forall gx gy, dens (pA p) (pB p) (pD p) (unit_s c gx gy) s = gx * P + gy * Q).
  { intros c Hc. exists (dens (pA p) (pB p) (pD p) (unit_s c 1 0) s), (dens (pA p) (pB p) (pD p) (unit_s c 0 1) s).
    assert (Z : forall gx gy, dens (pA p) (pB p) (pD p) (unit_s c gx gy) s =
      gx * dens (pA p) (pB p) (pD p) (unit_s c 1 0) s + gy * dens (pA p) (pB p) (pD p) (unit_s c 0 1) s).
    { intros gx gy. unfold dens, quad3, unit_s; cbn [exx eyy exy kxx kyy kxy].
      destruct c as [|[|[|[|[|c]]]]]; try lia; cbn [Nat.eqb]; ring. }
    split; [|exact Z].
    assert (R : (rank m n * 5 + c < mdim K)%nat). { rewrite D. assert (H := rank_lt m n Hn). lia. }
    rewrite (mulv_form K u _ R), F. unfold k0_energy.
    set (P := dens _ _ _ (unit_s c 1 0) s) in *. set (Q := dens _ _ _ (unit_s c 0 1) s) in *.
    rewrite (Sum_ext_in _ _ (fun k => dom_area m k * sgx m k (hat n) * P + dom_area m k * sgy m k (hat n) * Q)).
    - rewrite Sum_plus, !Sum_scal_r, GX, GY, <- !Sum_scal_r, <- Sum_plus. apply Sum_ext. intros k. field.
    - intros k Hk. rewrite (dens_one m pfn p k _ _ V AP Hk), (strain_delta m n c k W Hn Hc), (affine_strain_spec m pfn u a b d k V AF Hk).
      fold s. rewrite Z. ring. }
  assert (U : forall c G H, (c < 5)%nat -> (forall gx gy, dens (pA p) (pB p) (pD p) (unit_s c gx gy) s = gx * G + gy * H) ->
    mulv K u (rank m n * 5 + c) = Sum (fun k => (fst (L k) * G + snd (L k) * H) / 2) (boundary_at m n)).
  { intros c G H Hc Z. destruct (X c Hc) as [P [Q [-> Z']]].
    assert (P = G) as -> by (assert (Y := Z 1 0); rewrite Z' in Y; lra).
    assert (Q = H) as -> by (assert (Y := Z 0 1); rewrite Z' in Y; lra). reflexivity. }
  unfold edge_load_x, edge_load_y.
  split; [|split; [|split; [|split]]].
  - apply U; [lia|]. intros gx gy. unfold N, forces, plus3, smul3, dens, quad3, unit_s; cbn [exx eyy exy kxx kyy kxy vx vy vz Nat.eqb]. ring.
  - apply U; [lia|]. intros gx gy. unfold N, forces, plus3, smul3, dens, quad3, unit_s; cbn [exx eyy exy kxx kyy kxy vx vy vz Nat.eqb]. ring.
  - rewrite (U 2%nat 0 0); [|lia|].
    + apply Sum_zero. intros; field.
    + intros gx gy. unfold dens, quad3, unit_s; cbn [exx eyy exy kxx kyy kxy vx vy vz Nat.eqb]. ring.
  - apply U; [lia|]. intros gx gy. unfold M, moments, plus3, smul3, dens, quad3, unit_s; cbn [exx eyy exy kxx kyy kxy vx vy vz Nat.eqb]. ring.
  - apply U; [lia|]. intros gx gy. unfold M, moments, plus3, smul3, dens, quad3, unit_s; cbn [exx eyy exy kxx kyy kxy vx vy vz Nat.eqb]. ring.
Qed.

(** the four boundary edges of the plate have outward normals; node 2 is at the corner (4, 0) *)
Lemma c58_equilibrium_ex : exists L, (forall n k, In k (boundary_at ex_one n) -> outward ex_one k (L k)) /\
  boundary_at ex_one 2 = [(1, 2); (2, 3)]%nat /\ fst (L (2, 3)%nat) = 3.
Proof.
  set (L := fun k => match tris_on ex_one k with t :: _ => (outx ex_one t k, outy ex_one t k) | [] => (0, 0) end).
  assert (V := ex_one_valid true). exists L. split; [|split].
  - intros n k Hk. destruct (boundary_in ex_one n k Hk) as [H [t E]]. unfold L. rewrite E.
    apply outward_exists; [apply (va_wf _ _ V)|apply (va_plate _ _ V)|exact H|exact E].
  - reflexivity.
  - unfold L, outx. cbn. unfold det2; cbn [vx vy]. rewrite sg_pos; lra.
Qed.

(** The patch test: in a node in the interior of such a plate the nodal forces vanish. *)
Lemma c58_patch : forall m pfn p, valid m pfn -> all_props m (fun q => q = p) ->
  exists m' K, calc_k0 m pfn = (m', Ok K) /\
  forall u a b d n c, affine_field m u a b d -> In n (node_keys m) -> interior m n -> (c < 5)%nat ->
    mulv K u (rank m n * 5 + c) = 0.
Proof.
  intros m pfn p V AP. destruct (c58_equilibrium m pfn p V AP) as [m' [K [E H]]]. exists m', K. split; [exact E|].
  intros u a b d n c AF Hn I Hc. assert (B := interior_boundary m n I).
  destruct (H u a b d n (fun _ => (0, 0)) AF Hn) as [H0 [H1 [H2 [H3 H4]]]]; [rewrite B; intros k []|].
  unfold edge_load_x, edge_load_y in *. rewrite B in *. rewrite Sum_nil in *.
  destruct c as [|[|[|[|[|c]]]]]; try lia; assumption.
Qed.

(** node 5 is in the interior of the plate *)
Lemma c58_patch_ex : forall pfn, valid ex_one pfn /\ all_props ex_one (fun q => q = ex_prop 2) /\ interior ex_one 5 /\
  exists a b d, affine_field ex_one ex_lin a b d /\ affine_strain b d = Strain 1 3 (2 + 5) 0 4 (6 + 0).
Proof.
  intros pfn. split; [apply ex_one_valid|]. split; [apply ex_one_props|]. split.
  - intros k Hk H. change (edge_keys ex_one) with (edge_keys ex_mesh) in Hk. rewrite ex_edge_keys in Hk. cbn [In] in Hk.
    repeat (destruct Hk as [Hk|Hk]; [subst k; cbn [fst snd] in H; first [lia | reflexivity]|]). destruct Hk.
  - do 3 eexists. split; [apply ex_one_affine|]. reflexivity.
Qed.

(** The same for kG: with constant membrane forces N and a deflection w that is affine in x
    and y the nodal forces of kG are those of N (the slope of w) on the boundary, and vanish in
    the interior. *)
Lemma c59_equilibrium : forall m m' pfn dd p a b c, prepared_from m m' -> props_complete m pfn ->
  length dd = (length (nodes m) * 5)%nat -> all_props m (fun q => q = p) -> affine_field m (vec_of dd) a b c ->
  let N := membrane (pA p) (pB p) (affine_strain b c) in
  exists KG, calc_kG dd m' pfn = Ok KG /\
  forall u w gx gy n L, affine_w m u w gx gy -> In n (node_keys m) ->
    (forall k, In k (boundary_at m n) -> outward m k (L k)) ->
    mulv KG u (rank m n * 5 + 2) =
      Sum (fun k => (fst (L k) * (vx N * gx + vz N * gy) + snd (L k) * (vz N * gx + vy N * gy)) / 2) (boundary_at m n) /\
    (interior m n -> mulv KG u (rank m n * 5 + 2) = 0).
Proof.
  intros m m' pfn dd p a b c P PC Ld AP AF N. destruct (calc_kG_spec m m' pfn dd P PC Ld) as [KG [E [D F]]].
  exists KG. split; [exact E|]. destruct (prepared_spec m m' P) as [W [PL [N0 [S RR]]]].
  intros u w gx gy n L HU Hn HL.
  assert (X : mulv KG u (rank m n * 5 + 2) =
      Sum (fun k => (fst (L k) * (vx N * gx + vz N * gy) + snd (L k) * (vz N * gx + vy N * gy)) / 2) (boundary_at m n)).
  { destruct (hat_total m W PL n L HL) as [GX GY].
    assert (R : (rank m n * 5 + 2 < mdim KG)%nat). { rewrite D. assert (H := rank_lt m n Hn). lia. }
    rewrite (mulv_form KG u _ R), F. unfold kG_energy.
    rewrite (Sum_ext_in _ _ (fun k => dom_area m k * sgx m k (hat n) * (vx N * gx + vz N * gy) + dom_area m k * sgy m k (hat n) * (vz N * gx + vy N * gy))).
    - rewrite Sum_plus, !Sum_scal_r, GX, GY, <- !Sum_scal_r, <- Sum_plus. apply Sum_ext. intros k. field.
    - intros k Hk. unfold edge_work. rewrite !(stiffness_one m pfn p k _ W PL PC AP Hk).
      rewrite (strain_affine m (vec_of dd) k (fun i => ((a i, b i), c i)) W PL Hk)
        by (intros i n' Hc H2 Hn'; cbn [fst snd]; apply AF; assumption).
      cbn [fst snd]. fold (affine_strain b c). fold N.
      destruct (sg_delta m n 2 2 k W Hn ltac:(lia) ltac:(lia)) as [-> ->]. cbn [Nat.eqb].
      rewrite (sgx_ext m k (comp m u 2) (affine m w gx gy)), (sgy_ext m k (comp m u 2) (affine m w gx gy))
        by (intros n' Hn'; apply HU; apply (on_domain_key m W k n' Hn')).
      rewrite (sgx_affine m W PL k _ _ _ Hk), (sgy_affine m W PL k _ _ _ Hk). unfold work. ring. }
  split; [exact X|]. intros I. rewrite X, (interior_boundary m n I). reflexivity.
Qed.

Lemma c59_equilibrium_ex : (exists m', prepared_from ex_one m') /\ all_props ex_one (fun q => q = ex_prop 2) /\
  (exists a b c, affine_field ex_one (vec_of (list_of 30 ex_lin)) a b c /\ affine_strain b c = Strain 1 3 (2 + 5) 0 4 (6 + 0)) /\
  interior ex_one 5.
Proof. destruct c44_uniform_ex as [A [B C]]. split; [exact A|]. split; [exact B|]. split; [exact C|]. apply (c58_patch_ex true). Qed.
