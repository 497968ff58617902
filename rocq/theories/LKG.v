(** Lemmas behind the properties of calc_kG (C40-C45). *)
(* P: Num Py Mesh Utils CalcK0 CalcKG Spec SpecK0 SpecKG Ex ExK0 *)
From Coq Require Import ZArith Reals List Bool Arith Lra Lia Permutation.
From Verif Require Import Num Py Mesh Utils CalcK0 CalcKG Spec SpecK0 SpecKG FSum FMat FDict FGeom FWf FSetup FAsm FK0
  FTensor FSmooth FDom FAny FKG FRenum LK0 Ex ExK0.
Import ListNotations.
Local Open Scope R_scope.
Implicit Types (m : mesh R).

(** ** Any mesh *)

Lemma kG_edge_inv : forall m pfn d e us, kG_edge (T := R) m pfn d e = Ok us ->
  exists ix rows Ac N, eAc e = Some Ac /\ us = kG_updates ix Ac N rows.
Proof.
  intros m pfn d e us E. unfold kG_edge in E.
  destruct (edge_areas m e) as [ta|]; [|discriminate]. cbn [bind] in E.
  destruct (domain_indices m 0 (eipts e)) as [ix|]; [|discriminate]. cbn [bind] in E.
  destruct (ipt_rows m (indexpos ix) (eipts e)) as [rows|]; [|discriminate]. cbn [bind] in E.
  destruct (eAc e) as [Ac|]; [|discriminate]. cbn [bind get_or] in E.
  destruct (edge_ABD m pfn e Ac ta) as [abd|]; [|discriminate]. cbn [bind] in E.
  destruct (membrane_force d ix Ac (abd pA) (abd pB) rows) as [N|]; [|discriminate]. cbn [bind] in E. injection E as <-.
  do 4 eexists; split; reflexivity.
Qed.

Lemma work_sym : forall N a b c d, work N a b c d = work N c d a b.
Proof. intros; unfold work; ring. Qed.

Lemma nidx_mod5 : forall n i, (exists k, n = (k * 5)%nat) -> in_range n (i * 5 + 2) -> (nidx n (i * 5 + 2) mod 5 = 2)%nat.
Proof.
  intros n i [k ->] H. unfold in_range in H. unfold nidx, pyidx.
  destruct (Z.leb_spec 0 (i * 5 + 2)).
  - destruct (Z.ltb_spec (i * 5 + 2) (Z.of_nat (k * 5))); [|lia].
    replace (Z.to_nat (i * 5 + 2)) with (2 + Z.to_nat i * 5)%nat by lia. rewrite Nat.mod_add by lia. reflexivity.
  - destruct (Z.leb_spec 0 (i * 5 + 2 + Z.of_nat (k * 5))); [|lia].
    replace (Z.to_nat (i * 5 + 2 + Z.of_nat (k * 5))) with (2 + Z.to_nat (i + Z.of_nat k) * 5)%nat by lia.
    rewrite Nat.mod_add by lia. reflexivity.
Qed.

Lemma kG_assemble_any : forall m pfn d es K K', kG_assemble (T := R) m pfn d es K = Ok K' ->
  (exists k, mdim K = (k * 5)%nat) ->
  mdim K' = mdim K /\
  ((forall k e, In (k, e) es -> eAc e <> Some 0) ->
   (forall u v, form K u v = form K v u) -> forall u v, form K' u v = form K' v u) /\
  (forall i j, (i mod 5 <> 2 \/ j mod 5 <> 2)%nat -> mentry K' i j = mentry K i j).
Proof.
  intros m pfn d; induction es as [|[k e] es IH]; intros K K' E M5.
  - injection E as <-. auto.
  - cbn [kG_assemble] in E. destruct (kG_edge m pfn d e) as [us|] eqn:Eu; [|discriminate]. cbn [bind] in E.
    destruct (mupdates us K) as [K1 [[]|]] eqn:EK; [|discriminate].
    assert (O := mupdates_inv _ _ _ _ _ _ EK).
    destruct (mupdates_form us K O) as [K2 [E2 [D2 [EN F2]]]]. rewrite EK in E2. injection E2 as <-.
    destruct (IH _ _ E) as [D [F Z]]; [rewrite D2; exact M5|]. split; [congruence|].
    destruct (kG_edge_inv _ _ _ _ _ Eu) as [ix [rows [Ac [N [EA ->]]]]]. split.
    + intros H S. apply F; [intros; apply (H k0); right; assumption|]. intros u v. rewrite !F2, (S u v). f_equal.
      rewrite !kG_updates_form by (intros ->; apply (H k e (or_introl eq_refl) EA)). rewrite work_sym. reflexivity.
    + intros i j H. rewrite (Z i j H), EN. rewrite <- (Rplus_0_r (mentry K i j)) at 2. f_equal.
      unfold upd_at. apply Sum_zero. intros x Hx. specialize (O x Hx).
      destruct (kG_updates_pos _ _ _ _ _ Hx) as [a [b [_ [_ P]]]]. destruct x as [[r c] y]. cbn [fst snd] in *. injection P as -> ->.
      destruct O as [O1 O2]. assert (Y1 := nidx_mod5 _ _ M5 O1). assert (Y2 := nidx_mod5 _ _ M5 O2).
      destruct (Nat.eqb_spec i (nidx (mdim K) (nth a ix 0%Z * 5 + 2))) as [->|]; cbn [andb]; [|reflexivity].
      destruct (Nat.eqb_spec j (nidx (mdim K) (nth b ix 0%Z * 5 + 2))) as [->|]; [|reflexivity]. lia.
Qed.

(** kG is symmetric, of the size of d (rounded down to a multiple of 5), and acts on w only: on any
    mesh on which calc_kG returns (symmetry: if no smoothing domain is degenerate). *)
Lemma c40_symmetric : forall (m : mesh R) pfn d KG, calc_kG d m pfn = Ok KG ->
  mdim KG = (length d / 5 * 5)%nat /\
  ((forall k e, In (k, e) (edges m) -> eAc e <> Some 0) -> symmetric KG) /\
  forall i j, mentry KG i j <> 0 -> (i mod 5 = 2 /\ j mod 5 = 2)%nat.
Proof.
  intros m pfn d KG E. unfold calc_kG in E.
  destruct (kG_assemble_any _ _ _ _ _ _ E) as [D [S Z]]; [exists (length d / 5)%nat; reflexivity|].
  split; [exact D|]. split.
  - intros H. apply form_symmetric. apply S; [exact H|]. intros; rewrite !form_zeros; reflexivity.
  - intros i j NZ. destruct (Nat.eq_dec (i mod 5) 2) as [Hi|Hi], (Nat.eq_dec (j mod 5) 2) as [Hj|Hj]; try tauto;
      exfalso; apply NZ; rewrite Z by tauto; reflexivity.
Qed.

(** ** Prepared meshes *)

(** kG is the work of the membrane forces N = A em + B eb of d: sum over the edges, with
    the stored integration points and areas. *)
Lemma c41_work : forall m m' pfn d, prepared_from m m' -> props_complete m pfn ->
  length d = (length (nodes m) * 5)%nat ->
  exists KG, calc_kG d m' pfn = Ok KG /\ mdim KG = (length (nodes m) * 5)%nat /\
    forall u v, form KG u v = Sum (stored_work m pfn (vec_of d) u v) (edges m').
Proof.
  intros m m' pfn d P PC Ld. destruct (calc_kG_spec m m' pfn d P PC Ld) as [KG [E [D F]]].
  exists KG. split; [exact E|]. split; [exact D|]. intros u v. rewrite F.
  destruct (prepared_spec m m' P) as [W [PL [N [S RR]]]]. unfold kG_energy. rewrite <- (sm_edges _ _ S). unfold edge_keys.
  rewrite Sum_map. apply Sum_ext_in. intros [k e] H. cbn [fst]. unfold stored_work, edge_work.
  assert (R := pr_ready m' RR k e H). assert (A := ready_area _ _ _ R). rewrite (same_dom_area m m' S) in A.
  unfold stored_area; rewrite A.
  assert (S' : same m' m) by (destruct S; constructor; congruence).
  assert (Hk : In k (edge_keys m)).
  { rewrite <- (sm_edges _ _ S). apply in_map_iff; exists (k, e); auto. }
  assert (B := fun q => ready_bint m k e q W PL Hk (same_ready m' m S' k e R)).
  unfold edge_strain, smoothed_strain. rewrite !(fun q => proj1 (B q)), !(fun q => proj2 (B q)). reflexivity.
Qed.

(** The same with the gradients as averages over the triangles on the edge. *)
Lemma c41_average : forall m m' pfn d, prepared_from m m' -> props_complete m pfn ->
  length d = (length (nodes m) * 5)%nat ->
  exists KG, calc_kG d m' pfn = Ok KG /\ mdim KG = (length (nodes m) * 5)%nat /\
    forall u v, form KG u v = kG_energy m pfn (vec_of d) u v.
Proof. exact calc_kG_spec. Qed.

(** Any of the two property sources in calc_k0 followed by any of the two in calc_kG. *)
Lemma c41_work_ex : forall pfn, (exists m', prepared_from ex_mesh m') /\ props_complete ex_mesh pfn /\
  length (list_of 30 ex_lin) = (length (nodes ex_mesh) * 5)%nat.
Proof.
  intros pfn. split; [|split; [apply (va_props _ _ (ex_valid pfn))|reflexivity]].
  destruct (valid_spec ex_mesh pfn (ex_valid pfn)) as [m' [K [E _]]]. exists m', pfn, K. split; [apply ex_valid|exact E].
Qed.

Lemma membrane_lin : forall A B a b s1 s2 s,
  exx s = a * exx s1 + b * exx s2 -> eyy s = a * eyy s1 + b * eyy s2 -> exy s = a * exy s1 + b * exy s2 ->
  kxx s = a * kxx s1 + b * kxx s2 -> kyy s = a * kyy s1 + b * kyy s2 -> kxy s = a * kxy s1 + b * kxy s2 ->
  forall gx gy hx hy, work (membrane A B s) gx gy hx hy = a * work (membrane A B s1) gx gy hx hy + b * work (membrane A B s2) gx gy hx hy.
Proof.
  intros A B a b s1 s2 s H1 H2 H3 H4 H5 H6 gx gy hx hy. unfold work, membrane; cbn [vx vy vz].
  rewrite H1, H2, H3, H4, H5, H6. ring.
Qed.

(** kG is linear in the static solution. *)
Lemma c42_linear : forall m m' pfn d d1 d2 a b, prepared_from m m' -> props_complete m pfn ->
  length d = (length (nodes m) * 5)%nat -> length d1 = length d -> length d2 = length d ->
  (forall i, vec_of d i = a * vec_of d1 i + b * vec_of d2 i) ->
  exists KG KG1 KG2, calc_kG d m' pfn = Ok KG /\ calc_kG d1 m' pfn = Ok KG1 /\ calc_kG d2 m' pfn = Ok KG2 /\
    is_lin KG a KG1 b KG2.
Proof.
  intros m m' pfn d d1 d2 a b P PC L L1 L2 H.
  destruct (calc_kG_spec m m' pfn d P PC L) as [K [E [D F]]].
  destruct (calc_kG_spec m m' pfn d1 P PC ltac:(congruence)) as [K1 [E1 [D1 F1]]].
  destruct (calc_kG_spec m m' pfn d2 P PC ltac:(congruence)) as [K2 [E2 [D2 F2]]].
  exists K, K1, K2. split; [exact E|]. split; [exact E1|]. split; [exact E2|].
  assert (Q1 : mdim K = mdim K1) by congruence. assert (Q2 : mdim K = mdim K2) by congruence.
  split; [exact Q1|]. split; [exact Q2|]. intros i j Hi Hj.
  rewrite <- (form_delta K i j Hi Hj), <- (form_delta K1 i j), <- (form_delta K2 i j) by congruence.
  rewrite F, F1, F2. unfold kG_energy. rewrite <- !Sum_scal, <- Sum_plus. apply Sum_ext. intros k. unfold edge_work.
  assert (X : forall c, sgx m k (comp m (vec_of d) c) = a * sgx m k (comp m (vec_of d1) c) + b * sgx m k (comp m (vec_of d2) c)).
  { intros c. rewrite <- sgx_lin. apply sgx_ext. intros n _. unfold comp. apply H. }
  assert (Y : forall c, sgy m k (comp m (vec_of d) c) = a * sgy m k (comp m (vec_of d1) c) + b * sgy m k (comp m (vec_of d2) c)).
  { intros c. rewrite <- sgy_lin. apply sgy_ext. intros n _. unfold comp. apply H. }
  rewrite (membrane_lin _ _ a b (smoothed_strain m (vec_of d1) k) (smoothed_strain m (vec_of d2) k));
    [ring|..]; unfold smoothed_strain; cbn [exx eyy exy kxx kyy kxy]; rewrite ?X, ?Y; ring.
Qed.

Lemma c42_linear_ex : let d1 := list_of 30 ex_lin in let d2 := list_of 30 ex_rot in
  let d := list_of 30 (fun i => 2 * ex_lin i + 3 * ex_rot i) in
  forall i, vec_of d i = 2 * vec_of d1 i + 3 * vec_of d2 i.
Proof.
  intros d1 d2 d i. unfold d, d1, d2, vec_of, list_of.
  destruct (Nat.lt_ge_cases i 30) as [L|L].
  - rewrite !(nth_indep (map _ _) 0 (2 * ex_lin 0 + 3 * ex_rot 0)) by (rewrite map_length, seq_length; exact L).
    rewrite (map_nth (fun i => 2 * ex_lin i + 3 * ex_rot i) (seq 0 30) 0%nat i).
    rewrite (nth_indep (map ex_lin _) _ (ex_lin 0)), (nth_indep (map ex_rot _) _ (ex_rot 0)) by (rewrite map_length, seq_length; exact L).
    rewrite !map_nth, !seq_nth by exact L. reflexivity.
  - rewrite !nth_overflow by (rewrite map_length, seq_length; exact L). ring.
Qed.

(** A rigid motion d gives kG = 0; and for every d the deflection w = constant (with any
    values of the other components) is mapped to zero. *)
Lemma c43_rigid : forall m m' pfn d, prepared_from m m' -> props_complete m pfn ->
  length d = (length (nodes m) * 5)%nat ->
  exists KG, calc_kG d m' pfn = Ok KG /\
    (rigid m (vec_of d) -> forall i j, (i < mdim KG)%nat -> (j < mdim KG)%nat -> mentry KG i j = 0) /\
    (forall u a, (forall n, In n (node_keys m) -> comp m u 2 n = a) ->
       forall i, (i < mdim KG)%nat -> mulv KG u i = 0).
Proof.
  intros m m' pfn d P PC Ld. destruct (calc_kG_spec m m' pfn d P PC Ld) as [KG [E [D F]]].
  exists KG. split; [exact E|]. destruct (prepared_spec m m' P) as [W [PL [N [S RR]]]]. split.
  - intros [tx [ty [th [px [py H]]]]] i j Hi Hj. rewrite <- (form_delta KG i j Hi Hj), F. apply Sum_zero. intros k Hk.
    unfold edge_work. rewrite (strain_affine m (vec_of d) k (fun c => ((
      match c with 0%nat => tx | 1%nat => ty | 3%nat => px | _ => py end,
      match c with 1%nat => th | _ => 0 end), match c with 0%nat => - th | _ => 0 end)) W PL Hk).
    + cbn [fst snd]. unfold membrane, work; cbn [vx vy vz exx eyy exy kxx kyy kxy]. ring.
    + intros c n Hc H2 Hn. destruct (H n Hn) as [H0 [H1 [H3 H4]]]. unfold affine; cbn [fst snd].
      destruct c as [|[|[|[|[|c]]]]]; try lia; rewrite ?H0, ?H1, ?H3, ?H4; ring.
  - intros u a H i Hi. rewrite (mulv_form KG u i Hi), F. apply Sum_zero. intros k Hk. unfold edge_work.
    rewrite (sgx_ext m k (comp m u 2) (affine m a 0 0)), (sgy_ext m k (comp m u 2) (affine m a 0 0)).
    + rewrite sgx_affine, sgy_affine by assumption. unfold work; ring.
    + intros n Hn. rewrite H by (apply (on_domain_key m W k n Hn)). unfold affine; ring.
    + intros n Hn. rewrite H by (apply (on_domain_key m W k n Hn)). unfold affine; ring.
Qed.

Lemma vec_list : forall n u i, (i < n)%nat -> vec_of (list_of n u) i = u i.
Proof.
  intros n u i H. unfold vec_of, list_of. rewrite (nth_indep _ 0 (u 0%nat)) by (rewrite map_length, seq_length; exact H).
  rewrite map_nth, seq_nth by exact H. reflexivity.
Qed.
Lemma comp_list : forall m u c n, (c < 5)%nat -> In n (node_keys m) ->
  comp m (vec_of (list_of (length (nodes m) * 5) u)) c n = comp m u c n.
Proof.
  intros m u c n Hc Hn. unfold comp. apply vec_list. assert (L := index_in_lt _ _ Hn). unfold node_keys in L at 2.
  rewrite map_length in L. unfold rank. lia.
Qed.

Lemma c43_rigid_ex : rigid ex_mesh (vec_of (list_of 30 ex_rot)).
Proof.
  destruct ex_rigid as [tx [ty [th [px [py H]]]]]. exists tx, ty, th, px, py. intros n Hn.
  change 30%nat with (length (nodes ex_mesh) * 5)%nat. rewrite !comp_list by (auto; lia). apply H; exact Hn.
Qed.

Lemma wsum3_const : forall A (w : A -> R) (M : A -> mat3 R) l X, Sum w l <> 0 -> (forall a, In a l -> M a = X) -> wsum3 w M l = X.
Proof.
  intros A w M l X NZ H. destruct X as [x0 x1 x2 x3 x4 x5 x6 x7 x8]. unfold wsum3.
  assert (S : forall (g : mat3 R -> R), Sum (fun a => w a * g (M a)) l / Sum w l = g (M3 x0 x1 x2 x3 x4 x5 x6 x7 x8)).
  { intros g. rewrite (Sum_ext_in _ _ (fun a => w a * g (M3 x0 x1 x2 x3 x4 x5 x6 x7 x8))).
    - rewrite Sum_scal_r. field. exact NZ.
    - intros a Ha. rewrite (H a Ha). reflexivity. }
  cbv zeta. rewrite !S. reflexivity.
Qed.

(** with one property for all nodes and triangles the stiffness of every edge is the one of this property *)
Lemma stiffness_one : forall m pfn p k sel, wf_mesh m -> plate m -> props_complete m pfn -> all_props m (fun q => q = p) ->
  In k (edge_keys m) -> edge_stiffness m pfn sel k = sel p.
Proof.
  intros m pfn p k sel W PL PC [PN PT] Hk. assert (PC0 := PC). unfold props_complete in PC. unfold edge_stiffness. destruct pfn.
  - assert (VP : forall n, nodeprop m n <> None -> getp sel (nodeprop m n) = sel p).
    { intros n H. destruct (nodeprop m n) as [q|] eqn:Eq; [|congruence]. cbn [getp]. rewrite (PN n q Eq). reflexivity. }
    unfold node_stiffness. destruct (PC k Hk) as [C1 C2].
    apply wsum3_const; [apply Rgt_not_eq, Sum_one_pos|].
    intros X HX. cbn [In] in HX. destruct HX as [<-|[<-|HX]]; [apply VP; assumption|apply VP; assumption|].
    apply in_map_iff in HX. destruct HX as [t [<- Ht]]. apply tris_on_in in Ht. destruct Ht as [Ht _].
    apply wsum3_const; [apply Rgt_not_eq, Sum_one_pos|].
    intros n Hn. assert (VX : vertex t n) by (cbn [In] in Hn; unfold vertex; intuition).
    apply VP. apply (vertex_prop m t n W PC0 Ht VX).
  - unfold tria_stiffness. apply wsum3_const.
    + apply Rgt_not_eq, (tris_area_pos m W PL k Hk).
    + intros t Ht. apply tris_on_in in Ht. destruct Ht as [Ht _]. assert (NP := PC t Ht).
      destruct (tprop t) as [q|] eqn:Eq; [|congruence]. cbn [getp]. rewrite (PT t q Ht Eq). reflexivity.
Qed.

(** Uniform membrane force: for d affine in x and y and one property the membrane force of
    every edge is the exact one, and for affine w the energy is the area of the plate times
    the work density. *)
Lemma c44_uniform : forall m m' pfn d p a b c, prepared_from m m' -> props_complete m pfn ->
  length d = (length (nodes m) * 5)%nat -> all_props m (fun q => q = p) ->
  affine_field m (vec_of d) a b c ->
  let N := membrane (pA p) (pB p) (affine_strain b c) in
  exists KG, calc_kG d m' pfn = Ok KG /\
    (forall k e, In (k, e) (edges m') ->
       membrane (edge_stiffness m pfn pA k) (edge_stiffness m pfn pB k) (edge_strain m e (stored_area e) (vec_of d)) = N) /\
    forall u v wu gx gy wv hx hy, affine_w m u wu gx gy -> affine_w m v wv hx hy ->
      form KG u v = total_area m * work N gx gy hx hy.
Proof.
  intros m m' pfn d p a b c P PC Ld AP AF N. destruct (calc_kG_spec m m' pfn d P PC Ld) as [KG [E [D F]]].
  exists KG. split; [exact E|]. destruct (prepared_spec m m' P) as [W [PL [N0 [S RR]]]].
  assert (ST : forall k, In k (edge_keys m) -> smoothed_strain m (vec_of d) k = affine_strain b c).
  { intros k Hk. rewrite (strain_affine m (vec_of d) k (fun i => ((a i, b i), c i)) W PL Hk); [reflexivity|].
    intros i n Hc H2 Hn. cbn [fst snd]. apply AF; assumption. }
  split.
  - intros k e H. assert (R := pr_ready m' RR k e H). assert (A := ready_area _ _ _ R). rewrite (same_dom_area m m' S) in A.
    assert (S' : same m' m) by (destruct S; constructor; congruence).
    assert (Hk : In k (edge_keys m)).
    { rewrite <- (sm_edges _ _ S). apply in_map_iff; exists (k, e); auto. }
    rewrite !(stiffness_one m pfn p k _ W PL PC AP Hk). unfold N. f_equal. rewrite <- (ST k Hk).
    unfold stored_area; rewrite A.
    assert (B := fun q => ready_bint m k e q W PL Hk (same_ready m' m S' k e R)).
    unfold edge_strain, smoothed_strain. rewrite !(fun q => proj1 (B q)), !(fun q => proj2 (B q)). reflexivity.
  - intros u v wu gx gy wv hx hy HU HV. rewrite F. unfold kG_energy.
    rewrite (Sum_ext_in _ _ (fun k => dom_area m k * work N gx gy hx hy)).
    + rewrite Sum_scal_r, Sum_dom_area; [reflexivity|exact W].
    + intros k Hk. unfold edge_work. rewrite !(stiffness_one m pfn p k _ W PL PC AP Hk), (ST k Hk).
      assert (G : forall w a0 b0 c0, affine_w m w a0 b0 c0 -> sgx m k (comp m w 2) = b0 /\ sgy m k (comp m w 2) = c0).
      { intros w a0 b0 c0 HW. rewrite (sgx_ext m k (comp m w 2) (affine m a0 b0 c0)), (sgy_ext m k (comp m w 2) (affine m a0 b0 c0)).
        - split; [apply sgx_affine|apply sgy_affine]; assumption.
        - intros n Hn. apply HW. apply (on_domain_key m W k n Hn).
        - intros n Hn. apply HW. apply (on_domain_key m W k n Hn). }
      destruct (G u wu gx gy HU) as [-> ->]. destruct (G v wv hx hy HV) as [-> ->]. reflexivity.
Qed.

Lemma c44_uniform_ex : (exists m', prepared_from ex_one m') /\ all_props ex_one (fun q => q = ex_prop 2) /\
  exists a b c, affine_field ex_one (vec_of (list_of 30 ex_lin)) a b c /\ affine_strain b c = Strain 1 3 (2 + 5) 0 4 (6 + 0).
Proof.
  split; [|split; [apply ex_one_props|]].
  - destruct (valid_spec ex_one true (ex_one_valid true)) as [m' [K [E _]]]. exists m', true, K. split; [apply ex_one_valid|exact E].
  - assert (L : forall a b c, affine_field ex_one ex_lin a b c -> affine_field ex_one (vec_of (list_of 30 ex_lin)) a b c).
    { intros a b c H i n Hi H2 Hn. change 30%nat with (length (nodes ex_one) * 5)%nat. rewrite comp_list by assumption. apply H; assumption. }
    do 3 eexists. split; [apply L, ex_one_affine|reflexivity].
Qed.

(** The index that completes the four node positions of an edge with one triangle has no
    effect: with any node index (for k0 also counted from the end), possibly a different one
    for each edge, the matrices are the same. *)
Lemma c45_dummy_k0 : forall m pfn, valid m pfn -> exists m' K, calc_k0 m pfn = (m', Ok K) /\
  let assemble dummy := k0_assemble_dummy dummy m' pfn (edges m') (zeros (length (nodes m) * 5)) in
  assemble (fun _ => (-1)%Z) = Ok K /\
  forall dummy, (forall k, - Z.of_nat (length (nodes m)) <= dummy k < Z.of_nat (length (nodes m)))%Z ->
    exists K', assemble dummy = Ok K' /\ meq K K'.
Proof.
  intros m pfn V. destruct (valid_spec m pfn V) as [m' [K [E [D [F [S RR]]]]]]. exists m', K. split; [exact E|].
  assert (LN := sm_len _ _ S). cbv zeta. split.
  - rewrite k0_dummy_same. apply (calc_k0_inv R _ m pfn m' K E).
  - intros dummy H.
    destruct (k0_assemble_dummy_ready m' pfn dummy (pr_wf m' RR) (same_plate _ _ S (va_plate _ _ V))
      (same_props _ _ S pfn (va_props _ _ V)) (pr_indexed m' RR)) with (es := edges m') (K := zeros (length (nodes m) * 5))
      as [K' [E' [D' F']]].
    + rewrite LN. exact H.
    + rewrite LN. reflexivity.
    + intros k e He. split; [apply in_map_iff; exists (k, e); auto|apply (pr_ready m' RR k e He)].
    + exists K'. split; [exact E'|]. apply meq_form; [congruence|].
      intros u v. rewrite F, F', form_zeros, Rplus_0_l. unfold k0_energy.
      change (map fst (edges m')) with (edge_keys m'). rewrite (sm_edges _ _ S).
      apply Sum_ext; intros k. rewrite (same_dom_area _ _ S), !(same_stiffness _ _ S), !(same_strain _ _ S). reflexivity.
Qed.

Lemma c45_dummy_kG : forall m m' pfn d, prepared_from m m' -> props_complete m pfn ->
  length d = (length (nodes m) * 5)%nat ->
  let assemble dummy := kG_assemble_dummy dummy m' pfn d (edges m') (zeros (length d / 5 * 5)) in
  exists KG, calc_kG d m' pfn = Ok KG /\ assemble (fun _ => 0%Z) = Ok KG /\
  forall dummy, (forall k, 0 <= dummy k < Z.of_nat (length (nodes m)))%Z ->
    exists K', assemble dummy = Ok K' /\ meq KG K'.
Proof.
  intros m m' pfn d P PC Ld. destruct (calc_kG_spec m m' pfn d P PC Ld) as [KG [E [D F]]].
  destruct (prepared_spec m m' P) as [W [PL [N0 [S RR]]]]. assert (LN := sm_len _ _ S).
  cbv zeta. exists KG. split; [exact E|]. split; [rewrite kG_dummy_same; exact E|]. intros dummy H.
  destruct (kG_assemble_dummy_ready m' pfn dummy d (pr_wf m' RR) (same_plate _ _ S PL)
      (same_props _ _ S pfn PC) (pr_indexed m' RR)) with (es := edges m') (K := zeros (length d / 5 * 5))
      as [K' [E' [D' F']]].
  - rewrite LN. exact H.
  - rewrite LN. exact Ld.
  - cbn [zeros mdim]. rewrite LN, Ld, Nat.div_mul by lia. reflexivity.
  - intros k e He. split; [apply in_map_iff; exists (k, e); auto|apply (pr_ready m' RR k e He)].
  - exists K'. split; [exact E'|]. apply meq_form; [congruence|].
    intros u v. rewrite F, F', form_zeros, Rplus_0_l. unfold kG_energy.
    change (map fst (edges m')) with (edge_keys m'). rewrite (sm_edges _ _ S).
    apply Sum_ext; intros k. symmetry. apply (same_edge_work m m' S).
Qed.

(** the plate of the examples has four edges with one triangle, among them edges with the first node *)
Lemma c45_dummy_k0_ex : forall pfn, valid ex_mesh pfn /\
  map fst (filter (fun kl => Nat.eqb (snd kl) 1) (map (fun k => (k, length (tris_on ex_mesh k))) (edge_keys ex_mesh)))
  = [(1, 2); (2, 3); (3, 4); (1, 4)]%nat.
Proof. intros pfn; split; [apply ex_valid|]. reflexivity. Qed.

(** calc_kG returns on a concrete plate with non-degenerate domains, and the matrix is not zero *)
Lemma c40_symmetric_ex : forall pfn, exists m' KG, calc_kG (list_of 30 ex_lin) m' pfn = Ok KG /\ mdim KG = 30%nat /\
  (forall k e, In (k, e) (edges m') -> eAc e <> Some 0) /\ exists u, form KG u u <> 0.
Proof.
  intros pfn. destruct c44_uniform_ex as [[m' P] [AP [a [b [c [AF AS]]]]]].
  assert (PC : props_complete ex_one pfn) by apply (va_props _ _ (ex_one_valid pfn)).
  destruct (c44_uniform ex_one m' pfn (list_of 30 ex_lin) (ex_prop 2) a b c P PC eq_refl AP AF) as [KG [E [_ F]]].
  exists m', KG. split; [exact E|]. split.
  { destruct (c40_symmetric m' pfn _ KG E) as [D _]. rewrite D. reflexivity. }
  destruct (prepared_spec ex_one m' P) as [W [PL [N0 [S RR]]]]. split.
  - intros k e H. rewrite (ready_area _ _ _ (pr_ready m' RR k e H)), (same_dom_area _ m' S). intros Z; injection Z as Z.
    assert (Hk : In k (edge_keys ex_one)) by (rewrite <- (sm_edges _ _ S); apply in_map_iff; exists (k, e); auto).
    assert (X := dom_area_pos ex_one W PL k Hk). lra.
  - exists (field ex_one (fun c n => match c with 2%nat => affine ex_one 0 1 0 n | _ => 0 end)).
    rewrite (F _ _ 0 1 0 0 1 0); try (intros n Hn; rewrite field_comp by (try lia; assumption); reflexivity).
    rewrite AS. replace (total_area ex_one) with 12.
    + unfold work, membrane, ex_prop; cbn [vx vy vz pA pB m00 m01 m02 m10 m11 m12 m20 m21 m22 exx eyy exy kxx kyy kxy]. lra.
    + rewrite <- ex_area. unfold total_area, ex_one. rewrite (wp_trias ex_mesh ex_wf), Sum_map. apply Sum_ext. intros t.
      unfold tarea, tdet. rewrite (wp_pos ex_mesh). reflexivity.
Qed.
