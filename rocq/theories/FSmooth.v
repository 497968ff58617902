(** Facts about smoothed strains: double counting, affine fields, zero fields, energy. *)
From Coq Require Import ZArith Reals List Bool Arith Lra Lia Permutation FunctionalExtensionality.
From Verif Require Import Num Py Mesh Utils Spec SpecK0 FSum FMat FTensor FDict FGeom FWf FRead2 FAsm FSetup CalcK0.
Import ListNotations.
Local Open Scope R_scope.
Implicit Types (m : mesh R).

(** ** Double counting *)

Lemma Sum_filter_if : forall A (p : A -> bool) (f : A -> R) l,
  Sum f (filter p l) = Sum (fun a => if p a then f a else 0) l.
Proof.
  intros A p f l; induction l as [|a l IH]; [reflexivity|]. cbn [filter]. rewrite Sum_cons.
  destruct (p a); rewrite ?Sum_cons, IH; ring.
Qed.

Definition mem_key (k : nat * nat) (l : list (nat * nat)) : bool := existsb (pair_eqb k) l.
Lemma mem_key_in : forall k l, mem_key k l = true <-> In k l.
Proof.
  intros; unfold mem_key. rewrite existsb_exists. split.
  - intros [x [H E]]. apply pair_eqb_spec in E. subst; exact H.
  - intros H; exists k; split; [exact H|]. apply pair_eqb_spec; reflexivity.
Qed.

Section Count.
  Variable m : mesh R.
  Hypothesis W : wf_mesh m.

  Lemma on_side : forall k t, In k (edge_keys m) -> In t (trias_of m) ->
    is_vertex (fst k) t && is_vertex (snd k) t = mem_key k (sides t).
  Proof.
    intros k t Hk Ht. apply eq_true_iff_eq. rewrite andb_true_iff, !is_vertex_iff, mem_key_in.
    split.
    - intros [H1 H2]. destruct k as [a b]; cbn [fst snd] in *.
      apply vertices_sides; auto. apply (edge_key_lt m W (a, b) Hk).
    - apply sides_vertices.
  Qed.

  Lemma Sum_keys_sides : forall t c, In t (trias_of m) ->
    Sum (fun k => if mem_key k (sides t) then c else 0) (edge_keys m) = 3 * c.
  Proof.
    intros t c Ht. rewrite <- (Sum_filter_if _ (fun k => mem_key k (sides t)) (fun _ => c)).
    rewrite (Sum_perm _ _ _ (sides t)).
    - unfold sides. rewrite !Sum_cons, Sum_nil. ring.
    - apply NoDup_Permutation.
      + apply NoDup_filter, (wf_edges m W).
      + apply sides_nodup. apply (wf_distinct m W t Ht).
      + intros k. rewrite filter_In, mem_key_in. split; [tauto|]. intros H; split; [|exact H].
        apply (wf_edge_keys m W). exists t; auto.
  Qed.

  Lemma double_count : forall f, Sum (fun k => Sum f (tris_on m k)) (edge_keys m) = 3 * Sum f (trias_of m).
  Proof.
    intros f.
    rewrite (Sum_ext_in _ _ (fun k => Sum (fun t => if mem_key k (sides t) then f t else 0) (trias_of m))).
    - rewrite Sum_swap, <- Sum_scal. apply Sum_ext_in. intros t Ht. apply Sum_keys_sides; exact Ht.
    - intros k Hk. unfold tris_on. rewrite Sum_filter_if. apply Sum_ext_in. intros t Ht.
      rewrite on_side by assumption. reflexivity.
  Qed.

  Lemma Sum_dom_area : Sum (dom_area m) (edge_keys m) = total_area m.
  Proof.
    unfold dom_area, Rdiv. rewrite Sum_scal_r, double_count. unfold total_area. field.
  Qed.
End Count.

(** ** Gradients *)

Section Grad.
  Variable m : mesh R.

  Lemma tgx_ext : forall t q q', (forall n, vertex t n -> q n = q' n) -> tgx m t q = tgx m t q'.
  Proof. intros t q q' H; unfold tgx; rewrite !H by (unfold vertex; auto); reflexivity. Qed.
  Lemma tgy_ext : forall t q q', (forall n, vertex t n -> q n = q' n) -> tgy m t q = tgy m t q'.
  Proof. intros t q q' H; unfold tgy; rewrite !H by (unfold vertex; auto); reflexivity. Qed.

  Lemma tgx_affine : forall t a b c, tdet m t <> 0 -> tgx m t (affine m a b c) = b.
  Proof. intros t a b c H. unfold tgx, affine. unfold tdet, det2 in *. field. exact H. Qed.
  Lemma tgy_affine : forall t a b c, tdet m t <> 0 -> tgy m t (affine m a b c) = c.
  Proof. intros t a b c H. unfold tgy, affine. unfold tdet, det2 in *. field. exact H. Qed.

  Lemma tgx_lin : forall t a b q q', tgx m t (fun n => a * q n + b * q' n) = a * tgx m t q + b * tgx m t q'.
  Proof. intros; unfold tgx, Rdiv; ring. Qed.
  Lemma tgy_lin : forall t a b q q', tgy m t (fun n => a * q n + b * q' n) = a * tgy m t q + b * tgy m t q'.
  Proof. intros; unfold tgy, Rdiv; ring. Qed.

  Lemma sgx_ext : forall k q q', (forall n, on_domain m k n -> q n = q' n) -> sgx m k q = sgx m k q'.
  Proof.
    intros k q q' H; unfold sgx. f_equal. apply Sum_ext_in; intros t Ht. f_equal. apply tgx_ext.
    intros n V; apply H; exists t; auto.
  Qed.
  Lemma sgy_ext : forall k q q', (forall n, on_domain m k n -> q n = q' n) -> sgy m k q = sgy m k q'.
  Proof.
    intros k q q' H; unfold sgy. f_equal. apply Sum_ext_in; intros t Ht. f_equal. apply tgy_ext.
    intros n V; apply H; exists t; auto.
  Qed.

  Lemma sgx_lin : forall k a b q q', sgx m k (fun n => a * q n + b * q' n) = a * sgx m k q + b * sgx m k q'.
  Proof.
    intros; unfold sgx. rewrite (Sum_ext _ _ (fun t => a * (tarea m t * tgx m t q) + b * (tarea m t * tgx m t q'))).
    - rewrite Sum_plus, !Sum_scal. unfold Rdiv; ring.
    - intros t; rewrite tgx_lin; ring.
  Qed.
  Lemma sgy_lin : forall k a b q q', sgy m k (fun n => a * q n + b * q' n) = a * sgy m k q + b * sgy m k q'.
  Proof.
    intros; unfold sgy. rewrite (Sum_ext _ _ (fun t => a * (tarea m t * tgy m t q) + b * (tarea m t * tgy m t q'))).
    - rewrite Sum_plus, !Sum_scal. unfold Rdiv; ring.
    - intros t; rewrite tgy_lin; ring.
  Qed.

  Lemma sgx_zero : forall k, sgx m k (fun _ => 0) = 0.
  Proof.
    intros k. assert (H := sgx_lin k 0 0 (fun _ => 0) (fun _ => 0)).
    rewrite (sgx_ext k (fun _ => 0) (fun n => 0 * 0 + 0 * 0)) by (intros; ring). rewrite H; ring.
  Qed.
  Lemma sgy_zero : forall k, sgy m k (fun _ => 0) = 0.
  Proof.
    intros k. assert (H := sgy_lin k 0 0 (fun _ => 0) (fun _ => 0)).
    rewrite (sgy_ext k (fun _ => 0) (fun n => 0 * 0 + 0 * 0)) by (intros; ring). rewrite H; ring.
  Qed.

  Hypothesis W : wf_mesh m.
  Hypothesis PL : plate m.

  Lemma tris_area_pos : forall k, In k (edge_keys m) -> 0 < Sum (tarea m) (tris_on m k).
  Proof. intros k Hk. assert (H := dom_area_pos m W PL k Hk). unfold dom_area in H. lra. Qed.

  Lemma sgx_affine : forall k a b c, In k (edge_keys m) -> sgx m k (affine m a b c) = b.
  Proof.
    intros k a b c Hk. unfold sgx. rewrite (Sum_ext_in _ _ (fun t => tarea m t * b)).
    - rewrite Sum_scal_r. assert (H := tris_area_pos k Hk). field. lra.
    - intros t Ht. rewrite tgx_affine; [reflexivity|]. apply (pl_nondeg m PL). apply tris_on_in in Ht; tauto.
  Qed.
  Lemma sgy_affine : forall k a b c, In k (edge_keys m) -> sgy m k (affine m a b c) = c.
  Proof.
    intros k a b c Hk. unfold sgy. rewrite (Sum_ext_in _ _ (fun t => tarea m t * c)).
    - rewrite Sum_scal_r. assert (H := tris_area_pos k Hk). field. lra.
    - intros t Ht. rewrite tgy_affine; [reflexivity|]. apply (pl_nondeg m PL). apply tris_on_in in Ht; tauto.
  Qed.

  Lemma on_domain_key : forall k n, on_domain m k n -> In n (node_keys m).
  Proof. intros k n [t [Ht V]]. apply (wf_vertices m W t n); [apply tris_on_in in Ht; tauto|exact V]. Qed.
End Grad.

(** ** Strains *)

Lemma strain_ext : forall m u u' k,
  (forall c n, (c < 5)%nat -> c <> 2%nat -> on_domain m k n -> comp m u c n = comp m u' c n) ->
  smoothed_strain m u k = smoothed_strain m u' k.
Proof.
  intros m u u' k H. unfold smoothed_strain.
  rewrite !(sgx_ext m k (comp m u _) (comp m u' _)) by (intros; apply H; auto; lia).
  rewrite !(sgy_ext m k (comp m u _) (comp m u' _)) by (intros; apply H; auto; lia).
  reflexivity.
Qed.

Lemma strain_zero : forall m u k,
  (forall c n, (c < 5)%nat -> c <> 2%nat -> on_domain m k n -> comp m u c n = 0) ->
  smoothed_strain m u k = strain0.
Proof.
  intros m u k H.
  rewrite (strain_ext m u (fun _ => 0)).
  - unfold smoothed_strain, comp, strain0. rewrite !sgx_zero, !sgy_zero. rewrite Rplus_0_r. reflexivity.
  - intros c n Hc Hc' Hn. rewrite H by assumption. reflexivity.
Qed.

Lemma strain_affine : forall m u k q, wf_mesh m -> plate m -> In k (edge_keys m) ->
  (forall c n, (c < 5)%nat -> c <> 2%nat -> In n (node_keys m) ->
     comp m u c n = affine m (fst (fst (q c))) (snd (fst (q c))) (snd (q c)) n) ->
  smoothed_strain m u k =
  Strain (snd (fst (q 0%nat))) (snd (q 1%nat)) (snd (q 0%nat) + snd (fst (q 1%nat)))
         (snd (fst (q 3%nat))) (snd (q 4%nat)) (snd (q 3%nat) + snd (fst (q 4%nat))).
Proof.
  intros m u k q W PL Hk H. unfold smoothed_strain.
  assert (X : forall c, (c < 5)%nat -> c <> 2%nat ->
    sgx m k (comp m u c) = snd (fst (q c)) /\ sgy m k (comp m u c) = snd (q c)).
  { intros c Hc Hc'. split.
    - rewrite (sgx_ext m k _ (affine m (fst (fst (q c))) (snd (fst (q c))) (snd (q c)))).
      + apply sgx_affine; assumption.
      + intros n Hn; apply H; auto. apply (on_domain_key m W k n Hn).
    - rewrite (sgy_ext m k _ (affine m (fst (fst (q c))) (snd (fst (q c))) (snd (q c)))).
      + apply sgy_affine; assumption.
      + intros n Hn; apply H; auto. apply (on_domain_key m W k n Hn). }
  destruct (X 0%nat) as [-> ->]; try lia. destruct (X 1%nat) as [-> ->]; try lia.
  destruct (X 3%nat) as [-> ->]; try lia. destruct (X 4%nat) as [-> ->]; try lia. reflexivity.
Qed.

(** ** Unit vectors *)

Lemma comp_delta : forall m n c n' c', In n (node_keys m) -> In n' (node_keys m) -> (c < 5)%nat -> (c' < 5)%nat ->
  (n' <> n \/ c' <> c) -> comp m (delta (rank m n * 5 + c)) c' n' = 0.
Proof.
  intros m n c n' c' Kn Kn' Hc Hc' H. unfold comp, delta.
  destruct (Nat.eqb_spec (rank m n' * 5 + c') (rank m n * 5 + c)) as [E|E]; [exfalso|reflexivity].
  assert (rank m n' = rank m n /\ c' = c) as [E1 E2] by lia.
  apply (rank_inj m) in E1; auto. destruct H; auto.
Qed.

Lemma rank_onto : forall m i, (i < length (nodes m))%nat -> NoDup (node_keys m) ->
  exists n, In n (node_keys m) /\ rank m n = i.
Proof.
  intros m i Hi ND. unfold rank. assert (L : length (node_keys m) = length (nodes m)) by apply map_length.
  rewrite <- L in Hi. clear L. revert i Hi. induction (node_keys m) as [|a l IH]; intros i Hi; [cbn in Hi; lia|].
  inversion ND as [|x y N1 N2]; subst. destruct i as [|i].
  - exists a; split; [left; reflexivity|]. cbn. rewrite Nat.eqb_refl; reflexivity.
  - destruct (IH N2 i) as [n [H1 H2]]; [cbn in Hi; lia|]. exists n; split; [right; exact H1|].
    cbn. destruct (Nat.eqb_spec n a) as [->|_]; [contradiction|]. rewrite H2; reflexivity.
Qed.

(** ** The energy density is linear in the stiffness *)

Lemma dens_lin : forall c c' A B D A' B' D' e f,
  dens (lin3 c c' A A') (lin3 c c' B B') (lin3 c c' D D') e f = c * dens A B D e f + c' * dens A' B' D' e f.
Proof. intros; unfold dens, quad3, lin3; cbn; ring. Qed.

Lemma dens_wsum3 : forall A (w : A -> R) (MA MB MD : A -> mat3 R) l e f,
  dens (wsum3 w MA l) (wsum3 w MB l) (wsum3 w MD l) e f
  = Sum (fun a => w a * dens (MA a) (MB a) (MD a) e f) l / Sum w l.
Proof.
  intros A w MA MB MD l e f. unfold wsum3. cbv zeta.
  generalize (Sum w l); intros S.
  unfold dens, quad3; cbn [m00 m01 m02 m11 m12 m22].
  induction l as [|a l IH].
  - rewrite !Sum_nil. unfold Rdiv; ring.
  - rewrite !Sum_cons. unfold Rdiv in *. match goal with |- _ = (?a + ?b) * ?c => replace ((a + b) * c) with (a * c + b * c) by ring end.
    rewrite <- IH. ring.
Qed.

Lemma wsum3_psd : forall A (w : A -> R) (MA MB MD : A -> mat3 R) l e,
  (forall a, In a l -> 0 <= w a) -> (forall a, In a l -> 0 <= dens (MA a) (MB a) (MD a) e e) ->
  0 < Sum w l -> 0 <= dens (wsum3 w MA l) (wsum3 w MB l) (wsum3 w MD l) e e.
Proof.
  intros A w MA MB MD l e Hw Hd S. rewrite dens_wsum3.
  apply Rmult_le_pos; [|left; apply Rinv_0_lt_compat; exact S].
  apply Sum_nonneg. intros a Ha. apply Rmult_le_pos; auto.
Qed.

Lemma Sum_one_pos : forall A (a : A) l, 0 < Sum (fun _ => 1) (a :: l).
Proof.
  intros A a l. rewrite Sum_cons. assert (0 <= Sum (fun _ : A => 1) l) by (apply Sum_nonneg; intros; lra). lra.
Qed.
