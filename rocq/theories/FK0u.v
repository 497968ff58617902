(** Facts about the shear energies. *)
From Coq Require Import ZArith Reals List Bool Arith Lra Lia String Permutation.
From Verif Require Import Num Py Mesh Utils GenEdgeB GenEdgeI CalcK0 AddK0s Spec SpecK0 SpecKG SpecK0s FSum FMat FTensor
  FGenEdgeB FGenEdgeI FGeom FDict FWf FSetup FAsm FK0 FSmooth FDom FKG FRenum FK0s FK0p FK0e FK0i FK0t FMove.
Import ListNotations.
Local Open Scope R_scope.
Implicit Types (m : mesh R).

Lemma code_third_l6 : code_third = 2 * l6 lits_src.
Proof. reflexivity. Qed.

(** ** Matrices *)

Lemma adds_mulv : forall k k' f v i, adds k k' f -> (i < mdim k)%nat -> mulv k' v i = mulv k v i + f (delta i) v.
Proof. intros k k' f v i [D F] H. rewrite !mulv_form by (rewrite ?D; exact H). apply F. Qed.
Lemma adds_meq : forall k k1 k2 f g, adds k k1 f -> adds k k2 g -> (forall u v, f u v = g u v) -> meq k1 k2.
Proof.
  intros k k1 k2 f g [D1 F1] [D2 F2] H. apply meq_form; [congruence|]. intros u v. rewrite F1, F2, H. reflexivity.
Qed.
Lemma adds_entry : forall k k' f i j, adds k k' f -> (i < mdim k)%nat -> (j < mdim k)%nat ->
  mentry k' i j = mentry k i j + f (delta i) (delta j).
Proof. intros k k' f i j [D F] Hi Hj. rewrite <- !form_delta by (rewrite ?D; assumption). apply F. Qed.

(** ** Constant shear *)

Lemma cell_affine : forall th p q r c wx wy px py, pdet p q r <> 0 ->
  (forall x, x = p \/ x = q \/ x = r -> ptw x = c + wx * ptx x + wy * pty x /\ ptfx x = px /\ ptfy x = py) ->
  cell_shear th p q r = (wx + (1/2 + 3/2 * th) * px, wy + (1/2 + 3/2 * th) * py).
Proof.
  intros th p q r c wx wy px py D H. rewrite cell_shear_eq by exact D. cbv zeta.
  destruct (H p) as [P1 [P2 P3]]; [auto|]. destruct (H q) as [Q1 [Q2 Q3]]; [auto|]. destruct (H r) as [R1 [R2 R3]]; [auto|].
  unfold nx, ny, gap, center; cbn [ptx pty ptw ptfx ptfy]. rewrite P1, P2, P3, Q1, Q2, Q3, R1, R2, R3.
  unfold pdet in *. f_equal; field; exact D.
Qed.
Lemma dsg_affine : forall p q r c wx wy px py, pdet p q r <> 0 ->
  (forall x, x = p \/ x = q \/ x = r -> ptw x = c + wx * ptx x + wy * pty x /\ ptfx x = px /\ ptfy x = py) ->
  dsg p q r = (wx + px, wy + py).
Proof.
  intros p q r c wx wy px py D H.
  destruct (H p) as [P1 [P2 P3]]; [auto|]. destruct (H q) as [Q1 [Q2 Q3]]; [auto|]. destruct (H r) as [R1 [R2 R3]]; [auto|].
  unfold dsg, gap. rewrite P1, P2, P3, Q1, Q2, Q3, R1, R2, R3. unfold pdet in *. f_equal; field; exact D.
Qed.

Section Affine.
  Variable m : mesh R.
  Hypothesis W : wf_mesh m.
  Hypothesis PL : plate m.
  Variable u : nat -> R.
  Variables wx wy px py : R.
  Hypothesis C : constant_shear m u wx wy px py.

  Lemma strain_cell_affine : forall th t, In t (trias_of m) -> strain_cell th m u t = (wx + (1/2 + 3/2 * th) * px, wy + (1/2 + 3/2 * th) * py).
  Proof.
    intros th t Ht. destruct C as [c H]. unfold strain_cell. apply (cell_affine th _ _ _ c).
    - apply (pl_nondeg m PL t Ht).
    - intros x Hx. assert (E : exists n, vertex t n /\ x = at_node m u n)
        by (destruct Hx as [Hx|[Hx|Hx]]; eexists; (split; [|exact Hx]); unfold vertex; auto).
      destruct E as [n [V ->]]. apply (H n (wf_vertices m W t n Ht V)).
  Qed.
  Lemma strain_ns_affine : forall t, In t (trias_of m) -> strain_ns m u t = (wx + px, wy + py).
  Proof.
    intros t Ht. destruct C as [c H]. unfold strain_ns. cbv zeta.
    assert (X : forall n, vertex t n -> ptw (at_node m u n) = c + wx * ptx (at_node m u n) + wy * pty (at_node m u n) /\
      ptfx (at_node m u n) = px /\ ptfy (at_node m u n) = py) by (intros n V; apply (H n (wf_vertices m W t n Ht V))).
    destruct (Rlt_dec (tdet m t) 0) as [N|N]; apply (dsg_affine _ _ _ c);
      try (intros x [-> | [-> | ->]]; apply X; unfold vertex; auto).
    - change (det2 (pos m (tn2 t)) (pos m (tn1 t)) (pos m (tn3 t)) <> 0). rewrite det2_swap12. unfold tdet in N. lra.
    - apply (pl_nondeg m PL t Ht).
  Qed.
End Affine.

Lemma energy_const : forall g m pfn alpha mfa u v gx gy, (forall t, In t (trias_of m) -> g u t = (gx, gy)) ->
  shear_energy g m pfn alpha mfa u v = shear_work g m pfn alpha mfa gx gy v.
Proof. intros g m pfn alpha mfa u v gx gy H. unfold shear_energy, shear_work. apply Sum_ext_in. intros t Ht. rewrite (H t Ht). reflexivity. Qed.
Lemma work_scale : forall g m pfn alpha mfa c gx gy v,
  shear_work g m pfn alpha mfa (c * gx) (c * gy) v = c * shear_work g m pfn alpha mfa gx gy v.
Proof. intros. unfold shear_work. rewrite <- Sum_scal. apply Sum_ext. intros t. ring. Qed.
Lemma energy_sym : forall g m pfn alpha mfa u v, shear_energy g m pfn alpha mfa u v = shear_energy g m pfn alpha mfa v u.
Proof. intros. unfold shear_energy. apply Sum_ext. intros t. ring. Qed.

(** ** Signs *)

Lemma corr_range : forall alpha h l, 0 <= alpha -> 0 < h -> 0 < corr alpha h l <= 1.
Proof.
  intros alpha h l A H. unfold corr. assert (B : 0 < h * h) by (apply Rmult_lt_0_compat; assumption).
  assert (C : 0 <= alpha * (l * l)) by (apply Rmult_le_pos; [exact A|apply Rle_0_sqr]). split.
  - apply Rdiv_lt_0_compat; lra.
  - apply (Rmult_le_reg_r (h * h + alpha * (l * l))); [lra|]. unfold Rdiv. rewrite Rmult_assoc, Rinv_l by lra. lra.
Qed.
Lemma corr_zero : forall h l, 0 < h -> corr 0 h l = 1.
Proof. intros h l H. unfold corr. field. lra. Qed.
Lemma corr_mono : forall a b h l, 0 <= a <= b -> 0 < h -> corr b h l <= corr a h l.
Proof.
  intros a b h l [A B] H. unfold corr. assert (HH : 0 < h * h) by (apply Rmult_lt_0_compat; assumption).
  assert (LL : 0 <= l * l) by apply Rle_0_sqr.
  assert (C : a * (l * l) <= b * (l * l)) by (apply Rmult_le_compat_r; assumption).
  assert (D : 0 <= a * (l * l)) by (apply Rmult_le_pos; assumption).
  unfold Rdiv. apply Rmult_le_compat_l; [lra|]. apply Rinv_le_contravar; lra.
Qed.

Lemma pval_nonneg : forall f o, (forall p, o = Some p -> 0 <= f p) -> 0 <= pval f o.
Proof. intros f [p|] H; cbn; [apply H; reflexivity|lra]. Qed.

Lemma tria_val_nonneg : forall m pfn f t, all_props m (fun p => 0 <= f p) -> In t (trias_of m) -> 0 <= tria_val m pfn f t.
Proof.
  intros m pfn f t [H1 H2] Ht. unfold tria_val. destruct pfn.
  - assert (A := pval_nonneg f (nodeprop m (tn1 t)) (H1 _)). assert (B := pval_nonneg f (nodeprop m (tn2 t)) (H1 _)).
    assert (C := pval_nonneg f (nodeprop m (tn3 t)) (H1 _)). lra.
  - apply pval_nonneg. intros p; apply (H2 t p Ht).
Qed.

Lemma all_imp : forall m (P Q : prop R -> Prop), (forall p, P p -> Q p) -> all_props m P -> all_props m Q.
Proof. intros m P Q H [H1 H2]. split; intros; eauto. Qed.

Definition elem_energy (g : (nat -> R) -> tria R -> R * R) m pfn u t : R :=
  tarea m t * (tria_G44 m pfn t * fst (g u t) * fst (g u t) + tria_G55 m pfn t * snd (g u t) * snd (g u t)).

Lemma elem_nonneg : forall g m pfn u t, stiff m -> In t (trias_of m) -> 0 <= elem_energy g m pfn u t.
Proof.
  intros g m pfn u t ST Ht. unfold elem_energy. apply Rmult_le_pos.
  - unfold tarea. assert (X := Rabs_pos (tdet m t)). lra.
  - assert (G4 : 0 <= tria_G44 m pfn t) 
      by (apply Rmult_le_pos; (apply tria_val_nonneg; [|exact Ht]; refine (all_imp m _ _ _ ST); intros p h; tauto)).
    assert (G5 : 0 <= tria_G55 m pfn t) 
      by (apply Rmult_le_pos; (apply tria_val_nonneg; [|exact Ht]; refine (all_imp m _ _ _ ST); intros p h; tauto)).
    rewrite !Rmult_assoc. apply Rplus_le_le_0_compat; apply Rmult_le_pos; try assumption; apply Rle_0_sqr.
Qed.
Lemma energy_elem : forall g m pfn alpha mfa u, shear_energy g m pfn alpha mfa u u
  = Sum (fun t => corr alpha (tria_val m pfn ph t) (tria_size m mfa t) * elem_energy g m pfn u t) (trias_of m).
Proof. intros. unfold shear_energy, elem_energy. apply Sum_ext. intros t. ring. Qed.

Lemma thickness : forall m pfn t, wf_mesh m -> props_complete m pfn -> thick m -> In t (trias_of m) -> 0 < tria_val m pfn ph t.
Proof. intros m pfn t W PC TH Ht. apply (thick_pos m W pfn PC TH t Ht). Qed.

Lemma energy_nonneg : forall g m pfn alpha mfa u, wf_mesh m -> props_complete m pfn -> thick m -> stiff m -> 0 <= alpha ->
  0 <= shear_energy g m pfn alpha mfa u u.
Proof.
  intros g m pfn alpha mfa u W PC TH ST A. rewrite energy_elem. apply Sum_nonneg. intros t Ht.
  apply Rmult_le_pos; [|apply elem_nonneg; assumption].
  assert (X := corr_range alpha _ (tria_size m mfa t) A (thickness m pfn t W PC TH Ht)). lra.
Qed.
Lemma energy_mono : forall g m pfn a b mfa u, wf_mesh m -> props_complete m pfn -> thick m -> stiff m -> 0 <= a <= b ->
  shear_energy g m pfn b mfa u u <= shear_energy g m pfn a mfa u u.
Proof.
  intros g m pfn a b mfa u W PC TH ST A. rewrite !energy_elem. apply Sum_le. intros t Ht.
  apply Rmult_le_compat_r; [apply elem_nonneg; assumption|]. apply corr_mono; [exact A|apply thickness; assumption].
Qed.
Lemma energy_zero_alpha : forall g m pfn mfa u v, wf_mesh m -> props_complete m pfn -> thick m ->
  shear_energy g m pfn 0 mfa u v = Sum (fun t => tarea m t *
    (tria_G44 m pfn t * fst (g u t) * fst (g v t) + tria_G55 m pfn t * snd (g u t) * snd (g v t))) (trias_of m).
Proof.
  intros g m pfn mfa u v W PC TH. unfold shear_energy. apply Sum_ext_in. intros t Ht.
  rewrite corr_zero by (apply thickness; assumption). ring.
Qed.

(** ** Renumbering *)

Lemma pdet_rot : forall p q r, pdet q r p = pdet p q r.
Proof. intros; unfold pdet; ring. Qed.
Lemma pdet_swap : forall p q r, pdet q p r = - pdet p q r.
Proof. intros; unfold pdet; ring. Qed.
Lemma cell_shear_231 : forall th p q r, pdet p q r <> 0 -> cell_shear th p q r = cell_shear th q r p.
Proof. intros; symmetry; apply cell_shear_rot; assumption. Qed.
Lemma cell_shear_312 : forall th p q r, pdet p q r <> 0 -> cell_shear th p q r = cell_shear th r p q.
Proof. intros th p q r D. rewrite (cell_shear_231 th p q r D). apply cell_shear_231. rewrite pdet_rot; exact D. Qed.
Lemma cell_shear_213 : forall th p q r, pdet p q r <> 0 -> cell_shear th p q r = cell_shear th q p r.
Proof. intros; symmetry; apply cell_shear_swap; assumption. Qed.
Lemma cell_shear_132 : forall th p q r, pdet p q r <> 0 -> cell_shear th p q r = cell_shear th p r q.
Proof. intros th p q r D. rewrite (cell_shear_312 th p q r D). apply cell_shear_213. rewrite <- pdet_rot; exact D. Qed.
Lemma cell_shear_321 : forall th p q r, pdet p q r <> 0 -> cell_shear th p q r = cell_shear th r q p.
Proof. intros th p q r D. rewrite (cell_shear_231 th p q r D). apply cell_shear_213. rewrite pdet_rot; exact D. Qed.

Section Renumber.
  Variables m m' : mesh R.
  Hypothesis W : wf_mesh m.
  Hypothesis PL : plate m.
  Hypothesis W' : wf_mesh m'.
  Hypothesis SP : same_plate_as m m'.

  Lemma rn_at_node : at_node m' = at_node m.
  Proof. unfold at_node. rewrite (rn_pos m m' SP), (rn_comp m m' SP). reflexivity. Qed.
  Lemma rn_cell : forall th u t t', In t (trias_of m) -> same_tria t t' -> strain_cell th m u t = strain_cell th m' u t'.
  Proof.
    intros th u t t' Ht S. assert (D := pl_nondeg m PL t Ht). unfold strain_cell. rewrite rn_at_node.
    assert (P := same_perm3 t t' S).
    assert (D1 : pdet (at_node m u (tn1 t)) (at_node m u (tn2 t)) (at_node m u (tn3 t)) <> 0) by exact D. clear D.
    set (f := at_node m u) in *.
    destruct P as [P|[P|[P|[P|[P|P]]]]]; destruct P as [E1 [E2 E3]]; rewrite E1, E2, E3 in *; clear E1 E2 E3;
      first [reflexivity | rewrite cell_shear_213 by exact D1; reflexivity | rewrite cell_shear_231 by exact D1; reflexivity
        | rewrite cell_shear_312 by exact D1; reflexivity | rewrite cell_shear_132 by exact D1; reflexivity
        | rewrite cell_shear_321 by exact D1; reflexivity].
  Qed.
  Lemma rn_size : forall mfa t t', same_tria t t' -> tria_size m mfa t = tria_size m' mfa t'.
  Proof.
    intros mfa t t' S. unfold tria_size. rewrite (rn_tarea m m' SP t t' S). unfold dist. rewrite (rn_pos m m' SP). fold (dist m).
    destruct mfa; [reflexivity|]. fold (dist m (tn1 t) (tn2 t)) (dist m (tn2 t) (tn3 t)) (dist m (tn3 t) (tn1 t)).
    fold (dist m (tn1 t') (tn2 t')) (dist m (tn2 t') (tn3 t')) (dist m (tn3 t') (tn1 t')).
    assert (P := same_perm3 t t' S).
    destruct P as [P|[P|[P|[P|[P|P]]]]]; destruct P as [-> [-> ->]];
    rewrite ?(dist_sym m (tn2 t') (tn1 t')), ?(dist_sym m (tn3 t') (tn2 t')), ?(dist_sym m (tn1 t') (tn3 t')); 
    unfold Rmax; repeat destruct Rle_dec; lra.
  Qed.
  Lemma rn_val : forall pfn f t t', same_tria t t' -> tria_val m pfn f t = tria_val m' pfn f t'.
  Proof.
    intros pfn f t t' S. assert (P := same_perm3 t t' S). destruct S as [_ S]. unfold tria_val. rewrite (rn_prop m m' SP), S.
    destruct pfn; [|reflexivity]. destruct P as [P|[P|[P|[P|[P|P]]]]]; destruct P as [-> [-> ->]]; field.
  Qed.

  Lemma rn_energy_gen : forall (Q : tria R -> tria R -> Prop) (g g' : (nat -> R) -> tria R -> R * R) ts pfn alpha mfa u v,
    (forall t t', Q t t' -> same_tria t t') -> Permutation (trias_of m) ts -> Forall2 Q ts (trias_of m') ->
    (forall u t t', In t (trias_of m) -> Q t t' -> g u t = g' u t') ->
    shear_energy g m pfn alpha mfa u v = shear_energy g' m' pfn alpha mfa u v.
  Proof.
    intros Q g g' ts pfn alpha mfa u v QS P F G. unfold shear_energy. rewrite (Sum_perm _ _ _ _ P).
    assert (IN : forall t, In t ts -> In t (trias_of m)) by (intros t; apply Permutation_in, Permutation_sym, P).
    clear P. induction F as [|t t' ts ts' H F IH]; [reflexivity|]. rewrite !Sum_cons. f_equal.
    - assert (Ht := IN t (or_introl eq_refl)). assert (S := QS _ _ H).
      rewrite (G u t t' Ht H), (G v t t' Ht H), (rn_tarea m m' SP t t' S), (rn_size mfa t t' S).
      unfold tria_G44, tria_G55. rewrite !(rn_val pfn _ t t' S). reflexivity.
    - apply IH. intros; apply IN; right; assumption.
  Qed.

  Lemma rn_energy_cell : forall th pfn alpha mfa u v,
    shear_energy (strain_cell th m) m pfn alpha mfa u v = shear_energy (strain_cell th m') m' pfn alpha mfa u v.
  Proof.
    intros th pfn alpha mfa u v. destruct (sp_trias _ _ SP) as [ts [P F]].
    apply (rn_energy_gen same_tria _ _ ts); auto. intros; apply rn_cell; assumption.
  Qed.

  Lemma same_order_tria : forall t t', same_order t t' -> same_tria t t'.
  Proof.
    intros t t' [H1 [H2 H3]]. split; [|exact H1]. destruct H3 as [[-> ->]|[-> ->]]; rewrite H2; [apply Permutation_refl|apply perm_swap].
  Qed.
  Lemma rn_ns : forall u t t', In t (trias_of m) -> same_order t t' -> strain_ns m u t = strain_ns m' u t'.
  Proof.
    intros u t t' Ht [_ [E3 H]]. assert (D := pl_nondeg m PL t Ht). unfold strain_ns. cbv zeta. rewrite rn_at_node.
    unfold tdet in *. rewrite (rn_pos m m' SP). destruct H as [[E1 E2]|[E1 E2]]; rewrite E1, E2, E3 in *; [reflexivity|].
    rewrite (det2_swap12 (pos m (tn2 t'))) in *. repeat destruct Rlt_dec; try reflexivity; lra.
  Qed.
  Lemma rn_energy_ns : forall pfn alpha mfa u v, same_order_as m m' ->
    shear_energy (strain_ns m) m pfn alpha mfa u v = shear_energy (strain_ns m') m' pfn alpha mfa u v.
  Proof.
    intros pfn alpha mfa u v [_ [ts [P F]]].
    apply (rn_energy_gen same_order _ _ ts); auto using same_order_tria. intros; apply rn_ns; assumption.
  Qed.
End Renumber.

(** ** Changed laminates *)

Section Laminates.
  Variable m : mesh R.
  Hypothesis W : wf_mesh m.
  Variables np tp np' tp' : nat -> option (prop R).

  Lemma wp_at_node : forall np tp, at_node (with_props np tp m) = at_node m.
  Proof. intros. unfold at_node, comp, rank. rewrite wp_pos, wp_keys. reflexivity. Qed.

  (** [f] and [g] take the same values on related laminates *)
  Lemma wp_val : forall pfn (Q : prop R -> prop R -> Prop) (f g : prop R -> R) t, In t (trias_of m) ->
    (forall n, rel_opt Q (np n) (np' n)) -> (forall e, rel_opt Q (tp e) (tp' e)) -> (forall p q, Q p q -> f p = g q) ->
    tria_val (with_props np tp m) pfn f (wp_tria tp t) = tria_val (with_props np' tp' m) pfn g (wp_tria tp' t).
  Proof.
    intros pfn Q f g t Ht HN HE E.
    assert (PV : forall o o', rel_opt Q o o' -> pval f o = pval g o') by (intros [p|] [q|] H; cbn in *; try contradiction; auto).
    unfold tria_val. destruct pfn; cbn [wp_tria tn1 tn2 tn3 tprop].
    - assert (V : forall n, vertex t n -> In n (node_keys m)) by (intros n; apply (wf_vertices m W t n Ht)).
      rewrite !wp_prop by (apply V; unfold vertex; auto). rewrite !(PV _ _ (HN _)). reflexivity.
    - apply PV, HE.
  Qed.
  Lemma wp_val0 : forall pfn (f : prop R -> R) t, In t (trias_of m) ->
    (forall n p, np n = Some p -> f p = 0) -> (forall e p, tp e = Some p -> f p = 0) ->
    tria_val (with_props np tp m) pfn f (wp_tria tp t) = 0.
  Proof.
    intros pfn f t Ht HN HE. unfold tria_val. destruct pfn; cbn [wp_tria tn1 tn2 tn3 tprop].
    - assert (V : forall n, vertex t n -> In n (node_keys m)) by (intros n; apply (wf_vertices m W t n Ht)).
      rewrite !wp_prop by (apply V; unfold vertex; auto).
      assert (X : forall n, pval f (np n) = 0) by (intros n; unfold pval; specialize (HN n); destruct (np n); auto). rewrite !X. field.
    - specialize (HE (eid t)). destruct (tp (eid t)); cbn; auto.
  Qed.

  Lemma wp_energy_gen : forall (gm : mesh R -> (nat -> R) -> tria R -> R * R) pfn alpha mfa u v,
    (forall np tp u t, gm (with_props np tp m) u (wp_tria tp t) = gm m u t) ->
    (forall t, In t (trias_of m) ->
      tria_val (with_props np tp m) pfn ph (wp_tria tp t) = tria_val (with_props np' tp' m) pfn ph (wp_tria tp' t) /\
      tria_G44 (with_props np tp m) pfn (wp_tria tp t) = tria_G44 (with_props np' tp' m) pfn (wp_tria tp' t) /\
      tria_G55 (with_props np tp m) pfn (wp_tria tp t) = tria_G55 (with_props np' tp' m) pfn (wp_tria tp' t)) ->
    shear_energy (gm (with_props np tp m)) (with_props np tp m) pfn alpha mfa u v
    = shear_energy (gm (with_props np' tp' m)) (with_props np' tp' m) pfn alpha mfa u v.
  Proof.
    intros gm pfn alpha mfa u v GM H. unfold shear_energy. rewrite !(wp_trias m W), !Sum_map. apply Sum_ext_in. intros t Ht.
    destruct (H t Ht) as [E1 [E2 E3]]. rewrite !GM, E1, E2, E3.
    unfold tria_size, dist, tarea, tdet. rewrite !wp_pos. reflexivity.
  Qed.
  Lemma wp_cell : forall th np tp u t, strain_cell th (with_props np tp m) u (wp_tria tp t) = strain_cell th m u t.
  Proof. intros. unfold strain_cell. rewrite wp_at_node. reflexivity. Qed.
  Lemma wp_ns : forall np tp u t, strain_ns (with_props np tp m) u (wp_tria tp t) = strain_ns m u t.
  Proof. intros. unfold strain_ns, tdet. rewrite wp_at_node, wp_pos. reflexivity. Qed.

  Lemma rel_fst : forall (Q : prop R -> prop R -> Prop) o o' p, rel_opt Q o o' -> o = Some p -> exists q, o' = Some q /\ Q p q.
  Proof. intros Q o [q|] p H ->; cbn in H; [eauto|contradiction]. Qed.
  Lemma rel_snd : forall (Q : prop R -> prop R -> Prop) o o' q, rel_opt Q o o' -> o' = Some q -> exists p, o = Some p /\ Q p q.
  Proof. intros Q [p|] o' q H ->; cbn in H; [eauto|contradiction]. Qed.

  Lemma differ13 : forall pfn t, In t (trias_of m) ->
    (forall n, rel_opt differ_k13 (np n) (np' n)) -> (forall e, rel_opt differ_k13 (tp e) (tp' e)) ->
      tria_val (with_props np tp m) pfn ph (wp_tria tp t) = tria_val (with_props np' tp' m) pfn ph (wp_tria tp' t) /\
      tria_G44 (with_props np tp m) pfn (wp_tria tp t) = tria_G44 (with_props np' tp' m) pfn (wp_tria tp' t) /\
      tria_G55 (with_props np tp m) pfn (wp_tria tp t) = tria_G55 (with_props np' tp' m) pfn (wp_tria tp' t).
  Proof.
    intros pfn t Ht HN HE. unfold tria_G44, tria_G55.
    assert (Z : forall f, (forall p q, differ_k13 p q -> f p = f q) ->
      tria_val (with_props np tp m) pfn f (wp_tria tp t) = tria_val (with_props np' tp' m) pfn f (wp_tria tp' t))
      by (intros f Hf; apply (wp_val pfn differ_k13); auto).
    assert (Z0 : tria_val (with_props np tp m) pfn (fun p => e11 (pE p)) (wp_tria tp t) = 0).
    { apply wp_val0; [exact Ht| |].
      - intros n p Hp. destruct (rel_fst _ _ _ p (HN n) Hp) as [q [_ Hq]]. apply Hq.
      - intros n p Hp. destruct (rel_fst _ _ _ p (HE n) Hp) as [q [_ Hq]]. apply Hq. }
    assert (Z1 := Z (fun p => e11 (pE p))). rewrite <- Z1 by (intros p q (a & b & c & d); rewrite c; reflexivity). rewrite Z0.
    rewrite (Z ph) by (intros p q (a & b & c & d & e); exact d).
    rewrite (Z pk23) by (intros p q (a & b & c & d & e); exact e).
    rewrite (Z (fun p => e00 (pE p))) by (intros p q (a & b & c & d & e); rewrite c; reflexivity).
    repeat split. ring.
  Qed.
  Lemma differ23 : forall pfn t, In t (trias_of m) ->
    (forall n, rel_opt differ_k23 (np n) (np' n)) -> (forall e, rel_opt differ_k23 (tp e) (tp' e)) ->
      tria_val (with_props np tp m) pfn ph (wp_tria tp t) = tria_val (with_props np' tp' m) pfn ph (wp_tria tp' t) /\
      tria_G44 (with_props np tp m) pfn (wp_tria tp t) = tria_G44 (with_props np' tp' m) pfn (wp_tria tp' t) /\
      tria_G55 (with_props np tp m) pfn (wp_tria tp t) = tria_G55 (with_props np' tp' m) pfn (wp_tria tp' t).
  Proof.
    intros pfn t Ht HN HE. unfold tria_G44, tria_G55.
    assert (Z : forall f, (forall p q, differ_k23 p q -> f p = f q) ->
      tria_val (with_props np tp m) pfn f (wp_tria tp t) = tria_val (with_props np' tp' m) pfn f (wp_tria tp' t))
      by (intros f Hf; apply (wp_val pfn differ_k23); auto).
    assert (Z0 : tria_val (with_props np tp m) pfn (fun p => e00 (pE p)) (wp_tria tp t) = 0).
    { apply wp_val0; [exact Ht| |].
      - intros n p Hp. destruct (rel_fst _ _ _ p (HN n) Hp) as [q [_ Hq]]. apply Hq.
      - intros n p Hp. destruct (rel_fst _ _ _ p (HE n) Hp) as [q [_ Hq]]. apply Hq. }
    assert (Z1 := Z (fun p => e00 (pE p))). rewrite <- Z1 by (intros p q (a & b & c & d); rewrite c; reflexivity). rewrite Z0.
    rewrite (Z ph) by (intros p q (a & b & c & d & e); exact d).
    rewrite (Z pk13) by (intros p q (a & b & c & d & e); exact e).
    rewrite (Z (fun p => e11 (pE p))) by (intros p q (a & b & c & d & e); rewrite c; reflexivity).
    repeat split. ring.
  Qed.
End Laminates.

(** ** Edge domains, with exact fractions *)

Definition edge_units (m : mesh R) (k : nat * nat) : list (Z * (R * R)) :=
  let n1 := fst (ccw m k) in let n2 := snd (ccw m k) in
  match tris_on m k with
  | [t] => edgeb_units (1/6) (zr m n1) (zr m n2) (zr m (third t k)) (dom_area m k)
      (vx (pos m n1) - vx (centroid m t)) (vy (pos m n1) - vy (centroid m t))
      (vx (pos m n2) - vx (centroid m t)) (vy (pos m n2) - vy (centroid m t))
  | [t; t'] => edgei_units (zr m n1) (zr m n2) (zr m (third t k)) (zr m (third t' k))
      (tarea m t / 3) (tarea m t' / 3)
      (vx (pos m n1) - vx (centroid m t)) (vz (pos m n1) - vy (centroid m t))
      (vx (pos m n2) - vx (centroid m t)) (vy (pos m n2) - vy (centroid m t))
      (vx (centroid m t') - vx (pos m n1)) (vy (centroid m t') - vy (pos m n1))
      (vx (pos m n2) - vx (pos m n1)) (vy (pos m n2) - vy (pos m n1))
  | _ => []
  end.
Definition edge_shear_strain (m : mesh R) (k : nat * nat) (u : nat -> R) : R * R :=
  comb _ pair0 padd pscale (fun r => u (nidx (List.length (nodes m) * 5) r)) (edge_units m k).

Section EdgeFrac.
  Variable m : mesh R.
  Hypothesis W : wf_mesh m.
  Hypothesis PL : plate m.
  Variable pfn : bool.
  Variable k : nat * nat.
  Hypothesis Hk : In k (edge_keys m).

  Lemma on_pos : forall t, In t (tris_on m k) -> 0 < tarea m t.
  Proof. intros t Ht. apply tris_on_in in Ht. apply (tarea_pos m PL t). tauto. Qed.
  Lemma dom_pos : 0 < dom_area m k.
  Proof.
    unfold dom_area. assert (NE := tris_on_nonempty m W k Hk). assert (H := on_pos). destruct (tris_on m k) as [|t l]; [contradiction|].
    rewrite Sum_cons. assert (X := H t (or_introl eq_refl)).
    assert (Y : 0 <= Sum (tarea m) l) by (apply Sum_nonneg; intros x Hx; specialize (H x (or_intror Hx)); lra). lra.
  Qed.

  Lemma edge_Q_frac : forall u v, edge_Q lits_frac m pfn k u v =
    / dom_area m k * quad2 (fst (fst (edge_G m pfn k))) (snd (fst (edge_G m pfn k))) (snd (edge_G m pfn k))
                       (edge_shear_strain m k u) (edge_shear_strain m k v).
  Proof.
    intros u v. unfold edge_Q, edge_shear_strain, edge_units, edge_upds. assert (DP := dom_pos). assert (T := on_pos).
    assert (L2 := pl_two m PL k Hk). assert (NE := tris_on_nonempty m W k Hk).
    destruct (tris_on m k) as [|t [|t' [|t'' l]]]; [contradiction| | |cbn in L2; lia].
    - rewrite edgeb_entries_tensor; [|lra|cbn; rnum; field|cbn; rnum; field]. rewrite quad2_form. reflexivity.
    - assert (A1 := T t (or_introl eq_refl)). assert (A2 := T t' (or_intror (or_introl eq_refl))).
      rewrite edgei_entries_tensor by lra. rewrite quad2_form. reflexivity.
  Qed.

  Lemma edge_strain_lift : forall u, w_translation m u -> edge_shear_strain m k u = (0, 0).
  Proof.
    intros u [c H]. unfold edge_shear_strain, edge_units. cbv zeta.
    assert (C : forall n, In n (node_keys m) -> u (nidx (List.length (nodes m) * 5) (zr m n * 5 + 2)) = c /\
      u (nidx (List.length (nodes m) * 5) (zr m n * 5 + 3)) = 0 /\ u (nidx (List.length (nodes m) * 5) (zr m n * 5 + 4)) = 0).
    { intros n Hn. destruct (H n Hn) as [H1 [H2 H3]]. assert (X := dofs_node m u n Hn). injection X as X1 X2 X3.
      rewrite X1, X2, X3, H1, H2, H3. unfold affine. repeat split; ring. }
    destruct (ccw_nodes m W k Hk) as [K1 K2]. destruct (C _ K1) as [A1 [A2 A3]]. destruct (C _ K2) as [B1 [B2 B3]].
    assert (TN : forall t, In t (tris_on m k) -> In (third t k) (node_keys m)).
    { intros t Ht. destruct (tria_node m k t (fst k) (snd k) W Hk (or_introl (eq_sym (surjective_pairing k))) Ht) as [_ [_ [_ [X _]]]]. exact X. }
    destruct (tris_on m k) as [|t [|t' [|t'' l]]]; [reflexivity| | |reflexivity].
    - destruct (C _ (TN t (or_introl eq_refl))) as [D1 [D2 D3]].
      unfold edgeb_units, unit_shears, comb; cbn [fold_right app fst snd]. rewrite A1, A2, A3, B1, B2, B3, D1, D2, D3.
      unfold padd, pscale, pair0; cbn [fst snd]. f_equal; field.
    - destruct (C _ (TN t (or_introl eq_refl))) as [D1 [D2 D3]]. destruct (C _ (TN t' (or_intror (or_introl eq_refl)))) as [E1 [E2 E3]].
      unfold edgei_units, unit_shears, comb; cbn [fold_right app fst snd]. rewrite A1, A2, A3, B1, B2, B3, D1, D2, D3, E1, E2, E3.
      unfold padd, pscale, pair0; cbn [fst snd]. f_equal; field.
  Qed.

  (** ** Sign of the stiffness *)
  Lemma edge_val_nonneg : forall f, all_props m (fun p => 0 <= f p) -> 0 <= edge_val m pfn f k.
  Proof.
    intros f [H1 H2]. unfold edge_val. assert (T := on_pos).
    assert (N : forall n, 0 <= pval f (nodeprop m n)) by (intros n; apply pval_nonneg; intros p; apply H1).
    assert (E : forall t, In t (tris_on m k) -> 0 <= pval f (tprop t)).
    { intros t Ht. apply pval_nonneg. intros p. apply H2. apply tris_on_in in Ht. tauto. }
    assert (Na := N (fst k)). assert (Nb := N (snd k)).
    destruct (tris_on m k) as [|t [|t' [|t'' l]]]; try lra.
    - assert (Nt := N (third t k)). destruct pfn; [lra|apply E; left; reflexivity].
    - assert (Nt := N (third t k)). assert (Nt' := N (third t' k)). destruct pfn; [lra|].
      assert (A1 := T t (or_introl eq_refl)). assert (A2 := T t' (or_intror (or_introl eq_refl))).
      assert (E1 := E t (or_introl eq_refl)). assert (E2 := E t' (or_intror (or_introl eq_refl))).
      apply Rmult_le_pos; [|left; apply Rinv_0_lt_compat; lra]. apply Rplus_le_le_0_compat; apply Rmult_le_pos; lra.
  Qed.
  Lemma edge_val_lin : forall f g h a b c, edge_val m pfn (fun p => a * f p + b * g p + c * h p) k
    = a * edge_val m pfn f k + b * edge_val m pfn g k + c * edge_val m pfn h k.
  Proof.
    intros f g h a b c. unfold edge_val. assert (T := on_pos).
    assert (PV : forall o, pval (fun p => a * f p + b * g p + c * h p) o = a * pval f o + b * pval g o + c * pval h o)
      by (intros [p|]; cbn; ring).
    rewrite !PV. destruct (tris_on m k) as [|t [|t' [|t'' l]]]; rewrite ?PV; try (destruct pfn; rewrite ?PV; field).
    assert (A1 := T t (or_introl eq_refl)). assert (A2 := T t' (or_intror (or_introl eq_refl))). lra.
  Qed.

  Lemma edge_G_psd : stiff_full m -> forall x,
    0 <= quad2 (fst (fst (edge_G m pfn k))) (snd (fst (edge_G m pfn k))) (snd (edge_G m pfn k)) x x.
  Proof.
    intros ST [x y].
    assert (K1 : 0 <= edge_val m pfn pk13 k) by (apply edge_val_nonneg; refine (all_imp m _ _ _ ST); intros p h; tauto).
    assert (K2 : 0 <= edge_val m pfn pk23 k) by (apply edge_val_nonneg; refine (all_imp m _ _ _ ST); intros p h; tauto).
    assert (EE : forall x y, 0 <= edge_val m pfn (fun p => e00 (pE p)) k * x * x + 2 * edge_val m pfn (fun p => e01 (pE p)) k * x * y
        + edge_val m pfn (fun p => e11 (pE p)) k * y * y).
    { clear x y. intros x y. assert (X := edge_val_nonneg (fun p => (x*x) * e00 (pE p) + (2*x*y) * e01 (pE p) + (y*y) * e11 (pE p))).
      rewrite (edge_val_lin (fun p => e00 (pE p)) (fun p => e01 (pE p)) (fun p => e11 (pE p))) in X.
      match goal with |- 0 <= ?g => match type of X with _ -> 0 <= ?h => replace g with h by ring end end.
      apply X. refine (all_imp m _ _ _ ST). intros p [_ [_ h]]. specialize (h x y). lra. }
    set (k1 := edge_val m pfn pk13 k) in *. set (k2 := edge_val m pfn pk23 k) in *.
    set (A := edge_val m pfn (fun p => e00 (pE p)) k) in *. set (B := edge_val m pfn (fun p => e01 (pE p)) k) in *.
    set (C := edge_val m pfn (fun p => e11 (pE p)) k) in *.
    assert (HA : 0 <= A) by (specialize (EE 1 0); lra). assert (HC : 0 <= C) by (specialize (EE 0 1); lra).
    assert (XX := Rle_0_sqr x). assert (YY := Rle_0_sqr y). unfold Rsqr in XX, YY.
    assert (G1 : 0 <= quad2 (k2 * A) 0 (k1 * C) (x, y) (x, y)).
    { unfold quad2; cbn [fst snd]. replace (k2 * A * x * x + 0 * (x * y + y * x) + k1 * C * y * y) with (k2 * A * (x * x) + k1 * C * (y * y)) by ring.
      apply Rplus_le_le_0_compat; (apply Rmult_le_pos; [apply Rmult_le_pos|]; assumption). }
    assert (G2 : 0 <= quad2 (k1 * A) (Rmin k1 k2 * B) (k2 * C) (x, y) (x, y)).
    { unfold quad2; cbn [fst snd]. specialize (EE x y).
      set (mn := Rmin k1 k2). assert (M1 : mn <= k1) by apply Rmin_l. assert (M2 : mn <= k2) by apply Rmin_r.
      assert (M0 : 0 <= mn) by (unfold mn, Rmin; destruct Rle_dec; assumption).
      replace (k1 * A * x * x + mn * B * (x * y + y * x) + k2 * C * y * y)
        with (mn * (A * x * x + 2 * B * x * y + C * y * y) + (k1 - mn) * (A * (x * x)) + (k2 - mn) * (C * (y * y))) by ring.
      apply Rplus_le_le_0_compat; [apply Rplus_le_le_0_compat|]; apply Rmult_le_pos; try assumption; try lra;
        apply Rmult_le_pos; assumption. }
    unfold edge_G. cbv zeta. fold k1 k2 A B C. destruct (tris_on m k) as [|t [|t' l]]; cbn [fst snd]; assumption.
  Qed.
  Lemma edge_Q_nonneg : stiff_full m -> forall u, 0 <= edge_Q lits_frac m pfn k u u.
  Proof.
    intros ST u. rewrite edge_Q_frac. apply Rmult_le_pos; [left; apply Rinv_0_lt_compat, dom_pos|apply edge_G_psd, ST].
  Qed.
End EdgeFrac.

Lemma nth_rank : forall m n, In n (node_keys m) -> nth_error (node_keys m) (rank m n) = Some n.
Proof.
  intros m n. unfold rank. induction (node_keys m) as [|a l IH]; intros H; [destruct H|]. cbn [index_in].
  destruct (Nat.eqb_spec n a) as [->|N]; [reflexivity|]. destruct H as [->|H]; [congruence|]. apply (IH H).
Qed.
