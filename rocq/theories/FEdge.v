(** The shear strain of the edge domains with exact fractions, and motions without shear strain. *)
From Coq Require Import ZArith Reals List Bool Arith Lra Lia.
From Verif Require Import Num Py Mesh Utils CalcK0 GenEdgeB GenEdgeI AddK0s Spec SpecK0 SpecKG SpecK0s SpecEdge FSum FMat FDict FGeom FWf FSetup FAsm
  FTensor FGenEdgeB FGenEdgeI FDom FKG FK0s FK0e FK0t FMove FK0u.
Import ListNotations.
Local Open Scope R_scope.
Implicit Types (m : mesh R).

Lemma edge_ends_ccw : forall m k, edge_ends m k = ccw m k.
Proof. reflexivity. Qed.

Section Edge.
  Variable m : mesh R.
  Hypothesis W : wf_mesh m.
  Hypothesis PL : plate m.
  Variable k : nat * nat.
  Hypothesis Hk : In k (edge_keys m).
  Let n1 := fst (ccw m k).
  Let n2 := snd (ccw m k).

  Lemma ccw_or : (n1, n2) = k \/ (n2, n1) = k.
  Proof.
    unfold n1, n2, ccw. destruct (tris_on m k) as [|t l]; [left; symmetry; apply surjective_pairing|].
    destruct Rlt_dec; cbn [fst snd]; [left|right]; symmetry; apply surjective_pairing.
  Qed.
  Lemma on_perm : forall t, In t (tris_on m k) -> perm3 t n1 n2 (third t k) /\ In (third t k) (node_keys m).
  Proof. intros t Ht. destruct (tria_node m k t n1 n2 W Hk ccw_or Ht) as [P [_ [_ [K _]]]]. auto. Qed.

  Lemma first_left : forall t l, tris_on m k = t :: l -> 0 < det2 (pos m n1) (pos m n2) (pos m (third t k)).
  Proof.
    intros t l E. assert (I : In t (tris_on m k)) by (rewrite E; left; reflexivity).
    destruct (tria_node m k t (fst k) (snd k) W Hk (or_introl (eq_sym (surjective_pairing k))) I) as [P [_ [_ [_ IT]]]].
    assert (A := tarea_perm m t _ _ _ P). assert (B := tarea_pos m PL t IT).
    unfold n1, n2, ccw. rewrite E. destruct Rlt_dec as [L|L]; cbn [fst snd]; [exact L|].
    rewrite det2_swap12. assert (D : det2 (pos m (fst k)) (pos m (snd k)) (pos m (third t k)) <> 0)
      by (intros D; rewrite D, Rabs_R0 in A; lra). lra.
  Qed.
  Lemma second_right : forall t t', tris_on m k = [t; t'] -> det2 (pos m n1) (pos m n2) (pos m (third t' k)) < 0.
  Proof.
    intros t t' E. assert (F := first_left t _ E). assert (S := pl_sides m PL k t t' Hk E). revert F.
    destruct ccw_or as [O|O]; apply (f_equal (fun x => (fst x, snd x))) in O; cbn [fst snd] in O; injection O as O1 O2; rewrite <- O1, <- O2 in S; intros F.
    - clearbody n1 n2. nra.
    - rewrite (det2_swap12 (pos m n1)), (det2_swap12 (pos m n1) (pos m n2) (pos m (third t' k))) in S. nra.
  Qed.
  Lemma area_of : forall t, In t (tris_on m k) -> tarea m t = Rabs (det2 (pos m n1) (pos m n2) (pos m (third t k))) / 2.
  Proof. intros t Ht. apply tarea_perm, on_perm, Ht. Qed.
  Lemma centroid_of : forall t, In t (tris_on m k) ->
    vx (centroid m t) = (vx (pos m n1) + vx (pos m n2) + vx (pos m (third t k))) / 3 /\
    vy (centroid m t) = (vy (pos m n1) + vy (pos m n2) + vy (pos m (third t k))) / 3.
  Proof. intros t Ht. rewrite (centroid_mid m t n1 n2 (third t k) (proj1 (on_perm t Ht))). split; reflexivity. Qed.

  Lemma dof_at : forall u n, In n (node_keys m) ->
    u (nidx (List.length (nodes m) * 5) (zr m n * 5 + 2)) = comp m u 2 n /\
    u (nidx (List.length (nodes m) * 5) (zr m n * 5 + 3)) = comp m u 3 n /\
    u (nidx (List.length (nodes m) * 5) (zr m n * 5 + 4)) = comp m u 4 n.
  Proof. intros u n Hn. assert (X := dofs_node m u n Hn). injection X as X1 X2 X3. auto. Qed.

  (** one triangle *)
  Lemma strain_one : forall t u, tris_on m k = [t] ->
    edge_shear_strain m k u = (dom_area m k * fst (strain_edge m u k), dom_area m k * snd (strain_edge m u k)).
  Proof.
    intros t u E. assert (F := first_left t [] E). assert (I : In t (tris_on m k)) by (rewrite E; left; reflexivity).
    assert (A := area_of t I). destruct (centroid_of t I) as [CX CY]. destruct (ccw_nodes m W k Hk) as [K1 K2]. fold n1 in K1; fold n2 in K2.
    destruct (dof_at u n1 K1) as [A1 [A2 A3]]. destruct (dof_at u n2 K2) as [B1 [B2 B3]].
    destruct (dof_at u _ (proj2 (on_perm t I))) as [C1 [C2 C3]].
    unfold edge_shear_strain, edge_units, strain_edge, dom_area. change (edge_ends m k) with (ccw m k). cbv zeta. fold n1 n2. rewrite E.
    unfold edgeb_units, unit_shears, comb; cbn [fold_right app fst snd]. rewrite A1, A2, A3, B1, B2, B3, C1, C2, C3, CX, CY.
    unfold Sum; cbn [map rsum fold_right]. rewrite A, (Rabs_right _ (Rle_ge _ _ (Rlt_le _ _ F))).
    unfold padd, pscale, pair0, dsg, pdet, gap, center, at_node; cbn [fst snd ptx pty ptw ptfx ptfy].
    unfold det2 in *.
    set (x1 := vx (pos m n1)) in *. set (y1 := vy (pos m n1)) in *. set (x2 := vx (pos m n2)) in *. set (y2 := vy (pos m n2)) in *.
    set (x3 := vx (pos m (third t k))) in *. set (y3 := vy (pos m (third t k))) in *. clearbody x1 y1 x2 y2 x3 y3.
    assert (N : (x1 - (x1 + x2 + x3) / 3) * (y2 - (y1 + y2 + y3) / 3) - (x2 - (x1 + x2 + x3) / 3) * (y1 - (y1 + y2 + y3) / 3) <> 0).
    { replace ((x1 - (x1 + x2 + x3) / 3) * (y2 - (y1 + y2 + y3) / 3) - (x2 - (x1 + x2 + x3) / 3) * (y1 - (y1 + y2 + y3) / 3))
        with (((x2 - x1) * (y3 - y1) - (x3 - x1) * (y2 - y1)) / 3) by field. lra. }
    clear - N F. f_equal; field; intros Z; apply N; lra.
  Qed.

  (** two triangles *)
  Lemma strain_two : forall t t' u, tris_on m k = [t; t'] -> vy (pos m n1) = vz (pos m n1) ->
    edge_shear_strain m k u = (dom_area m k * fst (strain_edge m u k), dom_area m k * snd (strain_edge m u k)).
  Proof.
    intros t t' u E YZ. assert (F := first_left t [t'] E). assert (F' := second_right t t' E).
    assert (I : In t (tris_on m k)) by (rewrite E; left; reflexivity).
    assert (I' : In t' (tris_on m k)) by (rewrite E; right; left; reflexivity).
    assert (A := area_of t I). assert (A' := area_of t' I'). destruct (centroid_of t I) as [CX CY]. destruct (centroid_of t' I') as [CX' CY'].
    destruct (ccw_nodes m W k Hk) as [K1 K2]. fold n1 in K1; fold n2 in K2.
    destruct (dof_at u n1 K1) as [A1 [A2 A3]]. destruct (dof_at u n2 K2) as [B1 [B2 B3]].
    destruct (dof_at u _ (proj2 (on_perm t I))) as [C1 [C2 C3]]. destruct (dof_at u _ (proj2 (on_perm t' I'))) as [D1 [D2 D3]].
    unfold edge_shear_strain, edge_units, strain_edge, dom_area. change (edge_ends m k) with (ccw m k). cbv zeta. fold n1 n2. rewrite E.
    unfold edgei_units, unit_shears, comb; cbn [fold_right app fst snd].
    rewrite A1, A2, A3, B1, B2, B3, C1, C2, C3, D1, D2, D3, CX, CY, CX', CY', <- YZ.
    unfold Sum; cbn [map rsum fold_right]. rewrite A, (Rabs_right _ (Rle_ge _ _ (Rlt_le _ _ F))), A', (Rabs_left _ F').
    unfold padd, pscale, pair0, dsg, pdet, gap, center, at_node; cbn [fst snd ptx pty ptw ptfx ptfy].
    unfold det2 in *.
    set (x1 := vx (pos m n1)) in *. set (y1 := vy (pos m n1)) in *. set (x2 := vx (pos m n2)) in *. set (y2 := vy (pos m n2)) in *.
    set (x3 := vx (pos m (third t k))) in *. set (y3 := vy (pos m (third t k))) in *.
    set (x4 := vx (pos m (third t' k))) in *. set (y4 := vy (pos m (third t' k))) in *. clearbody x1 y1 x2 y2 x3 y3 x4 y4.
    set (det := (x2 - x1) * (y3 - y1) - (x3 - x1) * (y2 - y1)) in *.
    set (det' := (x2 - x1) * (y4 - y1) - (x4 - x1) * (y2 - y1)) in *.
    assert (E1 : (x1 - (x1 + x2 + x3) / 3) * (y2 - (y1 + y2 + y3) / 3) - (x2 - (x1 + x2 + x3) / 3) * (y1 - (y1 + y2 + y3) / 3) = det / 3)
      by (unfold det; field).
    assert (E2 : ((x1 + x2 + x4) / 3 - x1) * (y2 - y1) - (x2 - x1) * ((y1 + y2 + y4) / 3 - y1) = - det' / 3) by (unfold det'; field).
    rewrite E1, E2. assert (N1 : det <> 0) by lra. assert (N2 : det' <> 0) by lra. assert (N3 : det - det' <> 0) by lra.
    assert (X1 : det = (x2 - x1) * (y3 - y1) - (x3 - x1) * (y2 - y1)) by reflexivity.
    assert (X2 : det' = (x2 - x1) * (y4 - y1) - (x4 - x1) * (y2 - y1)) by reflexivity. clearbody det det'.
    clear - N1 N2 N3 X1 X2.
    match goal with |- (?a, ?b) = (?c * (?p / ?q), ?d * (?r / ?s)) =>
      replace (c * (p / q)) with (p / 3) by (field; lra); replace (d * (r / s)) with (r / 3) by (field; lra) end.
    assert (R1 : forall X, det / 2 * (X / (det / 3)) = 3 / 2 * X) by (intros; field; lra).
    assert (R2 : forall X, - det' / 2 * (X / (- det' / 3)) = 3 / 2 * X) by (intros; field; lra).
    rewrite !R1, !R2, X1, X2. f_equal; field.
  Qed.

  Lemma strain_geom : forall u, (forall t t', tris_on m k = [t; t'] -> vy (pos m n1) = vz (pos m n1)) ->
    edge_shear_strain m k u = (dom_area m k * fst (strain_edge m u k), dom_area m k * snd (strain_edge m u k)).
  Proof.
    intros u H. assert (L2 := pl_two m PL k Hk). assert (NE := tris_on_nonempty m W k Hk).
    destruct (tris_on m k) as [|t [|t' [|t'' l]]] eqn:E; [contradiction| | |cbn in L2; lia].
    - apply (strain_one t u E).
    - apply (strain_two t t' u E (H t t' eq_refl)).
  Qed.

  (** constant shear strain *)
  Lemma strain_edge_affine : forall u wx wy px py, constant_shear m u wx wy px py -> strain_edge m u k = (wx + px, wy + py).
  Proof.
    intros u wx wy px py [c H]. destruct (ccw_nodes m W k Hk) as [K1 K2]. fold n1 in K1; fold n2 in K2.
    assert (X : forall n, In n (node_keys m) -> ptw (at_node m u n) = c + wx * ptx (at_node m u n) + wy * pty (at_node m u n) /\
      ptfx (at_node m u n) = px /\ ptfy (at_node m u n) = py) by (intros n V; apply (H n V)).
    unfold strain_edge. cbv zeta. change (edge_ends m k) with (ccw m k). fold n1 n2.
    assert (L2 := pl_two m PL k Hk). assert (NE := tris_on_nonempty m W k Hk).
    assert (FL := first_left). assert (SR := second_right). assert (OP := on_perm). assert (AR := area_of).
    destruct (X n1 K1) as [P1 [P2 P3]]. destruct (X n2 K2) as [Q1 [Q2 Q3]].
    assert (CT : forall t, In t (tris_on m k) -> forall x, x = center (1/3) (at_node m u n1) (at_node m u n2) (at_node m u (third t k)) ->
      ptw x = c + wx * ptx x + wy * pty x /\ ptfx x = px /\ ptfy x = py).
    { intros t Ht x ->. destruct (X _ (proj2 (OP t Ht))) as [R1 [R2 R3]]. unfold center; cbn [ptx pty ptw ptfx ptfy].
      rewrite P1, P2, P3, Q1, Q2, Q3, R1, R2, R3. repeat split; field. }
    destruct (tris_on m k) as [|t [|t' [|t'' l]]] eqn:E; [contradiction| | |cbn in L2; lia].
    - specialize (FL t [] eq_refl). apply (dsg_affine _ _ _ c).
      + unfold pdet, center, at_node; cbn [ptx pty]. unfold det2 in FL. intros Z. lra.
      + intros x [-> |[-> | ->]]; [apply (CT t); [left; reflexivity|reflexivity]|auto|auto].
    - specialize (FL t [t'] eq_refl). specialize (SR t t' eq_refl).
      assert (A1 := AR t (or_introl eq_refl)). rewrite (Rabs_right _ (Rle_ge _ _ (Rlt_le _ _ FL))) in A1.
      assert (A2 := AR t' (or_intror (or_introl eq_refl))). rewrite (Rabs_left _ SR) in A2.
      rewrite !(dsg_affine _ _ _ c wx wy px py).
      + cbn [fst snd]. f_equal; field; lra.
      + unfold pdet, center, at_node; cbn [ptx pty]. unfold det2 in SR. intros Z. lra.
      + intros x [-> |[-> | ->]]; [auto|apply (CT t'); [right; left; reflexivity|reflexivity]|auto].
      + unfold pdet, center, at_node; cbn [ptx pty]. unfold det2 in FL. intros Z. lra.
      + intros x [-> |[-> | ->]]; [apply (CT t); [left; reflexivity|reflexivity]|auto|auto].
  Qed.

  (** a rigid rotation on an edge with two triangles *)
  Lemma strain_rotation : forall t t' u wx wy, tris_on m k = [t; t'] -> constant_shear m u wx wy (- wx) (- wy) ->
    edge_shear_strain m k u =
      ((vy (pos m n1) - vz (pos m n1)) * (wy * (vy (pos m n2) - vy (centroid m t)) / 2 + wx * (vx (pos m n2) - vx (centroid m t)) / 4),
       - ((vy (pos m n1) - vz (pos m n1)) * wy * (vx (pos m n2) - vx (centroid m t)) / 4)).
  Proof.
    intros t t' u wx wy E [c H]. assert (F := first_left t [t'] E). assert (F' := second_right t t' E).
    assert (I : In t (tris_on m k)) by (rewrite E; left; reflexivity).
    assert (I' : In t' (tris_on m k)) by (rewrite E; right; left; reflexivity).
    assert (A := area_of t I). assert (A' := area_of t' I'). destruct (centroid_of t I) as [CX CY]. destruct (centroid_of t' I') as [CX' CY'].
    destruct (ccw_nodes m W k Hk) as [K1 K2]. fold n1 in K1; fold n2 in K2.
    assert (X : forall n, In n (node_keys m) -> u (nidx (List.length (nodes m) * 5) (zr m n * 5 + 2)) = c + wx * vx (pos m n) + wy * vy (pos m n) /\
      u (nidx (List.length (nodes m) * 5) (zr m n * 5 + 3)) = - wx /\ u (nidx (List.length (nodes m) * 5) (zr m n * 5 + 4)) = - wy).
    { intros n V. destruct (dof_at u n V) as [-> [-> ->]]. apply (H n V). }
    destruct (X n1 K1) as [A1 [A2 A3]]. destruct (X n2 K2) as [B1 [B2 B3]].
    destruct (X _ (proj2 (on_perm t I))) as [C1 [C2 C3]]. destruct (X _ (proj2 (on_perm t' I'))) as [D1 [D2 D3]].
    unfold edge_shear_strain, edge_units. cbv zeta. fold n1 n2. rewrite E.
    unfold edgei_units, unit_shears, comb; cbn [fold_right app fst snd].
    rewrite A1, A2, A3, B1, B2, B3, C1, C2, C3, D1, D2, D3, CX, CY, CX', CY'.
    rewrite A, (Rabs_right _ (Rle_ge _ _ (Rlt_le _ _ F))), A', (Rabs_left _ F').
    unfold padd, pscale, pair0; cbn [fst snd]. unfold det2. f_equal; field.
  Qed.
End Edge.

(** ** Positive stiffness *)

Section Pos.
  Variable m : mesh R.
  Hypothesis W : wf_mesh m.
  Hypothesis PL : plate m.
  Variable pfn : bool.
  Hypothesis PC : props_complete m pfn.
  Variable k : nat * nat.
  Hypothesis Hk : In k (edge_keys m).

  Lemma edge_val_pos : forall f, all_props m (fun p => 0 < f p) -> 0 < edge_val m pfn f k.
  Proof.
    intros f [TN TT]. unfold edge_val.
    assert (TA : forall t, In t (tris_on m k) -> 0 < tarea m t).
    { intros t Ht. apply tris_on_in in Ht. apply (tarea_pos m PL t (proj1 Ht)). }
    assert (T3 : forall t, In t (tris_on m k) -> pfn = true -> 0 < pval f (nodeprop m (third t k))).
    { intros t Ht E. destruct (third_prop m W pfn PC k Hk t Ht E) as [p Q]. rewrite Q. apply (TN _ _ Q). }
    assert (TE : pfn = true -> 0 < pval f (nodeprop m (fst k)) /\ 0 < pval f (nodeprop m (snd k))).
    { intros E. destruct (end_prop m pfn PC k Hk E) as [p [q [Q1 Q2]]]. rewrite Q1, Q2. split; [apply (TN _ _ Q1)|apply (TN _ _ Q2)]. }
    assert (TT' : forall t, In t (tris_on m k) -> pfn = false -> 0 < pval f (tprop t)).
    { intros t Ht E. destruct (tria_prop m pfn PC k t Ht E) as [p Q]. rewrite Q. apply tris_on_in in Ht. apply (TT t p (proj1 Ht) Q). }
    destruct (tris_on_cases m k W PL Hk) as [[t T]|[t [t' T]]]; rewrite T in *.
    - destruct pfn.
      + destruct (TE eq_refl). assert (X := T3 t (or_introl eq_refl) eq_refl). lra.
      + apply TT'; [left|]; reflexivity.
    - assert (A1 := TA t (or_introl eq_refl)). assert (A2 := TA t' (or_intror (or_introl eq_refl))). destruct pfn.
      + destruct (TE eq_refl). assert (X := T3 t (or_introl eq_refl) eq_refl). assert (Y := T3 t' (or_intror (or_introl eq_refl)) eq_refl). lra.
      + assert (X := TT' t (or_introl eq_refl) eq_refl). assert (Y := TT' t' (or_intror (or_introl eq_refl)) eq_refl).
        apply Rdiv_lt_0_compat; [|lra]. apply Rplus_lt_0_compat; apply Rmult_lt_0_compat; assumption.
  Qed.

  Lemma edge_G_pd : stiff_pos m -> forall x, x <> (0, 0) ->
    0 < quad2 (fst (fst (edge_G m pfn k))) (snd (fst (edge_G m pfn k))) (snd (edge_G m pfn k)) x x.
  Proof.
    intros ST [x y] NZ. assert (NN : x <> 0 \/ y <> 0).
    { destruct (Req_dec x 0) as [-> |?]; [|auto]. destruct (Req_dec y 0) as [-> |?]; [|auto]. congruence. }
    assert (K1 : 0 < edge_val m pfn pk13 k) by (apply edge_val_pos; refine (all_imp m _ _ _ ST); intros p h; tauto).
    assert (K2 : 0 < edge_val m pfn pk23 k) by (apply edge_val_pos; refine (all_imp m _ _ _ ST); intros p h; tauto).
    assert (EE : forall x y, x <> 0 \/ y <> 0 -> 0 < edge_val m pfn (fun p => e00 (pE p)) k * x * x + 2 * edge_val m pfn (fun p => e01 (pE p)) k * x * y
        + edge_val m pfn (fun p => e11 (pE p)) k * y * y).
    { clear x y NN NZ. intros x y NN. assert (X := edge_val_pos (fun p => (x*x) * e00 (pE p) + (2*x*y) * e01 (pE p) + (y*y) * e11 (pE p))).
      rewrite (edge_val_lin m PL pfn k (fun p => e00 (pE p)) (fun p => e01 (pE p)) (fun p => e11 (pE p))) in X.
      match goal with |- 0 < ?g => match type of X with _ -> 0 < ?h => replace g with h by ring end end.
      apply X. refine (all_imp m _ _ _ ST). intros p [_ [_ h]]. specialize (h x y NN). lra. }
    set (k1 := edge_val m pfn pk13 k) in *. set (k2 := edge_val m pfn pk23 k) in *.
    set (A := edge_val m pfn (fun p => e00 (pE p)) k) in *. set (B := edge_val m pfn (fun p => e01 (pE p)) k) in *.
    set (C := edge_val m pfn (fun p => e11 (pE p)) k) in *.
    assert (HA : 0 < A) by (specialize (EE 1 0 (or_introl R1_neq_R0)); lra). assert (HC : 0 < C) by (specialize (EE 0 1 (or_intror R1_neq_R0)); lra).
    assert (XX := Rle_0_sqr x). assert (YY := Rle_0_sqr y).
    assert (XP : x <> 0 -> 0 < Rsqr x) by apply Rsqr_pos_lt. assert (YP : y <> 0 -> 0 < Rsqr y) by apply Rsqr_pos_lt. unfold Rsqr in *.
    assert (G1 : 0 < quad2 (k2 * A) 0 (k1 * C) (x, y) (x, y)).
    { unfold quad2; cbn [fst snd]. replace (k2 * A * x * x + 0 * (x * y + y * x) + k1 * C * y * y) with (k2 * A * (x * x) + k1 * C * (y * y)) by ring.
      assert (P1 : 0 < k2 * A) by (apply Rmult_lt_0_compat; assumption). assert (P2 : 0 < k1 * C) by (apply Rmult_lt_0_compat; assumption).
      assert (Q1 := Rmult_le_pos _ _ (Rlt_le _ _ P1) XX). assert (Q2 := Rmult_le_pos _ _ (Rlt_le _ _ P2) YY).
      destruct NN as [N|N]; [assert (Z := Rmult_lt_0_compat _ _ P1 (XP N))|assert (Z := Rmult_lt_0_compat _ _ P2 (YP N))]; lra. }
    assert (G2 : 0 < quad2 (k1 * A) (Rmin k1 k2 * B) (k2 * C) (x, y) (x, y)).
    { unfold quad2; cbn [fst snd]. specialize (EE x y NN).
      set (mn := Rmin k1 k2). assert (M1 : mn <= k1) by apply Rmin_l. assert (M2 : mn <= k2) by apply Rmin_r.
      assert (M0 : 0 < mn) by (unfold mn, Rmin; destruct Rle_dec; assumption).
      replace (k1 * A * x * x + mn * B * (x * y + y * x) + k2 * C * y * y)
        with (mn * (A * x * x + 2 * B * x * y + C * y * y) + (k1 - mn) * (A * (x * x)) + (k2 - mn) * (C * (y * y))) by ring.
      assert (Z := Rmult_lt_0_compat _ _ M0 EE).
      assert (0 <= (k1 - mn) * (A * (x * x))) by (apply Rmult_le_pos; [lra|apply Rmult_le_pos; [lra|exact XX]]).
      assert (0 <= (k2 - mn) * (C * (y * y))) by (apply Rmult_le_pos; [lra|apply Rmult_le_pos; [lra|exact YY]]). lra. }
    unfold edge_G. cbv zeta. fold k1 k2 A B C. destruct (tris_on m k) as [|t [|t' l]]; cbn [fst snd]; assumption.
  Qed.

  Lemma edge_Q_zero : stiff_pos m -> forall u, edge_Q lits_frac m pfn k u u = 0 -> edge_shear_strain m k u = (0, 0).
  Proof.
    intros ST u H. rewrite (edge_Q_frac m W PL pfn k Hk) in H. assert (D := dom_pos m W PL k Hk).
    assert (DD : 0 < / dom_area m k) by (apply Rinv_0_lt_compat, D).
    destruct (edge_shear_strain m k u) as [x y]. destruct (Req_dec x 0) as [-> |Nx]; [destruct (Req_dec y 0) as [-> |Ny]; [reflexivity|]|];
      exfalso; assert (X := edge_G_pd ST);
      match type of H with _ * quad2 _ _ _ ?p _ = _ => specialize (X p) end;
      assert (Y := Rmult_lt_0_compat _ _ DD (X ltac:(congruence))); lra.
  Qed.
End Pos.
