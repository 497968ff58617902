(** Lemmas behind the properties on energy-free displacements and static problems (C64-C67). *)
(* P: Num Py Mesh Utils CalcK0 AddK0s Spec SpecK0 SpecKG SpecK0s SpecStab Ex ExK0 ExK0s ExStab *)
From Coq Require Import ZArith Reals List Bool Arith Lra Lia String.
From Verif Require Import Num Py Mesh Utils CalcK0 AddK0s Spec SpecK0 SpecKG SpecK0s SpecStab FSum FMat FDict FGeom FWf FAsm FTensor FSmooth FK0s FK0u
  FLin FStab FStab2 FStab3 FStab4 LK0 LKG LK0s Ex ExK0 ExK0s ExStab.
Import ListNotations.
Local Open Scope R_scope.
Implicit Types (m : mesh R).

(** ** C64 *)

(** For positive definite laminates k0 has energy for everything but these displacements: in every
    part of the plate that hangs together over common sides, u and v are a rigid motion in
    the plane, the rotations phi_x and phi_y have the same form, and w is arbitrary. These are also
    the displacements with k0 u = 0. *)
Lemma c64_modes : forall m pfn, valid m pfn -> all_props m pos_def ->
  exists m' K, calc_k0 m pfn = (m', Ok K) /\
  forall u,
    (form K u u = 0 <-> forall t, In t (trias_of m) ->
       plane_motion m (in_part m t) (comp m u 0) (comp m u 1) /\ plane_motion m (in_part m t) (comp m u 3) (comp m u 4)) /\
    (form K u u = 0 <-> forall i, (i < mdim K)%nat -> mulv K u i = 0).
Proof.
  intros m pfn V PP. destruct (valid_spec m pfn V) as [m' [K [E [D [F _]]]]]. exists m', K. split; [exact E|]. intros u. split.
  - rewrite F. apply (modes m pfn V PP).
  - split.
    + rewrite F. intros H i Hi. rewrite (mulv_form K u i Hi), F. apply Sum_zero. intros k Hk.
      rewrite (proj1 (energy_zero_strain m pfn V PP u) H k Hk). fold strain0. rewrite dens_zero_r. ring.
    + intros H. rewrite form_mulv. apply Sum_zero. intros i Hi. apply in_seq in Hi. rewrite H by lia. ring.
Qed.
Lemma c64_modes_ex : forall pfn, valid ex_mesh pfn /\ all_props ex_mesh pos_def /\
  (forall t t', In t (trias_of ex_mesh) -> In t' (trias_of ex_mesh) -> linked ex_mesh t t').
Proof. intros pfn. split; [apply ex_valid|]. split; [exact ex_all_pd|exact ex_linked]. Qed.

(** ** C65 *)

Lemma third_factor : 1/2 + 3/2 * code_third = 1 + literal_error "cell-based".
Proof. unfold literal_error, code_third; cbn [String.eqb Ascii.eqb Bool.eqb]. field. Qed.
Lemma factor_nz : forall method, 1 + literal_error method <> 0.
Proof. intros method. unfold literal_error. destruct (String.eqb method "cell-based"); lra. Qed.
Lemma sp_thick : forall m, all_props m shear_pos -> thick m.
Proof. intros m. apply (all_imp m shear_pos). intros p P; apply P. Qed.

Section Method.
  Variable method : string.
  Hypothesis MT : In method cell_methods.
  Variable m : mesh R.
  Variable pfn : bool.
  Hypothesis V : valid m pfn.

  Definition gap_point (t : tria R) : R * R :=
    if String.eqb method "cell-based" then (vx (centroid m t), vy (centroid m t)) else (vx (pos m (gap_node m t)), vy (pos m (gap_node m t))).

  Lemma method_skew : forall u t px py ps, In t (trias_of m) ->
    (forall n, vertex t n -> comp m u 3 n = px - ps * vy (pos m n) /\ comp m u 4 n = py + ps * vx (pos m n)) ->
    method_strain method m u t = (tgx m t (comp m u 2) + (1 + literal_error method) * (px - ps * snd (gap_point t)),
                                  tgy m t (comp m u 2) + (1 + literal_error method) * (py + ps * fst (gap_point t))).
  Proof.
    intros u t px py ps Ht H. unfold gap_point. destruct MT as [<-|[<-|[]]]; unfold method_strain; cbn [String.eqb Ascii.eqb Bool.eqb fst snd].
    - rewrite <- third_factor. apply (cell_skew m (va_plate _ _ V)); assumption.
    - unfold literal_error; cbn [String.eqb Ascii.eqb Bool.eqb]. rewrite (Rplus_0_r 1). apply (ns_skew m (va_plate _ _ V)); assumption.
  Qed.

  Lemma method_apart : braced method m -> forall t, In t (trias_of m) -> exists t1 t2 k, linked m t t1 /\ In k (edge_keys m) /\ In t1 (tris_on m k) /\ In t2 (tris_on m k) /\
    (snd (gap_point t1) - snd (gap_point t2)) * (vx (pos m (snd k)) - vx (pos m (fst k))) <> (fst (gap_point t1) - fst (gap_point t2)) * (vy (pos m (snd k)) - vy (pos m (fst k))).
  Proof.
    unfold braced, gap_point. intros B t Ht. destruct (String.eqb method "cell-based"); cbn [fst snd].
    - destruct (B t Ht) as [k [t' [Hk [H1 [H2 N]]]]]. exists t, t', k. split; [constructor|]. repeat (split; [assumption|]).
      apply (centroids_apart m (va_wf _ _ V) (va_plate _ _ V)); auto.
    - destruct (B t Ht) as [t1 [t2 [k [Lk [Hk [H1 [H2 [N [N1 N2]]]]]]]]]. exists t1, t2, k. repeat (split; [assumption|]).
      apply (anchors_apart m (va_wf _ _ V) (va_plate _ _ V)); auto.
  Qed.

  Variable alpha : R.
  Variable mfa : bool.
  Hypothesis PP : all_props m pos_def.
  Hypothesis SP : all_props m shear_pos.
  Hypothesis A : 0 <= alpha.

  Lemma total_spec : exists m' K k', calc_k0 m pfn = (m', Ok K) /\ add_k0s lits_src K m' pfn method alpha mfa = (k', Ok tt) /\
    mdim k' = (List.length (nodes m) * 5)%nat /\
    forall u v, form k' u v = k0_energy m pfn u v + shear_energy (method_strain method m) m pfn alpha mfa u v.
  Proof.
    destruct (valid_spec m pfn V) as [m' [K [E [D [F _]]]]].
    assert (C : call_ok m m' pfn alpha K).
    { constructor; [exists pfn, K; auto|exact (va_props _ _ V)|apply sp_thick, SP|exact A|exact D]. }
    destruct (cell_methods_add method m m' pfn alpha mfa K MT C) as [k' [E' [D' F']]]. exists m', K, k'.
    split; [exact E|]. split; [exact E'|]. split; [congruence|]. intros u v. rewrite F', F. reflexivity.
  Qed.

  Lemma total_nonneg : forall u, 0 <= k0_energy m pfn u u + shear_energy (method_strain method m) m pfn alpha mfa u u.
  Proof.
    intros u. assert (X := k0_nonneg m pfn V PP u). assert (Y := shear_nonneg m pfn V SP alpha A mfa (method_strain method m) u). lra.
  Qed.

  Hypothesis BR : braced method m.
  Lemma total_kernel : forall u, k0_energy m pfn u u + shear_energy (method_strain method m) m pfn alpha mfa u u = 0 <->
    rigid_parts (1 + literal_error method) m u.
  Proof.
    apply (total_modes m pfn V PP SP alpha A mfa (method_strain method m) (1 + literal_error method) gap_point (factor_nz method)).
    - exact method_skew.
    - exact (method_apart BR).
  Qed.

  Lemma total_mulv : forall k', mdim k' = (List.length (nodes m) * 5)%nat ->
    (forall u v, form k' u v = k0_energy m pfn u v + shear_energy (method_strain method m) m pfn alpha mfa u v) ->
    forall u, form k' u u = 0 -> forall i, (i < mdim k')%nat -> mulv k' u i = 0.
  Proof.
    intros k' D F u H i Hi. rewrite (mulv_form k' u i Hi), F. rewrite F in H.
    assert (X := k0_nonneg m pfn V PP u). assert (Y := shear_nonneg m pfn V SP alpha A mfa (method_strain method m) u).
    assert (H1 : k0_energy m pfn u u = 0) by lra. assert (H2 : shear_energy (method_strain method m) m pfn alpha mfa u u = 0) by lra.
    replace (k0_energy m pfn (delta i) u) with 0.
    - replace (shear_energy (method_strain method m) m pfn alpha mfa (delta i) u) with 0; [ring|]. symmetry. apply Sum_zero. intros t Ht.
      rewrite (proj1 (shear_zero m pfn V SP alpha A mfa _ u) H2 t Ht). cbn. ring.
    - symmetry. apply Sum_zero. intros k Hk. rewrite (proj1 (energy_zero_strain m pfn V PP u) H1 k Hk). fold strain0. rewrite dens_zero_r. ring.
  Qed.
End Method.

(** With a cell-based shear stiffness added, positive definite laminates and positive shear stiffness:
    the only displacements without energy are those in which every part of the plate moves as
    a rigid body: u and v a rigid motion in the plane, phi_x and phi_y constant, and w the plane
    with these slopes (slopes (1 + 1e-15) phi for "cell-based" because of the decimals, C35). Missing
    to the full statement: for "cell-based" every triangle must have a neighbour, for the other method
    some triangle of every part must have a neighbour across from its gap node. *)
Lemma c65_rigid_partial : forall method m pfn alpha mfa, In method cell_methods -> valid m pfn ->
  all_props m pos_def -> all_props m shear_pos -> 0 <= alpha -> braced method m ->
  exists m' K k', calc_k0 m pfn = (m', Ok K) /\ add_k0s lits_src K m' pfn method alpha mfa = (k', Ok tt) /\
  forall u,
    (form k' u u = 0 <-> rigid_parts (1 + literal_error method) m u) /\
    (form k' u u = 0 <-> forall i, (i < mdim k')%nat -> mulv k' u i = 0).
Proof.
  intros method m pfn alpha mfa MT V PP SP A BR.
  destruct (total_spec method MT m pfn V alpha mfa SP A) as [m' [K [k' [E [E' [D F]]]]]].
  exists m', K, k'. split; [exact E|]. split; [exact E'|]. intros u. split; [rewrite F; apply total_kernel; assumption|]. split.
  - apply (total_mulv method m pfn V alpha mfa PP SP A k' D F).
  - intros H. rewrite form_mulv. apply Sum_zero. intros i Hi. apply in_seq in Hi. rewrite H by lia. ring.
Qed.
Lemma c65_rigid_ex : forall pfn, valid ex_mesh pfn /\ all_props ex_mesh pos_def /\ all_props ex_mesh shear_pos /\
  braced "cell-based" ex_mesh /\ braced "cell-based-no-smoothing" ex_mesh.
Proof.
  intros pfn. split; [apply ex_valid|]. split; [exact ex_all_pd|]. split; [exact ex_all_sp|].
  split; [exact ex_neighbours|exact ex_gaps].
Qed.

Lemma spin_comp : forall m xc yc n, In n (node_keys m) ->
  comp m (spin m xc yc) 0 n = 0 /\ comp m (spin m xc yc) 1 n = 0 /\ comp m (spin m xc yc) 2 n = 0 /\
  comp m (spin m xc yc) 3 n = yc - vy (pos m n) /\ comp m (spin m xc yc) 4 n = vx (pos m n) - xc.
Proof. intros m xc yc n Hn. unfold spin. rewrite !field_comp by (try lia; assumption). auto. Qed.

Lemma spin_free : forall method m pfn alpha mfa xc yc, In method cell_methods -> valid m pfn ->
  all_props m pos_def -> all_props m shear_pos -> 0 <= alpha ->
  (forall t, In t (trias_of m) -> gap_point method m t = (xc, yc)) ->
  k0_energy m pfn (spin m xc yc) (spin m xc yc) + shear_energy (method_strain method m) m pfn alpha mfa (spin m xc yc) (spin m xc yc) = 0.
Proof.
  intros method m pfn alpha mfa xc yc MT V PP SP A G. assert (W := va_wf _ _ V).
  assert (SC : forall t n, In t (trias_of m) -> vertex t n -> In n (node_keys m)).
  { intros t n Ht Hn. apply (wf_vertices m W t n Ht Hn). }
  rewrite (proj2 (modes m pfn V PP _)).
  - rewrite (proj2 (shear_zero m pfn V SP alpha A mfa _ _)); [ring|]. intros t Ht.
    rewrite (method_skew method MT m pfn V _ t yc (- xc) 1 Ht).
    + rewrite (G t Ht). cbn [fst snd].
      destruct (grad_is m (va_plate _ _ V) t (comp m (spin m xc yc) 2) 0 0 0 Ht) as [-> ->].
      * intros n Hn. rewrite (proj1 (proj2 (proj2 (spin_comp m xc yc n (SC t n Ht Hn))))). ring.
      * f_equal; ring.
    + intros n Hn. destruct (spin_comp m xc yc n (SC t n Ht Hn)) as [_ [_ [_ [-> ->]]]]. split; ring.
  - intros t Ht. split.
    + exists 0, 0, 0. intros n [t' [Lk Hn]]. destruct (spin_comp m xc yc n) as [-> [-> _]].
      * apply (SC t' n (linked_in m t t' Ht Lk) Hn).
      * split; ring.
    + exists yc, (- xc), 1. intros n [t' [Lk Hn]]. destruct (spin_comp m xc yc n) as [_ [_ [_ [-> ->]]]].
      * apply (SC t' n (linked_in m t t' Ht Lk) Hn).
      * split; ring.
Qed.

Lemma duo_gap : forall t, In t (trias_of duo) -> gap_point "cell-based-no-smoothing" duo t = (0, 0).
Proof.
  destruct duo_pos as [P1 [P2 [P3 P4]]]. intros t Ht. rewrite duo_trias in Ht. unfold gap_point; cbn [String.eqb Ascii.eqb Bool.eqb].
  unfold gap_node, tdet. destruct Ht as [<-|[<-|[]]].
  - change (tn1 (duo_t 0)) with 1%nat. change (tn2 (duo_t 0)) with 2%nat. change (tn3 (duo_t 0)) with 3%nat. rewrite P1, P2, P3.
    unfold det2; cbn [vx vy]. destruct (Rlt_dec _ _) as [N|_]; [exfalso; lra|rewrite P1; reflexivity].
  - change (tn1 (duo_t 1)) with 1%nat. change (tn2 (duo_t 1)) with 3%nat. change (tn3 (duo_t 1)) with 4%nat. rewrite P1, P3, P4.
    unfold det2; cbn [vx vy]. destruct (Rlt_dec _ _) as [N|_]; [exfalso; lra|rewrite P1; reflexivity].
Qed.
Lemma lone_gap : forall t, In t (trias_of (tri (ex_prop 1))) -> gap_point "cell-based" (tri (ex_prop 1)) t = (1/3, 1/3).
Proof.
  intros t [<-|[]]. unfold gap_point; cbn [String.eqb Ascii.eqb Bool.eqb]. unfold centroid; cbn. f_equal; lra.
Qed.

(** Not so for a single triangle: phi = (1/3 - y, x - 1/3) has no energy with "cell-based" ... *)
Lemma c65_lone_refuted : forall alpha mfa, 0 <= alpha ->
  exists m m' K k' u, valid m true /\ all_props m pos_def /\ all_props m shear_pos /\
    calc_k0 m true = (m', Ok K) /\ add_k0s lits_src K m' true "cell-based" alpha mfa = (k', Ok tt) /\
    form k' u u = 0 /\ (forall f, ~ rigid_parts f m u).
Proof.
  intros alpha mfa A. set (m := tri (ex_prop 1)). assert (V := tri_valid (ex_prop 1) true). fold m in V.
  destruct (total_spec "cell-based" ltac:(cbn; auto) m true V alpha mfa lone_sp A) as [m' [K [k' [E [E' [D F]]]]]].
  exists m, m', K, k', (spin m (1/3) (1/3)). repeat (split; [first [assumption | apply lone_pd | apply lone_sp]|]).
  split; [rewrite F; apply spin_free; [cbn; auto|exact V|exact lone_pd|exact lone_sp|exact A|exact lone_gap]|].
  intros f H. destruct lone_piece as [t [Ht P]]. destruct (H t Ht) as [_ [c [px [py T]]]].
  assert (K1 : In 1%nat (node_keys m)) by (cbn; auto). assert (K3 : In 3%nat (node_keys m)) by (cbn; auto).
  destruct (T 1%nat (P _ K1)) as [_ [X1 _]]. destruct (T 3%nat (P _ K3)) as [_ [X3 _]].
  destruct (spin_comp m (1/3) (1/3) 1 K1) as [_ [_ [_ [Y1 _]]]]. destruct (spin_comp m (1/3) (1/3) 3 K3) as [_ [_ [_ [Y3 _]]]].
  change (vy (pos m 1)) with 0 in Y1. change (vy (pos m 3)) with 1 in Y3. lra.
Qed.

(** ... and for a square of two triangles phi = (- y, x) has none with "cell-based-no-smoothing". *)
Lemma c65_no_smoothing_refuted : forall alpha mfa, 0 <= alpha ->
  exists m m' K k' u, valid m true /\ all_props m pos_def /\ all_props m shear_pos /\
    (forall t, In t (trias_of m) -> has_neighbour m t) /\
    calc_k0 m true = (m', Ok K) /\ add_k0s lits_src K m' true "cell-based-no-smoothing" alpha mfa = (k', Ok tt) /\
    form k' u u = 0 /\ (forall f, ~ rigid_parts f m u).
Proof.
  intros alpha mfa A. set (m := duo). assert (V := two_valid (ex_prop 1) true). fold duo in V. fold m in V.
  destruct (total_spec "cell-based-no-smoothing" ltac:(cbn; auto) m true V alpha mfa duo_sp A) as [m' [K [k' [E [E' [D F]]]]]].
  exists m, m', K, k', (spin m 0 0). repeat (split; [first [assumption | apply duo_pd | apply duo_sp | apply duo_neighbours]|]).
  split; [rewrite F; apply spin_free; [cbn; auto|exact V|exact duo_pd|exact duo_sp|exact A|exact duo_gap]|].
  intros f H. destruct duo_piece as [t [Ht P]]. destruct (H t Ht) as [_ [c [px [py T]]]].
  assert (K1 : In 1%nat (node_keys m)) by (cbn; auto). assert (K3 : In 3%nat (node_keys m)) by (cbn; auto).
  destruct (T 1%nat (P _ K1)) as [_ [X1 _]]. destruct (T 3%nat (P _ K3)) as [_ [X3 _]].
  destruct (spin_comp m 0 0 1 K1) as [_ [_ [_ [Y1 _]]]]. destruct (spin_comp m 0 0 3 K3) as [_ [_ [_ [Y3 _]]]].
  change (vy (pos m 1)) with 0 in Y1. change (vy (pos m 3)) with 1 in Y3. lra.
Qed.

(** ** C66 *)

(** A static problem has exactly one solution: for supports that allow no rigid motion and any loads there is
    one displacement vector that is zero in the supports and whose forces are the loads elsewhere. *)
Lemma c66_unique : forall method m pfn alpha mfa, In method cell_methods -> valid m pfn ->
  all_props m pos_def -> all_props m shear_pos -> 0 <= alpha -> braced method m ->
  exists m' K k', calc_k0 m pfn = (m', Ok K) /\ add_k0s lits_src K m' pfn method alpha mfa = (k', Ok tt) /\
  forall S load, supported (1 + literal_error method) m S ->
  exists d, solves k' S load d /\ forall d', solves k' S load d' -> forall i, (i < List.length (nodes m) * 5)%nat -> d' i = d i.
Proof.
  intros method m pfn alpha mfa MT V PP SP A BR.
  destruct (total_spec method MT m pfn V alpha mfa SP A) as [m' [K [k' [E [E' [D F]]]]]].
  exists m', K, k'. split; [exact E|]. split; [exact E'|]. intros S load HS.
  destruct (solve_unique k' S) with (load := load) as [d [H1 H2]].
  - intros u HU. rewrite F. split; [apply (total_nonneg method m pfn V alpha mfa PP SP A)|]. rewrite D in *. intros Z. apply HS.
    + apply (total_kernel method MT m pfn V alpha mfa PP SP A BR). exact Z.
    + exact HU.
  - rewrite D in H2. exists d. split; [exact H1|]. intros d' Hd. apply H2. rewrite <- D. exact Hd.
Qed.
Lemma c66_unique_ex : forall pfn, valid duo pfn /\ all_props duo pos_def /\ all_props duo shear_pos /\ braced "cell-based" duo /\ in_one_piece duo.
Proof.
  intros pfn. split; [apply two_valid|]. split; [exact duo_pd|]. split; [exact duo_sp|]. split; [exact duo_neighbours|exact duo_piece].
Qed.

Lemma dof_comp : forall m u n c, u (dof m n c) = comp m u c n.
Proof. reflexivity. Qed.
Lemma dof_lt : forall m n c, In n (node_keys m) -> (c < 5)%nat -> (dof m n c < List.length (nodes m) * 5)%nat.
Proof. intros m n c Hn Hc. assert (H := rank_lt m n Hn). unfold dof. lia. Qed.
Lemma all_zero : forall m u, wf_mesh m -> (forall n c, In n (node_keys m) -> (c < 5)%nat -> comp m u c n = 0) ->
  forall i, (i < List.length (nodes m) * 5)%nat -> u i = 0.
Proof.
  intros m u W H i Hi. assert (L : (i / 5 < List.length (nodes m))%nat) by (apply Nat.div_lt_upper_bound; lia).
  destruct (rank_onto m (i / 5) L (wf_nodes m W)) as [n [Hn Rn]].
  assert (X := H n (i mod 5)%nat Hn (Nat.mod_upper_bound i 5 ltac:(lia))). unfold comp in X. rewrite Rn in X.
  replace (i / 5 * 5 + i mod 5)%nat with i in X; [exact X|]. assert (Y := Nat.div_mod i 5 ltac:(lia)). lia.
Qed.

(** Six supports are enough for a plate in one piece: w in three nodes that are not on a line, u and v in
    one node, and in another u (if it has another y) or v (if it has another x). *)
Lemma c66_six : forall f m S a b n1 n2 n3, wf_mesh m -> in_one_piece m -> f <> 0 ->
  In a (node_keys m) -> In b (node_keys m) -> In n1 (node_keys m) -> In n2 (node_keys m) -> In n3 (node_keys m) ->
  apart3 m n1 n2 n3 -> S (dof m n1 2) = true -> S (dof m n2 2) = true -> S (dof m n3 2) = true ->
  S (dof m a 0) = true -> S (dof m a 1) = true ->
  (S (dof m b 0) = true /\ vy (pos m b) <> vy (pos m a) \/ S (dof m b 1) = true /\ vx (pos m b) <> vx (pos m a)) ->
  supported f m S.
Proof.
  intros f m S a b n1 n2 n3 W [t [Ht P]] F Ha Hb H1 H2 H3 AP S1 S2 S3 Sa Sa' Sb u HU HS.
  assert (Z : forall n c, In n (node_keys m) -> (c < 5)%nat -> S (dof m n c) = true -> comp m u c n = 0).
  { intros n c Hn Hc Sn. rewrite <- dof_comp. apply HS; [apply dof_lt; assumption|exact Sn]. }
  destruct (HU t Ht) as [[tx [ty [th M]]] [c [px [py T]]]].
  apply (all_zero m u W).
  assert (U1 := Z a 0%nat Ha ltac:(lia) Sa). assert (U2 := Z a 1%nat Ha ltac:(lia) Sa'). destruct (M a (P a Ha)) as [A1 A2]. rewrite U1 in A1. rewrite U2 in A2.
  assert (TH : th = 0).
  { destruct (M b (P b Hb)) as [B1 B2]. destruct Sb as [[Sb N]|[Sb N]].
    - rewrite (Z b 0%nat Hb ltac:(lia) Sb) in B1. assert (Q : th * (vy (pos m b) - vy (pos m a)) = 0) by lra.
      apply Rmult_integral in Q. destruct Q as [Q|Q]; [exact Q|exfalso; apply N; lra].
    - rewrite (Z b 1%nat Hb ltac:(lia) Sb) in B2. assert (Q : th * (vx (pos m b) - vx (pos m a)) = 0) by lra.
      apply Rmult_integral in Q. destruct Q as [Q|Q]; [exact Q|exfalso; apply N; lra]. }
  destruct (T n1 (P n1 H1)) as [W1 _]. destruct (T n2 (P n2 H2)) as [W2 _]. destruct (T n3 (P n3 H3)) as [W3 _].
  rewrite (Z n1 2%nat H1 ltac:(lia) S1) in W1. rewrite (Z n2 2%nat H2 ltac:(lia) S2) in W2. rewrite (Z n3 2%nat H3 ltac:(lia) S3) in W3.
  unfold apart3, det2 in AP.
  set (x1 := vx (pos m n1)) in *. set (y1 := vy (pos m n1)) in *. set (x2 := vx (pos m n2)) in *. set (y2 := vy (pos m n2)) in *.
  set (x3 := vx (pos m n3)) in *. set (y3 := vy (pos m n3)) in *.
  assert (G2 : px * (x2 - x1) + py * (y2 - y1) = 0).
  { assert (Q : f * (px * (x2 - x1) + py * (y2 - y1)) = 0) by lra. apply Rmult_integral in Q. destruct Q as [Q|Q]; [contradiction|exact Q]. }
  assert (G3 : px * (x3 - x1) + py * (y3 - y1) = 0).
  { assert (Q : f * (px * (x3 - x1) + py * (y3 - y1)) = 0) by lra. apply Rmult_integral in Q. destruct Q as [Q|Q]; [contradiction|exact Q]. }
  set (dt := (x2 - x1) * (y3 - y1) - (x3 - x1) * (y2 - y1)) in *.
  assert (PX : px = 0).
  { assert (Q : px * dt = (px * (x2 - x1) + py * (y2 - y1)) * (y3 - y1) - (px * (x3 - x1) + py * (y3 - y1)) * (y2 - y1)) by (unfold dt; ring).
    rewrite G2, G3 in Q. assert (Q' : px * dt = 0) by lra. apply Rmult_integral in Q'. destruct Q' as [Q'|Q']; [exact Q'|contradiction]. }
  assert (PY : py = 0).
  { assert (Q : py * dt = (px * (x3 - x1) + py * (y3 - y1)) * (x2 - x1) - (px * (x2 - x1) + py * (y2 - y1)) * (x3 - x1)) by (unfold dt; ring).
    rewrite G2, G3 in Q. assert (Q' : py * dt = 0) by lra. apply Rmult_integral in Q'. destruct Q' as [Q'|Q']; [exact Q'|contradiction]. }
  intros n k Hn Hk. destruct (M n (P n Hn)) as [B1 B2]. destruct (T n (P n Hn)) as [B3 [B4 B5]].
  rewrite TH in *. rewrite PX in *. rewrite PY in *.
  destruct k as [|[|[|[|[|k]]]]]; [rewrite B1; lra|rewrite B2; lra|rewrite B3; lra|exact B4|exact B5|lia].
Qed.
Lemma c66_six_ex : forall f, f <> 0 -> supported f duo (fun i => (i mod 5 <? 3)%nat && (i <? 15)%nat).
Proof.
  intros f F. destruct duo_pos as [P1 [P2 [P3 P4]]].
  apply (c66_six f duo _ 1 3 1 2 3); try reflexivity; try (cbn; tauto); try exact F.
  - apply (va_wf _ _ (two_valid (ex_prop 1) true)).
  - exact duo_piece.
  - unfold apart3, det2. rewrite P1, P2, P3; cbn [vx vy]. lra.
  - left. split; [reflexivity|]. rewrite P1, P3; cbn [vy]. lra.
Qed.

(** One clamped node and one more node held in the plane are enough too. *)
Lemma c66_clamped : forall f m S a b, wf_mesh m -> in_one_piece m ->
  In a (node_keys m) -> In b (node_keys m) -> (vx (pos m a) <> vx (pos m b) \/ vy (pos m a) <> vy (pos m b)) ->
  (forall c, (c < 5)%nat -> S (dof m a c) = true) -> S (dof m b 0) = true -> S (dof m b 1) = true ->
  supported f m S.
Proof.
  intros f m S a b W [t [Ht P]] Ha Hb N Sa Sb Sb' u HU HS.
  assert (Z : forall n c, In n (node_keys m) -> (c < 5)%nat -> S (dof m n c) = true -> comp m u c n = 0).
  { intros n c Hn Hc Sn. rewrite <- dof_comp. apply HS; [apply dof_lt; assumption|exact Sn]. }
  destruct (HU t Ht) as [[tx [ty [th M]]] [c [px [py T]]]]. apply (all_zero m u W).
  destruct (M a (P a Ha)) as [A1 A2]. rewrite (Z a 0%nat Ha ltac:(lia) (Sa 0%nat ltac:(lia))) in A1. rewrite (Z a 1%nat Ha ltac:(lia) (Sa 1%nat ltac:(lia))) in A2.
  destruct (M b (P b Hb)) as [B1 B2]. rewrite (Z b 0%nat Hb ltac:(lia) Sb) in B1. rewrite (Z b 1%nat Hb ltac:(lia) Sb') in B2.
  assert (TH : th = 0).
  { assert (Q1 : th * (vy (pos m b) - vy (pos m a)) = 0) by lra. assert (Q2 : th * (vx (pos m b) - vx (pos m a)) = 0) by lra.
    apply Rmult_integral in Q1. apply Rmult_integral in Q2. destruct Q1 as [Q1|Q1]; [exact Q1|]. destruct Q2 as [Q2|Q2]; [exact Q2|].
    exfalso. destruct N as [N|N]; apply N; lra. }
  destruct (T a (P a Ha)) as [A3 [A4 A5]].
  rewrite (Z a 2%nat Ha ltac:(lia) (Sa 2%nat ltac:(lia))) in A3. rewrite (Z a 3%nat Ha ltac:(lia) (Sa 3%nat ltac:(lia))) in A4.
  rewrite (Z a 4%nat Ha ltac:(lia) (Sa 4%nat ltac:(lia))) in A5.
  intros n k Hn Hk. destruct (M n (P n Hn)) as [C1 C2]. destruct (T n (P n Hn)) as [C3 [C4 C5]].
  rewrite TH in *. rewrite <- A4 in *. rewrite <- A5 in *.
  destruct k as [|[|[|[|[|k]]]]]; [rewrite C1; lra|rewrite C2; lra|rewrite C3; lra|exact C4|exact C5|lia].
Qed.
Lemma c66_clamped_ex : forall f, supported f duo (fun i => (i <? 7)%nat).
Proof.
  intros f. destruct duo_pos as [P1 [P2 [P3 P4]]]. apply (c66_clamped f duo _ 1 2); try reflexivity; try (cbn; tauto).
  - apply (va_wf _ _ (two_valid (ex_prop 1) true)).
  - exact duo_piece.
  - left. rewrite P1, P2; cbn [vx]. lra.
  - intros c Hc. destruct c as [|[|[|[|[|c]]]]]; try reflexivity; lia.
Qed.

(** Without [braced] it fails: a single triangle ("cell-based") and the square of two triangles
    ("cell-based-no-smoothing") with u, v and w supported in every node allow no rigid motion, but without load
    rotations that are not zero solve the problem. *)
Lemma c66_unbraced_refuted : forall method alpha mfa, In method cell_methods -> 0 <= alpha ->
  exists m m' K k' d i, valid m true /\ all_props m pos_def /\ all_props m shear_pos /\ in_one_piece m /\
    calc_k0 m true = (m', Ok K) /\ add_k0s lits_src K m' true method alpha mfa = (k', Ok tt) /\
    (forall f, f <> 0 -> supported f m all_hinged) /\ solves k' all_hinged (fun _ => 0) d /\ (i < mdim k')%nat /\ d i <> 0.
Proof.
  intros method alpha mfa MT A.
  assert (X : exists m xc yc, valid m true /\ all_props m pos_def /\ all_props m shear_pos /\ in_one_piece m /\
    (forall f, f <> 0 -> supported f m all_hinged) /\ (forall t, In t (trias_of m) -> gap_point method m t = (xc, yc)) /\
    In 3%nat (node_keys m) /\ vy (pos m 3) <> yc).
  { destruct MT as [<-|[<-|[]]].
    - set (m := tri (ex_prop 1)). assert (V := tri_valid (ex_prop 1) true). exists m, (1/3), (1/3).
      split; [exact V|]. split; [exact lone_pd|]. split; [exact lone_sp|]. split; [exact lone_piece|]. split; [|split; [exact lone_gap|]].
      + intros f F. apply (c66_six f m _ 1 3 1 2 3); try reflexivity; try (cbn; tauto); try exact F.
        * apply (va_wf _ _ V).
        * exact lone_piece.
        * unfold apart3, det2. cbn. lra.
        * left. split; [reflexivity|]. cbn. lra.
      + split; [cbn; auto|]. cbn. lra.
    - assert (V := two_valid (ex_prop 1) true). exists duo, 0, 0.
      split; [exact V|]. split; [exact duo_pd|]. split; [exact duo_sp|]. split; [exact duo_piece|]. split; [|split; [exact duo_gap|]].
      + intros f F. apply (c66_six f duo _ 1 3 1 2 3); try reflexivity; try (cbn; tauto); try exact F.
        * apply (va_wf _ _ V).
        * exact duo_piece.
        * unfold apart3, det2. cbn. lra.
        * left. split; [reflexivity|]. cbn. lra.
      + split; [cbn; auto|]. cbn. lra. }
  destruct X as [m [xc [yc [V [PP [SP [OP [HS [G [K3 NY]]]]]]]]]].
  destruct (total_spec method MT m true V alpha mfa SP A) as [m' [K [k' [E [E' [D F]]]]]].
  exists m, m', K, k', (spin m xc yc), (dof m 3 3). repeat (split; [assumption|]).
  assert (Z := spin_free method m true alpha mfa xc yc MT V PP SP A G). rewrite <- F in Z.
  assert (Z' := total_mulv method m true V alpha mfa PP SP A k' D F _ Z).
  split; [|split].
  - intros i Hi. unfold all_hinged. destruct (i mod 5 <? 3)%nat eqn:Q; [|apply Z', Hi].
    apply Nat.ltb_lt in Q. unfold spin, field. destruct (i mod 5)%nat as [|[|[|k]]]; [reflexivity..|lia].
  - rewrite D. apply dof_lt; [exact K3|lia].
  - rewrite dof_comp. destruct (spin_comp m xc yc 3 K3) as [_ [_ [_ [-> _]]]]. lra.
Qed.

(** ** C67 *)

(** Smoothing never stiffens: in a plate of one laminate with positive semi-definite stiffness the energy of any displacement
    is at most its strain energy in the linear triangles. *)
Lemma c67_softer : forall m pfn p, valid m pfn -> all_props m (fun q => q = p) -> psd p ->
  exists m' K, calc_k0 m pfn = (m', Ok K) /\ forall u, form K u u <= linear_energy m p u.
Proof.
  intros m pfn p V AP PS. destruct (valid_spec m pfn V) as [m' [K [E [_ [F _]]]]]. exists m', K. split; [exact E|].
  intros u. rewrite F. apply softer; assumption.
Qed.
Lemma c67_softer_ex : forall pfn, valid ex_one pfn /\ all_props ex_one (fun q => q = ex_prop 2) /\ psd (ex_prop 2).
Proof. intros pfn. split; [apply ex_one_valid|]. split; [apply ex_one_props|apply ex_psd; lra]. Qed.
