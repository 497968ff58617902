(** Lemmas behind the properties of add_k0s (C30-C39). *)
(* P: Num Py Mesh Utils CalcK0 AddK0s Spec SpecK0 SpecKG SpecK0s Ex ExK0 ExK0s *)
From Coq Require Import ZArith Reals List Bool Arith Lra Lia Permutation String.
From Verif Require Import Num Py Mesh Utils CalcK0 GenCell GenCellNS GenEdgeB GenEdgeI AddK0s Spec SpecK0 SpecKG SpecK0s FSum FMat FDict FGeom FWf FSetup FAsm FK0
  FTensor FConn FSmooth FDom FAny FKG FRenum LK0 FK0s FK0p FK0e FK0i FK0t FMove FK0u FK0r Ex ExK0 ExK0s.
Import ListNotations.
Local Open Scope R_scope.
Implicit Types (m : mesh R).

(** ** Common parts *)

Lemma cell_methods_add : forall method m m' pfn alpha mfa k, In method cell_methods -> call_ok m m' pfn alpha k ->
  exists k', add_k0s lits_src k m' pfn method alpha mfa = (k', Ok tt) /\
    adds k k' (shear_energy (method_strain method m) m pfn alpha mfa).
Proof.
  intros method m m' pfn alpha mfa k [<-|[<-|[]]] [P PC TH A D]; unfold method_strain; cbn [String.eqb Ascii.eqb Bool.eqb].
  - rewrite code_third_l6. apply cell_add; assumption.
  - apply cellns_add; assumption.
Qed.
Lemma edge_method_add : forall L m m' pfn alpha mfa k, call_ok m m' pfn alpha k ->
  exists k', add_k0s L k m' pfn "edge-based" alpha mfa = (k', Ok tt) /\
    adds k k' (fun u v => Sum (fun x => corr alpha (edge_val m pfn ph x) (edge_size m mfa x) * edge_Q L m pfn x u v) (edge_keys m)).
Proof. intros L m m' pfn alpha mfa k [P PC TH A D]. apply edge_add; assumption. Qed.

Lemma call_spec : forall m m' pfn alpha k, call_ok m m' pfn alpha k -> wf_mesh m /\ plate m.
Proof. intros m m' pfn alpha k C. destruct (prepared_spec m m' (co_prepared _ _ _ _ _ C)) as [W [PL _]]. auto. Qed.

Lemma ex_call : forall pfn alpha, 0 <= alpha -> exists m', call_ok ex_mesh m' pfn alpha (zeros 30).
Proof.
  intros pfn alpha A. destruct (prepare ex_mesh pfn (ex_valid pfn)) as [m' P]. exists m'.
  constructor; [exact P|apply ex_props|apply ex_thick|exact A|reflexivity].
Qed.

(** ** C30 *)

(** Every other string: ValueError, the matrix is left as it was. *)
Lemma c30_unknown : forall (T : Type) (NT : Num T) L method (m : mesh T) k pfn alpha mfa, ~ In method methods ->
  add_k0s L k m pfn method alpha mfa = (k, Raise ValueError).
Proof.
  intros T NT L method m k pfn alpha mfa H. unfold add_k0s.
  destruct (String.eqb_spec method "cell-based") as [->|N1]; [destruct H; cbn; auto|].
  destruct (String.eqb_spec method "cell-based-no-smoothing") as [->|N2]; [destruct H; cbn; auto|].
  destruct (String.eqb_spec method "edge-based") as [->|N3]; [destruct H; cbn; auto|]. reflexivity.
Qed.
Lemma c30_unknown_ex : ~ In "cell_based"%string methods /\ ~ In ""%string methods /\ ~ In "Cell-based"%string methods.
Proof. repeat split; cbn; intros H; repeat destruct H as [H|H]; try discriminate H; exact H. Qed.

(** The three methods succeed after calc_k0. *)
Lemma c30_known : forall method m m' k pfn alpha mfa, In method methods -> call_ok m m' pfn alpha k ->
  exists k', add_k0s lits_src k m' pfn method alpha mfa = (k', Ok tt).
Proof.
  intros method m m' k pfn alpha mfa H C. destruct H as [<-|[<-|[<-|[]]]].
  - destruct (cell_methods_add "cell-based" m m' pfn alpha mfa k) as [k' [E _]]; [cbn; auto|exact C|eauto].
  - destruct (cell_methods_add "cell-based-no-smoothing" m m' pfn alpha mfa k) as [k' [E _]]; [cbn; auto|exact C|eauto].
  - destruct (edge_method_add lits_src m m' pfn alpha mfa k C) as [k' [E _]]; eauto.
Qed.
Lemma c30_known_ex : forall pfn, exists m', call_ok ex_mesh m' pfn 2 (zeros 30).
Proof. intros pfn; apply ex_call; lra. Qed.

(** ** C31 *)

(** On any mesh, with any outcome (also an exception half way): the call adds to k0 a matrix D that
    is the same for every k0 of that size, that is zero in the rows and columns of u and v, and that couples
    only nodes of a common element or edge. *)
Lemma c31_increment : forall (m : mesh R) pfn method alpha mfa n, exists D r, forall k, mdim k = n ->
  exists k', add_k0s lits_src k m pfn method alpha mfa = (k', r) /\ mdim k' = n /\
    (forall i j, mentry k' i j = mentry k i j + D i j) /\
    forall i j, D i j <> 0 -> (2 <= i mod 5 /\ 2 <= j mod 5)%nat /\ coupled m method (i / 5) (j / 5).
Proof. intros m pfn method alpha mfa n. apply add_k0s_any. Qed.

(** After calc_k0: a changed entry belongs to two nodes of a common triangle, or, edge-based, of the
    triangles on a common edge. *)
Lemma c31_coupling : forall method m m' k k' r pfn alpha mfa, prepared_from m m' ->
  add_k0s lits_src k m' pfn method alpha mfa = (k', r) -> forall i j, mentry k' i j <> mentry k i j ->
  exists a b, nth_node m a (i / 5) /\ nth_node m b (j / 5) /\
    ((In method cell_methods /\ exists t, In t (trias_of m) /\ vertex t a /\ vertex t b) \/
     (method = "edge-based"%string /\ exists x, In x (edge_keys m) /\ on_domain m x a /\ on_domain m x b)).
Proof.
  intros method m m' k k' r pfn alpha mfa P E i j NE.
  assert (Hm : In method methods).
  { destruct (in_dec String.string_dec method methods) as [H|H]; [exact H|]. rewrite c30_unknown in E by exact H. congruence. }
  destruct (prepared_spec m m' P) as [W [PL [N0 [S RR]]]]. assert (W' := pr_wf _ RR).
  destruct (c31_increment m' pfn method alpha mfa (mdim k)) as [D [r' H]]. destruct (H k eq_refl) as [k2 [E2 [_ [EN CP]]]].
  rewrite E in E2. injection E2 as <- <-. destruct (CP i j) as [_ C]; [intros Z; apply NE; rewrite EN, Z; ring|].
  assert (IX : forall n q, has_index m' n q -> nth_node m n q).
  { intros n q [nd [G Q]]. assert (I := dget_in _ Nat.eqb_eq _ _ _ G).
    assert (Hn : In n (node_keys m')) by (unfold node_keys; apply in_map_iff; exists (n, nd); auto).
    assert (X := pr_indexed _ RR n nd I). rewrite X in Q. injection Q as <-. unfold nth_node. rewrite <- (sm_keys _ _ S). apply nth_rank, Hn. }
  unfold coupled in C. destruct (String.eqb_spec method "edge-based") as [->|NEq].
  - destruct C as [x [e [a [b [I [A [B [HA HB]]]]]]]]. exists a, b. split; [apply IX, HA|]. split; [apply IX, HB|]. right. split; [reflexivity|].
    assert (Hx : In x (edge_keys m')) by (apply in_map_iff; exists (x, e); auto).
    exists x. split; [rewrite <- (sm_edges _ _ S); exact Hx|].
    assert (RD := pr_ready _ RR x e I). assert (EE := rd_ends _ _ _ RD).
    assert (TE : forall t n, In t (tris_on m' x) -> n = en1 e \/ n = en2 e \/ n = third t x -> on_domain m x n).
    { intros t n Ht Hn. exists t. rewrite <- (same_tris_on _ _ S). split; [exact Ht|].
      destruct (tria_node m' x t (en1 e) (en2 e) W' Hx (or_introl EE) Ht) as [P3 _].
      unfold vertex. unfold perm3 in P3. intuition congruence. }
    assert (Z : forall n, of_edge e n -> on_domain m x n); [|auto].
    intros n On. destruct (rd_dom _ _ _ RD) as [n1 [n2 [_ [[t1 R1]|[t1 [t2 R2]]]]]].
    + assert (I1 : In t1 (tris_on m' x)) by (rewrite (r1_tris _ _ _ _ _ _ R1); left; reflexivity).
      destruct On as [On|[On|[On|On]]]; [apply (TE t1); auto|apply (TE t1); auto|rewrite (r1_o1 _ _ _ _ _ _ R1) in On|rewrite (r1_o2 _ _ _ _ _ _ R1) in On; discriminate].
      injection On as <-. apply (TE t1); auto.
    + assert (I1 : In t1 (tris_on m' x)) by (rewrite (r2_tris _ _ _ _ _ _ _ R2); left; reflexivity).
      assert (I2 : In t2 (tris_on m' x)) by (rewrite (r2_tris _ _ _ _ _ _ _ R2); right; left; reflexivity).
      destruct On as [On|[On|[On|On]]]; [apply (TE t1); auto|apply (TE t1); auto|rewrite (r2_o1 _ _ _ _ _ _ _ R2) in On|rewrite (r2_o2 _ _ _ _ _ _ _ R2) in On].
      * injection On as <-; apply (TE t1); auto.
      * injection On as <-; apply (TE t2); auto.
  - assert (HC : In method cell_methods) by (destruct Hm as [<-|[<-|[<-|[]]]]; cbn; auto; congruence).
    destruct C as [t [a [b [I [A [B [HA HB]]]]]]]. exists a, b. split; [apply IX, HA|]. split; [apply IX, HB|]. left. split; [exact HC|].
    exists t. unfold trias_of in *. rewrite <- (sm_elements _ _ S). auto.
Qed.
Lemma c31_coupling_ex : forall pfn method mfa, In method methods -> exists m' k', prepared_from ex_mesh m' /\
  add_k0s lits_src (zeros 30) m' pfn method 2 mfa = (k', Ok tt).
Proof.
  intros pfn method mfa H. destruct (ex_call pfn 2) as [m' C]; [lra|]. exists m'.
  destruct (c30_known method ex_mesh m' (zeros 30) pfn 2 mfa H C) as [k' E]. exists k'. split; [apply (co_prepared _ _ _ _ _ C)|exact E].
Qed.

(** ** C32 *)

(** The added matrix is the one of the shear energy: sum over the triangles of area, correction factor,
    and product of the discrete shear strains with the shear stiffness; it is symmetric, and for
    non-negative shear stiffness positive semi-definite. *)
Lemma c32_energy : forall method m m' pfn alpha mfa k, In method cell_methods -> call_ok m m' pfn alpha k ->
  exists k', add_k0s lits_src k m' pfn method alpha mfa = (k', Ok tt) /\ mdim k' = mdim k /\
    (forall u v, form k' u v - form k u v = shear_energy (method_strain method m) m pfn alpha mfa u v) /\
    (forall i j, (i < mdim k)%nat -> (j < mdim k)%nat -> mentry k' i j - mentry k i j = mentry k' j i - mentry k j i) /\
    (stiff m -> forall u, form k u u <= form k' u u).
Proof.
  intros method m m' pfn alpha mfa k H C. destruct (call_spec _ _ _ _ _ C) as [W PL].
  destruct (cell_methods_add method m m' pfn alpha mfa k H C) as [k' [E A]]. exists k'. split; [exact E|].
  split; [apply A|]. split; [intros u v; rewrite (proj2 A); ring|]. split.
  - intros i j Hi Hj. rewrite !(adds_entry _ _ _ _ _ A) by assumption. rewrite (energy_sym _ m pfn alpha mfa (delta i)). ring.
  - intros ST u. rewrite (proj2 A u u).
    assert (X := energy_nonneg (method_strain method m) m pfn alpha mfa u W (co_props _ _ _ _ _ C) (co_thick _ _ _ _ _ C) ST (co_alpha _ _ _ _ _ C)). lra.
Qed.
Lemma c32_energy_ex : (forall pfn, exists m', call_ok ex_mesh m' pfn 2 (zeros 30)) /\ stiff ex_mesh.
Proof. split; [intros; apply ex_call; lra|exact ex_stiff]. Qed.

(** ** C33, C34 *)

Lemma method_affine : forall method m u wx wy px py, In method cell_methods -> wf_mesh m -> plate m -> constant_shear m u wx wy px py ->
  forall t, In t (trias_of m) -> method_strain method m u t = (wx + (1 + literal_error method) * px, wy + (1 + literal_error method) * py).
Proof.
  intros method m u wx wy px py H W PL C t Ht.
  destruct H as [<-|[<-|[]]]; unfold method_strain, literal_error; cbn [String.eqb Ascii.eqb Bool.eqb].
  - rewrite (strain_cell_affine m W PL u wx wy px py C _ t Ht). unfold code_third. f_equal; field.
  - rewrite (strain_ns_affine m W PL u wx wy px py C t Ht). f_equal; ring.
Qed.
Lemma method_const : forall method m m' pfn alpha mfa k u wx wy px py, In method cell_methods -> call_ok m m' pfn alpha k ->
  constant_shear m u wx wy px py -> let err := literal_error method in
  exists k', add_k0s lits_src k m' pfn method alpha mfa = (k', Ok tt) /\ mdim k' = mdim k /\
    forall v, form k' v u = form k v u + shear_work (method_strain method m) m pfn alpha mfa (wx + (1 + err) * px) (wy + (1 + err) * py) v.
Proof.
  intros method m m' pfn alpha mfa k u wx wy px py H C CS err. destruct (call_spec _ _ _ _ _ C) as [W PL].
  destruct (cell_methods_add method m m' pfn alpha mfa k H C) as [k' [E A]]. exists k'. split; [exact E|]. split; [apply A|].
  intros v. rewrite (proj2 A), energy_sym. f_equal. apply energy_const. intros t Ht. apply (method_affine _ _ _ _ _ _ _ H W PL CS t Ht).
Qed.
Lemma work_zero : forall g m pfn alpha mfa v, shear_work g m pfn alpha mfa 0 0 v = 0.
Proof. intros. unfold shear_work. apply Sum_zero. intros t Ht. ring. Qed.

(** A translation in w is mapped to zero by the added matrix. *)
Lemma c33_translation : forall method m m' pfn alpha mfa k u, In method cell_methods -> call_ok m m' pfn alpha k -> w_translation m u ->
  exists k', add_k0s lits_src k m' pfn method alpha mfa = (k', Ok tt) /\ forall i, (i < mdim k)%nat -> mulv k' u i = mulv k u i.
Proof.
  intros method m m' pfn alpha mfa k u H C CS. destruct (method_const _ _ _ _ _ mfa _ _ _ _ _ _ H C CS) as [k' [E [D F]]].
  exists k'. split; [exact E|]. intros i Hi. rewrite !mulv_form by lia. rewrite F.
  replace (0 + (1 + literal_error method) * 0) with 0 by ring. rewrite work_zero. ring.
Qed.
Lemma c33_translation_ex : (forall pfn, exists m', call_ok ex_mesh m' pfn 2 (zeros 30)) /\ w_translation ex_mesh ex_lift.
Proof. split; [intros; apply ex_call; lra|exact ex_lifted]. Qed.

(** A rotation w = t x + s y (+ constant), phi_x = -t, phi_y = -s: mapped to zero without smoothing; with
    smoothing to what a constant shear strain (t, s) gives, times -10^-15. *)
Lemma c33_rotation : forall method m m' pfn alpha mfa k u t s, In method cell_methods -> call_ok m m' pfn alpha k ->
  constant_shear m u t s (- t) (- s) ->
  exists k', add_k0s lits_src k m' pfn method alpha mfa = (k', Ok tt) /\
    (forall v, form k' v u - form k v u = - literal_error method * shear_work (method_strain method m) m pfn alpha mfa t s v) /\
    (method = "cell-based-no-smoothing"%string -> forall i, (i < mdim k)%nat -> mulv k' u i = mulv k u i).
Proof.
  intros method m m' pfn alpha mfa k u t s H C CS. destruct (method_const _ _ _ _ _ mfa _ _ _ _ _ _ H C CS) as [k' [E [D F]]].
  exists k'. split; [exact E|].
  assert (X : forall v, form k' v u - form k v u = - literal_error method * shear_work (method_strain method m) m pfn alpha mfa t s v).
  { intros v. rewrite F.
    replace (t + (1 + literal_error method) * - t) with (- literal_error method * t) by ring.
    replace (s + (1 + literal_error method) * - s) with (- literal_error method * s) by ring. rewrite work_scale. ring. }
  split; [exact X|]. intros -> i Hi. rewrite !mulv_form by lia. specialize (X (delta i)).
  unfold literal_error in X; cbn [String.eqb Ascii.eqb Bool.eqb] in X. lra.
Qed.
Lemma c33_rotation_ex : (forall pfn, exists m', call_ok ex_mesh m' pfn 2 (zeros 30)) /\ constant_shear ex_mesh ex_tilt 2 (-3) (- 2) (- -3).
Proof. split; [intros; apply ex_call; lra|exact ex_tilted]. Qed.

(** w affine and constant rotations: the added matrix gives the work of the constant shear strain
    (wx + px, wy + py), with an error of 10^-15 (px, py) for the method with smoothing. *)
Lemma c34_constant : forall method m m' pfn alpha mfa k u wx wy px py, In method cell_methods -> call_ok m m' pfn alpha k ->
  constant_shear m u wx wy px py -> let err := literal_error method in
  exists k', add_k0s lits_src k m' pfn method alpha mfa = (k', Ok tt) /\
    forall v, form k' v u - form k v u
      = shear_work (method_strain method m) m pfn alpha mfa (wx + (1 + err) * px) (wy + (1 + err) * py) v.
Proof.
  intros method m m' pfn alpha mfa k u wx wy px py H C CS err. destruct (method_const _ _ _ _ _ mfa _ _ _ _ _ _ H C CS) as [k' [E [D F]]].
  exists k'. split; [exact E|]. intros v. rewrite F. fold err. ring.
Qed.
Lemma c34_constant_ex : (forall pfn, exists m', call_ok ex_mesh m' pfn 2 (zeros 30)) /\ constant_shear ex_mesh ex_shear 2 (-3) 5 7.
Proof. split; [intros; apply ex_call; lra|exact ex_constant]. Qed.

Lemma uniform_val : forall m pfn p f t, wf_mesh m -> props_complete m pfn -> all_props m (fun q => q = p) -> In t (trias_of m) ->
  tria_val m pfn f t = f p.
Proof.
  intros m pfn p f t W PC [H1 H2] Ht. unfold tria_val. destruct pfn.
  - assert (X : forall n, vertex t n -> pval f (nodeprop m n) = f p).
    { intros n V. assert (Q := vertex_prop m t n W PC Ht V).
      destruct (nodeprop m n) as [q|] eqn:Eq; [|congruence]. cbn. rewrite (H1 n q Eq). reflexivity. }
    rewrite !X by (unfold vertex; auto). field.
  - assert (Q := PC t Ht). destruct (tprop t) as [q|] eqn:Eq; [|congruence]. cbn. rewrite (H2 t q Ht Eq). reflexivity.
Qed.
(** The same laminate everywhere and alpha = 0: the energy of two such fields is the area of the plate times
    the product of the strains with diag (k23 E00, k13 E11). *)
Lemma c34_uniform : forall method m m' pfn mfa k p u wx wy px py v vx vy qx qy, In method cell_methods -> call_ok m m' pfn 0 k ->
  all_props m (fun q => q = p) -> constant_shear m u wx wy px py -> constant_shear m v vx vy qx qy -> let err := literal_error method in
  exists k', add_k0s lits_src k m' pfn method 0 mfa = (k', Ok tt) /\
    form k' u v - form k u v = total_area m *
      (pk23 p * e00 (pE p) * (wx + (1 + err) * px) * (vx + (1 + err) * qx) + pk13 p * e11 (pE p) * (wy + (1 + err) * py) * (vy + (1 + err) * qy)).
Proof.
  intros method m m' pfn mfa k p u wx wy px py v vx vy qx qy H C AP CU CV err. destruct (call_spec _ _ _ _ _ C) as [W PL].
  destruct (cell_methods_add method m m' pfn 0 mfa k H C) as [k' [E A]]. exists k'. split; [exact E|]. rewrite (proj2 A).
  rewrite energy_zero_alpha by (try assumption; apply C).
  rewrite (Sum_ext_in _ _ (fun t => (pk23 p * e00 (pE p) * (wx + (1 + err) * px) * (vx + (1 + err) * qx) + pk13 p * e11 (pE p) * (wy + (1 + err) * py) * (vy + (1 + err) * qy)) * tarea m t)).
  - rewrite Sum_scal. unfold total_area. ring.
  - intros t Ht. unfold tria_G44, tria_G55.
    rewrite !(fun f => uniform_val m pfn p f t W (co_props _ _ _ _ _ C) AP Ht).
    rewrite (method_affine method m u _ _ _ _ H W PL CU t Ht), (method_affine method m v _ _ _ _ H W PL CV t Ht). fold err. cbn [fst snd]. ring.
Qed.
Lemma c34_uniform_ex : forall pfn, let m := two (shear_prop 2 3 (5/6) (4/5)) in (exists m', call_ok m m' pfn 0 (zeros 20)) /\
  all_props m (fun q => q = shear_prop 2 3 (5/6) (4/5)) /\
  constant_shear m (field m (fun c n => match c with 2%nat => affine m 1 2 (-3) n | 3%nat => 5 | 4%nat => 7 | _ => 0 end)) 2 (-3) 5 7.
Proof.
  intros pfn m. split; [|split].
  - destruct (prepare m pfn (two_valid _ pfn)) as [m' P]. exists m'.
    constructor; [exact P|apply (va_props _ pfn (two_valid _ pfn))|apply with_one; [exact two_wf|cbn; lra]|lra|reflexivity].
  - apply with_one; [exact two_wf|reflexivity].
  - exists 1. intros n Hn. rewrite !field_comp by (try lia; assumption). auto.
Qed.

(** ** C35 *)

Lemma rn_all_props : forall m m2 P, same_plate_as m m2 -> all_props m P -> all_props m2 P.
Proof.
  intros m m2 P SP [H1 H2]. split.
  - intros n p. rewrite (sp_prop _ _ SP). apply H1.
  - intros t p Ht Ep. destruct (rn_tria_in m m2 SP t Ht) as [t0 [I [_ S]]]. apply (H2 t0 p I). congruence.
Qed.
Lemma rn_call : forall m m2 m2' pfn alpha k m', same_plate_as m m2 -> call_ok m m' pfn alpha k -> prepared_from m2 m2' -> call_ok m2 m2' pfn alpha k.
Proof.
  intros m m2 m2' pfn alpha k m' SP C P. constructor; [exact P| | |apply C|].
  - destruct (prepared_spec _ _ P) as [W2 _]. destruct (call_spec _ _ _ _ _ C) as [W _]. apply (rn_props m m2); try assumption. apply C.
  - apply (rn_all_props m m2 _ SP), C.
  - rewrite (co_dim _ _ _ _ _ C). f_equal. rewrite <- !(map_length fst). exact (f_equal (@List.length nat) (eq_sym (sp_keys _ _ SP))).
Qed.

(** With smoothing: element order, element ids and the order of the vertices of each element have no effect. *)
Lemma c35_cell_based : forall m1 m2 m1' m2' pfn alpha mfa k, same_plate_as m1 m2 -> call_ok m1 m1' pfn alpha k -> prepared_from m2 m2' ->
  exists k1 k2, add_k0s lits_src k m1' pfn "cell-based" alpha mfa = (k1, Ok tt) /\
                add_k0s lits_src k m2' pfn "cell-based" alpha mfa = (k2, Ok tt) /\ meq k1 k2.
Proof.
  intros m1 m2 m1' m2' pfn alpha mfa k SP C P. assert (C2 := rn_call _ _ _ _ _ _ _ SP C P).
  destruct (call_spec _ _ _ _ _ C) as [W PL]. destruct (call_spec _ _ _ _ _ C2) as [W2 _].
  destruct (cell_methods_add "cell-based" m1 m1' pfn alpha mfa k) as [k1 [E1 A1]]; [cbn; auto|exact C|].
  destruct (cell_methods_add "cell-based" m2 m2' pfn alpha mfa k) as [k2 [E2 A2]]; [cbn; auto|exact C2|].
  exists k1, k2. split; [exact E1|]. split; [exact E2|]. apply (adds_meq _ _ _ _ _ A1 A2). intros u v.
  unfold method_strain; cbn [String.eqb Ascii.eqb Bool.eqb]. apply rn_energy_cell; assumption.
Qed.
Lemma c35_cell_based_ex : forall pfn, same_plate_as ex_mesh ex_mesh2 /\ (exists m', call_ok ex_mesh m' pfn 2 (zeros 30)) /\ exists m2', prepared_from ex_mesh2 m2'.
Proof.
  intros pfn. split; [exact ex_same_plate|]. split; [apply ex_call; lra|]. apply (prepare _ pfn), ex_valid2.
Qed.

(** Without smoothing the order matters: the triangle (0,0), (1,0), (0,1) and the same triangle beginning
    with the second node give different matrices. *)
Lemma c35_no_smoothing_refuted : forall pfn mfa, exists m1 m2 m1' m2' k1 k2,
  same_plate_as m1 m2 /\ call_ok m1 m1' pfn 0 (zeros 15) /\ call_ok m2 m2' pfn 0 (zeros 15) /\
  add_k0s lits_src (zeros 15) m1' pfn "cell-based-no-smoothing" 0 mfa = (k1, Ok tt) /\
  add_k0s lits_src (zeros 15) m2' pfn "cell-based-no-smoothing" 0 mfa = (k2, Ok tt) /\ mentry k1 13 13 <> mentry k2 13 13.
Proof.
  intros pfn mfa. set (p := shear_prop 1 1 1 1). exists (tri p), (tri' p).
  destruct (prepare (tri p) pfn (tri_valid _ pfn)) as [m1' P1]. destruct (prepare (tri' p) pfn (tri_valid' _ pfn)) as [m2' P2].
  assert (C1 : call_ok (tri p) m1' pfn 0 (zeros 15)).
  { constructor; [exact P1|apply (va_props _ pfn (tri_valid _ pfn))|apply with_one; [exact tri_wf|cbn; lra]|lra|reflexivity]. }
  assert (C2 := rn_call _ _ _ _ _ _ _ (tri_same p) C1 P2).
  assert (HM : In "cell-based-no-smoothing"%string cell_methods) by (cbn; auto).
  destruct (cell_methods_add "cell-based-no-smoothing" _ _ _ _ mfa _ HM C1) as [k1 [E1 A1]].
  destruct (cell_methods_add "cell-based-no-smoothing" _ _ _ _ mfa _ HM C2) as [k2 [E2 A2]].
  exists m1', m2', k1, k2. split; [apply tri_same|]. do 4 (split; [assumption|]).
  rewrite (adds_entry _ _ _ _ _ A1), (adds_entry _ _ _ _ _ A2) by (cbn; lia).
  destruct (call_spec _ _ _ _ _ C1) as [W1 PL1]. destruct (call_spec _ _ _ _ _ C2) as [W2 PL2].
  assert (AP1 : all_props (tri p) (fun q => q = p)) by (apply with_one; [exact tri_wf|reflexivity]).
  assert (AP2 := rn_all_props _ _ _ (tri_same p) AP1).
  unfold method_strain; cbn [String.eqb Ascii.eqb Bool.eqb].
  rewrite !energy_zero_alpha by (try assumption; try apply C1; try apply C2).
  assert (PO : forall n, pos (tri p) n = pos tri_read n /\ pos (tri' p) n = pos tri_read n).
  { intros n. split; [unfold tri, all_same; rewrite wp_pos; reflexivity|]. rewrite (sp_pos _ _ (tri_same p)). unfold tri, all_same; rewrite wp_pos; reflexivity. }
  assert (T1 : exists t, trias_of (tri p) = [t] /\ tn1 t = 1%nat /\ tn2 t = 2%nat /\ tn3 t = 3%nat) by (eexists; repeat split; reflexivity).
  assert (T2 : exists t, trias_of (tri' p) = [t] /\ tn1 t = 2%nat /\ tn2 t = 3%nat /\ tn3 t = 1%nat) by (eexists; repeat split; reflexivity).
  destruct T1 as [t1 [ET1 [V11 [V12 V13]]]]. destruct T2 as [t2 [ET2 [V21 [V22 V23]]]].
  assert (I1 : In t1 (trias_of (tri p))) by (rewrite ET1; left; reflexivity).
  assert (I2 : In t2 (trias_of (tri' p))) by (rewrite ET2; left; reflexivity).
  assert (VA1 := fun f => uniform_val _ pfn p f t1 W1 (co_props _ _ _ _ _ C1) AP1 I1).
  assert (VA2 := fun f => uniform_val _ pfn p f t2 W2 (co_props _ _ _ _ _ C2) AP2 I2).
  rewrite ET1, ET2. unfold Sum; cbn [map rsum fold_right]. unfold tria_G44, tria_G55. rewrite !VA1, !VA2.
  cbn [pk13 pk23 pE e00 e11 p shear_prop].
  destruct tri_pos as [Q1 [Q2 Q3]].
  assert (AT : forall n, at_node (tri p) (delta 13) n = Pt (vx (pos tri_read n)) (vy (pos tri_read n)) (comp (tri p) (delta 13) 2 n) (comp (tri p) (delta 13) 3 n) (comp (tri p) (delta 13) 4 n))
    by (intros n; unfold at_node; rewrite (proj1 (PO n)); reflexivity).
  assert (AT' : at_node (tri' p) = at_node (tri p)) by (apply rn_at_node, tri_same).
  assert (N1 : at_node (tri p) (delta 13) 1 = Pt 0 0 0 0 0) by (rewrite AT, Q1; reflexivity).
  assert (N2 : at_node (tri p) (delta 13) 2 = Pt 1 0 0 0 0) by (rewrite AT, Q2; reflexivity).
  assert (N3 : at_node (tri p) (delta 13) 3 = Pt 0 1 0 1 0) by (rewrite AT, Q3; reflexivity).
  assert (D1 : tdet (tri p) t1 = 1). { unfold tdet. rewrite V11, V12, V13, !(fun n => proj1 (PO n)), Q1, Q2, Q3. unfold det2; cbn [vx vy]. ring. }
  assert (D2 : tdet (tri' p) t2 = 1). { unfold tdet. rewrite V21, V22, V23, !(fun n => proj2 (PO n)), Q1, Q2, Q3. unfold det2; cbn [vx vy]. ring. }
  assert (S1 : strain_ns (tri p) (delta 13) t1 = (0, 0)).
  { unfold strain_ns. rewrite D1, V11, V12, V13. cbv zeta. destruct (Rlt_dec 1 0) as [X|_]; [lra|]. rewrite N1, N2, N3.
    unfold dsg, gap, pdet; cbn [ptx pty ptw ptfx ptfy]. f_equal; field; lra. }
  assert (S2 : strain_ns (tri' p) (delta 13) t2 = (0, -1/2)).
  { unfold strain_ns. rewrite D2, V21, V22, V23, AT'. cbv zeta. destruct (Rlt_dec 1 0) as [X|_]; [lra|]. rewrite N1, N2, N3.
    unfold dsg, gap, pdet; cbn [ptx pty ptw ptfx ptfy]. f_equal; field; lra. }
  rewrite S1, S2. cbn [fst snd]. unfold tarea. rewrite D1, D2, Rabs_R1. cbn [mentry zeros]. lra.
Qed.

(** Without smoothing, if the third vertex of every element is kept. Missing: the other orders (refuted above). *)
Lemma c35_no_smoothing_partial : forall m1 m2 m1' m2' pfn alpha mfa k, same_order_as m1 m2 -> call_ok m1 m1' pfn alpha k -> prepared_from m2 m2' ->
  exists k1 k2, add_k0s lits_src k m1' pfn "cell-based-no-smoothing" alpha mfa = (k1, Ok tt) /\
                add_k0s lits_src k m2' pfn "cell-based-no-smoothing" alpha mfa = (k2, Ok tt) /\ meq k1 k2.
Proof.
  intros m1 m2 m1' m2' pfn alpha mfa k SO C P. assert (SP := proj1 SO). assert (C2 := rn_call _ _ _ _ _ _ _ SP C P).
  destruct (call_spec _ _ _ _ _ C) as [W PL]. destruct (call_spec _ _ _ _ _ C2) as [W2 _].
  destruct (cell_methods_add "cell-based-no-smoothing" m1 m1' pfn alpha mfa k) as [k1 [E1 A1]]; [cbn; auto|exact C|].
  destruct (cell_methods_add "cell-based-no-smoothing" m2 m2' pfn alpha mfa k) as [k2 [E2 A2]]; [cbn; auto|exact C2|].
  exists k1, k2. split; [exact E1|]. split; [exact E2|]. apply (adds_meq _ _ _ _ _ A1 A2). intros u v.
  unfold method_strain; cbn [String.eqb Ascii.eqb Bool.eqb]. apply rn_energy_ns; assumption.
Qed.

(** ** C36 *)

(** alpha = 0: the shear stiffness is not corrected. *)
Lemma c36_cell_zero : forall method m m' pfn mfa k, In method cell_methods -> call_ok m m' pfn 0 k ->
  exists k', add_k0s lits_src k m' pfn method 0 mfa = (k', Ok tt) /\
    forall u v, form k' u v - form k u v = Sum (fun t => let gu := method_strain method m u t in let gv := method_strain method m v t in
      tarea m t * (tria_G44 m pfn t * fst gu * fst gv + tria_G55 m pfn t * snd gu * snd gv)) (trias_of m).
Proof.
  intros method m m' pfn mfa k H C. destruct (call_spec _ _ _ _ _ C) as [W PL].
  destruct (cell_methods_add method m m' pfn 0 mfa k H C) as [k' [E A]]. exists k'. split; [exact E|].
  intros u v. rewrite (proj2 A), energy_zero_alpha by (try assumption; apply C). cbv zeta. ring.
Qed.
Lemma c36_cell_zero_ex : forall pfn, exists m', call_ok ex_mesh m' pfn 0 (zeros 30).
Proof. intros; apply ex_call; lra. Qed.

(** The added energy does not increase with alpha and is never negative. *)
Lemma c36_cell_monotone : forall method m m' pfn mfa k a b, In method cell_methods -> call_ok m m' pfn a k -> a <= b -> stiff m ->
  exists ka kb, add_k0s lits_src k m' pfn method a mfa = (ka, Ok tt) /\ add_k0s lits_src k m' pfn method b mfa = (kb, Ok tt) /\
    forall u, form k u u <= form kb u u <= form ka u u.
Proof.
  intros method m m' pfn mfa k a b H C LE ST. destruct (call_spec _ _ _ _ _ C) as [W PL]. assert (A0 := co_alpha _ _ _ _ _ C).
  assert (Cb : call_ok m m' pfn b k) by (constructor; try apply C; lra).
  destruct (cell_methods_add method m m' pfn a mfa k H C) as [ka [Ea Aa]].
  destruct (cell_methods_add method m m' pfn b mfa k H Cb) as [kb [Eb Ab]]. exists ka, kb. do 2 (split; [assumption|]).
  intros u. rewrite (proj2 Aa u u), (proj2 Ab u u).
  assert (X := energy_nonneg (method_strain method m) m pfn b mfa u W (co_props _ _ _ _ _ C) (co_thick _ _ _ _ _ C) ST (co_alpha _ _ _ _ _ Cb)).
  assert (Y := energy_mono (method_strain method m) m pfn a b mfa u W (co_props _ _ _ _ _ C) (co_thick _ _ _ _ _ C) ST (conj A0 LE)). lra.
Qed.
Lemma c36_cell_monotone_ex : (forall pfn, exists m', call_ok ex_mesh m' pfn 1 (zeros 30)) /\ stiff ex_mesh.
Proof. split; [intros; apply ex_call; lra|exact ex_stiff]. Qed.

Lemma edge_thick : forall m pfn x, wf_mesh m -> plate m -> props_complete m pfn -> thick m -> In x (edge_keys m) -> 0 < edge_val m pfn ph x.
Proof. intros. apply FK0e.edge_thick; assumption. Qed.

(** Edge-based: the forms of the edge domains do not depend on alpha; each is multiplied with the correction factor of its
    domain, which is 1 for alpha = 0. *)
Lemma c36_edge_factor : forall m m' pfn mfa, exists Q, forall alpha k, call_ok m m' pfn alpha k ->
  exists k', add_k0s lits_src k m' pfn "edge-based" alpha mfa = (k', Ok tt) /\
    adds k k' (fun u v => Sum (fun x => corr alpha (edge_val m pfn ph x) (edge_size m mfa x) * Q x u v) (edge_keys m)) /\
    (alpha = 0 -> adds k k' (fun u v => Sum (fun x => Q x u v) (edge_keys m))).
Proof.
  intros m m' pfn mfa. exists (edge_Q lits_src m pfn). intros alpha k C. destruct (call_spec _ _ _ _ _ C) as [W PL].
  destruct (edge_method_add lits_src m m' pfn alpha mfa k C) as [k' [E A]]. exists k'. split; [exact E|]. split; [exact A|].
  intros ->. split; [apply A|]. intros u v. rewrite (proj2 A). f_equal. apply Sum_ext_in. intros x Hx. rewrite corr_zero; [ring|].
  apply edge_thick; try assumption; apply C.
Qed.
Lemma c36_edge_factor_ex : forall pfn, exists m', call_ok ex_mesh m' pfn 2 (zeros 30).
Proof. intros; apply ex_call; lra. Qed.

(** Edge-based with the decimals of the code: on a triangle with unit stiffness the energy of some field is negative (the
    size of the rounding errors of the decimals). *)
Lemma c36_edge_refuted : forall pfn mfa, exists m m' k' u, call_ok m m' pfn 0 (zeros 15) /\ stiff_full m /\
  add_k0s lits_src (zeros 15) m' pfn "edge-based" 0 mfa = (k', Ok tt) /\ form k' u u < 0.
Proof.
  intros pfn mfa. set (p := shear_prop 1 1 1 1). exists (tri p).
  destruct (prepare (tri p) pfn (tri_valid _ pfn)) as [m1' P1].
  assert (C1 : call_ok (tri p) m1' pfn 0 (zeros 15)).
  { constructor; [exact P1|apply (va_props _ pfn (tri_valid _ pfn))|apply with_one; [exact tri_wf|cbn; lra]|lra|reflexivity]. }
  destruct (c36_edge_factor (tri p) m1' pfn mfa) as [Q HQ]. 
  destruct (edge_method_add lits_src _ _ pfn 0 mfa _ C1) as [k1 [E1 A1]]. exists m1', k1, tri_neg.
  split; [exact C1|]. split.
  { apply with_one; [exact tri_wf|]. cbn. split; [lra|]. split; [lra|]. intros x y. assert (X := Rle_0_sqr x). assert (Y := Rle_0_sqr y). unfold Rsqr in *. lra. }
  split; [exact E1|]. rewrite (proj2 A1), form_zeros.
  rewrite (Sum_ext_in _ _ (fun k => edge_Q lits_src (tri p) pfn k tri_neg tri_neg)).
  - assert (X := tri_negative pfn). fold p in X. cbv zeta in X. rewrite X. lra.
  - intros x Hx. destruct (call_spec _ _ _ _ _ C1) as [W1 PL1]. rewrite corr_zero; [ring|]. apply edge_thick; try assumption; apply C1.
Qed.

(** Edge-based with exact fractions in place of the decimals: monotone and never negative. Missing: the decimals (refuted above). *)
Lemma c36_edge_partial : forall m m' pfn mfa k a b, call_ok m m' pfn a k -> a <= b -> stiff_full m ->
  exists ka kb, add_k0s lits_frac k m' pfn "edge-based" a mfa = (ka, Ok tt) /\ add_k0s lits_frac k m' pfn "edge-based" b mfa = (kb, Ok tt) /\
    forall u, form k u u <= form kb u u <= form ka u u.
Proof.
  intros m m' pfn mfa k a b C LE ST. destruct (call_spec _ _ _ _ _ C) as [W PL]. assert (A0 := co_alpha _ _ _ _ _ C).
  assert (Cb : call_ok m m' pfn b k) by (constructor; try apply C; lra).
  destruct (edge_method_add lits_frac m m' pfn a mfa k C) as [ka [Ea Aa]].
  destruct (edge_method_add lits_frac m m' pfn b mfa k Cb) as [kb [Eb Ab]]. exists ka, kb. do 2 (split; [assumption|]).
  intros u. rewrite (proj2 Aa u u), (proj2 Ab u u).
  assert (T : forall x, In x (edge_keys m) -> 0 < edge_val m pfn ph x) by (intros x Hx; apply edge_thick; try assumption; apply C).
  assert (X : 0 <= Sum (fun x => corr b (edge_val m pfn ph x) (edge_size m mfa x) * edge_Q lits_frac m pfn x u u) (edge_keys m)).
  { apply Sum_nonneg. intros x Hx. apply Rmult_le_pos; [|apply edge_Q_nonneg; assumption].
    assert (X := corr_range b _ (edge_size m mfa x) (co_alpha _ _ _ _ _ Cb) (T x Hx)). lra. }
  assert (Y : Sum (fun x => corr b (edge_val m pfn ph x) (edge_size m mfa x) * edge_Q lits_frac m pfn x u u) (edge_keys m)
    <= Sum (fun x => corr a (edge_val m pfn ph x) (edge_size m mfa x) * edge_Q lits_frac m pfn x u u) (edge_keys m)).
  { apply Sum_le. intros x Hx. apply Rmult_le_compat_r; [apply edge_Q_nonneg; assumption|]. apply corr_mono; [lra|apply (T x Hx)]. }
  lra.
Qed.
Lemma c36_edge_partial_ex : (forall pfn, exists m', call_ok ex_mesh m' pfn 1 (zeros 30)) /\ stiff_full ex_mesh.
Proof. split; [intros; apply ex_call; lra|exact ex_stiff_full]. Qed.

(** ** C37 *)

Lemma mv_call : forall dx dy m m' n' pfn alpha k, call_ok m m' pfn alpha k -> prepared_from (move dx dy m) n' -> call_ok (move dx dy m) n' pfn alpha k.
Proof.
  intros dx dy m m' n' pfn alpha k C P. destruct (call_spec _ _ _ _ _ C) as [W _].
  constructor; [exact P|apply mv_props; apply C|apply mv_all_props; apply C|apply C|].
  rewrite mv_len. apply C.
Qed.

(** The cell-based methods: translating the plate has no effect. *)
Lemma c37_cell : forall method dx dy m m' n' pfn alpha mfa k, In method cell_methods -> call_ok m m' pfn alpha k -> prepared_from (move dx dy m) n' ->
  exists k1 k2, add_k0s lits_src k m' pfn method alpha mfa = (k1, Ok tt) /\ add_k0s lits_src k n' pfn method alpha mfa = (k2, Ok tt) /\ meq k1 k2.
Proof.
  intros method dx dy m m' n' pfn alpha mfa k H C P. destruct (call_spec _ _ _ _ _ C) as [W PL]. assert (C2 := mv_call _ _ _ _ _ _ _ _ C P).
  destruct (cell_methods_add method m m' pfn alpha mfa k H C) as [k1 [E1 A1]].
  destruct (cell_methods_add method _ n' pfn alpha mfa k H C2) as [k2 [E2 A2]].
  exists k1, k2. split; [exact E1|]. split; [exact E2|]. apply (adds_meq _ _ _ _ _ A1 A2). intros u v. symmetry.
  apply mv_energy; [exact W|]. intros w t Ht. unfold method_strain. destruct (String.eqb method "cell-based"); [apply mv_cell|apply mv_ns]; assumption.
Qed.
Lemma ex_moved : forall dx dy (pfn : bool), exists n', prepared_from (move dx dy ex_mesh) n'.
Proof. intros dx dy pfn. apply (prepare _ pfn), mv_valid; [exact ex_wf|apply ex_valid]. Qed.
Lemma c37_cell_ex : forall pfn, (exists m', call_ok ex_mesh m' pfn 2 (zeros 30)) /\ exists n', prepared_from (move 3 (-5) ex_mesh) n'.
Proof. intros pfn. split; [apply ex_call; lra|apply (ex_moved 3 (-5) pfn)]. Qed.

(** Edge-based: translating the plate in y changes the matrix of a unit square of two triangles. *)
Lemma c37_edge_refuted : forall pfn mfa, exists m m' n' k1 k2, call_ok m m' pfn 0 (zeros 20) /\ prepared_from (move 0 1 m) n' /\
  add_k0s lits_src (zeros 20) m' pfn "edge-based" 0 mfa = (k1, Ok tt) /\
  add_k0s lits_src (zeros 20) n' pfn "edge-based" 0 mfa = (k2, Ok tt) /\ mentry k1 7 7 <> mentry k2 7 7.
Proof.
  intros pfn mfa. set (p := shear_prop 1 1 1 1). exists (two p).
  destruct (prepare (two p) pfn (two_valid _ pfn)) as [m' P1].
  assert (W : wf_mesh (two p)) by apply (va_wf _ pfn (two_valid p pfn)). assert (PL : plate (two p)) by apply (va_plate _ pfn (two_valid p pfn)).
  destruct (prepare (move 0 1 (two p)) pfn) as [n' P2]; [apply mv_valid; [exact W|apply two_valid]|].
  assert (C1 : call_ok (two p) m' pfn 0 (zeros 20)).
  { constructor; [exact P1|apply (va_props _ pfn (two_valid _ pfn))|apply with_one; [exact two_wf|cbn; lra]|lra|reflexivity]. }
  assert (C2 := mv_call _ _ _ _ _ _ _ _ C1 P2).
  destruct (edge_method_add lits_src _ _ pfn 0 mfa _ C1) as [k1 [E1 A1]].
  destruct (edge_method_add lits_src _ _ pfn 0 mfa _ C2) as [k2 [E2 A2]].
  exists m', n', k1, k2. do 4 (split; [assumption|]).
  rewrite (adds_entry _ _ _ _ _ A1), (adds_entry _ _ _ _ _ A2) by (cbn; lia).
  assert (EK : edge_keys (two p) = [(1, 2); (2, 3); (1, 3); (3, 4); (1, 4)]%nat) by reflexivity.
  assert (EK2 : edge_keys (move 0 1 (two p)) = [(1, 2); (2, 3); (1, 3); (3, 4); (1, 4)]%nat) by reflexivity.
  assert (V : forall x, In x (edge_keys (two p)) -> edge_val (two p) pfn ph x = 1)
    by (intros x Hx; apply (all_same_val two_read p pfn ph x two_wf two_plate Hx)).
  assert (CV : forall x l, In x (edge_keys (two p)) -> corr 0 (edge_val (two p) pfn ph x) l = 1) by (intros x l Hx; rewrite (V x Hx); apply corr_zero; lra).
  assert (CV2 : forall x l, In x (edge_keys (two p)) -> corr 0 (edge_val (move 0 1 (two p)) pfn ph x) l = 1)
    by (intros x l Hx; rewrite (mv_edge_val 0 1 _ W); apply (CV x l Hx)).
  assert (BQ : forall x, In x [(1, 2); (2, 3); (3, 4); (1, 4)]%nat -> edge_Q lits_src (move 0 1 (two p)) pfn x (delta 7) (delta 7) = edge_Q lits_src (two p) pfn x (delta 7) (delta 7)).
  { intros x Hx. apply mv_edge_Q; [exact W|rewrite EK; cbn [In] in Hx |- *; tauto|]. right. destruct Hx as [<-|[<-|[<-|[<-|[]]]]]; reflexivity. }
  assert (Q0 := move0 (two p) lits_src pfn (1, 3)%nat (delta 7) (delta 7) W). rewrite EK in Q0. specialize (Q0 (or_intror (or_intror (or_introl eq_refl)))).
  assert (QW0 := two_Q_w p pfn 0). assert (QW1 := two_Q_w p pfn 1). cbv zeta in QW0, QW1. rewrite Q0 in QW0.
  assert (G : edge_G (two p) pfn (1, 3)%nat = (1 * 1, Rmin 1 1 * 0, 1 * 1)).
  { unfold edge_G. cbv zeta. unfold two. rewrite !(all_same_val two_read p pfn _ (1, 3)%nat two_wf two_plate) by (rewrite two_edge_keys; cbn; auto).
    assert (T : tris_on (all_same p two_read) (1, 3)%nat = [two_t1 p; two_t2 p]) by reflexivity. rewrite T. reflexivity. }
  rewrite G in QW0, QW1. cbn [fst snd] in QW0, QW1.
  rewrite EK, EK2. unfold Sum; cbn [map rsum fold_right]. rewrite !CV, !CV2 by (rewrite EK; cbn [In]; tauto). rewrite (BQ (1, 2)%nat), (BQ (2, 3)%nat), (BQ (3, 4)%nat), (BQ (1, 4)%nat) by (cbn [In]; tauto).
  rewrite QW0, QW1. cbn [mentry zeros l6 lits_src]. rnum. lra.
Qed.

(** Edge-based: translating the plate in x has no effect. Missing: translations in y (refuted above). *)
Lemma c37_edge_partial : forall dx m m' n' pfn alpha mfa k, call_ok m m' pfn alpha k -> prepared_from (move dx 0 m) n' ->
  exists k1 k2, add_k0s lits_src k m' pfn "edge-based" alpha mfa = (k1, Ok tt) /\ add_k0s lits_src k n' pfn "edge-based" alpha mfa = (k2, Ok tt) /\ meq k1 k2.
Proof.
  intros dx m m' n' pfn alpha mfa k C P. destruct (call_spec _ _ _ _ _ C) as [W PL]. assert (C2 := mv_call _ _ _ _ _ _ _ _ C P).
  destruct (edge_method_add lits_src m m' pfn alpha mfa k C) as [k1 [E1 A1]].
  destruct (edge_method_add lits_src _ n' pfn alpha mfa k C2) as [k2 [E2 A2]].
  exists k1, k2. split; [exact E1|]. split; [exact E2|]. apply (adds_meq _ _ _ _ _ A1 A2). intros u v.
  change (edge_keys (move dx 0 m)) with (edge_keys m). apply Sum_ext_in. intros x Hx.
  rewrite (mv_edge_val dx 0 m W), (mv_edge_size dx 0 m W) by exact Hx. f_equal. symmetry. apply mv_edge_Q; auto.
Qed.
Lemma c37_edge_partial_ex : forall pfn, (exists m', call_ok ex_mesh m' pfn 2 (zeros 30)) /\ exists n', prepared_from (move 3 0 ex_mesh) n'.
Proof. intros pfn. split; [apply ex_call; lra|apply (ex_moved 3 0 pfn)]. Qed.

(** ** C38 *)

(** The cell-based methods pair k13 with E11 and k23 with E00: without E11 the value of k13 has no effect, without E00 that of k23. *)
Lemma c38_cell : forall method differ m np tp np' tp' m1 m2 pfn alpha mfa k, In method cell_methods -> wf_mesh m ->
  differ = differ_k13 \/ differ = differ_k23 ->
  (forall n, rel_opt differ (np n) (np' n)) -> (forall e, rel_opt differ (tp e) (tp' e)) ->
  call_ok (with_props np tp m) m1 pfn alpha k -> call_ok (with_props np' tp' m) m2 pfn alpha k ->
  exists k1 k2, add_k0s lits_src k m1 pfn method alpha mfa = (k1, Ok tt) /\ add_k0s lits_src k m2 pfn method alpha mfa = (k2, Ok tt) /\ meq k1 k2.
Proof.
  intros method differ m np tp np' tp' m1 m2 pfn alpha mfa k H W DF HN HE C1 C2.
  destruct (cell_methods_add method _ _ pfn alpha mfa k H C1) as [k1 [E1 A1]].
  destruct (cell_methods_add method _ _ pfn alpha mfa k H C2) as [k2 [E2 A2]].
  exists k1, k2. split; [exact E1|]. split; [exact E2|]. apply (adds_meq _ _ _ _ _ A1 A2). intros u v.
  apply (wp_energy_gen m W np tp np' tp' (method_strain method)).
  - intros. unfold method_strain. destruct (String.eqb method "cell-based"); [apply wp_cell|apply wp_ns].
  - intros t Ht. destruct DF as [-> | ->]; [apply differ13|apply differ23]; assumption.
Qed.
Lemma two_call : forall p pfn, 0 < ph p -> exists m', call_ok (two p) m' pfn 0 (zeros 20).
Proof.
  intros p pfn HP. destruct (prepare (two p) pfn (two_valid _ pfn)) as [m' P]. exists m'.
  constructor; [exact P|apply (va_props _ pfn (two_valid _ pfn))|apply with_one; [exact two_wf|exact HP]|lra|reflexivity].
Qed.
Lemma c38_cell_ex : forall pfn, (exists m', call_ok (two (shear_prop 1 0 1 1)) m' pfn 0 (zeros 20)) /\
  (exists m', call_ok (two (shear_prop 1 0 2 1)) m' pfn 0 (zeros 20)) /\ differ_k13 (shear_prop 1 0 1 1) (shear_prop 1 0 2 1) /\
  differ_k23 (shear_prop 0 1 1 1) (shear_prop 0 1 1 2).
Proof. intros pfn. split; [apply two_call; cbn; lra|]. split; [apply two_call; cbn; lra|]. repeat split. Qed.

(** Edge-based: the same two laminates give different matrices (interior edges pair k13 with E00). *)
Lemma c38_edge_refuted : forall pfn mfa, exists p q m1 m2 k1 k2, differ_k13 p q /\
  call_ok (two p) m1 pfn 0 (zeros 20) /\ call_ok (two q) m2 pfn 0 (zeros 20) /\
  add_k0s lits_src (zeros 20) m1 pfn "edge-based" 0 mfa = (k1, Ok tt) /\
  add_k0s lits_src (zeros 20) m2 pfn "edge-based" 0 mfa = (k2, Ok tt) /\ mentry k1 8 8 <> mentry k2 8 8.
Proof.
  intros pfn mfa. set (p := shear_prop 1 0 1 1). set (q := shear_prop 1 0 2 1). exists p, q.
  destruct (two_call p pfn) as [m1 C1]; [cbn; lra|]. destruct (two_call q pfn) as [m2 C2]; [cbn; lra|].
  destruct (edge_method_add lits_src _ _ pfn 0 mfa _ C1) as [k1 [E1 A1]].
  destruct (edge_method_add lits_src _ _ pfn 0 mfa _ C2) as [k2 [E2 A2]].
  exists m1, m2, k1, k2. split; [repeat split|]. do 4 (split; [assumption|]).
  rewrite (adds_entry _ _ _ _ _ A1), (adds_entry _ _ _ _ _ A2) by (cbn; lia).
  assert (EK : forall p, edge_keys (two p) = [(1, 2); (2, 3); (1, 3); (3, 4); (1, 4)]%nat) by reflexivity.
  assert (V : forall p f x, In x [(1, 2); (2, 3); (1, 3); (3, 4); (1, 4)]%nat -> edge_val (two p) pfn f x = f p)
    by (intros p0 f x Hx; apply (all_same_val two_read p0 pfn f x two_wf two_plate Hx)).
  assert (CV : forall p x l, ph p = 1 -> In x [(1, 2); (2, 3); (1, 3); (3, 4); (1, 4)]%nat -> corr 0 (edge_val (two p) pfn ph x) l = 1)
    by (intros p0 x l Hp Hx; rewrite (V p0 ph x Hx), Hp; apply corr_zero; lra).
  assert (BQ : forall x, In x [(1, 2); (2, 3); (3, 4); (1, 4)]%nat -> edge_Q lits_src (two q) pfn x (delta 8) (delta 8) = edge_Q lits_src (two p) pfn x (delta 8) (delta 8)).
  { intros x Hx. apply wp_edge_Q; [exact two_wf|]. unfold edge_G. cbv zeta.
    fold (all_same q two_read) (all_same p two_read) (two q) (two p). rewrite !V by (cbn [In] in Hx |- *; tauto).
    assert (T : forall p, exists t, tris_on (two p) x = [t]) by (intros p0; destruct Hx as [<-|[<-|[<-|[<-|[]]]]]; eexists; reflexivity).
    destruct (T p) as [tp ->]. destruct (T q) as [tq ->]. cbn [p q shear_prop pk13 pk23 pE e00 e11]. repeat (f_equal; try ring). }
  assert (Q0 : forall p, edge_Q lits_src (move 0 0 (two p)) pfn (1, 3)%nat (delta 8) (delta 8) = edge_Q lits_src (two p) pfn (1, 3)%nat (delta 8) (delta 8)).
  { intros p0. apply move0; [apply (va_wf _ pfn (two_valid p0 pfn))|rewrite EK; cbn; auto]. }
  assert (QP : forall p, edge_Q lits_src (two p) pfn (1, 3)%nat (delta 8) (delta 8) = 3 * l36 lits_src * / 36 * (pk13 p * e00 (pE p))).
  { intros p0. rewrite <- Q0. assert (X := two_Q_px p0 pfn). cbv zeta in X. rewrite X. f_equal.
    unfold edge_G. cbv zeta. rewrite !V by (cbn; auto).
    assert (T : tris_on (two p0) (1, 3)%nat = [two_t1 p0; two_t2 p0]) by reflexivity. rewrite T. reflexivity. }
  rewrite !EK. unfold Sum; cbn [map rsum fold_right]. rewrite !CV by (first [reflexivity | cbn; tauto]). rewrite (BQ (1, 2)%nat), (BQ (2, 3)%nat), (BQ (3, 4)%nat), (BQ (1, 4)%nat) by (cbn [In]; tauto). rewrite !QP.
  cbn [p q shear_prop pk13 pE e00 mentry zeros l36 lits_src]. rnum. lra.
Qed.

(** ** C39 *)

(** Edge-based with exact fractions in place of the decimals: symmetric, and zero for translations in w.
    Missing: the decimals of the code (refuted below). *)
Lemma c39_edge_partial : forall m m' pfn alpha mfa k, call_ok m m' pfn alpha k ->
  exists k', add_k0s lits_frac k m' pfn "edge-based" alpha mfa = (k', Ok tt) /\
    (forall i j, (i < mdim k)%nat -> (j < mdim k)%nat -> mentry k' i j - mentry k i j = mentry k' j i - mentry k j i) /\
    forall u, w_translation m u -> forall i, (i < mdim k)%nat -> mulv k' u i = mulv k u i.
Proof.
  intros m m' pfn alpha mfa k C. destruct (call_spec _ _ _ _ _ C) as [W PL].
  destruct (edge_method_add lits_frac m m' pfn alpha mfa k C) as [k' [E A]]. exists k'. split; [exact E|]. split.
  - intros i j Hi Hj. rewrite !(adds_entry _ _ _ _ _ A) by assumption.
    rewrite (Sum_ext_in _ (fun x => corr alpha (edge_val m pfn ph x) (edge_size m mfa x) * edge_Q lits_frac m pfn x (delta i) (delta j))
      (fun x => corr alpha (edge_val m pfn ph x) (edge_size m mfa x) * edge_Q lits_frac m pfn x (delta j) (delta i))); [ring|].
    intros x Hx. rewrite !edge_Q_frac by assumption. rewrite quad2_sym. reflexivity.
  - intros u U i Hi. rewrite (adds_mulv _ _ _ _ _ A Hi). rewrite Sum_zero; [ring|]. intros x Hx.
    rewrite edge_Q_frac, (edge_strain_lift m W x Hx u U) by assumption. unfold quad2; cbn [fst snd]. ring.
Qed.
Lemma c39_edge_partial_ex : (forall pfn, exists m', call_ok ex_mesh m' pfn 2 (zeros 30)) /\ w_translation ex_mesh ex_lift.
Proof. split; [intros; apply ex_call; lra|exact ex_lifted]. Qed.

(** With the decimals of the code the added matrix of a triangle is not symmetric (the entries differ by
    0.166666666666667^2 - 0.0277777777777778), and a translation in w gives a force (of 8 * 10^-30). *)
Lemma c39_edge_refuted : forall pfn mfa, exists m m' k', call_ok m m' pfn 0 (zeros 15) /\
  add_k0s lits_src (zeros 15) m' pfn "edge-based" 0 mfa = (k', Ok tt) /\ mentry k' 7 8 <> mentry k' 8 7 /\
  exists u, w_translation m u /\ mulv k' u 2 <> 0.
Proof.
  intros pfn mfa. set (p := shear_prop 1 1 1 1). exists (tri p).
  destruct (prepare (tri p) pfn (tri_valid _ pfn)) as [m1' P1].
  assert (C1 : call_ok (tri p) m1' pfn 0 (zeros 15)).
  { constructor; [exact P1|apply (va_props _ pfn (tri_valid _ pfn))|apply with_one; [exact tri_wf|cbn; lra]|lra|reflexivity]. }
  destruct (edge_method_add lits_src _ _ pfn 0 mfa _ C1) as [k1 [E1 A1]]. exists m1', k1.
  do 2 (split; [assumption|]).
  assert (V : forall x l, In x (edge_keys (tri p)) -> corr 0 (edge_val (tri p) pfn ph x) l = 1).
  { intros x l Hx. assert (Y : edge_val (tri p) pfn ph x = 1) by apply (all_same_val tri_read p pfn ph x tri_wf tri_plate Hx). rewrite Y. apply corr_zero; lra. }
  assert (SE : forall u v, Sum (fun x => corr 0 (edge_val (tri p) pfn ph x) (edge_size (tri p) mfa x) * edge_Q lits_src (tri p) pfn x u v) (edge_keys (tri p))
     = Sum (fun x => edge_Q lits_src (tri p) pfn x u v) (edge_keys (tri p))).
  { intros u v. apply Sum_ext_in. intros x Hx. rewrite V by exact Hx. ring. }
  split.
  - rewrite !(adds_entry _ _ _ _ _ A1) by (cbn; lia). rewrite !SE.
    assert (X := tri_asym pfn). cbv zeta in X. fold p in X. intros EQ. cbn [mentry zeros] in EQ. revert X.
    match goal with |- ?a - ?b = _ -> _ => replace (a - b) with 0 by lra end. cbn [l6 l36 lits_src]. rnum. lra.
  - exists w_unit. split.
    + exists 1. intros n Hn. unfold comp, affine, w_unit.
      assert (MD : forall c, (c < 5)%nat -> ((rank (tri p) n * 5 + c) mod 5 = c)%nat).
      { intros c Hc. rewrite Nat.add_comm, Nat.mod_add by lia. apply Nat.mod_small, Hc. }
      rewrite !MD by lia. cbn [Nat.eqb]. repeat split; ring.
    + rewrite (adds_mulv _ _ _ _ _ A1) by (cbn; lia). rewrite SE. assert (X := tri_lift pfn). cbv zeta in X. fold p in X. rewrite X.
      rewrite mulv_form by (cbn; lia). rewrite form_zeros. lra.
Qed.
