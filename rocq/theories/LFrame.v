(** Lemmas behind the properties on coordinate systems (C60-C63). *)
(* P: Num Py Mesh Utils CalcK0 CalcKG AddK0s Spec SpecK0 SpecKG SpecK0s SpecFrame Ex ExK0 ExK0s ExFrame *)
From Coq Require Import ZArith Reals List Bool Arith Lra Lia Permutation String.
From Verif Require Import Num Py Mesh Utils CalcK0 CalcKG AddK0s Spec SpecK0 SpecKG SpecK0s SpecFrame FSum FMat FDict FGeom FWf FSetup FAsm FK0
  FTensor FSmooth FDom FAny FKG FRenum FFrame FK0s FK0u FK0r LK0 LKG LK0s Ex ExK0 ExK0s ExFrame.
Import ListNotations.
Local Open Scope R_scope.
Implicit Types (m : mesh R).

Lemma seen_comp : forall F P m, comp (seen_from F P m) = comp m.
Proof. intros. apply fr_comp. Qed.

(** k0 does not depend on the coordinate system: seen from coordinates that are turned or
    reflected, shifted and measured in other units of length (with the laminates given in these
    coordinates), the plate has the same energy for the same displacements. *)
Lemma c60_frame : forall F P m pfn, orthonormal F -> valid m pfn -> all_props m (fun p => same_laminate F p (P p)) ->
  exists m1 m2 K1 K2, calc_k0 m pfn = (m1, Ok K1) /\ calc_k0 (seen_from F P m) pfn = (m2, Ok K2) /\ mdim K2 = mdim K1 /\
  forall u u' v v', turned_field F m u u' -> turned_field F m v v' -> form K2 u' v' = form K1 u v.
Proof.
  intros F P m pfn O V AP. destruct (valid_spec m pfn V) as [m1 [K1 [E1 [D1 [F1 _]]]]].
  destruct (valid_spec _ pfn (fr_valid F O P m (va_wf _ _ V) pfn V)) as [m2 [K2 [E2 [D2 [F2 _]]]]].
  exists m1, m2, K1, K2. split; [exact E1|]. split; [exact E2|]. split; [rewrite D1, D2, fr_len; reflexivity|].
  intros u u' v v' Hu Hv. rewrite F1, F2. apply fr_energy; try assumption; [apply (va_wf _ _ V)|apply (va_plate _ _ V)].
Qed.

(** the plate of Ex.v with its coupled laminates, turned by a quarter; and any plate of laminates
    without preferred direction *)
Lemma c60_frame_ex : (forall pfn, orthonormal quarter /\ valid ex_mesh pfn /\
    all_props ex_mesh (fun p => same_laminate quarter p (quarter_prop p))) /\
  orthonormal slanted /\ valid (two (iso_prop 1)) true /\ all_props (two (iso_prop 1)) (fun p => same_laminate slanted p p).
Proof.
  destruct frames_ortho as [A [B _]]. split; [intros pfn; split; [exact A|split; [apply ex_valid|]]|].
  - apply ex_all. intros c _. apply quarter_same.
  - split; [exact B|]. split; [apply two_valid|]. apply with_one; [apply two_wf|]. apply iso_same; exact B.
Qed.

(** In particular a shift of the origin and a change of the unit of length do not change k0 at all. *)
Lemma c60_similar : forall r tx ty tz m pfn, r <> 0 -> valid m pfn ->
  exists m1 m2 K1 K2, calc_k0 m pfn = (m1, Ok K1) /\
  calc_k0 (seen_from (Frame 1 0 0 1 r tx ty tz) (fun p => p) m) pfn = (m2, Ok K2) /\ meq K2 K1.
Proof.
  intros r tx ty tz m pfn N V. set (F := Frame 1 0 0 1 r tx ty tz).
  assert (O : orthonormal F) by (unfold orthonormal; cbn; repeat split; try lra; exact N).
  destruct (c60_frame F (fun p => p) m pfn O V) as [m1 [m2 [K1 [K2 [E1 [E2 [D X]]]]]]].
  - split; intros; intros e f; f_equal;
      (destruct e; unfold turn_strain, turn_xx, turn_yy, turn_xy; cbn; f_equal; field) ||
      (destruct f; unfold turn_strain, turn_xx, turn_yy, turn_xy; cbn; f_equal; field).
  - exists m1, m2, K1, K2. split; [exact E1|]. split; [exact E2|]. apply meq_form; [exact D|]. intros u v. apply X;
      intros n _; unfold turn_x, turn_y; cbn; repeat split; ring.
Qed.
Lemma c60_similar_ex : forall pfn, valid ex_mesh pfn /\ pos (seen_from zoom (fun p => p) ex_mesh) 2 = V3 (3 * (1 * 4 + 0 * 0) + 7) (3 * (0 * 4 + 1 * 0) + -3) (0 + 1).
Proof. intros pfn; split; [apply ex_valid|reflexivity]. Qed.

(** kG of the same state of the plate does not depend on the coordinate system (its entries belong to
    w, which is the same in all of them).  Displacements are measured in the new unit of length, so
    that the strains and with them the membrane forces are those of the given state. *)
Lemma c61_frame : forall F P m m' n' pfn d d', orthonormal F -> prepared_from m m' -> prepared_from (seen_from F P m) n' ->
  props_complete m pfn -> all_props m (fun p => same_forces F p (P p)) ->
  List.length d = (List.length (nodes m) * 5)%nat -> List.length d' = List.length d ->
  turned_field F m (fun i => fscale F * vec_of d i) (vec_of d') ->
  exists KG KG', calc_kG d m' pfn = Ok KG /\ calc_kG d' n' pfn = Ok KG' /\ meq KG' KG.
Proof.
  intros F P m m' n' pfn d d' O PR PR' PC AP L L' T. destruct (prepared_spec m m' PR) as [W [PL _]].
  destruct (calc_kG_spec m m' pfn d PR PC L) as [KG [E [D X]]].
  destruct (calc_kG_spec _ n' pfn d' PR' (fr_props F P m pfn PC)) as [KG' [E' [D' X']]]; [rewrite fr_len; congruence|].
  exists KG, KG'. split; [exact E|]. split; [exact E'|]. apply meq_form; [rewrite D, D', fr_len; reflexivity|].
  intros u v. rewrite X, X'. apply fr_work; assumption.
Qed.
Lemma c61_frame_ex : orthonormal quarter /\ (exists m', prepared_from ex_mesh m') /\
  (exists n', prepared_from (seen_from quarter quarter_prop ex_mesh) n') /\ all_props ex_mesh (fun p => same_forces quarter p (quarter_prop p)) /\
  let d' := list_of 30 (field ex_mesh (fun c n => match c with
    | 0%nat => - 2 * comp ex_mesh ex_lin 1 n | 1%nat => 2 * comp ex_mesh ex_lin 0 n | 2%nat => 2 * comp ex_mesh ex_lin 2 n
    | 3%nat => - 2 * comp ex_mesh ex_lin 4 n | _ => 2 * comp ex_mesh ex_lin 3 n end)) in
  turned_field quarter ex_mesh (fun i => fscale quarter * vec_of (list_of 30 ex_lin) i) (vec_of d').
Proof.
  destruct frames_ortho as [A _]. split; [exact A|]. split; [apply (prepare _ true), ex_valid|].
  split; [apply (prepare _ true), fr_valid; [exact A|apply ex_wf|apply ex_valid]|].
  split; [apply ex_all; intros c _; apply quarter_forces|].
  intros d' n Hn. unfold d'. rewrite !(comp_list ex_mesh _ _ n) by (try lia; exact Hn). rewrite !field_comp by (try lia; exact Hn).
  assert (X : forall c, (c < 5)%nat -> comp ex_mesh (fun i => fscale quarter * vec_of (list_of 30 ex_lin) i) c n = 2 * comp ex_mesh ex_lin c n).
  { intros c Hc. rewrite <- (comp_list ex_mesh ex_lin c n Hc Hn). reflexivity. }
  rewrite !X by lia. unfold turn_x, turn_y; cbn [quarter fxx fxy fyx fyy]. repeat split; ring.
Qed.

Lemma fr_call : forall F P m m' n' pfn alpha k, call_ok m m' pfn alpha k -> prepared_from (seen_from F P m) n' ->
  all_props m (fun p => same_shear p (P p)) -> call_ok (seen_from F P m) n' pfn alpha k.
Proof.
  intros F P m m' n' pfn alpha k C PR [SN ST]. constructor; [exact PR|apply fr_props, C| |apply C|rewrite fr_len; apply C].
  destruct (co_thick _ _ _ _ _ C) as [TN TT]. split.
  - intros n p. rewrite fr_prop. destruct (nodeprop m n) as [q|] eqn:E; [|discriminate]. intros H; injection H as <-.
    destruct (SN n q E) as [_ [_ [_ ->]]]. apply (TN n q E).
  - intros t p. rewrite fr_trias. intros Ht. apply in_map_iff in Ht. destruct Ht as [t0 [<- Ht]]. cbn [tprop].
    destruct (tprop t0) as [q|] eqn:E; [|discriminate]. intros H; injection H as <-.
    destruct (ST t0 q Ht E) as [_ [_ [_ ->]]]. apply (TT t0 q Ht E).
Qed.

Lemma frame_shear : forall method F P m m' n' pfn alpha mfa k, In method cell_methods -> orthonormal F -> fscale F = 1 ->
  method = "cell-based"%string \/ proper F ->
  call_ok m m' pfn alpha k -> prepared_from (seen_from F P m) n' -> all_props m (fun p => shear_isotropic p /\ same_shear p (P p)) ->
  exists k1 k2, add_k0s lits_src k m' pfn method alpha mfa = (k1, Ok tt) /\ add_k0s lits_src k n' pfn method alpha mfa = (k2, Ok tt) /\
  mdim k1 = mdim k /\ mdim k2 = mdim k /\
  forall u u' v v', turned_field F m u u' -> turned_field F m v v' -> form k2 u' v' - form k u' v' = form k1 u v - form k u v.
Proof.
  intros method F P m m' n' pfn alpha mfa k H O R1 HP C PR [SN ST]. destruct (call_spec _ _ _ _ _ C) as [W PL].
  assert (C2 : call_ok (seen_from F P m) n' pfn alpha k).
  { apply (fr_call F P m m'); [exact C|exact PR|]. split; [intros n p Q; apply (SN n p Q)|intros t p Q1 Q2; apply (ST t p Q1 Q2)]. }
  destruct (cell_methods_add method m m' pfn alpha mfa k H C) as [k1 [E1 A1]].
  destruct (cell_methods_add method _ n' pfn alpha mfa k H C2) as [k2 [E2 A2]].
  exists k1, k2. split; [exact E1|]. split; [exact E2|]. split; [apply A1|]. split; [apply A2|].
  intros u u' v v' Hu Hv. rewrite (proj2 A1), (proj2 A2).
  rewrite (fr_shear F O P m W R1 (method_strain method m) (method_strain method (seen_from F P m)) pfn alpha mfa u u' v v').
  - ring.
  - split; assumption.
  - intros t Ht. unfold method_strain. destruct (String.eqb_spec method "cell-based") as [->|N].
    + split; apply fr_cell; assumption.
    + destruct HP as [->|HP]; [congruence|]. split; apply fr_ns; assumption.
Qed.
(** The shear terms of method "cell-based" for laminates without preferred direction do not depend on
    the orientation of the axes, their handedness and the origin. *)
Lemma c62_cell : forall F P m m' n' pfn alpha mfa k, orthonormal F -> fscale F = 1 ->
  call_ok m m' pfn alpha k -> prepared_from (seen_from F P m) n' -> all_props m (fun p => shear_isotropic p /\ same_shear p (P p)) ->
  exists k1 k2, add_k0s lits_src k m' pfn "cell-based" alpha mfa = (k1, Ok tt) /\ add_k0s lits_src k n' pfn "cell-based" alpha mfa = (k2, Ok tt) /\
  mdim k1 = mdim k /\ mdim k2 = mdim k /\
  forall u u' v v', turned_field F m u u' -> turned_field F m v v' -> form k2 u' v' - form k u' v' = form k1 u v - form k u v.
Proof. intros F P m m' n' pfn alpha mfa k O R C PR A. apply (frame_shear "cell-based" F P m); auto. left; reflexivity. Qed.
Lemma c62_cell_ex : orthonormal slanted /\ fscale slanted = 1 /\ proper slanted /\ orthonormal mirror /\
  (forall pfn, exists m', call_ok (two (iso_prop 1)) m' pfn 2 (zeros 20)) /\
  (exists n', prepared_from (seen_from slanted (fun p => p) (two (iso_prop 1))) n') /\
  all_props (two (iso_prop 1)) (fun p => shear_isotropic p /\ same_shear p p).
Proof.
  destruct frames_ortho as [_ [A [B _]]]. split; [exact A|]. split; [reflexivity|]. split; [unfold proper; cbn; lra|]. split; [exact B|].
  split; [|split].
  - intros pfn. destruct (prepare (two (iso_prop 1)) pfn (two_valid _ pfn)) as [m' PR]. exists m'.
    constructor; [exact PR|apply (va_props _ pfn (two_valid _ pfn))|apply with_one; [exact two_wf|cbn; lra]|lra|reflexivity].
  - apply (prepare _ true), fr_valid; [exact A|apply (va_wf _ true (two_valid _ true))|apply two_valid].
  - apply with_one; [exact two_wf|]. repeat split.
Qed.

(** Without smoothing, the reflection y -> -y of a unit square changes the energy of a displacement
    (a rotation of the second node about x) from zero to something else. *)
Lemma c62_nosmooth_refuted : forall pfn mfa, exists m m' n' k1 k2 u u', call_ok m m' pfn 0 (zeros 20) /\
  prepared_from (seen_from mirror (fun p => p) m) n' /\ all_props m shear_isotropic /\ turned_field mirror m u u' /\
  add_k0s lits_src (zeros 20) m' pfn "cell-based-no-smoothing" 0 mfa = (k1, Ok tt) /\
  add_k0s lits_src (zeros 20) n' pfn "cell-based-no-smoothing" 0 mfa = (k2, Ok tt) /\ form k1 u u = 0 /\ form k2 u' u' = 1/8.
Proof.
  intros pfn mfa. set (p := shear_prop 1 1 1 1). set (m := two p). set (mm := seen_from mirror (fun p => p) m).
  destruct frames_ortho as [_ [_ [O _]]]. assert (V := two_valid p pfn). assert (W := va_wf _ _ V).
  destruct (prepare m pfn V) as [m' PR]. destruct (prepare mm pfn (fr_valid mirror O _ m W pfn V)) as [n' PR'].
  assert (C : call_ok m m' pfn 0 (zeros 20)).
  { constructor; [exact PR|apply (va_props _ _ V)|apply with_one; [exact two_wf|cbn; lra]|lra|reflexivity]. }
  assert (C' : call_ok mm n' pfn 0 (zeros 20)).
  { apply (fr_call mirror (fun p => p) m m'); [exact C|exact PR'|]. apply with_one; [exact two_wf|]. repeat split. }
  destruct (cell_methods_add "cell-based-no-smoothing" m m' pfn 0 mfa _ (or_intror (or_introl eq_refl)) C) as [k1 [E1 A1]].
  destruct (cell_methods_add "cell-based-no-smoothing" mm n' pfn 0 mfa _ (or_intror (or_introl eq_refl)) C') as [k2 [E2 A2]].
  exists m, m', n', k1, k2, (fun i => if Nat.eqb i 9 then 1 else 0), (fun i => if Nat.eqb i 9 then -1 else 0).
  split; [exact C|]. split; [exact PR'|]. split; [apply with_one; [exact two_wf|split; reflexivity]|]. split.
  { intros n Hn. change (node_keys m) with [1; 2; 3; 4]%nat in Hn. cbn [In] in Hn.
    destruct Hn as [<-|[<-|[<-|[<-|[]]]]]; unfold turn_x, turn_y, comp; cbn; repeat split; ring. }
  split; [exact E1|]. split; [exact E2|].
  rewrite (proj2 A1), (proj2 A2), !form_zeros. change (method_strain "cell-based-no-smoothing") with strain_ns. unfold shear_energy.
  change (trias_of m) with [two_t1 p; two_t2 p]. change (trias_of mm) with [two_t1 p; two_t2 p].
  assert (P1 : pos m 1 = V3 0 0 0 /\ pos m 2 = V3 1 0 0 /\ pos m 3 = V3 1 1 0 /\ pos m 4 = V3 0 1 0) by (repeat split).
  assert (P2 : forall n, In n [1; 2; 3; 4]%nat -> pos mm n = place mirror (pos m n)) by (intros n Hn; apply fr_pos; exact Hn).
  destruct P1 as [Q1 [Q2 [Q3 Q4]]].
  assert (T1 : tdet m (two_t1 p) = 1) by (unfold tdet; cbn [two_t1 nth tn1 tn2 tn3]; change (tn1 (two_t1 p)) with 1%nat; change (tn2 (two_t1 p)) with 2%nat; change (tn3 (two_t1 p)) with 3%nat; rewrite Q1, Q2, Q3; unfold det2; cbn [vx vy]; ring).
  assert (T2 : tdet m (two_t2 p) = 1) by (unfold tdet; change (tn1 (two_t2 p)) with 1%nat; change (tn2 (two_t2 p)) with 3%nat; change (tn3 (two_t2 p)) with 4%nat; rewrite Q1, Q3, Q4; unfold det2; cbn [vx vy]; ring).
  assert (S1 : tdet mm (two_t1 p) = -1) by (unfold tdet; change (tn1 (two_t1 p)) with 1%nat; change (tn2 (two_t1 p)) with 2%nat; change (tn3 (two_t1 p)) with 3%nat; rewrite !P2, Q1, Q2, Q3 by (cbn; tauto); unfold det2, place, turn_x, turn_y; cbn; ring).
  assert (S2 : tdet mm (two_t2 p) = -1) by (unfold tdet; change (tn1 (two_t2 p)) with 1%nat; change (tn2 (two_t2 p)) with 3%nat; change (tn3 (two_t2 p)) with 4%nat; rewrite !P2, Q1, Q3, Q4 by (cbn; tauto); unfold det2, place, turn_x, turn_y; cbn; ring).
  assert (VL : forall f t, In t [two_t1 p; two_t2 p] -> tria_val m pfn f t = f p /\ tria_val mm pfn f t = f p).
  { intros f t [<-|[<-|[]]]; unfold tria_val; destruct pfn; cbn; split; try reflexivity; field. }
  assert (GG : forall t, In t [two_t1 p; two_t2 p] -> tria_G44 m pfn t = 1 /\ tria_G55 m pfn t = 1 /\ tria_G44 mm pfn t = 1 /\ tria_G55 mm pfn t = 1).
  { intros t Ht. unfold tria_G44, tria_G55. rewrite !(fun f => proj1 (VL f t Ht)), !(fun f => proj2 (VL f t Ht)). cbn. repeat split; ring. }
  rewrite !Sum_cons, !Sum_nil.
  destruct (GG (two_t1 p)) as [-> [-> [-> ->]]]; [cbn; auto|]. destruct (GG (two_t2 p)) as [-> [-> [-> ->]]]; [cbn; auto|].
  rewrite !(fun f => proj1 (VL f (two_t1 p) (or_introl eq_refl))), !(fun f => proj1 (VL f (two_t2 p) (or_intror (or_introl eq_refl)))).
  rewrite !(fun f => proj2 (VL f (two_t1 p) (or_introl eq_refl))), !(fun f => proj2 (VL f (two_t2 p) (or_intror (or_introl eq_refl)))).
  rewrite !corr_zero by (cbn; lra). unfold tarea, strain_ns. rewrite T1, T2, S1, S2.
  change (tn1 (two_t1 p)) with 1%nat. change (tn2 (two_t1 p)) with 2%nat. change (tn3 (two_t1 p)) with 3%nat.
  change (tn1 (two_t2 p)) with 1%nat. change (tn2 (two_t2 p)) with 3%nat. change (tn3 (two_t2 p)) with 4%nat.
  destruct (Rlt_dec 1 0) as [B|_]; [lra|]. destruct (Rlt_dec (-1) 0) as [_|B]; [|lra].
  rewrite (Rabs_left (-1)), (Rabs_right 1) by lra.
  unfold at_node. rewrite !P2, Q1, Q2, Q3, Q4 by (cbn; tauto). unfold place, turn_x, turn_y, dsg, gap, pdet, comp; cbn.
  split; field.
Qed.

(** Without smoothing: the same for axes of the same handedness. Missing: reflections (refuted above). *)
Lemma c62_nosmooth_partial : forall F P m m' n' pfn alpha mfa k, orthonormal F -> fscale F = 1 -> proper F ->
  call_ok m m' pfn alpha k -> prepared_from (seen_from F P m) n' -> all_props m (fun p => shear_isotropic p /\ same_shear p (P p)) ->
  exists k1 k2, add_k0s lits_src k m' pfn "cell-based-no-smoothing" alpha mfa = (k1, Ok tt) /\
  add_k0s lits_src k n' pfn "cell-based-no-smoothing" alpha mfa = (k2, Ok tt) /\
  mdim k1 = mdim k /\ mdim k2 = mdim k /\
  forall u u' v v', turned_field F m u u' -> turned_field F m v v' -> form k2 u' v' - form k u' v' = form k1 u v - form k u v.
Proof. intros F P m m' n' pfn alpha mfa k O R PF C PR A. apply (frame_shear "cell-based-no-smoothing" F P m); auto. right; left; reflexivity. Qed.
Lemma c62_nosmooth_partial_ex : orthonormal slanted /\ fscale slanted = 1 /\ proper slanted.
Proof. destruct c62_cell_ex as [A [B [C _]]]. auto. Qed.

(** add_k0s uses nothing of the laminates but k13, k23, h and E; the cell-based methods nothing of E but
    the diagonal, so a coupling of the two shear directions has no effect. *)
Lemma c63_cell : forall method m np tp np' tp' m1 m2 pfn alpha mfa k, In method cell_methods -> wf_mesh m ->
  (forall n, rel_opt agree_diag (np n) (np' n)) -> (forall e, rel_opt agree_diag (tp e) (tp' e)) ->
  call_ok (with_props np tp m) m1 pfn alpha k -> call_ok (with_props np' tp' m) m2 pfn alpha k ->
  exists k1 k2, add_k0s lits_src k m1 pfn method alpha mfa = (k1, Ok tt) /\ add_k0s lits_src k m2 pfn method alpha mfa = (k2, Ok tt) /\ meq k1 k2.
Proof.
  intros method m np tp np' tp' m1 m2 pfn alpha mfa k H W HN HE C1 C2.
  destruct (cell_methods_add method _ _ pfn alpha mfa k H C1) as [k1 [E1 A1]].
  destruct (cell_methods_add method _ _ pfn alpha mfa k H C2) as [k2 [E2 A2]].
  exists k1, k2. split; [exact E1|]. split; [exact E2|]. apply (adds_meq _ _ _ _ _ A1 A2). intros u v.
  apply (wp_energy_gen m W np tp np' tp' (method_strain method)).
  - intros. unfold method_strain. destruct (String.eqb method "cell-based"); [apply wp_cell|apply wp_ns].
  - intros t Ht. unfold tria_G44, tria_G55.
    rewrite !(wp_val m W np tp np' tp' pfn agree_diag pk13 pk13 t Ht), !(wp_val m W np tp np' tp' pfn agree_diag pk23 pk23 t Ht),
      !(wp_val m W np tp np' tp' pfn agree_diag ph ph t Ht),
      !(wp_val m W np tp np' tp' pfn agree_diag (fun p => e00 (pE p)) (fun p => e00 (pE p)) t Ht),
      !(wp_val m W np tp np' tp' pfn agree_diag (fun p => e11 (pE p)) (fun p => e11 (pE p)) t Ht);
      auto; intros p q [X1 [X2 [X3 [X4 X5]]]]; assumption.
Qed.
Lemma c63_edge : forall m np tp np' tp' m1 m2 pfn alpha mfa k, wf_mesh m ->
  (forall n, rel_opt agree_shear (np n) (np' n)) -> (forall e, rel_opt agree_shear (tp e) (tp' e)) ->
  call_ok (with_props np tp m) m1 pfn alpha k -> call_ok (with_props np' tp' m) m2 pfn alpha k ->
  exists k1 k2, add_k0s lits_src k m1 pfn "edge-based" alpha mfa = (k1, Ok tt) /\ add_k0s lits_src k m2 pfn "edge-based" alpha mfa = (k2, Ok tt) /\ meq k1 k2.
Proof.
  intros m np tp np' tp' m1 m2 pfn alpha mfa k W HN HE C1 C2.
  destruct (edge_method_add lits_src _ _ pfn alpha mfa k C1) as [k1 [E1 A1]].
  destruct (edge_method_add lits_src _ _ pfn alpha mfa k C2) as [k2 [E2 A2]].
  exists k1, k2. split; [exact E1|]. split; [exact E2|]. apply (adds_meq _ _ _ _ _ A1 A2). intros u v.
  rewrite !wp_edges. apply Sum_ext_in. intros x Hx.
  assert (TA : forall np tp t, tarea (with_props np tp m) (wp_tria tp t) = tarea m t)
    by (intros; unfold tarea, tdet; rewrite wp_pos; reflexivity).
  assert (EV : forall f, (forall p q, agree_shear p q -> f p = f q) ->
    edge_val (with_props np tp m) pfn f x = edge_val (with_props np' tp' m) pfn f x).
  { intros f Hf. assert (PV : forall o o', rel_opt agree_shear o o' -> pval f o = pval f o') by (intros [p|] [q|] Y; cbn in *; try contradiction; auto).
    destruct (ready_nodes m x (fst x) (snd x) W Hx (or_introl (eq_sym (surjective_pairing x)))) as [K1 [K2 _]].
    assert (TN : forall t, In t (tris_on m x) -> In (third t x) (node_keys m)).
    { intros t Ht. destruct (tria_node m x t (fst x) (snd x) W Hx (or_introl (eq_sym (surjective_pairing x))) Ht) as [_ [_ [_ [X _]]]]. exact X. }
    unfold edge_val. rewrite !(wp_tris_on m W). destruct (tris_on m x) as [|t [|t' [|]]]; cbn [map]; try reflexivity.
    - change (third (wp_tria tp t) x) with (third t x). change (third (wp_tria tp' t) x) with (third t x).
      rewrite !wp_prop by (try assumption; apply TN; cbn; auto). rewrite !(PV _ _ (HN _)). cbn [wp_tria tprop]. rewrite !(PV _ _ (HE _)). reflexivity.
    - change (third (wp_tria tp t) x) with (third t x). change (third (wp_tria tp' t) x) with (third t x).
      change (third (wp_tria tp t') x) with (third t' x). change (third (wp_tria tp' t') x) with (third t' x). rewrite !TA.
      rewrite !wp_prop by (try assumption; apply TN; cbn; auto). rewrite !(PV _ _ (HN _)). cbn [wp_tria tprop]. rewrite !(PV _ _ (HE _)). reflexivity. }
  rewrite (EV ph) by (intros p q [[_ [_ [Y _]]] _]; exact Y).
  assert (ES : forall np tp, edge_size (with_props np tp m) mfa x = edge_size m mfa x).
  { intros a b. unfold edge_size. rewrite (wp_dom m W), wp_pos, (wp_tris_on m W). destruct mfa; [reflexivity|]. cbv zeta.
    induction (tris_on m x) as [|t l IH]; [reflexivity|]. cbn [map fold_right]. rewrite IH.
    assert (CT : centroid (with_props a b m) (wp_tria b t) = centroid m t) by (unfold centroid; rewrite wp_pos; reflexivity). rewrite CT. reflexivity. }
  rewrite !ES. f_equal. apply wp_edge_Q; [exact W|]. unfold edge_G. cbv zeta.
  rewrite (EV pk13), (EV pk23), (EV (fun p => e00 (pE p))), (EV (fun p => e01 (pE p))), (EV (fun p => e11 (pE p)))
    by (intros p q [[Y1 [Y2 [Y3 [Y4 Y5]]]] Y6]; assumption).
  rewrite !(wp_tris_on m W). destruct (tris_on m x) as [|t [|t' l]]; reflexivity.
Qed.
(** laminates that differ in A, B, D and, for the cell-based methods, in the coupling terms of E *)
Lemma c63_cell_ex : let p := shear_prop 1 2 1 1 in
  let q := {| pA := pA (ex_prop 1); pB := pB (ex_prop 1); pD := pD (ex_prop 1); pE := M2 1 7 7 2; ph := 1; pk13 := 1; pk23 := 1 |} in
  agree_diag p q /\ (forall pfn, exists m', call_ok (two p) m' pfn 0 (zeros 20)) /\ (forall pfn, exists m', call_ok (two q) m' pfn 0 (zeros 20)).
Proof. intros p q. split; [repeat split|]. split; intros pfn; apply two_call; cbn; lra. Qed.
Lemma c63_edge_ex : let p := shear_prop 1 2 1 1 in
  let q := {| pA := pA (ex_prop 1); pB := pB (ex_prop 1); pD := pD (ex_prop 1); pE := M2 1 0 7 2; ph := 1; pk13 := 1; pk23 := 1 |} in
  agree_shear p q /\ (forall pfn, exists m', call_ok (two p) m' pfn 0 (zeros 20)) /\ (forall pfn, exists m', call_ok (two q) m' pfn 0 (zeros 20)).
Proof. intros p q. split; [repeat split|]. split; intros pfn; apply two_call; cbn; lra. Qed.
