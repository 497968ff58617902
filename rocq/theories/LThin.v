(** Lemmas behind the behaviour of thin plates (C100). *)
(* P: Num Py Mesh Utils CalcK0 CalcKG AddK0s Spec SpecK0 SpecKG SpecK0s SpecStab SpecStat SpecMono SpecThin Ex ExStab ExThin *)
From Coq Require Import ZArith Reals List Bool Arith Lra Lia String FunctionalExtensionality.
From Verif Require Import Num Py Mesh Utils CalcK0 CalcKG AddK0s Spec SpecK0 SpecKG SpecK0s SpecStab SpecStat SpecMono SpecThin
  FSum FMat FDict FGeom FWf FSetup FAsm FDom FAny FKG FK0s FK0t FK0u FStab3 FLin FLin2 FLin3 FThin LK0 LKG LK0s LStab LStat Ex ExStab ExThin.
Import ListNotations.
Local Open Scope R_scope.
Implicit Types (m : mesh R).

(** work of the loads in two problems when one form bounds the other *)
Lemma scaled_compliance : forall K1 K2 S load1 load2 d1 d2 (T : (nat -> R) -> nat -> R) c w, mdim K2 = mdim K1 -> 0 < c ->
  (forall u v, form K2 u v = form K2 v u) -> (forall u, 0 <= form K2 u u) ->
  (forall u, admissible (mdim K1) S u -> admissible (mdim K1) S (T u)) -> (forall u, form K2 (T u) (T u) <= c * form K1 u u) ->
  (forall u, load_work (mdim K1) load2 (T u) = w * load_work (mdim K1) load1 u) ->
  solves K1 S load1 d1 -> solves K2 S load2 d2 ->
  w * w / c * load_work (mdim K1) load1 d1 <= load_work (mdim K1) load2 d2.
Proof.
  intros K1 K2 S load1 load2 d1 d2 T c w D Hc SY P AT LE WT H1 H2.
  assert (A1 := solves_admissible K1 S load1 d1 H1). assert (W1 := solves_work K1 S load1 d1 d1 H1 A1).
  set (v := fun i => w / c * T d1 i + 0 * T d1 i).
  assert (AV : admissible (mdim K2) S v) by (rewrite D; apply adm_lin; apply AT, A1).
  assert (X := potential_at K2 S SY load2 d2 v H2 AV). rewrite (potential_sol K2 S load2 d2 H2) in X. unfold potential in X.
  assert (Q := P (fun i => 1 * v i + -1 * d2 i)).
  assert (FV : form K2 v v = w / c * (w / c) * form K2 (T d1) (T d1)) by (unfold v; rewrite form_lin_l, !form_lin_r; ring).
  assert (LV : load_work (mdim K2) load2 v = w / c * (w * load_work (mdim K1) load1 d1)).
  { rewrite D, <- WT. unfold load_work. rewrite <- Sum_scal. apply Sum_ext. intros i. unfold v. ring. }
  rewrite FV, LV, D in X. assert (Y := LE d1). rewrite W1 in Y. set (b := load_work (mdim K1) load1 d1) in *. set (a := form K2 (T d1) (T d1)) in *.
  assert (Z : w / c * (w / c) * a <= w / c * (w / c) * (c * b)) by (apply Rmult_le_compat_l; [apply Rle_0_sqr|exact Y]).
  replace (w / c * (w / c) * (c * b)) with (w * w / c * b) in Z by (field; lra). replace (w / c * (w * b)) with (w * w / c * b) in X by (field; lra). lra.
Qed.

Lemma back_id : forall s u, 0 < s -> thin_field s (thin_field (/ s) u) = u.
Proof. intros s u Hs. extensionality i. apply th_back, Hs. Qed.

(** With the correction of the shear stiffness by [alpha] > 0 the cell-based methods do not lock when all laminates get
    thinner: k0 scales exactly as the cube of the thickness, with the shear stiffness the matrix is between that and
    (1 + r) times that, with r from the thickness and the sizes of the triangles before, however thin it gets. So the
    work done by loads scaled like the bending stiffness stays between 1 / (1 + r) and 1 times what it was. *)
Lemma c100_thin : forall method m pfn alpha mfa r s, In method cell_methods -> valid m pfn -> all_props m pos_def -> all_props m shear_pos ->
  0 < alpha -> 0 <= r -> thinner m mfa alpha r -> 0 < s <= 1 ->
  exists m1 K1 k1 m2 K2 k2,
    calc_k0 m pfn = (m1, Ok K1) /\ add_k0s lits_src K1 m1 pfn method alpha mfa = (k1, Ok tt) /\
    calc_k0 (mesh_thin s m) pfn = (m2, Ok K2) /\ add_k0s lits_src K2 m2 pfn method alpha mfa = (k2, Ok tt) /\
    mdim k1 = (List.length (nodes m) * 5)%nat /\ mdim k2 = mdim k1 /\
    (forall u v, form K2 (thin_field s u) (thin_field s v) = s ^ 3 * form K1 u v) /\
    (forall u, s ^ 3 * form k1 u u <= form k2 (thin_field s u) (thin_field s u) <= s ^ 3 * ((1 + r) * form k1 u u)) /\
    forall S load d1 d2, solves k1 S load d1 -> solves k2 S (thin_load s load) d2 ->
      / (1 + r) * load_work (mdim k1) load d1 <= load_work (mdim k1) (thin_load s load) d2 / s ^ 3 <= load_work (mdim k1) load d1.
Proof.
  intros method m pfn alpha mfa r s MT V PP SP A Hr TH [Hs S1]. assert (W := va_wf _ _ V). assert (PL := va_plate _ _ V).
  assert (V' := th_valid s m W pfn V). assert (PP' := th_pd s Hs m PP). assert (SP' := th_sp s Hs m SP). assert (A0 := Rlt_le _ _ A).
  destruct (total_spec method MT m pfn V alpha mfa SP A0) as [m1 [K1 [k1 [E1 [G1 [D1 F1]]]]]].
  destruct (total_spec method MT (mesh_thin s m) pfn V' alpha mfa SP' A0) as [m2 [K2 [k2 [E2 [G2 [D2 F2]]]]]].
  assert (DD : mdim k2 = mdim k1) by (rewrite D1, D2, th_len; reflexivity).
  destruct (valid_spec m pfn V) as [m1' [K1' [E1' [_ [H1 _]]]]]. rewrite E1 in E1'. injection E1' as <- <-.
  destruct (valid_spec (mesh_thin s m) pfn V') as [m2' [K2' [E2' [_ [H2 _]]]]]. rewrite E2 in E2'. injection E2' as <- <-.
  assert (S3 := pow_lt s 3 Hs).
  assert (LO : forall u, s ^ 3 * form k1 u u <= form k2 (thin_field s u) (thin_field s u)).
  { intros u. rewrite F1, F2, (th_energy s m). assert (X := shear_lower s Hs m PL pfn V SP method alpha mfa u A0 S1). lra. }
  assert (UP : forall u, form k2 (thin_field s u) (thin_field s u) <= s ^ 3 * ((1 + r) * form k1 u u)).
  { intros u. rewrite F1, F2, (th_energy s m). assert (X := shear_upper s Hs m PL pfn V SP method alpha mfa r u A Hr TH).
    assert (Y := k0_nonneg m pfn V PP u). assert (Z := Rmult_le_pos _ _ (Rlt_le _ _ S3) (Rmult_le_pos _ _ Hr Y)). lra. }
  exists m1, K1, k1, m2, K2, k2. repeat (split; [assumption|]). split; [intros u v; rewrite H1, H2; apply (th_energy s m)|].
  split; [intros u; split; [apply LO|apply UP]|]. intros S load d1 d2 X1 X2. split.
  - assert (Q := scaled_compliance k1 k2 S load (thin_load s load) d1 d2 (thin_field s) (s ^ 3 * (1 + r)) (s ^ 3) DD). 
    apply (Rmult_le_reg_l (s ^ 3)); [exact S3|].
    replace (s ^ 3 * (load_work (mdim k1) (thin_load s load) d2 / s ^ 3)) with (load_work (mdim k1) (thin_load s load) d2) by (field; lra).
    replace (s ^ 3 * (/ (1 + r) * load_work (mdim k1) load d1)) with (s ^ 3 * s ^ 3 / (s ^ 3 * (1 + r)) * load_work (mdim k1) load d1) by (field; lra).
    apply Q; [apply Rmult_lt_0_compat; lra| | | | | |exact X1|exact X2].
    + apply (tot_sym method _ pfn alpha mfa k2 F2).
    + intros u. rewrite F2. apply (total_nonneg method _ pfn V' alpha mfa PP' SP' A0).
    + intros u. apply th_admissible.
    + intros u. rewrite Rmult_assoc. apply UP.
    + intros u. apply th_work.
  - assert (Q := scaled_compliance k2 k1 S (thin_load s load) load d2 d1 (thin_field (/ s)) (/ s ^ 3) (/ s ^ 3) (eq_sym DD)).
    rewrite DD in Q. replace (load_work (mdim k1) (thin_load s load) d2 / s ^ 3) with (/ s ^ 3 * / s ^ 3 / (/ s ^ 3) * load_work (mdim k1) (thin_load s load) d2) by (field; lra).
    apply Q; [apply Rinv_0_lt_compat, S3| | | | | |exact X2|exact X1].
    + apply (tot_sym method _ pfn alpha mfa k1 F1).
    + intros u. rewrite F1. apply (total_nonneg method _ pfn V alpha mfa PP SP A0).
    + intros u. apply th_admissible.
    + intros u. assert (X := LO (thin_field (/ s) u)). rewrite (back_id s u Hs) in X.
      apply (Rmult_le_reg_l (s ^ 3)); [exact S3|]. replace (s ^ 3 * (/ s ^ 3 * form k2 u u)) with (form k2 u u) by (field; lra). exact X.
    + intros u. assert (X := th_work s (mdim k1) load (thin_field (/ s) u)). rewrite (back_id s u Hs) in X. rewrite X. field. lra.
Qed.
Lemma c100_thin_ex : forall pfn, valid ex_mesh pfn /\ all_props ex_mesh pos_def /\ all_props ex_mesh shear_pos /\ thinner ex_mesh true (3 / 20) (1 / 20).
Proof. intros pfn. split; [apply ex_valid|]. split; [exact ex_all_pd|]. split; [exact ex_all_sp|exact ex_thinner]. Qed.

Lemma proj_method : forall method m u t, method_strain method m (thin_field 0 u) t = method_strain method m u t.
Proof.
  intros method m u t.
  assert (X : forall n, at_node m (thin_field 0 u) n = at_node m u n).
  { intros n. unfold at_node. rewrite !th_dof by lia. cbn [Nat.ltb Nat.leb]. rewrite !Rmult_1_l. reflexivity. }
  unfold method_strain. destruct (String.eqb method "cell-based"); [unfold strain_cell|unfold strain_ns]; rewrite !X; reflexivity.
Qed.

(** Without the correction ([alpha] = 0) they do lock on a plate whose supports allow no bending without shear strains: the
    work of transverse loads and moments scaled like the bending stiffness goes to zero like the square of the thickness. *)
Lemma c100_locking : forall method m pfn mfa S load, In method cell_methods -> valid m pfn -> all_props m pos_def -> all_props m shear_pos ->
  no_pure_bending method m S -> (forall i, (i mod 5 < 2)%nat -> load i = 0) ->
  exists C, 0 <= C /\ forall s, 0 < s -> exists m2 K2 k2,
    calc_k0 (mesh_thin s m) pfn = (m2, Ok K2) /\ add_k0s lits_src K2 m2 pfn method 0 mfa = (k2, Ok tt) /\
    forall d, solves k2 S (thin_load s load) d -> 0 <= load_work (mdim k2) (thin_load s load) d / s ^ 3 <= C * s ^ 2.
Proof.
  intros method m pfn mfa S load MT V PP SP NB L0. assert (W := va_wf _ _ V). assert (PL := va_plate _ _ V).
  set (n := (List.length (nodes m) * 5)%nat).
  destruct (valid_spec m pfn V) as [m1 [K1 [E1 [D1 [F1 _]]]]].
  assert (C0 : call_ok m m1 pfn 0 (Matrix n (fun _ _ => 0))).
  { constructor; [exists pfn, K1; auto|exact (va_props _ _ V)|apply sp_thick, SP|lra|reflexivity]. }
  destruct (cell_methods_add method m m1 pfn 0 mfa _ MT C0) as [M [_ [DM FM]]]. cbn [mdim] in DM.
  assert (FM' : forall u v, form M u v = shear_energy (method_strain method m) m pfn 0 mfa u v).
  { intros u v. rewrite FM. assert (Z : form (Matrix n (fun _ _ => 0)) u v = 0).
    { unfold form. apply Sum_zero; intros i _. apply Sum_zero; intros j _. cbn [mentry]. ring. }
    rewrite Z. ring. }
  assert (SY : forall u v, form M u v = form M v u) by (intros u v; rewrite !FM', energy_sym; reflexivity).
  assert (P : forall u, 0 <= form M u u) by (intros u; rewrite FM'; apply (shear_nonneg m pfn V SP 0 (Rle_refl 0))).
  assert (PZ : forall u, admissible (mdim M) (in_plane S) u -> form M u u = 0 -> forall i, (i < mdim M)%nat -> u i = 0).
  { intros u AU Z. rewrite DM in *. apply NB; [exact AU|]. rewrite FM' in Z. apply (shear_zero m pfn V SP 0 (Rle_refl 0) mfa (method_strain method m) u). exact Z. }
  destruct (solve_unique M (in_plane S) (fun u AU => conj (P u) (PZ u AU)) load) as [z [HZ _]].
  assert (AZ := solves_admissible M (in_plane S) load z HZ).
  exists (form M z z). split; [apply P|]. intros s Hs.
  assert (V' := th_valid s m W pfn V). assert (PP' := th_pd s Hs m PP). assert (SP' := th_sp s Hs m SP).
  destruct (total_spec method MT (mesh_thin s m) pfn V' 0 mfa SP' (Rle_refl 0)) as [m2 [K2 [k2 [E2 [G2 [D2 F2]]]]]]. rewrite th_len in D2. fold n in D2.
  exists m2, K2, k2. split; [exact E2|]. split; [exact G2|]. intros d H. assert (S3 := pow_lt s 3 Hs).
  assert (AD := solves_admissible k2 S _ d H). assert (WD := solves_work k2 S _ d d H AD).
  set (b := load_work (mdim k2) (thin_load s load) d) in *.
  set (e := thin_field 0 d).
  assert (AE : admissible (mdim M) (in_plane S) e).
  { rewrite DM, <- D2. intros i Hi Si. unfold e, thin_field. destruct (i mod 5 <? 2)%nat eqn:Q; [ring|]. rewrite (AD i Hi); [ring|]. unfold in_plane in Si. rewrite Q, orb_false_r in Si. exact Si. }
  assert (LB : b = s ^ 3 * form M e z).
  { rewrite (solves_work M (in_plane S) load z e HZ AE). unfold b. rewrite DM, D2. unfold load_work. rewrite <- Sum_scal. apply Sum_ext. intros i.
    unfold thin_load, e, thin_field. destruct (Nat.ltb_spec (i mod 5) 2) as [Q|Q]; [rewrite (L0 i Q)|]; ring. }
  assert (BE : s * form M e e <= b).
  { rewrite <- WD, F2. assert (X := k0_nonneg _ pfn V' PP' d).
    assert (Y : shear_energy (method_strain method (mesh_thin s m)) (mesh_thin s m) pfn 0 mfa d d = s * form M e e); [|lra].
    rewrite <- (back_id s d Hs) at 1 2. rewrite (shear_uncorrected s Hs m pfn V SP), FM'. f_equal. unfold e, shear_energy. apply Sum_ext. intros t.
    rewrite proj_method. rewrite <- (proj_method method m (thin_field (/ s) d)), <- (proj_method method m d).
    replace (thin_field 0 (thin_field (/ s) d)) with (thin_field 0 d); [reflexivity|]. extensionality i. unfold thin_field. destruct (_ <? _)%nat; ring. }
  assert (CS := cauchy M (in_plane S) SY (fun u _ => P u) e z AE AZ).
  assert (PE := P e). assert (PZZ := P z). set (q := form M z z) in *. set (x := form M e e) in *. set (y := form M e z) in *.
  assert (B0 : 0 <= b) by (assert (X := Rmult_le_pos _ _ (Rlt_le _ _ Hs) PE); lra).
  replace (b / s ^ 3) with y by (rewrite LB; field; lra).
  assert (Y0 : 0 <= y) by (rewrite LB in B0; destruct (Rle_dec 0 y) as [Q|Q]; [exact Q|exfalso; assert (X := Rmult_lt_0_compat (s ^ 3) (- y) S3 ltac:(lra)); lra]).
  split; [exact Y0|].
  assert (XY : x <= s ^ 2 * y) by (apply (Rmult_le_reg_l s); [exact Hs|]; replace (s * (s ^ 2 * y)) with (s ^ 3 * y) by ring; lra).
  destruct Y0 as [Y0|<-]; [|apply Rmult_le_pos; [exact PZZ|apply pow_le; lra]].
  apply (Rmult_le_reg_r y); [exact Y0|]. apply Rle_trans with (1 := CS). rewrite (Rmult_comm x q), Rmult_assoc. apply Rmult_le_compat_l; assumption.
Qed.
Lemma c100_locking_ex : no_pure_bending "cell-based-no-smoothing" ex_mesh ex_only5 /\ valid ex_mesh false /\ ex_only5 21 = false /\ ex_only5 22 = false.
Proof. split; [exact ex_no_pure|]. split; [apply ex_valid|]. split; reflexivity. Qed.

(** ** Buckling *)

Lemma scaled_factor : forall K1 G1 K2 G2 S (T : (nat -> R) -> nat -> R) c g, mdim G1 = mdim K1 -> mdim K2 = mdim K1 -> mdim G2 = mdim K1 -> 0 < c -> 0 < g ->
  (forall u v, form K1 u v = form K1 v u) -> (forall u v, form G1 u v = form G1 v u) ->
  (forall u, admissible (mdim K1) S u -> 0 <= form K1 u u /\ (form K1 u u = 0 -> forall i, (i < mdim K1)%nat -> u i = 0)) ->
  (forall u, admissible (mdim K1) S u -> 0 <= form K2 u u /\ (form K2 u u = 0 -> forall i, (i < mdim K1)%nat -> u i = 0)) ->
  (forall u, admissible (mdim K1) S u -> admissible (mdim K1) S (T u)) -> (forall u, nonzero (mdim K1) u -> nonzero (mdim K1) (T u)) ->
  (forall u, form K1 (T u) (T u) <= c * form K2 u u) -> (forall u, form G1 (T u) (T u) = g * form G2 u u) ->
  forall b, critical_factor K2 G2 S b -> exists a, critical_factor K1 G1 S a /\ a <= c / g * b.
Proof.
  intros K1 G1 K2 G2 S T c g DG1 D2 DG2 Hc Hg Y1 YG1 PD1 PD2 AT NT LE EG b [Hb [[x [N M]] _]].
  rewrite D2 in N. assert (PD2' : forall u, (forall i, (i < mdim K2)%nat -> S i = true -> u i = 0) -> 0 <= form K2 u u /\ (form K2 u u = 0 -> forall i, (i < mdim K2)%nat -> u i = 0)) by (rewrite D2; exact PD2).
  destruct (mode_work K2 G2 S ltac:(congruence) PD2' b x M ltac:(rewrite D2; exact N)) as [Q1 Q2].
  assert (AX : admissible (mdim K1) S x) by (rewrite <- D2; apply M). assert (A := AT x AX). assert (NX := NT x N).
  assert (NG2 : form G2 x x < 0). { apply Rnot_le_lt. intros G. assert (Y := Rmult_le_pos b _ (Rlt_le _ _ Hb) G). lra. }
  assert (NG : form G1 (T x) (T x) < 0). { rewrite EG. assert (Y := Rmult_lt_0_compat g (- form G2 x x) Hg ltac:(lra)). lra. }
  destruct (critical K1 G1 S DG1 Y1 YG1 PD1) as [a [y [Ha [MY [NY [BE _]]]]]]; [exists (T x); auto|]. exists a.
  split; [split; [exact Ha|split; [exists y; auto|]]|].
  - intros e z He MZ NZ. destruct (mode_work K1 G1 S DG1 PD1 e z MZ NZ) as [W1 W2]. assert (P := BE e z ltac:(lra) (proj1 MZ) NZ). lra.
  - apply Rnot_lt_le. intros L. assert (CB : 0 < c / g * b) by (apply Rmult_lt_0_compat; [apply Rdiv_lt_0_compat; assumption|exact Hb]).
    assert (P := BE (c / g * b) (T x) ltac:(lra) A NX). assert (Q := LE x). rewrite EG in P.
    replace (c / g * b * (g * form G2 x x)) with (c * (b * form G2 x x)) in P by (field; lra). rewrite Q2 in Q. lra.
Qed.
Lemma critical_unique : forall K KG S a b, critical_factor K KG S a -> critical_factor K KG S b -> a = b.
Proof.
  intros K KG S a b [Ha [[x [NX MX]] LX]] [Hb [[y [NY MY]] LY]]. destruct (Rtotal_order a b) as [L|[E|L]]; [exfalso|exact E|exfalso].
  - exact (LY a x (conj Ha L) MX NX).
  - exact (LX b y (conj Hb L) MY NY).
Qed.
Lemma thin_nonzero : forall s n u, 0 < s -> nonzero n u -> nonzero n (thin_field s u).
Proof.
  intros s n u Hs [i [Hi N]]. exists i. split; [exact Hi|]. intros Z. apply N. unfold thin_field in Z. apply Rmult_integral in Z. destruct Z as [Z|Z]; [destruct (_ <? _)%nat; lra|exact Z].
Qed.

(** With [alpha] > 0 the critical load factor of the thinner plate, under membrane displacements reduced like the thickness, is between [s] and
    s (1 + r) times the one before, so the critical membrane forces, which are the load factor times forces that go
    with s^2, go with the cube of the thickness, as the bending stiffness does. *)
Lemma c100_buckling : forall method m pfn alpha mfa r s, In method cell_methods -> valid m pfn -> all_props m pos_def -> all_props m shear_pos ->
  braced method m -> 0 < alpha -> 0 <= r -> thinner m mfa alpha r -> 0 < s <= 1 ->
  exists m1 K1 k1 m2 K2 k2,
    calc_k0 m pfn = (m1, Ok K1) /\ add_k0s lits_src K1 m1 pfn method alpha mfa = (k1, Ok tt) /\
    calc_k0 (mesh_thin s m) pfn = (m2, Ok K2) /\ add_k0s lits_src K2 m2 pfn method alpha mfa = (k2, Ok tt) /\
    forall S d d', supported (1 + literal_error method) m S -> List.length d = (List.length (nodes m) * 5)%nat -> List.length d' = List.length d ->
      (forall i, vec_of d' i = thin_field s (vec_of d) i) ->
      exists G1 G2, calc_kG d m1 pfn = Ok G1 /\ calc_kG d' m2 pfn = Ok G2 /\
        (forall u v, form G2 (thin_field s u) (thin_field s v) = s ^ 2 * form G1 u v) /\
        (forall a1, critical_factor k1 G1 S a1 -> exists a2, critical_factor k2 G2 S a2) /\
        (forall a2, critical_factor k2 G2 S a2 -> exists a1, critical_factor k1 G1 S a1 /\ s * a1 <= a2 <= s * ((1 + r) * a1)).
Proof.
  intros method m pfn alpha mfa r s MT V PP SP BR A Hr TH HS. assert (HS' := HS). destruct HS' as [Hs S1].
  assert (W := va_wf _ _ V). assert (V' := th_valid s m W pfn V). assert (SP' := th_sp s Hs m SP). assert (A0 := Rlt_le _ _ A).
  destruct (c100_thin method m pfn alpha mfa r s MT V PP SP A Hr TH HS) as [m1 [K1 [k1 [m2 [K2 [k2 [E1 [G1 [E2 [G2 [D1 [DD [_ [BD _]]]]]]]]]]]]]].
  exists m1, K1, k1, m2, K2, k2. repeat (split; [assumption|]). intros S d d' SU L L' HD.
  destruct (total_spec method MT m pfn V alpha mfa SP A0) as [x1 [X1 [y1 [H1 [H1' [_ F1]]]]]]. rewrite E1 in H1. injection H1 as <- <-. rewrite G1 in H1'. injection H1' as <-.
  destruct (total_spec method MT (mesh_thin s m) pfn V' alpha mfa SP' A0) as [x2 [X2 [y2 [H2 [H2' [_ F2]]]]]]. rewrite E2 in H2. injection H2 as <- <-. rewrite G2 in H2'. injection H2' as <-.
  assert (L2 := th_len s m).
  destruct (calc_kG_spec m m1 pfn d) as [KG1 [EG1 [DG1 FG1]]]; [exists pfn, K1; auto|apply (va_props _ _ V)|exact L|].
  destruct (calc_kG_spec (mesh_thin s m) m2 pfn d') as [KG2 [EG2 [DG2 FG2]]]; [exists pfn, K2; auto|apply (va_props _ _ V')|rewrite L2; congruence|].
  exists KG1, KG2. split; [exact EG1|]. split; [exact EG2|].
  assert (VD : vec_of d' = thin_field s (vec_of d)) by (extensionality i; apply HD).
  assert (EG : forall u v, form KG2 (thin_field s u) (thin_field s v) = s ^ 2 * form KG1 u v) by (intros u v; rewrite FG1, FG2, VD; apply th_kG).
  split; [exact EG|].
  assert (Y1 := tot_sym method m pfn alpha mfa k1 F1). assert (Y2 := tot_sym method _ pfn alpha mfa k2 F2).
  assert (P1 := tot_pd method MT m pfn V alpha mfa PP SP A0 BR k1 D1 F1 S SU). fold (admissible (mdim k1) S) in P1.
  assert (S3 := pow_lt s 3 Hs). assert (S2 := pow_lt s 2 Hs). assert (IS := Rinv_0_lt_compat s Hs).
  assert (P2 : forall u, admissible (mdim k1) S u -> 0 <= form k2 u u /\ (form k2 u u = 0 -> forall i, (i < mdim k1)%nat -> u i = 0)).
  { intros u AU. assert (X := proj1 (BD (thin_field (/ s) u))). rewrite (back_id s u Hs) in X.
    destruct (P1 _ (th_admissible (/ s) S _ u AU)) as [Q Z]. assert (Q' := Rmult_le_pos _ _ (Rlt_le _ _ S3) Q). split; [lra|]. intros E i Hi.
    rewrite <- (back_id s u Hs). unfold thin_field at 1. rewrite Z; [ring| |exact Hi].
    rewrite E in X. assert (Q2 : s ^ 3 * form k1 (thin_field (/ s) u) (thin_field (/ s) u) = 0) by lra. apply Rmult_integral in Q2. destruct Q2; lra. }
  assert (SG1 : forall u v, form KG1 u v = form KG1 v u) by (intros u v; rewrite !FG1; apply kG_sym).
  assert (SG2 : forall u v, form KG2 u v = form KG2 v u) by (intros u v; rewrite !FG2; apply kG_sym).
  assert (DK1 : mdim KG1 = mdim k1) by congruence. assert (DK2 : mdim KG2 = mdim k1) by (rewrite DG2, L2; congruence).
  assert (UP : forall a1, critical_factor k1 KG1 S a1 -> exists a2, critical_factor k2 KG2 S a2 /\ a2 <= s * ((1 + r) * a1)).
  { intros a1 C1. destruct (fun P => scaled_factor k2 KG2 k1 KG1 S (thin_field s) (s ^ 3 * (1 + r)) (s ^ 2) ltac:(congruence) (eq_sym DD) ltac:(congruence) P S2 Y2 SG2
      ltac:(rewrite DD; exact P2) ltac:(rewrite DD; exact P1) ltac:(intros u; apply th_admissible) ltac:(intros u; apply thin_nonzero, Hs)
      ltac:(intros u; rewrite Rmult_assoc; apply BD) (fun u => EG u u) a1 C1) as [a2 [C2 Q]]; [apply Rmult_lt_0_compat; lra|].
    exists a2. split; [exact C2|]. replace (s * ((1 + r) * a1)) with (s ^ 3 * (1 + r) / s ^ 2 * a1) by (field; lra). exact Q. }
  split; [intros a1 C1; destruct (UP a1 C1) as [a2 [C2 _]]; exists a2; exact C2|].
  intros a2 C2.
  destruct (scaled_factor k1 KG1 k2 KG2 S (thin_field (/ s)) (/ s ^ 3) (/ s ^ 2) DK1 DD DK2 (Rinv_0_lt_compat _ S3) (Rinv_0_lt_compat _ S2) Y1 SG1 P1 P2
    ltac:(intros u; apply th_admissible) ltac:(intros u; apply thin_nonzero, IS)) with (b := a2) as [a1 [C1 Q]].
  - intros u. assert (X := proj1 (BD (thin_field (/ s) u))). rewrite (back_id s u Hs) in X.
    apply (Rmult_le_reg_l (s ^ 3)); [exact S3|]. replace (s ^ 3 * (/ s ^ 3 * form k2 u u)) with (form k2 u u) by (field; lra). exact X.
  - intros u. assert (X := EG (thin_field (/ s) u) (thin_field (/ s) u)). rewrite (back_id s u Hs) in X. rewrite X. field. lra.
  - exact C2.
  - exists a1. split; [exact C1|]. split.
    + assert (X := Rmult_le_compat_l s _ _ (Rlt_le _ _ Hs) Q). replace (s * (/ s ^ 3 / / s ^ 2 * a2)) with a2 in X by (field; lra). exact X.
    + destruct (UP a1 C1) as [a2' [C2' Q']]. rewrite (critical_unique _ _ _ _ _ C2 C2'). exact Q'.
Qed.
(** the square of two triangles, which has a critical load factor under compression (C93) *)
Lemma c100_buckling_ex : forall pfn, valid duo pfn /\ all_props duo pos_def /\ all_props duo shear_pos /\ braced "cell-based" duo /\
  (forall f, supported f duo (fun i => (i <? 7)%nat)) /\ thinner duo false 1 (1 / 100).
Proof.
  intros pfn. destruct (c69_minimum_ex pfn) as [X1 [X2 [X3 [X4 X5]]]]. repeat (split; [assumption|]). exact duo_thinner.
Qed.
