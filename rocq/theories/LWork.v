(** Lemmas behind the property on the stress stiffness of solutions with shear (C108). *)
(* P: Num Py Mesh Utils CalcK0 AddK0s CalcKG Spec SpecK0 SpecKG SpecK0s SpecStab SpecStat SpecConv SpecMono SpecSol SpecSol2 SpecKorn Ex ExK0 ExK0s ExStab ExGrid ExGrid2 ExMindlin *)
From Coq Require Import ZArith Reals List Bool Arith Lra Lia Psatz String.
From Verif Require Import Num Py Mesh Utils CalcK0 AddK0s CalcKG Spec SpecK0 SpecKG SpecK0s SpecStab SpecStat SpecConv SpecMono SpecSol SpecSol2 SpecKorn FSum FMat FDict FGeom FWf FRead2 FAsm FTensor FSmooth FStab FStab2 FStab3 FConn FKG FK0s
  FConv FConv2 FSol FSol2 FSol3 FSol4 FKorn FLin2 FLin3 LK0 LKG LK0s LConv LStab LSol LStat LRitz LMindlin Ex ExK0 ExK0s ExGrid ExGrid2 ExStab ExMindlin.
Import ListNotations.
Local Open Scope R_scope.
Implicit Types (m : mesh R).

(** the stress stiffness of two displacements in a smooth mode, from the difference of their strains *)
Lemma work_gap : forall Om m pfn p h kappa P c M s G u d w eta, valid m pfn -> all_props m (fun q => q = p) -> mat3_bounded c (pA p) -> mat3_bounded c (pB p) ->
  fine Om m h kappa P -> 0 < h -> 0 < kappa -> 0 <= c -> 0 <= M -> motion_smooth Om M s G -> samples m G w -> 0 < eta ->
  let v := fun i => 1 * d i + -1 * u i in let r := s + 12 * M * h / kappa in
  Rabs (kG_energy m pfn d w w - kG_energy m pfn u w w) <=
    24 * c * (r * r) * (eta / 2 * total_area m + / (2 * eta) * Sum (fun k => dom_area m k * strain_sq (smoothed_strain m v k)) (edge_keys m)).
Proof.
  intros Om m pfn p h kappa P c M s G u d w eta V OP BA BB FE Hh Hk Hc HM SMG SAG HE v r.
  assert (W := va_wf _ _ V). assert (PL := va_plate _ _ V).
    unfold kG_energy. rewrite <- (Sum_dom_area m W).
    rewrite <- !Sum_scal, <- Sum_plus, <- Sum_scal.
    replace (Sum (edge_work m pfn d w w) (edge_keys m) - Sum (edge_work m pfn u w w) (edge_keys m))
      with (Sum (fun k => edge_work m pfn d w w k + -1 * edge_work m pfn u w w k) (edge_keys m)) by (rewrite Sum_plus, Sum_scal; ring).
    apply Sum_abs. intros k Hin. assert (A := dom_nonneg m k).
    destruct (motion_near Om m h kappa P W PL FE Hh Hk G w M s k HM SMG SAG Hin) as [_ [_ [GX GY]]].
    assert (OPk : Om (P k)) by (apply (proj1 (proj2 FE)), Hin).
    destruct SMG as [_ [_ [[_ SW] _]]]. specialize (SW (fst (P k)) (snd (P k))). destruct SW as [SW1 SW2]; [destruct (P k); exact OPk|].
    assert (RX : Rabs (sgx m k (comp m w 2)) <= r).
    { replace (sgx m k (comp m w 2)) with (fdx (fw G) (fst (P k)) (snd (P k)) + (sgx m k (comp m w 2) - fdx (fw G) (fst (P k)) (snd (P k)))) by ring. apply rb_plus; assumption. }
    assert (RY : Rabs (sgy m k (comp m w 2)) <= r).
    { replace (sgy m k (comp m w 2)) with (fdy (fw G) (fst (P k)) (snd (P k)) + (sgy m k (comp m w 2) - fdy (fw G) (fst (P k)) (snd (P k)))) by ring. apply rb_plus; assumption. }
    unfold edge_work. rewrite !(stiffness_one m pfn p k _ W PL (va_props _ _ V) OP Hin).
    destruct (membrane_sub (pA p) (pB p) (smoothed_strain m d k) (smoothed_strain m u k)) as [Z1 [Z2 Z3]].
    replace (sub_strain (smoothed_strain m d k) (smoothed_strain m u k)) with (smoothed_strain m v k) in Z1, Z2, Z3.
    2:{ unfold v. rewrite smoothed_lin. unfold sadd_s, sscale, sub_strain; cbn [exx eyy exy kxx kyy kxy]. f_equal; ring. }
    destruct (membrane_bound c (pA p) (pB p) (smoothed_strain m v k) _ BA BB (strain_le_sqrt _)) as [N1 [N2 N3]].
    rewrite <- Z1 in N1. rewrite <- Z2 in N2. rewrite <- Z3 in N3. clear Z1 Z2 Z3.
    set (Nd := membrane (pA p) (pB p) (smoothed_strain m d k)) in *. set (Nu := membrane (pA p) (pB p) (smoothed_strain m u k)) in *.
    set (x := sqrt (strain_sq (smoothed_strain m v k))) in *. set (gx := sgx m k (comp m w 2)) in *. set (gy := sgy m k (comp m w 2)) in *.
    match goal with |- Rabs ?a <= _ => replace a with (dom_area m k * (gx * ((vx Nd - vx Nu) * gx + (vz Nd - vz Nu) * gy) + gy * ((vz Nd - vz Nu) * gx + (vy Nd - vy Nu) * gy))) by (unfold work; ring) end.
    rewrite Rabs_mult, (Rabs_right (dom_area m k)) by lra.
    assert (Y := young 1 x (/ (2 * eta)) ltac:(apply Rinv_0_lt_compat; lra)).
    assert (XX : x * x = strain_sq (smoothed_strain m v k)) by (apply sqrt_sqrt, strain_sq_nonneg). rewrite XX in Y.
    assert (R0 : 0 <= 24 * c * (r * r)) by (assert (RR := sq_nn r); apply Rmult_le_pos; lra).
    replace (1 * 1 / (4 * / (2 * eta))) with (eta / 2) in Y by (field; lra). rewrite Rmult_1_l in Y.
    apply Rle_trans with (dom_area m k * (24 * c * (r * r) * x)).
    + apply Rmult_le_compat_l; [exact A|].
      replace (24 * c * (r * r) * x) with (r * (6 * c * x * r + 6 * c * x * r) + r * (6 * c * x * r + 6 * c * x * r)) by ring.
      apply rb_plus; (apply rb_mult; [assumption|]; apply rb_plus; apply rb_mult; assumption).
    + assert (Y2 := Rmult_le_compat_l _ _ _ R0 Y). apply (Rmult_le_compat_l _ _ _ A) in Y2. lra.
Qed.

Lemma work_gap_energy : forall Om m pfn p h kappa P Q c lam mu th alpha M s b F G u w d C z method mfa k', 
  mindlin_plate Om m pfn p h kappa Q c lam mu th -> fine Om m h kappa P -> 0 < h <= z -> h <= 1 -> 0 < kappa -> 0 <= c -> 0 < lam -> 0 <= alpha -> 0 <= M -> 0 <= s -> 0 <= C ->
  mindlin_motion Om m M s b F u -> motion_smooth Om M s G -> samples m G w ->
  (forall x y, form k' x y = k0_energy m pfn x y + shear_energy (method_strain method m) m pfn alpha mfa x y) ->
  form k' (fun i => 1 * d i + -1 * u i) (fun i => 1 * d i + -1 * u i) <= C * z ^ 2 * total_area m ->
  let a := 12 * M / kappa in
  Rabs (kG_energy m pfn d w w - riemann_work m pfn P F G) <=
    (12 * c * ((s + a) * (s + a)) * (1 + C / lam) + 24 * c * a * ((s + a) * (s + a)) + 48 * c * s * (a * (2 * s + a))) * z * total_area m.
Proof.
  intros Om m pfn p h kappa P Q c lam mu th alpha M s b F G u w d C z method mfa k' [V [OP [SP [SG [SGE [BA [BB [BD [SB FI]]]]]]]]] FE [Hh Hz] H1 Hk Hc Hl Hal HM Hs HC
    [SM [RB SA]] SMG SAG FK EN a.
  set (v := fun i => 1 * d i + -1 * u i) in *.
  assert (PP : all_props m (stiffness_ge lam)) by (apply (all_imp m (fun q => q = p)); [intros q ->; exact SG|exact OP]).
  assert (SPP : all_props m shear_pos) by (apply (all_imp m (fun q => q = p)); [intros q ->; exact SP|exact OP]).
  assert (B : bounded c m) by (apply (all_imp m (fun q => q = p)); [intros q ->; auto|exact OP]).
  assert (X1 := smoothed_energy m pfn V lam v PP). assert (X2 := shear_nonneg m pfn V SPP alpha Hal mfa (method_strain method m) v).
  rewrite FK in EN.
  set (Z := Sum (fun k => dom_area m k * strain_sq (smoothed_strain m v k)) (edge_keys m)) in *.
  assert (T := total_nn m).
  assert (ZB : Z <= C / lam * z ^ 2 * total_area m).
  { apply Rmult_le_reg_l with lam; [exact Hl|]. replace (lam * (C / lam * z ^ 2 * total_area m)) with (C * z ^ 2 * total_area m) by (field; lra). lra. }
  assert (Zp : 0 < z) by lra.
  assert (Y1 := work_gap Om m pfn p h kappa P c M s G u d w z V OP BA BB FE Hh Hk Hc HM SMG SAG Zp). cbv zeta in Y1. fold v Z in Y1.
  assert (Y2 := work_near Om m h kappa P (va_wf _ _ V) (va_plate _ _ V) FE Hh Hk pfn c F G u w M s Hc B HM SM SA SMG SAG). 
  assert (IK : 0 < / kappa) by (apply Rinv_0_lt_compat, Hk). assert (IL : 0 < / lam) by (apply Rinv_0_lt_compat, Hl).
  assert (A0 : 0 <= a) by (unfold a, Rdiv; apply Rmult_le_pos; lra).
  unfold err in Y2. assert (AH : 12 * M * h / kappa = a * h) by (unfold a; field; lra). rewrite AH in Y1, Y2. clear AH.
  set (e := a * h) in *.
  assert (E0 : 0 <= e) by (apply Rmult_le_pos; lra). assert (E1 : e <= a) by (unfold e; assert (a * h <= a * 1) by (apply Rmult_le_compat_l; lra); lra).
  assert (E2 : e <= a * z) by (unfold e; apply Rmult_le_compat_l; lra).
  assert (AZ : 0 <= a * z) by (apply Rmult_le_pos; lra).
  assert (SS : 0 <= (s + e) * (s + e) <= (s + a) * (s + a)) by (split; [apply Rmult_le_pos; lra|apply Rmult_le_compat; lra]).
  set (R1 := (s + e) * (s + e)) in *. set (R2 := (s + a) * (s + a)) in *.
  assert (CS : 0 <= c * R1 <= c * R2) by (split; [apply Rmult_le_pos; lra|apply Rmult_le_compat_l; lra]).
  assert (CL : 0 <= C / lam) by (unfold Rdiv; apply Rmult_le_pos; lra).
  assert (I1 : 24 * c * R1 * (z / 2 * total_area m + / (2 * z) * Z) <= 12 * c * R2 * (1 + C / lam) * z * total_area m).
  { assert (U : z / 2 * total_area m + / (2 * z) * Z <= / 2 * (1 + C / lam) * z * total_area m).
    { apply Rle_trans with (z / 2 * total_area m + / (2 * z) * (C / lam * z ^ 2 * total_area m)).
      - apply Rplus_le_compat_l, Rmult_le_compat_l; [left; apply Rinv_0_lt_compat; lra|exact ZB].
      - right. field. lra. }
    assert (U0 : 0 <= / 2 * (1 + C / lam) * z * total_area m) by (repeat apply Rmult_le_pos; lra).
    replace (12 * c * R2 * (1 + C / lam) * z * total_area m) with (24 * (c * R2) * (/ 2 * (1 + C / lam) * z * total_area m)) by (field; lra).
    apply Rle_trans with (24 * (c * R1) * (/ 2 * (1 + C / lam) * z * total_area m)).
    - replace (24 * c * R1) with (24 * (c * R1)) by ring. apply Rmult_le_compat_l; lra.
    - apply Rmult_le_compat_r; lra. }
  assert (I2 : 6 * c * e * R1 <= 6 * c * a * R2 * z).
  { replace (6 * c * e * R1) with (6 * ((c * R1) * e)) by ring. replace (6 * c * a * R2 * z) with (6 * ((c * R2) * (a * z))) by ring.
    assert (c * R1 * e <= c * R2 * (a * z)) by (apply Rmult_le_compat; lra). lra. }
  assert (I3 : 12 * c * s * (e * (2 * s + e)) <= 12 * c * s * (a * (2 * s + a)) * z).
  { replace (12 * c * s * (a * (2 * s + a)) * z) with (12 * c * s * (a * z * (2 * s + a))) by ring.
    apply Rmult_le_compat_l; [repeat apply Rmult_le_pos; lra|]. apply Rmult_le_compat; lra. }
  replace (kG_energy m pfn d w w - riemann_work m pfn P F G) with
    ((kG_energy m pfn d w w - kG_energy m pfn u w w) + (kG_energy m pfn u w w - riemann_work m pfn P F G)) by ring.
  eapply Rle_trans; [apply rb_plus; [exact Y1|exact Y2]|]. fold R1.
  eapply Rle_trans; [apply Rplus_le_compat; [exact I1|]|].
  { apply Rmult_le_compat_r; [exact T|]. apply Rmult_le_compat_l; [lra|]. apply Rplus_le_compat; [exact I2|exact I3]. }
  right. ring.
Qed.

(** The stress stiffness assembled by calc_kG from the solution of a static problem with a cell-based shear method, in a smooth mode G,
    is that of the membrane forces of the motion F to which the loads belong, up to a multiple of the mesh size, of delta, by which the
    loads miss those of F, and of the error of the constant 1/3 as written in the code. *)
Lemma c108_work : forall kappa c lam mu th alpha M s b, 0 < kappa -> 0 <= c -> 0 < lam -> 0 < mu -> 0 < th -> 0 <= alpha -> 0 <= M -> 0 <= s -> 0 <= b -> 
  exists C, 0 <= C /\ forall method mfa Om m pfn p h P Q F G u w S load delta, In method cell_methods ->
    mindlin_plate Om m pfn p h kappa Q c lam mu th -> fine Om m h kappa P -> 0 < h <= 1 -> 16 * alpha * (h * h) <= th * th -> 0 <= delta <= 1 ->
    mindlin_motion Om m M s b F u -> motion_smooth Om M s G -> samples m G w ->
    admissible (List.length (nodes m) * 5) S u -> mindlin_loads (test_shear method m) m p S Q F delta load -> 
    exists m' K k', calc_k0 m pfn = (m', Ok K) /\ add_k0s lits_src K m' pfn method alpha mfa = (k', Ok tt) /\
      forall d, List.length d = (List.length (nodes m) * 5)%nat -> solves k' S load (vec_of d) ->
        exists KG, calc_kG d m' pfn = Ok KG /\
          Rabs (form KG w w - riemann_work m pfn P F G) <= C * (h + delta + third_error method) * total_area m.
Proof.
  intros kappa c lam mu th alpha M s b Hk Hc Hl Hmu Hth Hal HM Hs Hb.
  destruct (c101_strains kappa c lam mu th alpha M s b Hk Hc Hl Hmu Hth Hal HM Hs Hb) as [C0 [NC CO]].
  set (a := 12 * M / kappa).
  assert (A0 : 0 <= a) by (unfold a, Rdiv; apply Rmult_le_pos; [lra|left; apply Rinv_0_lt_compat, Hk]).
  assert (CL : 0 <= C0 / lam) by (unfold Rdiv; apply Rmult_le_pos; [exact NC|left; apply Rinv_0_lt_compat, Hl]).
  exists (12 * c * ((s + a) * (s + a)) * (1 + C0 / lam) + 24 * c * a * ((s + a) * (s + a)) + 48 * c * s * (a * (2 * s + a))).
  set (cl := C0 / lam) in *.
  assert (R2 : 0 <= (s + a) * (s + a)) by (apply Rmult_le_pos; lra). assert (R3 : 0 <= a * (2 * s + a)) by (apply Rmult_le_pos; lra).
  split; [apply Rplus_le_le_0_compat; [apply Rplus_le_le_0_compat|]; repeat first [exact R2|exact R3|lra|apply Rmult_le_pos]|].
  intros method mfa Om m pfn p h P Q F G u w S load delta MT PL FE Hh HC Hd MO SMG SAG AU LD.
  destruct (CO method mfa Om m pfn p h Q F u S load delta MT PL Hh HC Hd MO AU LD) as [m' [K [k' [E1 [E2 X]]]]].
  assert (V : valid m pfn) by apply PL.
  assert (SPP : all_props m shear_pos) by (destruct PL as [_ [OP [SP _]]]; apply (all_imp m (fun q => q = p)); [intros q ->; exact SP|exact OP]).
  destruct (total_spec method MT m pfn V alpha mfa SPP Hal) as [m1 [K1 [k1 [D1 [D2 [_ FK]]]]]].
  rewrite E1 in D1. injection D1 as <- <-. rewrite E2 in D2. injection D2 as <-.
  exists m', K, k'. split; [exact E1|]. split; [exact E2|]. intros d LN SO. destruct (X (vec_of d) SO) as [EN _].
  destruct (calc_kG_spec m m' pfn d) as [KG [EG [_ FG]]]; [exists pfn, K; auto|apply (va_props _ _ V)|exact LN|].
  exists KG. split; [exact EG|]. rewrite FG. assert (T0 := third_nn method).
  exact (work_gap_energy Om m pfn p h kappa P Q c lam mu th alpha M s b F G u w (vec_of d) C0 (h + delta + third_error method) method mfa k' PL FE ltac:(lra) ltac:(lra) Hk Hc Hl Hal HM Hs NC MO SMG SAG FK EN).
Qed.

Lemma grid_list_solution : forall n pfn load, (0 < n)%nat -> let m := grid_mesh n in
  exists m' K k', calc_k0 m pfn = (m', Ok K) /\ add_k0s lits_src K m' pfn "cell-based" 1 false = (k', Ok tt) /\
    exists d, List.length d = (List.length (nodes m) * 5)%nat /\ solves k' (framed m) load (vec_of d).
Proof.
  intros n pfn load H m. destruct (grid_solution n pfn load H) as [m' [K [k' [E1 [E2 [d SO]]]]]]. fold m in E1, SO.
  exists m', K, k'. split; [exact E1|]. split; [exact E2|]. exists (list_of (List.length (nodes m) * 5) d).
  split; [unfold list_of; rewrite map_length, seq_length; reflexivity|].
  assert (PL := grid_mindlin n pfn H). fold m in PL. assert (V : valid m pfn) by apply PL.
  assert (SPP : all_props m shear_pos) by (destruct PL as [_ [OP [SP _]]]; apply (all_imp m (fun q => q = ex_prop 1)); [intros q ->; exact SP|exact OP]).
  destruct (total_spec "cell-based" (or_introl eq_refl) m pfn V 1 false SPP ltac:(lra)) as [m1 [K1 [k1 [D1 [D2 [DK _]]]]]].
  rewrite E1 in D1. injection D1 as <- <-. rewrite E2 in D2. injection D2 as <-.
  intros i Hi. assert (X := SO i Hi). rewrite (mulv_list k' _ d i DK). destruct (framed m i); [|exact X]. rewrite vec_list by lia. exact X.
Qed.

(** The grid under loads that belong to the dome, with the dome as its mode. *)
Lemma c108_work_ex : forall h0 pfn, 0 < h0 -> exists h m P Q load, 0 < h <= h0 /\ h <= 1 /\ 16 * 1 * (h * h) <= 1 / 10 * (1 / 10) /\ let p := ex_prop 1 in let u := sampled m dome in
  mindlin_plate unit_square m pfn p h (1 / 2) Q 20 1 4 (1 / 10) /\ fine unit_square m h (1 / 2) P /\ mindlin_motion unit_square m 4 2 2 dome u /\ motion_smooth unit_square 4 2 dome /\ samples m dome u /\
  admissible (List.length (nodes m) * 5) (framed m) u /\ mindlin_loads (test_shear "cell-based" m) m p (framed m) Q dome 0 load /\ total_area m = 1 /\
  exists m' K k', calc_k0 m pfn = (m', Ok K) /\ add_k0s lits_src K m' pfn "cell-based" 1 false = (k', Ok tt) /\
    exists d, List.length d = (List.length (nodes m) * 5)%nat /\ solves k' (framed m) load (vec_of d).
Proof.
  intros h0 pfn H. destruct (grid_fine_h h0 H) as [n [Hn [Hh [H1 HC]]]].
  destruct (c101_loads (grid_mesh n) pfn (ex_prop 1) (framed (grid_mesh n)) (grid_tpoint n) dome "cell-based" (grid_valid n Hn pfn)) as [[load HL] _].
  exists (1 / INR n), (grid_mesh n), (grid_point n), (grid_tpoint n), load. split; [exact Hh|]. split; [exact H1|]. split; [exact HC|]. cbv zeta.
  split; [apply grid_mindlin, Hn|]. split; [apply grid_fine, Hn|]. split; [split; [apply dome_smooth|split; [apply dome_rot|apply sampled_ok]]|].
  split; [apply dome_smooth|]. split; [apply sampled_ok|]. split; [apply dome_framed|].
  split; [exact HL|]. split; [apply grid_total, Hn|].
  apply grid_list_solution, Hn.
Qed.

(** The same for loads that work on the true shear strains at the centroids, if Korn's inequality holds for the supported rotations. *)
Lemma c108_natural : forall kappa c lam mu th alpha M s b CK, 0 < kappa -> 0 <= c -> 0 < lam -> 0 < mu -> 0 < th -> 0 <= alpha -> 0 <= M -> 0 <= s -> 0 <= b -> 0 <= CK ->
  exists C, 0 <= C /\ forall method mfa Om m pfn p h P Q F G u w S load delta, In method cell_methods ->
    mindlin_plate Om m pfn p h kappa Q c lam mu th -> fine Om m h kappa P -> 0 < h <= 1 -> 16 * alpha * (h * h) <= th * th -> 0 <= delta <= 1 ->
    mindlin_motion Om m M s b F u -> motion_smooth Om M s G -> samples m G w ->
    admissible (List.length (nodes m) * 5) S u -> mindlin_loads (tria_shear m) m p S Q F delta load -> korn CK m S ->
    exists m' K k', calc_k0 m pfn = (m', Ok K) /\ add_k0s lits_src K m' pfn method alpha mfa = (k', Ok tt) /\
      forall d, List.length d = (List.length (nodes m) * 5)%nat -> solves k' S load (vec_of d) ->
        exists KG, calc_kG d m' pfn = Ok KG /\
          Rabs (form KG w w - riemann_work m pfn P F G) <= C * (h + delta + third_error method) * total_area m.
Proof.
  intros kappa c lam mu th alpha M s b CK Hk Hc Hl Hmu Hth Hal HM Hs Hb HK.
  destruct (c101_natural kappa c lam mu th alpha M s b CK Hk Hc Hl Hmu Hth Hal HM Hs Hb HK) as [C0 [NC CO]].
  set (a := 12 * M / kappa).
  assert (A0 : 0 <= a) by (unfold a, Rdiv; apply Rmult_le_pos; [lra|left; apply Rinv_0_lt_compat, Hk]).
  assert (CL : 0 <= C0 / lam) by (unfold Rdiv; apply Rmult_le_pos; [exact NC|left; apply Rinv_0_lt_compat, Hl]).
  exists (12 * c * ((s + a) * (s + a)) * (1 + C0 / lam) + 24 * c * a * ((s + a) * (s + a)) + 48 * c * s * (a * (2 * s + a))).
  set (cl := C0 / lam) in *.
  assert (R2 : 0 <= (s + a) * (s + a)) by (apply Rmult_le_pos; lra). assert (R3 : 0 <= a * (2 * s + a)) by (apply Rmult_le_pos; lra).
  split; [apply Rplus_le_le_0_compat; [apply Rplus_le_le_0_compat|]; repeat first [exact R2|exact R3|lra|apply Rmult_le_pos]|].
  intros method mfa Om m pfn p h P Q F G u w S load delta MT PL FE Hh HC Hd MO SMG SAG AU LD KO.
  destruct (CO method mfa Om m pfn p h Q F u S load delta MT PL Hh HC Hd MO AU LD KO) as [m' [K [k' [E1 [E2 X]]]]].
  assert (V : valid m pfn) by apply PL.
  assert (SPP : all_props m shear_pos) by (destruct PL as [_ [OP [SP _]]]; apply (all_imp m (fun q => q = p)); [intros q ->; exact SP|exact OP]).
  destruct (total_spec method MT m pfn V alpha mfa SPP Hal) as [m1 [K1 [k1 [D1 [D2 [_ FK]]]]]].
  rewrite E1 in D1. injection D1 as <- <-. rewrite E2 in D2. injection D2 as <-.
  exists m', K, k'. split; [exact E1|]. split; [exact E2|]. intros d LN SO. destruct (X (vec_of d) SO) as [EN _].
  destruct (calc_kG_spec m m' pfn d) as [KG [EG [_ FG]]]; [exists pfn, K; auto|apply (va_props _ _ V)|exact LN|].
  exists KG. split; [exact EG|]. rewrite FG. assert (T0 := third_nn method).
  exact (work_gap_energy Om m pfn p h kappa P Q c lam mu th alpha M s b F G u w (vec_of d) C0 (h + delta + third_error method) method mfa k' PL FE ltac:(lra) ltac:(lra) Hk Hc Hl Hal HM Hs NC MO SMG SAG FK EN).
Qed.

(** The grid under loads that belong to the dome, with the dome as its mode. *)
Lemma c108_natural_ex : forall h0 pfn, 0 < h0 -> exists h m P Q load, 0 < h <= h0 /\ h <= 1 /\ 16 * 1 * (h * h) <= 1 / 10 * (1 / 10) /\ let p := ex_prop 1 in let u := sampled m dome in
  mindlin_plate unit_square m pfn p h (1 / 2) Q 20 1 4 (1 / 10) /\ fine unit_square m h (1 / 2) P /\ mindlin_motion unit_square m 4 2 2 dome u /\ motion_smooth unit_square 4 2 dome /\ samples m dome u /\
  admissible (List.length (nodes m) * 5) (framed m) u /\ mindlin_loads (tria_shear m) m p (framed m) Q dome 0 load /\ korn 4 m (framed m) /\ total_area m = 1 /\
  exists m' K k', calc_k0 m pfn = (m', Ok K) /\ add_k0s lits_src K m' pfn "cell-based" 1 false = (k', Ok tt) /\
    exists d, List.length d = (List.length (nodes m) * 5)%nat /\ solves k' (framed m) load (vec_of d).
Proof.
  intros h0 pfn H. destruct (grid_fine_h h0 H) as [n [Hn [Hh [H1 HC]]]].
  destruct (c101_loads (grid_mesh n) pfn (ex_prop 1) (framed (grid_mesh n)) (grid_tpoint n) dome "cell-based" (grid_valid n Hn pfn)) as [_ [load HL]].
  exists (1 / INR n), (grid_mesh n), (grid_point n), (grid_tpoint n), load. split; [exact Hh|]. split; [exact H1|]. split; [exact HC|]. cbv zeta.
  split; [apply grid_mindlin, Hn|]. split; [apply grid_fine, Hn|]. split; [split; [apply dome_smooth|split; [apply dome_rot|apply sampled_ok]]|].
  split; [apply dome_smooth|]. split; [apply sampled_ok|]. split; [apply dome_framed|].
  split; [exact HL|]. split; [replace 4 with (2 + 8 * (1 / 2 * (1 / 2))) by field; apply (c101_korn _ pfn); [apply grid_valid, Hn|apply grid_held; [exact Hn|cbn [In]; lia]|apply grid_strip, Hn]|]. split; [apply grid_total, Hn|].
  apply grid_list_solution, Hn.
Qed.

(** Critical load factors when both the static solution and the buckling problem are computed with shear: [d] solves the static problem
    with supports S0 and loads that belong to F.  The critical load factor is at most the Rayleigh quotient of every smooth motion G that
    respects the supports S, up to a multiple of the mesh size and of delta, and exists if the work of the membrane forces of F on G is
    negative enough. *)
Lemma c108_factor : forall kappa c lam mu th alpha M s b A, 0 < kappa -> 0 <= c -> 0 < lam -> 0 < mu -> 0 < th -> 0 <= alpha -> 0 <= M -> 0 <= s -> 0 <= b -> 0 <= A ->
  exists C, 0 <= C /\ forall Om method mfa eps, In method cell_methods -> 0 < eps -> exists h0, 0 < h0 /\ forall m pfn p h P Q F G u w S0 load delta, 0 < h <= h0 -> h <= 1 ->
    mindlin_plate Om m pfn p h kappa Q c lam mu th -> braced method m -> fine Om m h kappa P -> 16 * alpha * (h * h) <= th * th -> 0 <= delta <= 1 -> total_area m <= A ->
    mindlin_motion Om m M s b F u -> mindlin_motion Om m M s b G w ->
    admissible (List.length (nodes m) * 5) S0 u -> mindlin_loads (test_shear method m) m p S0 Q F delta load ->
    exists m' K k', calc_k0 m pfn = (m', Ok K) /\ add_k0s lits_src K m' pfn method alpha mfa = (k', Ok tt) /\
      forall d, List.length d = (List.length (nodes m) * 5)%nat -> solves k' S0 load (vec_of d) ->
      exists KG, calc_kG d m' pfn = Ok KG /\
        forall S, supported (1 + literal_error method) m S -> admissible (mdim k') S w ->
        let q := C * (h + delta + third_error method) * total_area m in
        (riemann_work m pfn P F G < - q -> exists a, critical_factor k' KG S a) /\
        forall a, critical_factor k' KG S a ->
          let e := 24 * third_error method * b / kappa in
          a * (- riemann_work m pfn P F G - q)
            <= riemann_energy m pfn P G + riemann_shear m pfn Q G + (eps + 2 * (c * c) * (e * (2 * (s + b) + e)) * A).
Proof.
  intros kappa c lam mu th alpha M s b A Hk Hc Hl Hmu Hth Hal HM Hs Hb HA.
  destruct (c108_work kappa c lam mu th alpha M s b Hk Hc Hl Hmu Hth Hal HM Hs Hb) as [C [C0 CO]]. exists C. split; [exact C0|].
  intros Om method mfa eps MT He.
  destruct (c78_convergence Om method alpha mfa c th M s b kappa A eps MT Hal Hc Hth HM Hs Hb Hk HA He) as [h0 [H0 HH]]. exists h0. split; [exact H0|].
  intros m pfn p h P Q F G u w S0 load delta Hh H1 PL BR FE HC Hd TA MF [SG [RG AG]] AU LD.
  destruct (CO method mfa Om m pfn p h P Q F G u w S0 load delta MT PL FE ltac:(lra) HC Hd MF SG AG AU LD) as [m' [K [k' [E1 [E2 X]]]]].
  destruct PL as [V [OP [SP [SGE [SH [BA [BB [BD [SB FI]]]]]]]]].
  assert (B : bounded c m) by (apply (all_imp m (fun q => q = p)); [intros q ->; auto|exact OP]).
  assert (PP : all_props m pos_def).
  { apply (all_imp m (fun q => q = p)); [|exact OP]. intros q -> e NE. assert (Y := SGE e). assert (Z : 0 < strain_sq e); [|assert (0 < lam * strain_sq e) by (apply Rmult_lt_0_compat; assumption); lra].
    destruct (Rle_lt_dec (strain_sq e) 0) as [Z|]; [|assumption]. exfalso. apply NE. destruct e as [a1 a2 a3 a4 a5 a6]. unfold strain_sq in Z; cbn [exx eyy exy kxx kyy kxy] in Z.
    assert (Q1 := Rle_0_sqr a1). assert (Q2 := Rle_0_sqr a2). assert (Q3 := Rle_0_sqr a3). assert (Q4 := Rle_0_sqr a4). assert (Q5 := Rle_0_sqr a5). assert (Q6 := Rle_0_sqr a6).
    unfold Rsqr in *. f_equal; apply Rsqr_0_uniq; unfold Rsqr; lra. }
  assert (SPP : all_props m shear_pos) by (apply (all_imp m (fun q => q = p)); [intros q ->; exact SP|exact OP]).
  destruct (HH m pfn h P Q G w Hh V B SB FE FI TA SG RG AG) as [m1 [K1 [k1 [D1 [D2 N1]]]]].
  rewrite E1 in D1. injection D1 as <- <-. rewrite E2 in D2. injection D2 as <-.
  exists m', K, k'. split; [exact E1|]. split; [exact E2|]. intros d LN SO. destruct (X d LN SO) as [KG [EG N2]]. exists KG. split; [exact EG|]. intros S SU AW. cbv zeta in N1 |- *.
  exact (quotient method m pfn alpha mfa MT V PP SPP Hal BR m' K k' KG d S w E1 E2 LN EG SU AW _ _ _ _ N2 N1).
Qed.

Lemma press_rot : rotations_le unit_square 2 press.
Proof. intros x y _. unfold press; cbn [ffx ffy fval poly]. rewrite !rb. lra. Qed.

(** The grid, clamped on one side and compressed; the mode rises linearly. *)
Lemma c108_factor_ex : forall h0 pfn, 0 < h0 -> exists h m P Q load, 0 < h <= h0 /\ h <= 1 /\ 16 * 1 * (h * h) <= 1 / 10 * (1 / 10) /\ let p := ex_prop 1 in let u := sampled m press in let w := sampled m rise in
  let N := (List.length (nodes m) * 5)%nat in
  mindlin_plate unit_square m pfn p h (1 / 2) Q 20 1 4 (1 / 10) /\ braced "cell-based" m /\ fine unit_square m h (1 / 2) P /\ total_area m <= 1 /\
  mindlin_motion unit_square m 1 2 2 press u /\ mindlin_motion unit_square m 1 2 2 rise w /\ admissible N (clamped m) u /\ admissible N (clamped m) w /\
  mindlin_loads (test_shear "cell-based" m) m p (clamped m) Q press 0 load /\ (forall f, supported f m (clamped m)) /\ riemann_work m pfn P press rise = - 10 /\
  exists m' K k', calc_k0 m pfn = (m', Ok K) /\ add_k0s lits_src K m' pfn "cell-based" 1 false = (k', Ok tt) /\ mdim k' = N /\
    exists d, List.length d = N /\ solves k' (clamped m) load (vec_of d).
Proof.
  intros h0 pfn H. destruct (grid_fine_h h0 H) as [n [Hn [Hh [H1 HC]]]]. assert (V := grid_valid n Hn pfn). destruct (grid_pd n Hn) as [PP SP].
  destruct (c101_loads (grid_mesh n) pfn (ex_prop 1) (clamped (grid_mesh n)) (grid_tpoint n) press "cell-based" V) as [[load HL] _].
  exists (1 / INR n), (grid_mesh n), (grid_point n), (grid_tpoint n), load. split; [exact Hh|]. split; [exact H1|]. split; [exact HC|]. cbv zeta.
  split; [apply grid_mindlin, Hn|]. split; [apply grid_braced, Hn|]. split; [apply grid_fine, Hn|]. split; [rewrite (grid_total n Hn); apply Rle_refl|].
  split; [split; [apply press_smooth|split; [apply press_rot|apply sampled_ok]]|]. split; [split; [apply rise_smooth|split; [apply rise_rot|apply sampled_ok]]|].
  split; [apply sampled_clamped; intros; cbn; ring|]. split; [apply sampled_clamped; intros; reflexivity|]. split; [exact HL|]. split; [intros f; apply grid_supported, Hn|].
  split; [apply press_rise, Hn|].
  destruct (c66_unique "cell-based" (grid_mesh n) pfn 1 false ltac:(cbn; auto) V PP SP ltac:(lra) (grid_braced n Hn)) as [m' [K [k' [E0 [E1 U]]]]].
  destruct (total_spec "cell-based" ltac:(cbn; auto) (grid_mesh n) pfn V 1 false SP ltac:(lra)) as [m2 [K2 [k2 [F0 [F1 [D _]]]]]]. rewrite E0 in F0. injection F0 as <- <-. rewrite E1 in F1. injection F1 as <-.
  exists m', K, k'. split; [exact E0|]. split; [exact E1|]. split; [exact D|].
  destruct (U (clamped (grid_mesh n)) load (grid_supported n Hn _)) as [d [SO _]].
  exists (list_of (List.length (nodes (grid_mesh n)) * 5) d). split; [unfold list_of; rewrite map_length, seq_length; reflexivity|].
  intros i Hi. assert (X := SO i Hi). rewrite (mulv_list k' _ d i D). destruct (clamped (grid_mesh n) i); [|exact X]. rewrite vec_list by lia. exact X.
Qed.
