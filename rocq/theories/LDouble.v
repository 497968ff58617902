(** Lemmas behind the property on displacements computed with matrices in double precision (C105). *)
(* P: Num Float Py Mesh Utils CalcK0 AddK0s Spec SpecK0 SpecK0s SpecStab SpecStat SpecConv SpecSol SpecSol2 SpecKorn SpecRound SpecRound2 SpecRound6 SpecCond Ex ExK0 ExK0s ExGrid ExGrid2 ExMindlin ExFloat ExDouble *)
From Coq Require Import ZArith Reals List Bool Arith Lra Lia Psatz String FunctionalExtensionality.
From Verif Require Import Num Float Py Mesh Utils CalcK0 AddK0s Spec SpecK0 SpecKG SpecK0s SpecStab SpecStat SpecConv SpecSol SpecSol2 SpecKorn SpecRound SpecRound2 SpecRound6 SpecCond FSum FMat FWf FSmooth FStab FStab2 FStab4 FConn FKG FK0s
  FConv FConv2 FSol FSol2 FSol3 FSol4 FKorn FLin2 FLin3 FRound29 FCond LK0 LKG LK0s LConv LStab LSol LRound LRound2 LRound6 LMindlin LCond Ex ExK0 ExK0s ExGrid ExGrid2 ExMindlin ExFloat ExDouble FDouble.
Import ListNotations.
Local Open Scope R_scope.

Section Close.
  Variables (k K : matrix R) (S : nat -> bool) (b : nat -> nat -> R) (mu eps : R).
  Let n := mdim K.
  Hypothesis D : mdim k = n.
  Hypothesis H : forall i j, (i < n)%nat -> (j < n)%nat -> Rabs (mentry k i j - mentry K i j) <= b i j.
  Hypothesis BS : forall i j, (i < n)%nat -> (j < n)%nat -> b i j = b j i.
  Hypothesis RS : row_sums n b eps.
  Hypothesis ST : stiffness_at_least K S mu.

  (** the distance to the solution, from the computed vector itself *)
  Lemma near_solution : forall load d x, solves K S load d -> admissible n S x ->
    mu * len n (fun i => x i - d i) ^ 2 <= (len n (residual k S load x) + eps * len n x) * len n (fun i => x i - d i).
  Proof.
    intros load d x HD AX. assert (AD := solves_admissible K S load d HD). fold n in AD. set (e := fun i => x i - d i).
    assert (AE : admissible n S e) by (intros i Hi Si; unfold e; rewrite (AX i Hi Si), (AD i Hi Si); ring).
    assert (L := ST e AE). fold n in L.
    assert (E : form K e e = Sum (fun i => e i * residual k S load x i) (seq 0 n) + (form K e x - form k e x)).
    { rewrite !form_mulv. rewrite D. fold n.
      replace (Sum (fun i => e i * residual k S load x i) (seq 0 n) + (Sum (fun i => e i * mulv K x i) (seq 0 n) - Sum (fun i => e i * mulv k x i) (seq 0 n)))
        with (Sum (fun i => e i * residual k S load x i) (seq 0 n) + (Sum (fun i => e i * mulv K x i) (seq 0 n) + -1 * Sum (fun i => e i * mulv k x i) (seq 0 n))) by ring.
      rewrite <- Sum_scal, <- !Sum_plus. apply Sum_ext_in. intros i Hi. apply in_seq in Hi. unfold residual. assert (Q := HD i ltac:(fold n; lia)).
      destruct (S i) eqn:Si; [rewrite (AE i) by (auto; lia); ring|].
      assert (ME : mulv K e i = mulv K x i - mulv K d i).
      { assert (Y := mulv_lin K 1 (-1) x d i). replace (mulv K e i) with (mulv K (fun j => 1 * x j + -1 * d j) i) by (unfold mulv; apply Sum_ext; intros j; unfold e; ring). rewrite Y. ring. }
      rewrite ME, Q. ring. }
    assert (X1 := dot_len n e (residual k S load x)). assert (X2 := form_diff k K b eps e x D H BS RS). fold n in X2.
    assert (X3 := Rle_abs (- (form k e x - form K e x))). rewrite Rabs_Ropp in X3.
    change (fun i => x i - d i) with e. lra.
  Qed.
End Close.

Lemma means_vert : forall Om m h kappa Q v, fine_trias Om m h kappa Q ->
  Sum (fun c => Sum (fun t => tarea m t * tmean t (comp m v c) ^ 2) (trias_of m)) (seq 0 5) <= 4 * h ^ 2 * vert_sum m v.
Proof.
  intros Om m h kappa Q v FI.
  assert (G : forall c, Sum (fun t => tarea m t * tmean t (comp m v c) ^ 2) (trias_of m) <= 4 * h ^ 2 * Sum (fun t => vsq m v c t) (trias_of m)).
  { intros c. rewrite <- Sum_scal. apply Sum_le. intros t Ht. assert (A := area_nn m t). assert (AL := area_le Om m h kappa Q FI t Ht).
    assert (MS : (tmean t (comp m v c)) ^ 2 <= vsq m v c t).
    { unfold tmean, vsq. set (x := comp m v c (tn1 t)). set (y := comp m v c (tn2 t)). set (z := comp m v c (tn3 t)).
      assert (S1 := pow2_ge_0 (x - y)). assert (S2 := pow2_ge_0 (y - z)). assert (S3 := pow2_ge_0 (x - z)).
      assert (T1 := pow2_ge_0 x). assert (T2 := pow2_ge_0 y). assert (T3 := pow2_ge_0 z).
      replace (((x + y + z) / 3) ^ 2) with ((3 * (x ^ 2 + y ^ 2 + z ^ 2) - (x - y) ^ 2 - (y - z) ^ 2 - (x - z) ^ 2) / 9) by field. lra. }
    apply Rmult_le_compat; [exact A|apply pow2_ge_0|exact AL|exact MS]. }
  assert (E : vert_sum m v = Sum (fun c => Sum (fun t => vsq m v c t) (trias_of m)) (seq 0 5)).
  { unfold vert_sum. cbn [seq]. rewrite !Sum_cons, Sum_nil. rewrite Rplus_0_r, <- !Sum_plus. apply Sum_ext. intros t. rewrite !Sum_cons, Sum_nil. ring. }
  rewrite E, <- Sum_scal. apply Sum_le. intros c _. apply G.
Qed.

Lemma disp_split : forall m Q F d x, disp_error m Q F x <=
  2 * disp_error m Q F d + 2 * Sum (fun c => Sum (fun t => tarea m t * tmean t (comp m (fun i => x i - d i) c) ^ 2) (trias_of m)) (seq 0 5).
Proof.
  intros m Q F d x. unfold disp_error. rewrite <- !Sum_scal, <- Sum_plus. apply Sum_le. intros c _. rewrite <- !Sum_scal, <- Sum_plus. apply Sum_le. intros t _.
  assert (A := area_nn m t). set (f := fval _ _ _).
  assert (E : tmean t (comp m (fun i => x i - d i) c) = tmean t (comp m x c) - tmean t (comp m d c)) by (unfold tmean, comp; field).
  rewrite E. set (a := tmean t (comp m x c)). set (b := tmean t (comp m d c)).
  assert (Y := pow2_ge_0 ((b - f) - (a - b))). assert (Z : (a - f) ^ 2 <= 2 * (b - f) ^ 2 + 2 * (a - b) ^ 2) by lra.
  apply (Rmult_le_compat_l _ _ _ A) in Z. lra.
Qed.

(** Displacements of a plate held along its boundary, computed with the matrix in double precision by whatever solver: the integral of
    the squares of their errors has the bound of C102 (mesh size h, error delta of the loads, constant 1/3 as written in the code) plus
    a multiple of the squares of what the solver leaves of the loads and of the rounding errors [eps] of a row of the matrix times the
    length of the computed vector, divided by h.  The factors depend on the bounds and the width of the plate only. *)
Lemma c105_displacements : forall kappa c lam mu th alpha M s b X, 0 < kappa -> 0 <= c -> 0 < lam -> 0 < mu -> 0 < th -> 0 <= alpha -> 0 <= M -> 0 <= s -> 0 <= b ->
  exists C C1, 0 <= C /\ 0 <= C1 /\ forall method mfa Om (md : mesh double) ad hd rho kd sd pfn p h Q F u S load delta N eps, In method cell_methods ->
    let m := mesh_val md in let n := (List.length (nodes md) * 5)%nat in
    k0_scale md hd rho kd sd -> shear_scale md sd ad -> val ad = alpha -> row_sums n (plate_bound md method hd rho kd sd) eps ->
    mindlin_plate Om m pfn p h kappa Q c lam mu th -> 0 < h <= 1 -> 16 * alpha * (h * h) <= th * th -> 0 <= delta <= 1 ->
    mindlin_motion Om m M s b F u -> admissible n S u -> mindlin_loads (tria_shear m) m p S Q F delta load ->
    held [0; 1; 2; 3; 4]%nat m S -> in_strip X m -> all_used m -> valence_le N m ->
    exists m' k0 k, calc_k0 md pfn = (m', Ok k0) /\ add_k0s lits_src k0 m' pfn method ad mfa = (k, Ok tt) /\ mdim k = n /\
      forall x, admissible n S x ->
        disp_error m Q F x <= C * (h + delta + third_error method) ^ 2 * total_area m +
          C1 * INR N * ((len n (residual (matrix_val k) S load x) + eps * len n x) / h) ^ 2.
Proof.
  intros kappa c lam mu th alpha M s b X Hk Hc Hl Hmu Hth Hal HM Hs Hb.
  destruct (c102_displacements kappa c lam mu th alpha M s b X Hk Hc Hl Hmu Hth Hal HM Hs Hb) as [C [C0 CF]].
  destruct (c103_stiff kappa c lam mu th alpha X Hk Hc Hl Hmu Hth Hal) as [CS [CS0 SF]].
  exists (2 * C), (8 / CS ^ 2). split; [lra|]. split; [left; apply Rdiv_lt_0_compat; [lra|apply pow_lt; exact CS0]|].
  intros method mfa Om md ad hd rho kd sd pfn p h Q F u S load delta N eps MT m n SC SS AE RS PL Hh HC HD MO AU LO HE IS US VL.
  assert (V := proj1 PL).
  destruct (c86_plate md pfn pfn method ad mfa hd rho kd sd V SC SS (va_props _ _ V) MT) as [m' [k0 [k [M' [K0 [K [E1 [E2 [E3 [E4 [D1 [D2 B]]]]]]]]]]]].
  exists m', k0, k. split; [exact E1|]. split; [exact E2|]. split; [exact D1|]. fold m in E3. rewrite AE in E4.
  assert (NN : (List.length (nodes m) * 5)%nat = n) by (unfold m, n; rewrite val_nodes; reflexivity).
  destruct (SF method mfa Om m pfn p h Q S MT PL Hh HC HE IS US) as [M2 [K2 [K3 [F3 [F4 ST]]]]]. rewrite E3 in F3. injection F3 as <- <-. rewrite E4 in F4. injection F4 as <-.
  destruct (CF method mfa Om m pfn p h Q F u S load delta MT PL Hh HC HD MO ltac:(rewrite NN; exact AU) LO HE IS) as [M2 [K2 [K3 [F3 [F4 DE]]]]]. rewrite E3 in F3. injection F3 as <- <-. rewrite E4 in F4. injection F4 as <-.
  intros x AX.
  assert (PP : 0 < CS * h ^ 2) by (apply Rmult_lt_0_compat; [exact CS0|apply pow_lt; lra]).
  destruct (exact_solve K S (CS * h ^ 2) ST PP load) as [d [SD _]].
  fold n in D2, D1, B.
  assert (BD : forall i j, (i < mdim K)%nat -> (j < mdim K)%nat -> Rabs (mentry (matrix_val k) i j - mentry K i j) <= plate_bound md method hd rho kd sd i j) by (rewrite D2; intros i j Hi Hj; apply B; assumption).
  assert (BS : forall i j, (i < mdim K)%nat -> (j < mdim K)%nat -> plate_bound md method hd rho kd sd i j = plate_bound md method hd rho kd sd j i) by (intros; apply plate_bound_comm).
  assert (NS := near_solution (matrix_val k) K S _ (CS * h ^ 2) eps ltac:(cbn [matrix_val mdim]; congruence) BD BS ltac:(rewrite D2; exact RS) ST load d x SD ltac:(rewrite D2; exact AX)).
  rewrite D2 in NS. set (v := fun i => x i - d i) in *.
  set (r := len n (residual (matrix_val k) S load x) + eps * len n x) in *.
  assert (LP := len_pos n v). assert (LE : len n v <= Rabs r / (CS * h ^ 2)).
  { destruct (Rle_lt_or_eq_dec 0 _ LP) as [P|Z].
    - apply Rmult_le_reg_l with (CS * h ^ 2); [exact PP|]. replace (CS * h ^ 2 * (Rabs r / (CS * h ^ 2))) with (Rabs r) by (field; split; lra).
      apply Rmult_le_reg_r with (len n v); [exact P|]. assert (RA := Rmult_le_compat_r _ _ _ LP (Rle_abs r)). lra.
    - rewrite <- Z. apply Rmult_le_pos; [apply Rabs_pos|left; apply Rinv_0_lt_compat, PP]. }
  assert (L2 : len n v ^ 2 <= r ^ 2 / (CS * h ^ 2) ^ 2).
  { apply Rle_trans with ((Rabs r / (CS * h ^ 2)) ^ 2); [apply pow_incr; lra|]. right. unfold Rdiv. rewrite Rpow_mult_distr, pow2_abs, pow_inv. reflexivity. }
  assert (MV := means_vert Om m h kappa Q v (proj2 (proj2 (proj2 (proj2 (proj2 (proj2 (proj2 (proj2 (proj2 PL)))))))))).
  assert (VT := vert_len m v N (va_wf _ _ V) VL). rewrite NN in VT.
  assert (DS := disp_split m Q F d x). fold v in DS. assert (DD := DE d SD).
  assert (H2 : 0 < h ^ 2) by (apply pow_lt; lra).
  assert (P1 : 4 * h ^ 2 * vert_sum m v <= 4 * h ^ 2 * (INR N * len n v ^ 2)) by (apply Rmult_le_compat_l; lra).
  assert (P2 : 4 * h ^ 2 * (INR N * len n v ^ 2) <= 4 * h ^ 2 * (INR N * (r ^ 2 / (CS * h ^ 2) ^ 2))) by (apply Rmult_le_compat_l; [lra|]; apply Rmult_le_compat_l; [apply pos_INR|exact L2]).
  assert (P3 : 2 * (4 * h ^ 2 * (INR N * (r ^ 2 / (CS * h ^ 2) ^ 2))) = 8 / CS ^ 2 * INR N * (r / h) ^ 2) by (field; split; lra).
  rewrite <- P3. lra.
Qed.

(** The unit square cut into four triangles that meet in its centre, everything but the centre held, with loads that belong to a dome:
    the rounding errors of a row of the matrix are less than 1/500. *)
Lemma c105_displacements_ex : forall pfn, exists load, let m := mesh_val star in let p := prop_val (fprop (dz 1)) in
  k0_scale star 1 4 1 64 /\ shear_scale star 64 (dz 0) /\ val (dz 0) = 0 /\ (List.length (nodes star) * 5 = 25)%nat /\
  row_sums 25 (plate_bound star "cell-based" 1 4 1 64) (/ 500) /\
  mindlin_plate unit_square m pfn p (1 / 2) 1 (centroid m) 20 1 3 (9 / 100) /\
  mindlin_motion unit_square m 4 2 2 dome (sampled m dome) /\ admissible 25 cornered (sampled m dome) /\
  mindlin_loads (tria_shear m) m p cornered (centroid m) dome 0 load /\
  held [0; 1; 2; 3; 4]%nat m cornered /\ in_strip (1 / 2) m /\ all_used m /\ valence_le 4 m.
Proof.
  intros pfn. destruct (c101_loads (mesh_val star) pfn (prop_val (fprop (dz 1))) cornered (centroid (mesh_val star)) dome "cell-based" (s_valid pfn)) as [_ [load HL]].
  exists load. intros m p. split; [exact s_scale|]. split; [exact s_shear|]. split; [exact s_alpha|]. split; [reflexivity|]. split; [exact s_rows|].
  split; [apply s_mindlin|]. split; [split; [apply dome_smooth|split; [apply dome_rot|apply sampled_ok]]|]. split; [exact s_dome|]. split; [exact HL|].
  split; [exact s_held|]. split; [exact s_strip|]. split; [exact s_used|exact s_valence].
Qed.

(** The matrix in double precision resists every displacement that respects the supports with a stiffness of at least C h^2 minus the
    rounding errors of a row.  If they are smaller, every load has exactly one solution.  The factor depends on the bounds and the width of
    the plate only. *)
Lemma c105_stiff : forall kappa c lam mu th alpha X, 0 < kappa -> 0 <= c -> 0 < lam -> 0 < mu -> 0 < th -> 0 <= alpha ->
  exists C, 0 < C /\ forall method mfa Om (md : mesh double) ad hd rho kd sd pfn p h Q S eps, In method cell_methods ->
    let m := mesh_val md in let n := (List.length (nodes md) * 5)%nat in
    k0_scale md hd rho kd sd -> shear_scale md sd ad -> val ad = alpha -> row_sums n (plate_bound md method hd rho kd sd) eps ->
    mindlin_plate Om m pfn p h kappa Q c lam mu th -> 0 < h <= 1 -> 16 * alpha * (h * h) <= th * th ->
    held [0; 1; 2; 3; 4]%nat m S -> in_strip X m -> all_used m ->
    exists m' k0 k, calc_k0 md pfn = (m', Ok k0) /\ add_k0s lits_src k0 m' pfn method ad mfa = (k, Ok tt) /\ mdim k = n /\
      stiffness_at_least (matrix_val k) S (C * h ^ 2 - eps) /\
      (eps < C * h ^ 2 -> forall load, exists d, only_solution (matrix_val k) S load d).
Proof.
  intros kappa c lam mu th alpha X Hk Hc Hl Hmu Hth Hal.
  destruct (c103_stiff kappa c lam mu th alpha X Hk Hc Hl Hmu Hth Hal) as [CS [CS0 SF]]. exists CS. split; [exact CS0|].
  intros method mfa Om md ad hd rho kd sd pfn p h Q S eps MT m n SC SS AE RS PL Hh HC HE IS US.
  assert (V := proj1 PL).
  destruct (c86_plate md pfn pfn method ad mfa hd rho kd sd V SC SS (va_props _ _ V) MT) as [m' [k0 [k [M' [K0 [K [E1 [E2 [E3 [E4 [D1 [D2 B]]]]]]]]]]]].
  exists m', k0, k. split; [exact E1|]. split; [exact E2|]. split; [exact D1|]. fold m in E3. rewrite AE in E4.
  destruct (SF method mfa Om m pfn p h Q S MT PL Hh HC HE IS US) as [M2 [K2 [K3 [F3 [F4 ST]]]]]. rewrite E3 in F3. injection F3 as <- <-. rewrite E4 in F4. injection F4 as <-.
  fold n in D2, D1, B.
  assert (BD : forall i j, (i < mdim K)%nat -> (j < mdim K)%nat -> Rabs (mentry (matrix_val k) i j - mentry K i j) <= plate_bound md method hd rho kd sd i j) by (rewrite D2; intros i j Hi Hj; apply B; assumption).
  assert (BS : forall i j, (i < mdim K)%nat -> (j < mdim K)%nat -> plate_bound md method hd rho kd sd i j = plate_bound md method hd rho kd sd j i) by (intros; apply plate_bound_comm).
  assert (DK : mdim (matrix_val k) = mdim K) by (cbn [matrix_val mdim]; congruence). rewrite <- D2 in RS.
  split; [exact (pert_stiff _ K S _ _ eps DK BD BS RS ST)|]. intros LT load. exact (pert_solve _ K S _ _ eps DK BD BS RS ST LT load).
Qed.

Lemma c105_stiff_ex : forall pfn, let m := mesh_val star in
  k0_scale star 1 4 1 64 /\ shear_scale star 64 (dz 0) /\ val (dz 0) = 0 /\ (List.length (nodes star) * 5 = 25)%nat /\
  row_sums 25 (plate_bound star "cell-based" 1 4 1 64) (/ 500) /\
  mindlin_plate unit_square m pfn (prop_val (fprop (dz 1))) (1 / 2) 1 (centroid m) 20 1 3 (9 / 100) /\
  held [0; 1; 2; 3; 4]%nat m cornered /\ in_strip (1 / 2) m /\ all_used m.
Proof.
  intros pfn m. split; [exact s_scale|]. split; [exact s_shear|]. split; [exact s_alpha|]. split; [reflexivity|]. split; [exact s_rows|].
  split; [apply s_mindlin|]. split; [exact s_held|]. split; [exact s_strip|exact s_used].
Qed.
