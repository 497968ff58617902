(** Lemmas behind the property on the conditioning of the stiffness matrix (C103). *)
(* P: Num Py Mesh Utils CalcK0 AddK0s Spec SpecK0 SpecK0s SpecStab SpecStat SpecConv SpecSol SpecSol2 SpecKorn SpecRound6 SpecCond Ex ExK0 ExK0s ExGrid ExGrid2 ExMindlin ExCond *)
From Coq Require Import ZArith Reals List Bool Arith Lra Lia Psatz String FunctionalExtensionality.
From Verif Require Import Num Py Mesh Utils CalcK0 AddK0s Spec SpecK0 SpecKG SpecK0s SpecStab SpecStat SpecConv SpecSol SpecSol2 SpecKorn SpecRound6 SpecCond FSum FMat FWf FTensor FSmooth FStab FStab2 FStab4 FConn FKG FK0s
  FConv FConv2 FSol FSol2 FSol3 FSol4 FKorn FLin2 FRound29 FCond LK0 LKG LK0s LConv LStab LSol LMindlin Ex ExK0 ExK0s ExGrid ExGrid2 ExStab ExMindlin ExCond.
Import ListNotations.
Local Open Scope R_scope.
Implicit Types (m : mesh R).

Lemma minus_zero : forall v : nat -> R, (fun i => 1 * v i + -1 * (fun _ => 0) i) = v.
Proof. intros v. apply functional_extensionality. intros i. ring. Qed.

Lemma matrices : forall m pfn p method alpha mfa, In method cell_methods -> valid m pfn -> all_props m (fun q => q = p) -> shear_pos p -> 0 <= alpha ->
  exists m' K k', calc_k0 m pfn = (m', Ok K) /\ add_k0s lits_src K m' pfn method alpha mfa = (k', Ok tt) /\
    mdim k' = (List.length (nodes m) * 5)%nat /\ forall a b, form k' a b = k0_energy m pfn a b + shear_energy (method_strain method m) m pfn alpha mfa a b.
Proof.
  intros m pfn p method alpha mfa MT V OP SP Hal. apply (total_spec method MT m pfn V alpha mfa); [|exact Hal]. apply (all_imp m (fun q => q = p)); [intros q ->; exact SP|exact OP].
Qed.

(** what the energy bounds *)
Lemma full_energy : forall kappa c lam mu th alpha X, 0 < kappa -> 0 <= c -> 0 < lam -> 0 < mu -> 0 < th -> 0 <= alpha ->
  exists CD, 0 < CD /\ forall method mfa Om m pfn p h Q S, In method cell_methods ->
    mindlin_plate Om m pfn p h kappa Q c lam mu th -> 0 < h <= 1 -> 16 * alpha * (h * h) <= th * th ->
    held [0; 1; 2; 3; 4]%nat m S -> in_strip X m ->
    exists m' K k', calc_k0 m pfn = (m', Ok K) /\ add_k0s lits_src K m' pfn method alpha mfa = (k', Ok tt) /\ mdim k' = (List.length (nodes m) * 5)%nat /\
      forall v, admissible (mdim k') S v ->
      Sum (fun c => Sum (fun t => tarea m t * (tmean t (comp m v c) ^ 2 + (tgx m t (comp m v c) ^ 2 + tgy m t (comp m v c) ^ 2))) (trias_of m)) (seq 0 5) <= CD * form k' v v.
Proof.
  intros kappa c lam mu th alpha X Hk Hc Hl Hmu Hth Hal. remember (2 + 8 * (X * X)) as CK eqn:CKE.
  assert (XX : 0 <= X * X) by apply sq_nn. assert (HK : 2 <= CK) by lra.
  set (T := 4 * (24 / kappa) ^ 2 + 2 * ((3 / 2) ^ 2 + 8) * CK).
  assert (HT : 0 <= T) by (unfold T; assert (0 <= (24 / kappa) ^ 2) by apply pow2_ge_0; lra).
  assert (HL : 0 <= sol_L kappa lam).
  { unfold sol_L, Rdiv. apply Rmult_le_pos; [lra|]. left. apply Rinv_0_lt_compat, Rmult_lt_0_compat; [exact Hl|apply pow_lt, Hk]. }
  set (L := sol_L kappa lam) in *.
  assert (IM : 0 < 2 / mu) by (apply Rdiv_lt_0_compat; lra).
  set (q := 2 * CK + (4 * (X * X) + 1) * (4 * T + 2 * CK)).
  assert (Q0 : 0 <= q) by (unfold q; assert (0 <= (4 * (X * X) + 1) * (4 * T + 2 * CK)) by (apply Rmult_le_pos; lra); lra).
  set (CD := q * L + 4 * (4 * (X * X) + 1) * (2 / mu)).
  assert (CD0 : 0 < CD) by (unfold CD; apply Rplus_le_lt_0_compat; [apply Rmult_le_pos; lra|apply Rmult_lt_0_compat; lra]).
  exists CD. split; [exact CD0|].
  intros method mfa Om m pfn p h Q S MT [V [OP [SP [SG [SGE [BA [BB [BD [SB FI]]]]]]]]] [Hh H1] HC HE IS.
  destruct (matrices m pfn p method alpha mfa MT V OP SP Hal) as [m' [K [k' [E1 [E2 [DK FK]]]]]].
  exists m', K, k'. split; [exact E1|]. split; [exact E2|]. split; [exact DK|]. intros v AV. rewrite DK in *.
  assert (W := va_wf _ _ V). assert (PLT := va_plate _ _ V).
  assert (KO : korn CK m S).
  { rewrite CKE. apply (korn_held m W PLT S X); [|exact IS]. intros k n j K1 K2 K3 K4. apply (HE k n j K1 K2 K3). cbn [In] in *. lia. }
  assert (R0 := third_nn method). assert (R1 := proj2 (third_small method)).
  set (tau := 4 * (24 * h / kappa) ^ 2 + 2 * ((3 / 2 * third_error method) ^ 2 + 8 * h ^ 2) * CK).
  assert (Z1 : h ^ 2 <= 1) by (replace 1 with (1 ^ 2) by ring; apply sq_le; lra). assert (Z2 : third_error method ^ 2 <= 1) by (replace 1 with (1 ^ 2) by ring; apply sq_le; lra).
  assert (TB : tau <= T).
  { unfold tau, T.
    assert (Y1 : (24 / kappa) ^ 2 * h ^ 2 <= (24 / kappa) ^ 2 * 1) by (apply Rmult_le_compat_l; [apply pow2_ge_0|exact Z1]).
    assert (Y2 : ((3 / 2 * third_error method) ^ 2 + 8 * h ^ 2) * CK <= ((3 / 2) ^ 2 + 8) * CK).
    { apply Rmult_le_compat_r; [lra|]. rewrite Rpow_mult_distr. lra. }
    replace ((24 * h / kappa) ^ 2) with ((24 / kappa) ^ 2 * h ^ 2) by (unfold Rdiv; ring). lra. }
  assert (TN := mean_sq Om m h kappa Q FI Hh Hk method v S CK MT KO AV). fold tau in TN.
  assert (SPT := shear_part Om m pfn p h kappa Q c lam mu th alpha (fun _ => 0) method mfa V OP SG SGE SB FI Hh Hk Hl Hmu Hth Hal HC k' v FK).
  assert (K0L := k0_le Om m pfn p h kappa Q c mu th alpha (fun _ => 0) method mfa V OP SGE SB FI Hmu Hc Hth Hal HC k' v FK).
  assert (MZ := minus_zero v). cbv beta in MZ, SPT, K0L. rewrite MZ in SPT, K0L.
  assert (SK := strains_k0 Om m pfn p h kappa Q lam V OP SG FI Hh Hk Hl v). fold L in SK.
  assert (MB := full_bound m S v X CK tau method W PLT AV HE IS CKE TN).
  set (ss := strains_sq m v) in *. set (fv := form k' v v) in *.
  match type of MB with ?x <= _ => set (full := x) in * end. match type of SPT with ?x <= _ => set (ms := x) in * end.
  assert (SS : 0 <= ss) by (unfold ss, strains_sq; apply Sum_nonneg; intros t _; apply Rmult_le_pos; [apply area_nn|apply strain_sq_nonneg]).
  assert (S2 : ss <= L * fv) by (eapply Rle_trans; [exact SK|]; apply Rmult_le_compat_l; assumption).
  eapply Rle_trans; [exact MB|]. replace (CD * fv) with (q * (L * fv) + 4 * (4 * (X * X) + 1) * (2 / mu * fv)) by (unfold CD; ring). apply Rplus_le_compat.
  - apply Rle_trans with (q * ss).
      + apply Rmult_le_compat_r; [exact SS|]. unfold q. apply Rplus_le_compat_l, Rmult_le_compat_l; lra.
      + apply Rmult_le_compat_l; assumption.
  - apply Rmult_le_compat_l; [lra|exact SPT].
Qed.

(** A plate held along its boundary resists every displacement with a stiffness of at least [C h^2], where [C] depends only on the
    bounds of the laminate, the shape of the triangles and the width of the plate. *)
Lemma c103_stiff : forall kappa c lam mu th alpha X, 0 < kappa -> 0 <= c -> 0 < lam -> 0 < mu -> 0 < th -> 0 <= alpha ->
  exists C, 0 < C /\ forall method mfa Om m pfn p h Q S, In method cell_methods ->
    mindlin_plate Om m pfn p h kappa Q c lam mu th -> 0 < h <= 1 -> 16 * alpha * (h * h) <= th * th ->
    held [0; 1; 2; 3; 4]%nat m S -> in_strip X m -> all_used m ->
    exists m' K k', calc_k0 m pfn = (m', Ok K) /\ add_k0s lits_src K m' pfn method alpha mfa = (k', Ok tt) /\ stiffness_at_least k' S (C * h ^ 2).
Proof.
  intros kappa c lam mu th alpha X Hk Hc Hl Hmu Hth Hal.
  destruct (full_energy kappa c lam mu th alpha X Hk Hc Hl Hmu Hth Hal) as [CD [CD0 F]].
  exists (kappa / (48 * CD)). split; [apply Rdiv_lt_0_compat; lra|].
  intros method mfa Om m pfn p h Q S MT PL Hh HC HE IS US.
  destruct (F method mfa Om m pfn p h Q S MT PL Hh HC HE IS) as [m' [K [k' [E1 [E2 [DK FU]]]]]].
  exists m', K, k'. split; [exact E1|]. split; [exact E2|]. intros v AV. assert (MB2 := FU v AV). clear FU. rewrite DK in *.
  assert (W := va_wf _ _ (proj1 PL)). assert (FI : fine_trias Om m h kappa Q) by apply PL.
  assert (VM := vert_mean Om m h kappa Q FI (proj1 Hh) Hk v (proj2 Hh)). assert (LV := len_vert m v W US).
  match type of MB2 with ?x <= _ => set (full := x) in * end. set (fv := form k' v v) in *.
  set (ln := len (List.length (nodes m) * 5) v ^ 2) in *.
  assert (KH : 0 <= kappa * (h * h)) by (apply Rmult_le_pos; [lra|apply sq_nn]).
  assert (B1 := Rmult_le_compat_l _ _ _ KH LV).
  assert (B2 : kappa * (h * h) * ln <= 48 * (CD * fv)) by lra.
  apply (Rmult_le_compat_l (/ (48 * CD))) in B2; [|left; apply Rinv_0_lt_compat; lra].
  replace (kappa / (48 * CD) * h ^ 2 * ln) with (/ (48 * CD) * (kappa * (h * h) * ln)) by (unfold Rdiv; ring).
  eapply Rle_trans; [exact B2|]. right. field. lra.
Qed.

Lemma c103_stiff_ex : forall h0 pfn, 0 < h0 -> exists h m Q, 0 < h <= h0 /\ h <= 1 /\ 16 * 1 * (h * h) <= 1 / 10 * (1 / 10) /\
  mindlin_plate unit_square m pfn (ex_prop 1) h (1 / 2) Q 20 1 4 (1 / 10) /\ held [0; 1; 2; 3; 4]%nat m (framed m) /\ in_strip (1 / 2) m /\ all_used m /\ valence_le 8 m.
Proof.
  intros h0 pfn H. destruct (grid_fine_h h0 H) as [n [Hn [Hh [H1 HC]]]]. exists (1 / INR n), (grid_mesh n), (grid_tpoint n).
  split; [exact Hh|]. split; [exact H1|]. split; [exact HC|]. split; [apply grid_mindlin, Hn|].
  split; [apply grid_held; [exact Hn|cbn [In]; lia]|]. split; [apply grid_strip, Hn|]. split; [apply grid_used, Hn|apply grid_valence, Hn].
Qed.

(** No displacement is resisted with a stiffness of more than [C N], where [N] triangles at most meet in a node, whatever the size
    of the mesh and the supports. *)
Lemma c103_bounded : forall kappa c lam mu th alpha, 0 < kappa -> 0 <= c -> 0 < lam -> 0 < mu -> 0 < th -> 0 <= alpha ->
  exists C, 0 <= C /\ forall method mfa Om m pfn p h Q N, In method cell_methods ->
    mindlin_plate Om m pfn p h kappa Q c lam mu th -> 0 < h <= 1 -> 16 * alpha * (h * h) <= th * th -> valence_le N m ->
    exists m' K k', calc_k0 m pfn = (m', Ok K) /\ add_k0s lits_src K m' pfn method alpha mfa = (k', Ok tt) /\ stiffness_at_most k' (C * INR N).
Proof.
  intros kappa c lam mu th alpha Hk Hc Hl Hmu Hth Hal.
  assert (IK : 0 < 12 / kappa) by (apply Rdiv_lt_0_compat; lra).
  set (c2 := 4 * (24 / kappa) ^ 2 * (12 / kappa) + 2 * (12 / kappa + 32)).
  assert (C2 : 0 <= c2) by (unfold c2; assert (0 <= (24 / kappa) ^ 2 * (12 / kappa)) by (apply Rmult_le_pos; [apply pow2_ge_0|lra]); lra).
  assert (CC : 0 <= c * c) by apply sq_nn.
  set (C := 36 * c * (12 / kappa) + c * c * c2).
  assert (C0 : 0 <= C) by (unfold C; apply Rplus_le_le_0_compat; apply Rmult_le_pos; lra).
  exists C. split; [exact C0|].
  intros method mfa Om m pfn p h Q N MT [V [OP [SP [SG [SGE [BA [BB [BD [SB FI]]]]]]]]] [Hh H1] HC VA.
  destruct (matrices m pfn p method alpha mfa MT V OP SP Hal) as [m' [K [k' [E1 [E2 [DK FK]]]]]].
  exists m', K, k'. split; [exact E1|]. split; [exact E2|]. intros v. rewrite DK, FK.
  assert (W := va_wf _ _ V).
  assert (PS : psd p). { intros e. eapply Rle_trans; [|apply SG]. apply Rmult_le_pos; [lra|apply strain_sq_nonneg]. }
  assert (A1 := Rle_trans _ _ _ (softer m pfn p v V OP PS) (linear_le m p c v BA BB BD)).
  assert (A2 := strains_vert Om m h kappa Q FI Hh Hk v). assert (A3 := method_vert Om m h kappa Q FI Hh Hk method v MT H1). fold c2 in A3.
  assert (A4 := vert_len m v N W VA).
  match type of A3 with ?x <= _ => set (ms := x) in * end.
  assert (A5 : shear_energy (method_strain method m) m pfn alpha mfa v v <= c * c * ms).
  { unfold shear_energy, ms. rewrite <- Sum_scal. apply Sum_le. intros t Ht. assert (A := area_nn m t). destruct (G_one m pfn p V OP t Ht) as [-> ->].
    destruct (G_range m pfn p c mu th V OP SGE SB Hmu Hc t Ht) as [GR1 GR2].
    destruct (corr_half Om m pfn h kappa Q c th alpha mfa V SB FI Hth Hal HC t Ht) as [K1 _].
    set (k := corr _ _ _) in *. set (a1 := fst (method_strain method m v t)). set (a2 := snd (method_strain method m v t)).
    set (g1 := pk23 p * e00 (pE p)) in *. set (g2 := pk13 p * e11 (pE p)) in *.
    assert (U1 : k * g1 <= c * c) by (rewrite <- (Rmult_1_l (c * c)); apply Rmult_le_compat; lra).
    assert (U2 : k * g2 <= c * c) by (rewrite <- (Rmult_1_l (c * c)); apply Rmult_le_compat; lra).
    assert (U3 := Rmult_le_compat_r _ _ _ (pow2_ge_0 a1) U1). assert (U4 := Rmult_le_compat_r _ _ _ (pow2_ge_0 a2) U2).
    replace (tarea m t * k * (g1 * a1 * a1 + g2 * a2 * a2)) with (tarea m t * (k * g1 * a1 ^ 2 + k * g2 * a2 ^ 2)) by ring.
    replace (c * c * (tarea m t * (a1 ^ 2 + a2 ^ 2))) with (tarea m t * (c * c * a1 ^ 2 + c * c * a2 ^ 2)) by ring.
    apply Rmult_le_compat_l; lra. }
  assert (B1 := Rmult_le_compat_l (36 * c) _ _ ltac:(lra) A2). assert (B2 := Rmult_le_compat_l _ _ _ CC A3). assert (B3 := Rmult_le_compat_l _ _ _ C0 A4).
  replace (C * (INR N * len (List.length (nodes m) * 5) v ^ 2)) with (C * INR N * len (List.length (nodes m) * 5) v ^ 2) in B3 by ring.
  assert (B4 : C * vert_sum m v = 36 * c * (12 / kappa * vert_sum m v) + c * c * (c2 * vert_sum m v)) by (unfold C; ring). lra.
Qed.

Lemma c103_bounded_ex : forall h0 pfn, 0 < h0 -> exists h m Q, 0 < h <= h0 /\ h <= 1 /\ 16 * 1 * (h * h) <= 1 / 10 * (1 / 10) /\
  mindlin_plate unit_square m pfn (ex_prop 1) h (1 / 2) Q 20 1 4 (1 / 10) /\ valence_le 8 m.
Proof. intros h0 pfn H. destruct (c103_stiff_ex h0 pfn H) as [h [m [Q [A [B [C [D [_ [_ [_ E]]]]]]]]]]. exists h, m, Q. auto 10. Qed.

(** Only the laminate, the shape of the triangles and the width of the plate bound how many times [1 / h^2] the largest stiffness is larger
    than the smallest. *)
Lemma c103_condition : forall kappa c lam mu th alpha X, 0 < kappa -> 0 <= c -> 0 < lam -> 0 < mu -> 0 < th -> 0 <= alpha ->
  exists C, 0 <= C /\ forall method mfa Om m pfn p h Q S N, In method cell_methods ->
    mindlin_plate Om m pfn p h kappa Q c lam mu th -> 0 < h <= 1 -> 16 * alpha * (h * h) <= th * th ->
    held [0; 1; 2; 3; 4]%nat m S -> in_strip X m -> all_used m -> valence_le N m ->
    exists m' K k' lo hi, calc_k0 m pfn = (m', Ok K) /\ add_k0s lits_src K m' pfn method alpha mfa = (k', Ok tt) /\
      stiffness_at_least k' S lo /\ stiffness_at_most k' hi /\ 0 < lo /\ hi <= C * INR N / h ^ 2 * lo.
Proof.
  intros kappa c lam mu th alpha X Hk Hc Hl Hmu Hth Hal.
  destruct (c103_stiff kappa c lam mu th alpha X Hk Hc Hl Hmu Hth Hal) as [C1 [P1 F1]]. destruct (c103_bounded kappa c lam mu th alpha Hk Hc Hl Hmu Hth Hal) as [C2 [P2 F2]].
  exists (C2 / C1). split; [unfold Rdiv; apply Rmult_le_pos; [exact P2|left; apply Rinv_0_lt_compat, P1]|].
  intros method mfa Om m pfn p h Q S N MT PL Hh HC HE IS US VA.
  destruct (F1 method mfa Om m pfn p h Q S MT PL Hh HC HE IS US) as [m' [K [k' [E1 [E2 SL]]]]]. destruct (F2 method mfa Om m pfn p h Q N MT PL Hh HC VA) as [m2 [K2 [k2 [E3 [E4 SM]]]]].
  rewrite E1 in E3. injection E3 as <- <-. rewrite E2 in E4. injection E4 as <-.
  exists m', K, k', (C1 * h ^ 2), (C2 * INR N). repeat (split; [assumption|]). split; [apply Rmult_lt_0_compat; [exact P1|apply pow_lt; lra]|]. right. field. lra.
Qed.
Lemma c103_condition_ex : forall h0 pfn, 0 < h0 -> exists h m Q, 0 < h <= h0 /\ h <= 1 /\ 16 * 1 * (h * h) <= 1 / 10 * (1 / 10) /\
  mindlin_plate unit_square m pfn (ex_prop 1) h (1 / 2) Q 20 1 4 (1 / 10) /\ held [0; 1; 2; 3; 4]%nat m (framed m) /\ in_strip (1 / 2) m /\ all_used m /\ valence_le 8 m.
Proof. exact c103_stiff_ex. Qed.

(** Every load has one solution, and errors in the loads change it by at most their length divided by [C h^2]. *)
Lemma c103_loads : forall kappa c lam mu th alpha X, 0 < kappa -> 0 <= c -> 0 < lam -> 0 < mu -> 0 < th -> 0 <= alpha ->
  exists C, 0 < C /\ forall method mfa Om m pfn p h Q S, In method cell_methods ->
    mindlin_plate Om m pfn p h kappa Q c lam mu th -> 0 < h <= 1 -> 16 * alpha * (h * h) <= th * th ->
    held [0; 1; 2; 3; 4]%nat m S -> in_strip X m -> all_used m ->
    exists m' K k', calc_k0 m pfn = (m', Ok K) /\ add_k0s lits_src K m' pfn method alpha mfa = (k', Ok tt) /\
      (forall load, exists d, only_solution k' S load d) /\
      forall load1 load2 d1 d2, solves k' S load1 d1 -> solves k' S load2 d2 ->
        C * h ^ 2 * len (mdim k') (fun i => d1 i - d2 i) <= len (mdim k') (fun i => load1 i - load2 i).
Proof.
  intros kappa c lam mu th alpha X Hk Hc Hl Hmu Hth Hal.
  destruct (c103_stiff kappa c lam mu th alpha X Hk Hc Hl Hmu Hth Hal) as [C [P F]]. exists C. split; [exact P|].
  intros method mfa Om m pfn p h Q S MT PL Hh HC HE IS US.
  destruct (F method mfa Om m pfn p h Q S MT PL Hh HC HE IS US) as [m' [K [k' [E1 [E2 SL]]]]]. exists m', K, k'. split; [exact E1|]. split; [exact E2|].
  assert (PP : 0 < C * h ^ 2) by (apply Rmult_lt_0_compat; [exact P|apply pow_lt; lra]).
  split; [intros load; apply (exact_solve k' S (C * h ^ 2) SL PP load)|].
  intros load1 load2 d1 d2 S1 S2. set (v := fun i => d1 i - d2 i). set (r := fun i => load1 i - load2 i). set (N := mdim k').
  assert (AV : admissible (mdim k') S v).
  { intros i Hi Si. assert (A1 := S1 i Hi). assert (A2 := S2 i Hi). rewrite Si in A1, A2. unfold v. lra. }
  assert (SV := SL v AV). fold N in SV.
  assert (EQ : form k' v v = Sum (fun i => v i * r i) (seq 0 N)).
  { rewrite form_mulv. apply Sum_ext_in. intros i Hi. apply in_seq in Hi. assert (A1 := S1 i ltac:(unfold N in Hi; lia)). assert (A2 := S2 i ltac:(unfold N in Hi; lia)).
    destruct (S i) eqn:Si; [unfold v at 1 3; rewrite A1, A2; ring|]. f_equal. unfold r. rewrite <- A1, <- A2. replace (mulv k' d1 i - mulv k' d2 i) with (mulv k' d1 i + -1 * mulv k' d2 i) by ring. unfold mulv, v. rewrite <- Sum_scal, <- Sum_plus. apply Sum_ext. intros j. ring. }
  assert (DL := dot_len N v r). rewrite EQ in SV. assert (NV := len_pos N v). set (l := len N v) in *.
  destruct (Rle_lt_or_eq_dec 0 l NV) as [H0|H0].
  - apply Rmult_le_reg_l with l; [exact H0|]. replace (l * (C * h ^ 2 * l)) with (C * h ^ 2 * l ^ 2) by ring. lra.
  - rewrite <- H0, Rmult_0_r. apply len_pos.
Qed.
Lemma c103_loads_ex : forall h0 pfn, 0 < h0 -> exists h m Q, 0 < h <= h0 /\ h <= 1 /\ 16 * 1 * (h * h) <= 1 / 10 * (1 / 10) /\
  mindlin_plate unit_square m pfn (ex_prop 1) h (1 / 2) Q 20 1 4 (1 / 10) /\ held [0; 1; 2; 3; 4]%nat m (framed m) /\ in_strip (1 / 2) m /\ all_used m /\ valence_le 8 m.
Proof. exact c103_stiff_ex. Qed.
