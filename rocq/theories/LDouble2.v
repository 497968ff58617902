(** Lemmas behind the property on buckling with matrices in double precision (C107). *)
(* P: Num Float Py Mesh Utils CalcK0 AddK0s CalcKG Spec SpecK0 SpecKG SpecK0s SpecStab SpecStat SpecConv SpecSol SpecSol2 SpecKorn SpecRound SpecRound2 SpecRound3 SpecRound6 SpecCond SpecBuck Ex ExK0 ExK0s ExGrid ExGrid2 ExMindlin ExFloat ExDouble *)
From Coq Require Import ZArith Reals List Bool Arith Lra Lia Psatz String FunctionalExtensionality.
From Verif Require Import Num Float Py Mesh Utils CalcK0 CalcKG AddK0s Spec SpecK0 SpecKG SpecK0s SpecStab SpecStat SpecConv SpecSol SpecSol2 SpecKorn SpecRound SpecRound2 SpecRound3 SpecRound6 SpecCond SpecBuck FSum FMat FWf FSmooth FStab FStab2 FStab4 FConn FKG FK0s
  FConv FConv2 FSol FSol2 FSol3 FSol4 FKorn FLin2 FLin3 FRound29 FCond LK0 LKG LK0s LConv LStab LSol LRound LRound2 LRound3 LRound6 LMindlin LCond LBuck LDouble Ex ExK0 ExK0s ExGrid ExGrid2 ExMindlin ExFloat ExDouble FDouble FDouble2.
Import ListNotations.
Local Open Scope R_scope.

(** The buckling problem with both matrices in double precision, of a plate held along its boundary whose membrane forces are at most [f]: as
    long as the load factor [a] times [f] is less than [C1], and the rounding errors of the rows are less than [(1 - |a| f / C1) C2 h^2], the plate is stable
    and [a] is not the load factor of a buckling mode.  [C1] and [C2] depend on the bounds and the width of the plate only. *)
Lemma c107_buckling : forall kappa c lam mu th alpha X, 0 < kappa -> 0 <= c -> 0 < lam -> 0 < mu -> 0 < th -> 0 <= alpha ->
  exists C1 C2, 0 < C1 /\ 0 < C2 /\ forall method mfa Om (md : mesh double) ad hd rho kd sd w d pfn p h Q S f eps epsG, In method cell_methods ->
    let m := mesh_val md in let n := (List.length (nodes md) * 5)%nat in
    k0_scale md hd rho kd sd -> shear_scale md sd ad -> val ad = alpha -> kG_scale md hd sd w d -> List.length d = n ->
    row_sums n (plate_bound md method hd rho kd sd) eps -> row_sums n (kG_bound md rho kd sd w) epsG ->
    mindlin_plate Om m pfn p h kappa Q c lam mu th -> 0 < h <= 1 -> 16 * alpha * (h * h) <= th * th ->
    held [0; 1; 2; 3; 4]%nat m S -> in_strip X m -> all_used m -> 0 <= f -> forces_le f m pfn (map val d) ->
    exists m' k0 k g, calc_k0 md pfn = (m', Ok k0) /\ add_k0s lits_src k0 m' pfn method ad mfa = (k, Ok tt) /\ calc_kG d m' pfn = Ok g /\ mdim k = n /\ mdim g = n /\
      forall a, Rabs a * f < C1 -> eps + Rabs a * epsG < (1 - Rabs a * f / C1) * (C2 * h ^ 2) ->
        (forall v, admissible n S v -> nonzero n v -> 0 < form (matrix_val k) v v + a * form (matrix_val g) v v) /\
        (forall x, buckling_mode (matrix_val k) (matrix_val g) S a 0 x (fun _ => 0) -> ~ nonzero n x).
Proof.
  intros kappa c lam mu th alpha X Hk Hc Hl Hmu Hth Hal.
  destruct (c104_work kappa c lam mu th alpha X Hk Hc Hl Hmu Hth Hal) as [C1 [C10 WF]].
  destruct (c103_stiff kappa c lam mu th alpha X Hk Hc Hl Hmu Hth Hal) as [C2 [C20 SF]].
  exists C1, C2. split; [exact C10|]. split; [exact C20|].
  intros method mfa Om md ad hd rho kd sd w d pfn p h Q S f eps epsG MT m n SC SS AE SG LD RS RG PL Hh HC HE IS US F0 FL.
  assert (V := proj1 PL).
  destruct (c86_plate md pfn pfn method ad mfa hd rho kd sd V SC SS (va_props _ _ V) MT) as [m' [k0 [k [M' [K0 [K [E1 [E2 [E3 [E4 [D1 [D2 B]]]]]]]]]]]].
  destruct (c87_error md pfn pfn d hd rho kd sd w V SC SG (va_props _ _ V) LD) as [m2 [k2 [g [M2 [K2 [G [F1 [F2 [F3 [F4 [D3 [D4 BG]]]]]]]]]]]].
  rewrite E1 in F1. injection F1 as <- <-. rewrite E3 in F3. injection F3 as <- <-.
  exists m', k0, k, g. split; [exact E1|]. split; [exact E2|]. split; [exact F2|]. split; [exact D1|]. split; [exact D3|]. fold m in E3, F4. rewrite AE in E4.
  assert (NN : (List.length (nodes m) * 5)%nat = n) by (unfold m, n; rewrite val_nodes; reflexivity).
  destruct (SF method mfa Om m pfn p h Q S MT PL Hh HC HE IS US) as [M2 [K2 [K3 [G3 [G4 ST]]]]]. rewrite E3 in G3. injection G3 as <- <-. rewrite E4 in G4. injection G4 as <-.
  destruct (WF method mfa Om m pfn p h Q S (map val d) f MT PL Hh HC HE IS ltac:(rewrite map_length, NN; exact LD) F0 FL) as [M2 [K2 [K3 [G' [G3 [G4 [G5 WO]]]]]]].
  rewrite E3 in G3. injection G3 as <- <-. rewrite E4 in G4. injection G4 as <-. rewrite F4 in G5. injection G5 as <-.
  fold n in D1, D2, D3, D4, B, BG.
  assert (X1 : forall v, Rabs (form (matrix_val k) v v - form K v v) <= eps * (len n v * len n v)).
  { intros v. rewrite <- D2. apply form_diff with (plate_bound md method hd rho kd sd); [cbn [matrix_val mdim]; congruence| | |rewrite D2; exact RS].
    - rewrite D2. intros i j Hi Hj. apply B; assumption.
    - intros. apply plate_bound_comm. }
  assert (X2 : forall v, Rabs (form (matrix_val g) v v - form G v v) <= epsG * (len n v * len n v)).
  { intros v. rewrite <- D4. apply form_diff with (kG_bound md rho kd sd w); [cbn [matrix_val mdim]; congruence| | |rewrite D4; exact RG].
    - rewrite D4. intros i j Hi Hj. apply BG; assumption.
    - intros. apply kG_bound_comm. }
  intros a HA HB.
  assert (PO : forall v, admissible n S v -> nonzero n v -> 0 < form (matrix_val k) v v + a * form (matrix_val g) v v).
  { intros v AV [i [Hi NZ]]. assert (Z1 := X1 v). assert (Z2 := X2 v). assert (Z3 := ST v ltac:(rewrite D2; exact AV)). assert (Z4 := WO v ltac:(rewrite D2; exact AV)). rewrite D2 in Z3.
    assert (LP : 0 < len n v ^ 2).
    { rewrite len_sq. destruct (Rle_lt_or_eq_dec 0 (Sum (fun j => v j * v j) (seq 0 n))) as [P|P]; [apply Sum_nonneg; intros j _; apply sq_nn|exact P|].
      exfalso. apply NZ. assert (Y := Sum_zero_each _ (fun j => v j * v j) (seq 0 n) (fun j _ => sq_nn (v j)) (eq_sym P) i ltac:(apply in_seq; lia)). cbv beta in Y. apply Rmult_integral in Y. destruct Y; assumption. }
    set (l2 := len n v ^ 2) in *. replace (len n v * len n v) with l2 in Z1, Z2 by (unfold l2; ring).
    set (fk := form (matrix_val k) v v) in *. set (fg := form (matrix_val g) v v) in *. set (FK := form K v v) in *. set (FG := form G v v) in *.
    set (r := Rabs a * f / C1) in *.
    assert (R1 : r < 1) by (apply Rmult_lt_reg_r with C1; [exact C10|]; unfold r; replace (Rabs a * f / C1 * C1) with (Rabs a * f) by (field; lra); lra).
    assert (T1 : - (r * FK) <= a * FG).
    { assert (Y := Rle_abs (- (a * FG))). rewrite Rabs_Ropp, Rabs_mult in Y.
      assert (U : Rabs a * Rabs FG <= r * FK); [|lra]. apply Rmult_le_reg_l with C1; [exact C10|]. replace (C1 * (r * FK)) with (Rabs a * (f * FK)) by (unfold r; field; lra).
      replace (C1 * (Rabs a * Rabs FG)) with (Rabs a * (C1 * Rabs FG)) by ring. apply Rmult_le_compat_l; [apply Rabs_pos|exact Z4]. }
    assert (T2 : - (Rabs a * (epsG * l2)) <= a * (fg - FG)).
    { assert (Y := Rle_abs (- (a * (fg - FG)))). rewrite Rabs_Ropp, Rabs_mult in Y. assert (U := Rmult_le_compat_l _ _ _ (Rabs_pos a) Z2). lra. }
    assert (T3 : - (eps * l2) <= fk - FK) by (assert (Y := Rle_abs (- (fk - FK))); rewrite Rabs_Ropp in Y; lra).
    assert (T4 : (1 - r) * (C2 * h ^ 2 * l2) <= (1 - r) * FK) by (apply Rmult_le_compat_l; lra).
    assert (T5 : (eps + Rabs a * epsG) * l2 < (1 - r) * (C2 * h ^ 2) * l2) by (apply Rmult_lt_compat_r; assumption).
    lra. }
  split; [exact PO|]. intros x [AX [_ BM]] NX. cbn [matrix_val mdim] in AX, BM. rewrite D1 in AX, BM. assert (Z := PO x AX NX).
  assert (DK : mdim (matrix_val k) = n) by exact D1. assert (DG : mdim (matrix_val g) = n) by exact D3.
  rewrite !form_mulv, DG, DK, <- Sum_scal, <- Sum_plus in Z. rewrite Sum_zero in Z; [lra|]. intros i Hi. apply in_seq in Hi.
  destruct (S i) eqn:Si; [rewrite (AX i ltac:(lia) Si); ring|]. destruct (BM i ltac:(lia) Si) as [Y1 _].
  change {| mdim := mdim k; mentry := fun i j => val (mentry k i j) |} with (matrix_val k) in Y1. change {| mdim := mdim g; mentry := fun i j => val (mentry g i j) |} with (matrix_val g) in Y1.
  replace (x i * mulv (matrix_val k) x i + a * (x i * mulv (matrix_val g) x i)) with (x i * (mulv (matrix_val k) x i + a * mulv (matrix_val g) x i)) by ring.
  replace (mulv (matrix_val k) x i + a * mulv (matrix_val g) x i) with 0; [ring|]. rewrite <- Y1. ring.
Qed.

(** The square of C105, shortened in the direction of x. *)
Lemma c107_buckling_ex : forall pfn, let m := mesh_val star in
  k0_scale star 1 4 1 64 /\ shear_scale star 64 (dz 0) /\ val (dz 0) = 0 /\ kG_scale star 1 64 1 spress /\ List.length spress = 25%nat /\ (List.length (nodes star) * 5 = 25)%nat /\
  row_sums 25 (plate_bound star "cell-based" 1 4 1 64) (/ 500) /\ row_sums 25 (kG_bound star 4 1 64 1) 4 /\
  mindlin_plate unit_square m pfn (prop_val (fprop (dz 1))) (1 / 2) 1 (centroid m) 20 1 3 (9 / 100) /\
  held [0; 1; 2; 3; 4]%nat m cornered /\ in_strip (1 / 2) m /\ all_used m /\ forces_le 11 m pfn (map val spress).
Proof.
  intros pfn m. split; [exact s_scale|]. split; [exact s_shear|]. split; [exact s_alpha|]. split; [apply s_press|]. split; [apply s_press|]. split; [reflexivity|]. split; [exact s_rows|].
  split; [exact s_rows_kG|]. split; [apply s_mindlin|]. split; [exact s_held|]. split; [exact s_strip|]. split; [exact s_used|apply s_forces].
Qed.
