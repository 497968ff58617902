(** Lemmas behind the property on lower bounds of critical load factors (C104). *)
(* P: Num Py Mesh Utils CalcK0 AddK0s CalcKG Spec SpecK0 SpecKG SpecK0s SpecStab SpecStat SpecMono SpecConv SpecSol SpecSol2 SpecKorn SpecRound6 SpecCond SpecBuck Ex ExK0 ExK0s ExGrid ExGrid2 ExMindlin ExCond *)
From Coq Require Import ZArith Reals List Bool Arith Lra Lia Psatz String.
From Verif Require Import Num Py Mesh Utils CalcK0 AddK0s CalcKG Spec SpecK0 SpecKG SpecK0s SpecStab SpecStat SpecMono SpecConv SpecSol SpecSol2 SpecKorn SpecRound6 SpecCond SpecBuck FSum FMat FWf FTensor FSmooth FStab FStab2 FStab4 FConn FKG FK0s
  FConv FConv2 FSol FSol2 FSol3 FSol4 FKorn FLin2 FRound29 FCond LK0 LKG LK0s LConv LStab LSol LMindlin LCond Ex ExK0 ExK0s ExGrid ExGrid2 ExStab ExMindlin ExCond.
Import ListNotations.
Local Open Scope R_scope.
Implicit Types (m : mesh R).

Lemma jensen : forall A (l : list A) (a g : A -> R), (forall t, In t l -> 0 <= a t) -> 0 < Sum a l ->
  Sum a l * (Sum (fun t => a t * g t) l / Sum a l) ^ 2 <= Sum (fun t => a t * g t ^ 2) l.
Proof.
  intros A l a g HA HS. set (q := Sum (fun t => a t * g t) l / Sum a l).
  assert (N : 0 <= Sum (fun t => a t * (g t - q) ^ 2) l) by (apply Sum_nonneg; intros t Ht; apply Rmult_le_pos; [apply HA, Ht|apply pow2_ge_0]).
  rewrite (Sum_ext _ _ (fun t => a t * g t ^ 2 + (-2 * q * (a t * g t) + q ^ 2 * a t))) in N by (intros; ring).
  rewrite !Sum_plus, !Sum_scal in N. assert (E : Sum (fun t => a t * g t) l = q * Sum a l) by (unfold q; field; lra). rewrite E in N. lra.
Qed.

Lemma smoothed_gradient : forall m q, wf_mesh m -> plate m ->
  Sum (fun k => dom_area m k * (sgx m k q ^ 2 + sgy m k q ^ 2)) (edge_keys m) <= Sum (fun t => tarea m t * (tgx m t q ^ 2 + tgy m t q ^ 2)) (trias_of m).
Proof.
  intros m q W PL. set (h := fun t => tarea m t * (tgx m t q ^ 2 + tgy m t q ^ 2)).
  assert (DC := double_count m W h).
  apply Rle_trans with (Sum (fun k => / 3 * Sum h (tris_on m k)) (edge_keys m)); [|rewrite Sum_scal, DC; lra].
  apply Sum_le. intros k Hk. assert (TP := tris_area_pos m W PL k Hk). unfold dom_area, sgx, sgy, h.
  assert (J1 := jensen _ (tris_on m k) (tarea m) (fun t => tgx m t q) (fun t _ => area_nn m t) TP). assert (J2 := jensen _ (tris_on m k) (tarea m) (fun t => tgy m t q) (fun t _ => area_nn m t) TP). cbv beta in J1, J2.
  rewrite (Sum_ext _ (fun t => tarea m t * (tgx m t q ^ 2 + tgy m t q ^ 2)) (fun t => tarea m t * tgx m t q ^ 2 + tarea m t * tgy m t q ^ 2)) by (intros; ring). rewrite Sum_plus.
  set (T := Sum (tarea m) (tris_on m k)) in *. change (Sum (fun t => tarea m t) (tris_on m k)) with T.
  set (g1 := Sum (fun t => tarea m t * tgx m t q) (tris_on m k) / T) in *. set (g2 := Sum (fun t => tarea m t * tgy m t q) (tris_on m k) / T) in *. lra.
Qed.

(** The stress stiffness matrix of a plate held along its boundary is at most [f / C] times the stiffness matrix, where no membrane force is larger
    than [f] and [C] depends only on the bounds of the laminate, the shape of the triangles and the width of the plate. *)
Lemma c104_work : forall kappa c lam mu th alpha X, 0 < kappa -> 0 <= c -> 0 < lam -> 0 < mu -> 0 < th -> 0 <= alpha ->
  exists C, 0 < C /\ forall method mfa Om m pfn p h Q S d f, In method cell_methods ->
    mindlin_plate Om m pfn p h kappa Q c lam mu th -> 0 < h <= 1 -> 16 * alpha * (h * h) <= th * th ->
    held [0; 1; 2; 3; 4]%nat m S -> in_strip X m ->
    List.length d = (List.length (nodes m) * 5)%nat -> 0 <= f -> forces_le f m pfn d ->
    exists m' K k' KG, calc_k0 m pfn = (m', Ok K) /\ add_k0s lits_src K m' pfn method alpha mfa = (k', Ok tt) /\ calc_kG d m' pfn = Ok KG /\
      forall v, admissible (mdim k') S v -> C * Rabs (form KG v v) <= f * form k' v v.
Proof.
  intros kappa c lam mu th alpha X Hk Hc Hl Hmu Hth Hal.
  destruct (full_energy kappa c lam mu th alpha X Hk Hc Hl Hmu Hth Hal) as [CD [CD0 F]].
  exists (/ (2 * CD)). split; [apply Rinv_0_lt_compat; lra|].
  intros method mfa Om m pfn p h Q S d f MT PL Hh HC HE IS LD F0 FL.
  destruct (F method mfa Om m pfn p h Q S MT PL Hh HC HE IS) as [m' [K [k' [E1 [E2 [DK FU]]]]]].
  assert (V : valid m pfn) by apply PL. assert (W := va_wf _ _ V).
  destruct (calc_kG_spec m m' pfn d) as [KG [EG [DG FG]]]; [exists pfn, K; auto|apply (va_props _ _ V)|exact LD|].
  exists m', K, k', KG. split; [exact E1|]. split; [exact E2|]. split; [exact EG|]. intros v AV. assert (MB := FU v AV). clear FU.
  assert (SG := smoothed_gradient m (comp m v 2) W (va_plate _ _ V)).
  assert (B0 : Sum (fun t => tarea m t * (tgx m t (comp m v 2) ^ 2 + tgy m t (comp m v 2) ^ 2)) (trias_of m) <= CD * form k' v v).
  { eapply Rle_trans; [|exact MB]. cbn [seq]. rewrite !Sum_cons, Sum_nil.
    assert (N : forall c, 0 <= Sum (fun t => tarea m t * (tmean t (comp m v c) ^ 2 + (tgx m t (comp m v c) ^ 2 + tgy m t (comp m v c) ^ 2))) (trias_of m)).
    { intros j. apply Sum_nonneg. intros t _. apply Rmult_le_pos; [apply area_nn|]. repeat apply Rplus_le_le_0_compat; apply pow2_ge_0. }
    assert (N0 := N 0%nat). assert (N1 := N 1%nat). assert (N3 := N 3%nat). assert (N4 := N 4%nat).
    assert (L : Sum (fun t => tarea m t * (tgx m t (comp m v 2) ^ 2 + tgy m t (comp m v 2) ^ 2)) (trias_of m) <=
      Sum (fun t => tarea m t * (tmean t (comp m v 2) ^ 2 + (tgx m t (comp m v 2) ^ 2 + tgy m t (comp m v 2) ^ 2))) (trias_of m)).
    { apply Sum_le. intros t _. apply Rmult_le_compat_l; [apply area_nn|]. assert (P := pow2_ge_0 (tmean t (comp m v 2))). lra. }
    lra. }
  assert (B1 : Rabs (form KG v v) <= 2 * f * Sum (fun k => dom_area m k * (sgx m k (comp m v 2) ^ 2 + sgy m k (comp m v 2) ^ 2)) (edge_keys m)).
  { rewrite FG. unfold kG_energy. rewrite <- Sum_scal. apply Sum_abs. intros k Hk'. unfold edge_work.
    destruct (FL k Hk') as [F1 [F2 F3]]. set (N := membrane _ _ _) in *. assert (DN : 0 <= dom_area m k) by apply dom_nonneg.
    set (gx := sgx m k (comp m v 2)). set (gy := sgy m k (comp m v 2)). rewrite Rabs_mult, (Rabs_right (dom_area m k)) by lra.
    replace (2 * f * (dom_area m k * (gx ^ 2 + gy ^ 2))) with (dom_area m k * (2 * f * (gx ^ 2 + gy ^ 2))) by ring. apply Rmult_le_compat_l; [exact DN|].
    unfold work. replace (gx * (vx N * gx + vz N * gy) + gy * (vz N * gx + vy N * gy)) with (vx N * gx ^ 2 + vy N * gy ^ 2 + vz N * (2 * gx * gy)) by ring.
    assert (A1 : Rabs (vx N * gx ^ 2) <= f * gx ^ 2) by (rewrite Rabs_mult, (Rabs_right (gx ^ 2)) by (apply Rle_ge, pow2_ge_0); apply Rmult_le_compat_r; [apply pow2_ge_0|exact F1]).
    assert (A2 : Rabs (vy N * gy ^ 2) <= f * gy ^ 2) by (rewrite Rabs_mult, (Rabs_right (gy ^ 2)) by (apply Rle_ge, pow2_ge_0); apply Rmult_le_compat_r; [apply pow2_ge_0|exact F2]).
    assert (A4 : Rabs (2 * gx * gy) <= gx ^ 2 + gy ^ 2).
    { apply rb. assert (P1 := pow2_ge_0 (gx - gy)). assert (P2 := pow2_ge_0 (gx + gy)). lra. }
    assert (A3 : Rabs (vz N * (2 * gx * gy)) <= f * (gx ^ 2 + gy ^ 2)) by (rewrite Rabs_mult; apply Rmult_le_compat; try apply Rabs_pos; assumption).
    eapply Rle_trans; [apply rb_plus; [apply rb_plus; [exact A1|exact A2]|exact A3]|]. lra. }
  set (fv := form k' v v) in *. match type of SG with ?x <= ?y => set (sg := x) in *; set (tg := y) in * end.
  assert (B2 : 2 * f * sg <= 2 * f * (CD * fv)) by (apply Rmult_le_compat_l; lra).
  apply (Rmult_le_compat_l (/ (2 * CD))) in B1; [|left; apply Rinv_0_lt_compat; lra].
  assert (B3 : / (2 * CD) * (2 * f * sg) <= / (2 * CD) * (2 * f * (CD * fv))) by (apply Rmult_le_compat_l; [left; apply Rinv_0_lt_compat; lra|exact B2]).
  replace (/ (2 * CD) * (2 * f * (CD * fv))) with (f * fv) in B3 by (field; lra). lra.
Qed.

Lemma press_forces : forall n pfn, (0 < n)%nat -> let m := grid_mesh n in forces_le 10 m pfn (list_of (List.length (nodes m) * 5) (sampled m press)).
Proof.
  intros n pfn Hn m k Hk. assert (V := grid_valid n Hn pfn). fold m in V.
  rewrite !(stiffness_one m pfn (ex_prop 1) k _ (va_wf _ _ V) (va_plate _ _ V) (va_props _ _ V) (grid_one n Hn) Hk).
  set (d := list_of _ _). set (q := fun c => match c with 0%nat => (0, -1, 0) | _ => (0, 0, 0) end).
  rewrite (strain_affine m (vec_of d) k q (va_wf _ _ V) (va_plate _ _ V) Hk).
  - unfold q, membrane, ex_prop; cbn [fst snd pA pB m00 m01 m02 m10 m11 m12 m20 m21 m22 exx eyy exy kxx kyy kxy vx vy vz]. rewrite !rb. lra.
  - intros c a Hc _ Ha. destruct (sampled_list m press) as [SA _]. destruct (SA a Ha) as [A0 [A1 [A2 [A3 A4]]]]. fold d in A0, A1, A2, A3, A4. unfold affine.
    cbv zeta in A0, A1, A2, A3, A4. unfold press in A0, A1, A2, A3, A4; cbn [fu fv fw ffx ffy poly fval] in A0, A1, A2, A3, A4.
    destruct c as [|[|[|[|[|c]]]]]; unfold q; cbn [fst snd]; try lia; rewrite ?A0, ?A1, ?A2, ?A3, ?A4; ring.
Qed.
Lemma c104_work_ex : forall h0 pfn, 0 < h0 -> exists h m Q d, 0 < h <= h0 /\ h <= 1 /\ 16 * 1 * (h * h) <= 1 / 10 * (1 / 10) /\
  mindlin_plate unit_square m pfn (ex_prop 1) h (1 / 2) Q 20 1 4 (1 / 10) /\ held [0; 1; 2; 3; 4]%nat m (framed m) /\ in_strip (1 / 2) m /\ all_used m /\
  List.length d = (List.length (nodes m) * 5)%nat /\ forces_le 10 m pfn d.
Proof.
  intros h0 pfn H. destruct (grid_fine_h h0 H) as [n [Hn [Hh [H1 HC]]]]. exists (1 / INR n), (grid_mesh n), (grid_tpoint n), (list_of (List.length (nodes (grid_mesh n)) * 5) (sampled (grid_mesh n) press)).
  split; [exact Hh|]. split; [exact H1|]. split; [exact HC|]. split; [apply grid_mindlin, Hn|].
  split; [apply grid_held; [exact Hn|cbn [In]; lia]|]. split; [apply grid_strip, Hn|]. split; [apply grid_used, Hn|].
  split; [unfold list_of; rewrite map_length, seq_length; reflexivity|apply press_forces, Hn].
Qed.


(** No load factor of a plate held along its boundary is smaller than [C / f], whatever the size of the mesh: smaller loads leave the plate stable. *)
Lemma c104_buckling : forall kappa c lam mu th alpha X, 0 < kappa -> 0 <= c -> 0 < lam -> 0 < mu -> 0 < th -> 0 <= alpha ->
  exists C, 0 < C /\ forall method mfa Om m pfn p h Q S d f, In method cell_methods ->
    mindlin_plate Om m pfn p h kappa Q c lam mu th -> 0 < h <= 1 -> 16 * alpha * (h * h) <= th * th ->
    held [0; 1; 2; 3; 4]%nat m S -> in_strip X m -> all_used m ->
    List.length d = (List.length (nodes m) * 5)%nat -> 0 <= f -> forces_le f m pfn d ->
    exists m' K k' KG, calc_k0 m pfn = (m', Ok K) /\ add_k0s lits_src K m' pfn method alpha mfa = (k', Ok tt) /\ calc_kG d m' pfn = Ok KG /\
      (forall a x, buckling_mode k' KG S a 0 x (fun _ => 0) -> nonzero (mdim k') x -> C <= Rabs a * f) /\
      (forall a, critical_factor k' KG S a -> C <= a * f) /\
      (forall a v, Rabs a * f < C -> admissible (mdim k') S v -> nonzero (mdim k') v -> 0 < form k' v v + a * form KG v v).
Proof.
  intros kappa c lam mu th alpha X Hk Hc Hl Hmu Hth Hal.
  destruct (c104_work kappa c lam mu th alpha X Hk Hc Hl Hmu Hth Hal) as [C [C0 F1]]. destruct (c103_stiff kappa c lam mu th alpha X Hk Hc Hl Hmu Hth Hal) as [C' [C0' F2]].
  exists C. split; [exact C0|]. intros method mfa Om m pfn p h Q S d f MT PL Hh HC HE IS US LD F0 FL.
  destruct (F1 method mfa Om m pfn p h Q S d f MT PL Hh HC HE IS LD F0 FL) as [m' [K [k' [KG [E1 [E2 [EG WO]]]]]]].
  destruct (F2 method mfa Om m pfn p h Q S MT PL Hh HC HE IS US) as [m2 [K2 [k2 [E3 [E4 SL]]]]]. rewrite E1 in E3. injection E3 as <- <-. rewrite E2 in E4. injection E4 as <-.
  exists m', K, k', KG. split; [exact E1|]. split; [exact E2|]. split; [exact EG|].
  assert (PO : forall v, admissible (mdim k') S v -> nonzero (mdim k') v -> 0 < form k' v v).
  { intros v AV [i [Hi NZ]]. assert (PP : 0 < C' * h ^ 2) by (apply Rmult_lt_0_compat; [exact C0'|apply pow_lt; lra]).
    destruct (stiff_pd S k' (C' * h ^ 2) PP SL v AV) as [P1 P2]. destruct (Rle_lt_or_eq_dec _ _ P1) as [P|P]; [exact P|]. exfalso. apply NZ, (P2 (eq_sym P) i Hi). }
  assert (ST : forall a v, Rabs a * f < C -> admissible (mdim k') S v -> nonzero (mdim k') v -> 0 < form k' v v + a * form KG v v).
  { intros a v HA AV NV. assert (P := PO v AV NV). assert (B := WO v AV). set (fv := form k' v v) in *. set (g := form KG v v) in *.
    assert (G1 : - (Rabs a * Rabs g) <= a * g) by (rewrite <- Rabs_mult; assert (Y := Rle_abs (- (a * g))); rewrite Rabs_Ropp in Y; lra).
    assert (G2 : Rabs a * (C * Rabs g) <= Rabs a * (f * fv)) by (apply Rmult_le_compat_l; [apply Rabs_pos|exact B]).
    assert (G3 : Rabs a * f * fv < C * fv) by (apply Rmult_lt_compat_r; assumption).
    assert (G4 : C * (Rabs a * Rabs g) < C * fv) by lra. apply Rmult_lt_reg_l in G4; [lra|exact C0]. }
  assert (BM : forall a x, buckling_mode k' KG S a 0 x (fun _ => 0) -> nonzero (mdim k') x -> C <= Rabs a * f).
  { intros a x [AX [_ B]] NX. destruct (Rle_lt_dec C (Rabs a * f)) as [Y|Y]; [exact Y|]. exfalso. assert (Z := ST a x Y AX NX).
    assert (DG : mdim KG = mdim k').
    { destruct (calc_kG_spec m m' pfn d) as [G' [EG' [DG' _]]]; [exists pfn, K; split; [apply PL|exact E1]|apply (va_props _ _ (proj1 PL))|exact LD|].
      rewrite EG in EG'. injection EG' as <-. rewrite DG'. destruct (matrices m pfn p method alpha mfa MT (proj1 PL) (proj1 (proj2 PL)) (proj1 (proj2 (proj2 PL))) Hal) as [m3 [K3 [k3 [E5 [E6 [D3 _]]]]]].
      rewrite E1 in E5. injection E5 as <- <-. rewrite E2 in E6. injection E6 as <-. rewrite D3. reflexivity. }
    rewrite !form_mulv, DG, <- Sum_scal, <- Sum_plus in Z. rewrite Sum_zero in Z; [lra|]. intros i Hi. apply in_seq in Hi.
    destruct (S i) eqn:Si; [rewrite (AX i ltac:(lia) Si); ring|]. destruct (B i ltac:(lia) Si) as [Y1 _].
    replace (x i * mulv k' x i + a * (x i * mulv KG x i)) with (x i * (mulv k' x i + a * mulv KG x i)) by ring.
    replace (mulv k' x i + a * mulv KG x i) with 0; [ring|]. rewrite <- Y1. ring. }
  split; [exact BM|]. split; [|exact ST].
  intros a [A0 [[x [NX B]] _]]. assert (Y := BM a x B NX). rewrite Rabs_right in Y by lra. exact Y.
Qed.
Lemma c104_buckling_ex : forall h0 pfn, 0 < h0 -> exists h m Q d, 0 < h <= h0 /\ h <= 1 /\ 16 * 1 * (h * h) <= 1 / 10 * (1 / 10) /\
  mindlin_plate unit_square m pfn (ex_prop 1) h (1 / 2) Q 20 1 4 (1 / 10) /\ held [0; 1; 2; 3; 4]%nat m (framed m) /\ in_strip (1 / 2) m /\ all_used m /\
  List.length d = (List.length (nodes m) * 5)%nat /\ forces_le 10 m pfn d.
Proof. exact c104_work_ex. Qed.
