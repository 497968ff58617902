(** Facts: bounds on the energy of a displacement by its values in the nodes. *)
From Coq Require Import ZArith Reals List Bool Arith Lra Lia Psatz String Permutation.
From Verif Require Import Num Py Mesh Utils Spec SpecK0 SpecK0s SpecStab SpecStat SpecConv SpecSol SpecSol2 SpecKorn SpecRound6 SpecCond FSum FMat FWf FTensor FSmooth FStab FStab2 FStab4 FConv FRound29
  FSol FSol2 FSol3 FSol4 FKorn FInterp3.
Import ListNotations.
Local Open Scope R_scope.
Implicit Types (m : mesh R).

(** ** Sums over degrees of freedom, nodes and triangles *)

Lemma keys_nth : forall l, map (fun i => nth i l 0%nat) (seq 0 (List.length l)) = l.
Proof.
  intros l. apply nth_ext with (d := 0%nat) (d' := 0%nat); [rewrite map_length, seq_length; reflexivity|].
  intros i Hi. rewrite map_length, seq_length in Hi. rewrite (nth_indep _ 0%nat (nth 0 l 0%nat)) by (rewrite map_length, seq_length; exact Hi).
  rewrite (map_nth (fun i => nth i l 0%nat)), seq_nth by exact Hi. reflexivity.
Qed.
Lemma index_nth : forall l i, NoDup l -> (i < List.length l)%nat -> index_in (nth i l 0%nat) l = i.
Proof.
  induction l as [|a l IH]; intros i ND Hi; [cbn in Hi; lia|]. inversion ND as [|x y N1 N2]; subst. destruct i as [|i]; cbn [nth index_in].
  - rewrite Nat.eqb_refl. reflexivity.
  - cbn in Hi. destruct (Nat.eqb_spec (nth i l 0%nat) a) as [E|E]; [exfalso; apply N1; rewrite <- E; apply nth_In; lia|]. rewrite IH by (assumption || lia). reflexivity.
Qed.

Lemma dofs_sum : forall m (f : nat -> R), NoDup (node_keys m) ->
  Sum f (seq 0 (List.length (nodes m) * 5)) = Sum (fun n => Sum (fun c => f (rank m n * 5 + c)%nat) (seq 0 5)) (node_keys m).
Proof.
  intros m f ND. set (L := List.length (nodes m)). assert (EL : List.length (node_keys m) = L) by apply map_length.
  transitivity (Sum (fun q => f (q / 5 * 5 + q mod 5)%nat) (seq 0 (L * 5))).
  { apply Sum_ext. intros q. f_equal. assert (D := Nat.div_mod q 5 ltac:(lia)). lia. }
  rewrite (Sum_grid (fun a b => f (a * 5 + b)%nat) 5 L).
  rewrite <- (keys_nth (node_keys m)), Sum_map, EL. apply Sum_ext_in. intros i Hi. apply in_seq in Hi. unfold rank. rewrite index_nth; [reflexivity|exact ND|lia].
Qed.

Lemma tri_sum : forall m (f : nat -> R), wf_mesh m ->
  Sum (fun t => f (tn1 t) + f (tn2 t) + f (tn3 t)) (trias_of m) = Sum (fun n => f n * INR (List.length (filter (fun t => has_vertex t n) (trias_of m)))) (node_keys m).
Proof.
  intros m f W.
  transitivity (Sum (fun t => Sum (fun n => if has_vertex t n then f n else 0) (node_keys m)) (trias_of m)).
  - apply Sum_ext_in. intros t Ht. rewrite <- (Sum_filter_if _ (has_vertex t) f).
    rewrite (Sum_perm _ f _ [tn1 t; tn2 t; tn3 t]); [rewrite !Sum_cons, Sum_nil; ring|].
    destruct (wf_distinct m W t Ht) as [D1 [D2 D3]]. apply NoDup_Permutation.
    + apply NoDup_filter, (wf_nodes m W).
    + repeat constructor; cbn [In]; intuition congruence.
    + intros n. rewrite filter_In. unfold has_vertex. rewrite !orb_true_iff, !Nat.eqb_eq. cbn [In]. split.
      * intros [_ [[->| ->]| ->]]; auto.
      * intros H. split; [apply (wf_vertices m W t n Ht); unfold vertex; intuition congruence|intuition congruence].
  - rewrite Sum_swap. apply Sum_ext. intros n. rewrite <- (Sum_filter_if _ (fun t => has_vertex t n) (fun _ => f n)).
    induction (filter (fun t => has_vertex t n) (trias_of m)) as [|t l IH]; [rewrite Sum_nil; cbn; ring|]. rewrite Sum_cons, IH. cbn [List.length]. rewrite S_INR. ring.
Qed.
Lemma has_vertex_iff : forall t n, has_vertex t n = true <-> vertex t n.
Proof. intros t n. unfold has_vertex, vertex. rewrite !orb_true_iff, !Nat.eqb_eq. tauto. Qed.

(** the squares of the components in the vertices *)
Definition vsq (m : mesh R) (v : nat -> R) (c : nat) (t : tria R) : R :=
  comp m v c (tn1 t) ^ 2 + comp m v c (tn2 t) ^ 2 + comp m v c (tn3 t) ^ 2.
Definition vert_sum (m : mesh R) (v : nat -> R) : R := Sum (fun t => Sum (fun c => vsq m v c t) (seq 0 5)) (trias_of m).

Lemma len_nodes : forall m v, wf_mesh m -> len (List.length (nodes m) * 5) v ^ 2 = Sum (fun n => Sum (fun c => comp m v c n ^ 2) (seq 0 5)) (node_keys m).
Proof.
  intros m v W. rewrite len_sq, (dofs_sum m _ (wf_nodes m W)). apply Sum_ext. intros n. apply Sum_ext. intros c. unfold comp. ring.
Qed.
Lemma vert_nodes : forall m v, wf_mesh m ->
  vert_sum m v = Sum (fun n => Sum (fun c => comp m v c n ^ 2) (seq 0 5) * INR (List.length (filter (fun t => has_vertex t n) (trias_of m)))) (node_keys m).
Proof.
  intros m v W. rewrite <- (tri_sum m (fun n => Sum (fun c => comp m v c n ^ 2) (seq 0 5)) W). unfold vert_sum, vsq. apply Sum_ext. intros t. rewrite <- !Sum_plus. reflexivity.
Qed.
Lemma comps_nn : forall m v n, 0 <= Sum (fun c => comp m v c n ^ 2) (seq 0 5).
Proof. intros. apply Sum_nonneg. intros c _. apply pow2_ge_0. Qed.
Lemma len_vert : forall m v, wf_mesh m -> all_used m -> len (List.length (nodes m) * 5) v ^ 2 <= vert_sum m v.
Proof.
  intros m v W U. rewrite (len_nodes m v W), (vert_nodes m v W). apply Sum_le. intros n Hn. assert (N := comps_nn m v n).
  rewrite <- (Rmult_1_r (Sum _ (seq 0 5))) at 1. apply Rmult_le_compat_l; [exact N|]. destruct (U n Hn) as [t [Ht Vt]].
  assert (I : In t (filter (fun t => has_vertex t n) (trias_of m))) by (apply filter_In; split; [exact Ht|apply has_vertex_iff, Vt]).
  destruct (filter _ _) as [|x l]; [destruct I|]. cbn [List.length]. rewrite S_INR. assert (P := pos_INR (List.length l)). lra.
Qed.
Lemma vert_len : forall m v N, wf_mesh m -> valence_le N m -> vert_sum m v <= INR N * len (List.length (nodes m) * 5) v ^ 2.
Proof.
  intros m v N W U. rewrite (len_nodes m v W), (vert_nodes m v W), <- Sum_scal. apply Sum_le. intros n Hn. rewrite (Rmult_comm (INR N)).
  apply Rmult_le_compat_l; [apply comps_nn|]. apply le_INR, (U n Hn).
Qed.

(** ** From below *)

(** displacements, rotations and their gradients of a plate held along its boundary, from strains and shear strains *)
Lemma full_bound : forall m S v X CK tau method, wf_mesh m -> plate m -> admissible (List.length (nodes m) * 5) S v -> held [0; 1; 2; 3; 4]%nat m S -> in_strip X m ->
  CK = 2 + 8 * (X * X) ->
  Sum (fun t => tarea m t * ((fst (method_strain method m v t) - fst (tria_shear m v t)) ^ 2 + (snd (method_strain method m v t) - snd (tria_shear m v t)) ^ 2)) (trias_of m)
    <= tau * strains_sq m v ->
  Sum (fun c => Sum (fun t => tarea m t * (tmean t (comp m v c) ^ 2 + (tgx m t (comp m v c) ^ 2 + tgy m t (comp m v c) ^ 2))) (trias_of m)) (seq 0 5)
    <= (2 * CK + (4 * (X * X) + 1) * (4 * tau + 2 * CK)) * strains_sq m v +
       4 * (4 * (X * X) + 1) * Sum (fun t => tarea m t * (fst (method_strain method m v t) ^ 2 + snd (method_strain method m v t) ^ 2)) (trias_of m).
Proof.
  intros m S v X CK tau method W PL AV HE ST CKE TN.
  assert (Z : forall j, In j [0; 1; 2; 3; 4]%nat -> zero_edge m (comp m v j)) by (apply (held_zero m W S v _ HE AV); intros j; cbn [In]; lia).
  assert (Z0 := Z 0%nat ltac:(cbn; auto)). assert (Z1 := Z 1%nat ltac:(cbn; auto)). assert (Z2 := Z 2%nat ltac:(cbn; auto 6)).
  assert (Z3 := Z 3%nat ltac:(cbn; auto 6)). assert (Z4 := Z 4%nat ltac:(cbn; auto 8)).
  assert (CP : 0 <= CK) by (rewrite CKE; assert (A := sq_nn X); lra).
  set (FB := fun f => Sum (fun t => tarea m t * (tmean t f ^ 2 + (tgx m t f ^ 2 + tgy m t f ^ 2))) (trias_of m)).
  assert (D : forall f g, FB f + FB g = Sum (fun t => tarea m t * (tmean t f ^ 2 + tmean t g ^ 2 + (tgx m t f ^ 2 + tgy m t f ^ 2 + tgx m t g ^ 2 + tgy m t g ^ 2))) (trias_of m)).
  { intros f g. unfold FB. rewrite <- Sum_plus. apply Sum_ext. intros t. ring. }
  assert (K1 := korn_pair m W PL _ _ X Z0 Z1 ST). rewrite <- D, <- CKE in K1.
  assert (K2 := korn_pair m W PL _ _ X Z3 Z4 ST). rewrite <- D, <- CKE in K2.
  apply (fun H => Rle_trans _ _ _ H (Rmult_le_compat_l CK _ _ CP (strain_mem m v))) in K1.
  apply (fun H => Rle_trans _ _ _ H (Rmult_le_compat_l CK _ _ CP (strain_rot m v))) in K2.
  assert (P := poincare_mean m W PL (comp m v 2) X Z2 ST).
  set (ss := strains_sq m v) in *.
  set (ms := Sum (fun t => tarea m t * (fst (method_strain method m v t) ^ 2 + snd (method_strain method m v t) ^ 2)) (trias_of m)).
  match type of TN with ?A <= _ => set (df := A) in * end.
  set (gx := Sum (fun t => tarea m t * tgx m t (comp m v 2) ^ 2) (trias_of m)) in *.
  set (gy := Sum (fun t => tarea m t * tgy m t (comp m v 2) ^ 2) (trias_of m)).
  assert (N2 : 0 <= gy) by (apply Sum_nonneg; intros t _; apply Rmult_le_pos; [apply area_nn|apply pow2_ge_0]).
  assert (GX : gx + gy <= 4 * ms + 4 * df + 2 * (FB (comp m v 3) + FB (comp m v 4))).
  { rewrite D. unfold gx, gy, ms, df. rewrite <- !Sum_scal, <- !Sum_plus. apply Sum_le. intros t _. assert (A := area_nn m t).
    set (a := fst (method_strain method m v t)). set (a' := snd (method_strain method m v t)).
    unfold tria_shear; cbn [fst snd]. set (g := tgx m t (comp m v 2)). set (r := tmean t (comp m v 3)). set (g' := tgy m t (comp m v 2)). set (r' := tmean t (comp m v 4)).
    set (y1 := tgx m t (comp m v 3)). set (y2 := tgy m t (comp m v 3)). set (y3 := tgx m t (comp m v 4)). set (y4 := tgy m t (comp m v 4)).
    assert (Y1 := pow2_ge_0 y1). assert (Y2 := pow2_ge_0 y2). assert (Y3 := pow2_ge_0 y3). assert (Y4 := pow2_ge_0 y4).
    assert (U : forall a g r, g ^ 2 <= 4 * a ^ 2 + 4 * (a - (g + r)) ^ 2 + 2 * r ^ 2).
    { intros x0 g0 r0. assert (U1 := pow2_ge_0 (g0 + 2 * r0)). assert (U2 := pow2_ge_0 (x0 + (x0 - (g0 + r0)))).
      assert (U5 : (g0 + r0) ^ 2 <= 2 * x0 ^ 2 + 2 * (x0 - (g0 + r0)) ^ 2) by lra. assert (U6 : g0 ^ 2 <= 2 * (g0 + r0) ^ 2 + 2 * r0 ^ 2) by lra. lra. }
    assert (U1 := U a g r). assert (U2 := U a' g' r').
    assert (V : g ^ 2 + g' ^ 2 <= 4 * (a ^ 2 + a' ^ 2) + 4 * ((a - (g + r)) ^ 2 + (a' - (g' + r')) ^ 2) + 2 * (r ^ 2 + r' ^ 2 + (y1 ^ 2 + y2 ^ 2 + y3 ^ 2 + y4 ^ 2))) by lra.
    apply (Rmult_le_compat_l _ _ _ A) in V. lra. }
  assert (E2 : FB (comp m v 2) = Sum (fun t => tarea m t * tmean t (comp m v 2) ^ 2) (trias_of m) + (gx + gy)).
  { unfold FB, gx, gy. rewrite <- !Sum_plus. apply Sum_ext. intros t. ring. }
  assert (GX' : gx + gy <= 4 * ms + (4 * tau + 2 * CK) * ss) by lra.
  assert (XX : 0 <= 4 * (X * X)) by (assert (A := sq_nn X); lra).
  assert (P2 : 4 * (X * X) * gx <= 4 * (X * X) * (4 * ms + (4 * tau + 2 * CK) * ss)) by (apply Rmult_le_compat_l; lra).
  assert (F2 : FB (comp m v 2) <= (4 * (X * X) + 1) * (4 * ms + (4 * tau + 2 * CK) * ss)) by lra.
  cbn [seq]. rewrite !Sum_cons, Sum_nil. fold (FB (comp m v 0)) (FB (comp m v 1)) (FB (comp m v 2)) (FB (comp m v 3)) (FB (comp m v 4)).
  match goal with |- ?A <= _ => set (A0 := A) end.
  assert (A1 : A0 <= CK * ss + CK * ss + (4 * (X * X) + 1) * (4 * ms + (4 * tau + 2 * CK) * ss)) by (unfold A0; lra).
  eapply Rle_trans; [exact A1|]. right. ring.
Qed.

Section T.
  Variable Om : R * R -> Prop.
  Variable m : mesh R.
  Variables h kappa : R.
  Variable Q : tria R -> R * R.
  Hypothesis FI : fine_trias Om m h kappa Q.
  Hypothesis Hh : 0 < h.
  Hypothesis Hk : 0 < kappa.

  Lemma det_nz : forall t, In t (trias_of m) -> tdet m t <> 0.
  Proof.
    intros t Ht. destruct (proj2 FI t Ht) as [_ [_ AR]]. assert (HA : 0 < kappa * (h * h)) by (repeat apply Rmult_lt_0_compat; assumption).
    unfold tarea in AR. intros Z. rewrite Z, Rabs_R0 in AR. lra.
  Qed.

  Lemma at_vertex : forall t q g, In t (trias_of m) -> vertex t g -> (q g - tmean t q) ^ 2 <= 8 * h ^ 2 * (tgx m t q ^ 2 + tgy m t q ^ 2).
  Proof.
    intros t q g Ht VG. destruct (tri_lin m t q (det_nz t Ht)) as [q0 Hq].
    assert (V1 : vertex t (tn1 t)) by (left; reflexivity). assert (V2 : vertex t (tn2 t)) by (right; left; reflexivity). assert (V3 : vertex t (tn3 t)) by (right; right; reflexivity).
    destruct (vdiff Om m h kappa Q FI t _ _ Ht VG V1) as [X1 Y1]. destruct (vdiff Om m h kappa Q FI t _ _ Ht VG V2) as [X2 Y2]. destruct (vdiff Om m h kappa Q FI t _ _ Ht VG V3) as [X3 Y3].
    unfold tmean. rewrite (Hq _ VG), (Hq _ V1), (Hq _ V2), (Hq _ V3). set (gx := tgx m t q). set (gy := tgy m t q).
    match goal with |- ?x ^ 2 <= _ => replace x with (gx * (vx (pos m g) - (vx (pos m (tn1 t)) + vx (pos m (tn2 t)) + vx (pos m (tn3 t))) / 3)
      + gy * (vy (pos m g) - (vy (pos m (tn1 t)) + vy (pos m (tn2 t)) + vy (pos m (tn3 t))) / 3)) by field end.
    assert (DX : Rabs (vx (pos m g) - (vx (pos m (tn1 t)) + vx (pos m (tn2 t)) + vx (pos m (tn3 t))) / 3) <= 2 * h) by (rewrite rb in *; lra).
    assert (DY : Rabs (vy (pos m g) - (vy (pos m (tn1 t)) + vy (pos m (tn2 t)) + vy (pos m (tn3 t))) / 3) <= 2 * h) by (rewrite rb in *; lra).
    match type of DX with Rabs ?x <= _ => set (dx := x) in * end. match type of DY with Rabs ?x <= _ => set (dy := x) in * end. apply sq_abs_le in DX. apply sq_abs_le in DY.
    assert (Z := sq_nn (gx * dx - gy * dy)).
    assert (P1 : gx ^ 2 * dx ^ 2 <= gx ^ 2 * (2 * h) ^ 2) by (apply Rmult_le_compat_l; [apply pow2_ge_0|assumption]).
    assert (P2 : gy ^ 2 * dy ^ 2 <= gy ^ 2 * (2 * h) ^ 2) by (apply Rmult_le_compat_l; [apply pow2_ge_0|assumption]). lra.
  Qed.

  Lemma vsq_mean : forall t v c, In t (trias_of m) -> h <= 1 ->
    vsq m v c t <= 48 * (tmean t (comp m v c) ^ 2 + (tgx m t (comp m v c) ^ 2 + tgy m t (comp m v c) ^ 2)).
  Proof.
    intros t v c Ht H1. unfold vsq. set (q := comp m v c).
    assert (A1 := at_vertex t q (tn1 t) Ht (or_introl eq_refl)). assert (A2 := at_vertex t q (tn2 t) Ht (or_intror (or_introl eq_refl))). assert (A3 := at_vertex t q (tn3 t) Ht (or_intror (or_intror eq_refl))).
    set (e := tmean t q) in *. set (g := tgx m t q ^ 2 + tgy m t q ^ 2) in *.
    assert (G : 0 <= g) by (unfold g; apply Rplus_le_le_0_compat; apply pow2_ge_0). assert (E := pow2_ge_0 e).
    assert (HH : 8 * h ^ 2 * g <= 8 * g). { apply Rmult_le_compat_r; [exact G|]. assert (h * h <= 1 * 1) by (apply Rmult_le_compat; lra). lra. }
    assert (U : forall x, (x - e) ^ 2 <= 8 * g -> x ^ 2 <= 2 * e ^ 2 + 16 * g) by (intros x L; assert (Z := pow2_ge_0 (x - 2 * e)); lra).
    assert (U1 := U _ (Rle_trans _ _ _ A1 HH)). assert (U2 := U _ (Rle_trans _ _ _ A2 HH)). assert (U3 := U _ (Rle_trans _ _ _ A3 HH)). lra.
  Qed.

  Lemma vert_mean : forall v, h <= 1 -> kappa * (h * h) * vert_sum m v <=
    48 * Sum (fun c => Sum (fun t => tarea m t * (tmean t (comp m v c) ^ 2 + (tgx m t (comp m v c) ^ 2 + tgy m t (comp m v c) ^ 2))) (trias_of m)) (seq 0 5).
  Proof.
    intros v H1. rewrite Sum_swap. unfold vert_sum. rewrite <- !Sum_scal. apply Sum_le. intros t Ht. rewrite <- !Sum_scal. apply Sum_le. intros c _.
    destruct (proj2 FI t Ht) as [_ [_ AR]]. assert (V := vsq_mean t v c Ht H1).
    assert (VN : 0 <= vsq m v c t) by (unfold vsq; repeat apply Rplus_le_le_0_compat; apply pow2_ge_0).
    apply Rle_trans with (tarea m t * vsq m v c t); [apply Rmult_le_compat_r; assumption|].
    apply (Rmult_le_compat_l _ _ _ (area_nn m t)) in V. lra.
  Qed.

  (** ** From above *)

  Lemma grad_vsq : forall t v c, In t (trias_of m) -> tarea m t * tgx m t (comp m v c) ^ 2 <= 3 / kappa * vsq m v c t /\ tarea m t * tgy m t (comp m v c) ^ 2 <= 3 / kappa * vsq m v c t.
  Proof.
    intros t v c Ht. assert (DN := det_nz t Ht). destruct (proj2 FI t Ht) as [_ [_ AR]].
    assert (V1 : vertex t (tn1 t)) by (left; reflexivity). assert (V2 : vertex t (tn2 t)) by (right; left; reflexivity). assert (V3 : vertex t (tn3 t)) by (right; right; reflexivity).
    destruct (vdiff Om m h kappa Q FI t _ _ Ht V2 V1) as [X21 Y21]. destruct (vdiff Om m h kappa Q FI t _ _ Ht V3 V1) as [X31 Y31]. destruct (vdiff Om m h kappa Q FI t _ _ Ht V3 V2) as [X32 Y32].
    unfold vsq, tgx, tgy. set (q1 := comp m v c (tn1 t)). set (q2 := comp m v c (tn2 t)). set (q3 := comp m v c (tn3 t)).
    assert (G : forall a b d, Rabs a <= 2 * h -> Rabs b <= 2 * h -> Rabs d <= 2 * h -> (q1 * a + q2 * b + q3 * d) ^ 2 <= 12 * h ^ 2 * (q1 ^ 2 + q2 ^ 2 + q3 ^ 2)).
    { intros a b d HA HB HD. apply sq_abs_le in HA. apply sq_abs_le in HB. apply sq_abs_le in HD.
      assert (U : (q1 * a + q2 * b + q3 * d) ^ 2 <= 3 * (q1 ^ 2 * a ^ 2 + q2 ^ 2 * b ^ 2 + q3 ^ 2 * d ^ 2)).
      { assert (U1 := pow2_ge_0 (q1 * a - q2 * b)). assert (U2 := pow2_ge_0 (q2 * b - q3 * d)). assert (U3 := pow2_ge_0 (q1 * a - q3 * d)). lra. }
      assert (W1 := Rmult_le_compat_l _ _ _ (pow2_ge_0 q1) HA). assert (W2 := Rmult_le_compat_l _ _ _ (pow2_ge_0 q2) HB). assert (W3 := Rmult_le_compat_l _ _ _ (pow2_ge_0 q3) HD). lra. }
    assert (F : forall N, N ^ 2 <= 12 * h ^ 2 * (q1 ^ 2 + q2 ^ 2 + q3 ^ 2) -> tarea m t * (N / tdet m t) ^ 2 <= 3 / kappa * (q1 ^ 2 + q2 ^ 2 + q3 ^ 2)).
    { intros N HN. set (s := q1 ^ 2 + q2 ^ 2 + q3 ^ 2) in *. assert (S0 : 0 <= s) by (unfold s; repeat apply Rplus_le_le_0_compat; apply pow2_ge_0).
      assert (A0 : 0 < kappa * (h * h)) by (repeat apply Rmult_lt_0_compat; assumption).
      assert (D2 : tdet m t ^ 2 = 4 * tarea m t ^ 2) by (unfold tarea; rewrite <- (pow2_abs (tdet m t)); field).
      assert (AP : 0 < tarea m t) by lra.
      replace (tarea m t * (N / tdet m t) ^ 2) with (N ^ 2 / (4 * tarea m t)).
      - apply Rle_trans with (12 * h ^ 2 * s / (4 * (kappa * (h * h)))); [|right; field; lra]. unfold Rdiv. apply Rmult_le_compat; [apply pow2_ge_0| |exact HN|apply Rinv_le_contravar; lra].
        left. apply Rinv_0_lt_compat. lra.
      - unfold Rdiv. rewrite Rpow_mult_distr, pow_inv, D2. field. lra. }
    split.
    - match goal with |- _ * (?N / _) ^ 2 <= _ => replace N with (q1 * - (vy (pos m (tn3 t)) - vy (pos m (tn2 t))) + q2 * (vy (pos m (tn3 t)) - vy (pos m (tn1 t))) + q3 * - (vy (pos m (tn2 t)) - vy (pos m (tn1 t)))) by ring end.
      apply F, G; rewrite ?Rabs_Ropp; assumption.
    - match goal with |- _ * (?N / _) ^ 2 <= _ => replace N with (q1 * (vx (pos m (tn3 t)) - vx (pos m (tn2 t))) + q2 * - (vx (pos m (tn3 t)) - vx (pos m (tn1 t))) + q3 * (vx (pos m (tn2 t)) - vx (pos m (tn1 t)))) by ring end.
      apply F, G; rewrite ?Rabs_Ropp; assumption.
  Qed.

  Lemma area_le : forall t, In t (trias_of m) -> tarea m t <= 4 * h ^ 2.
  Proof.
    intros t Ht. assert (V1 : vertex t (tn1 t)) by (left; reflexivity). assert (V2 : vertex t (tn2 t)) by (right; left; reflexivity). assert (V3 : vertex t (tn3 t)) by (right; right; reflexivity).
    destruct (vdiff Om m h kappa Q FI t _ _ Ht V2 V1) as [X21 Y21]. destruct (vdiff Om m h kappa Q FI t _ _ Ht V3 V1) as [X31 Y31].
    unfold tarea, tdet, det2. match goal with |- Rabs (?a * ?b - ?c * ?d) / 2 <= _ => set (a0 := a) in *; set (b0 := b) in *; set (c0 := c) in *; set (d0 := d) in * end.
    assert (P1 : Rabs (a0 * b0) <= 2 * h * (2 * h)) by (rewrite Rabs_mult; apply Rmult_le_compat; try apply Rabs_pos; assumption).
    assert (P2 : Rabs (c0 * d0) <= 2 * h * (2 * h)) by (rewrite Rabs_mult; apply Rmult_le_compat; try apply Rabs_pos; assumption).
    assert (P3 : Rabs (a0 * b0 - c0 * d0) <= Rabs (a0 * b0) + Rabs (c0 * d0)) by (eapply Rle_trans; [apply Rabs_triang|]; rewrite Rabs_Ropp; apply Rle_refl). lra.
  Qed.

  Lemma vsq_nn : forall v c t, 0 <= vsq m v c t.
  Proof. intros. unfold vsq. repeat apply Rplus_le_le_0_compat; apply pow2_ge_0. Qed.
  Lemma all_vsq : forall v t, Sum (fun c => vsq m v c t) (seq 0 5) = vsq m v 0 t + (vsq m v 1 t + (vsq m v 2 t + (vsq m v 3 t + (vsq m v 4 t + 0)))).
  Proof. reflexivity. Qed.

  Lemma strains_vert : forall v, strains_sq m v <= 12 / kappa * vert_sum m v.
  Proof.
    intros v. unfold strains_sq, vert_sum. rewrite <- Sum_scal. apply Sum_le. intros t Ht. assert (A := area_nn m t). rewrite all_vsq.
    destruct (grad_vsq t v 0 Ht) as [X0 Y0]. destruct (grad_vsq t v 1 Ht) as [X1 Y1]. destruct (grad_vsq t v 3 Ht) as [X3 Y3]. destruct (grad_vsq t v 4 Ht) as [X4 Y4].
    assert (N0 := vsq_nn v 0 t). assert (N1 := vsq_nn v 1 t). assert (N2 := vsq_nn v 2 t). assert (N3 := vsq_nn v 3 t). assert (N4 := vsq_nn v 4 t).
    unfold strain_sq, tria_strain; cbn [exx eyy exy kxx kyy kxy].
    set (a0 := tgx m t (comp m v 0)) in *. set (b0 := tgy m t (comp m v 0)) in *. set (a1 := tgx m t (comp m v 1)) in *. set (b1 := tgy m t (comp m v 1)) in *.
    set (a3 := tgx m t (comp m v 3)) in *. set (b3 := tgy m t (comp m v 3)) in *. set (a4 := tgx m t (comp m v 4)) in *. set (b4 := tgy m t (comp m v 4)) in *.
    set (k := 3 / kappa) in *. assert (KP : 0 < k) by (apply Rdiv_lt_0_compat; lra). replace (12 / kappa) with (4 * k) by (unfold k; field; lra).
    match goal with |- _ * ?e <= _ => assert (U : e <= 2 * (a0 ^ 2 + b0 ^ 2 + a1 ^ 2 + b1 ^ 2 + a3 ^ 2 + b3 ^ 2 + a4 ^ 2 + b4 ^ 2)) end.
    { assert (U1 := pow2_ge_0 (b0 - a1)). assert (U2 := pow2_ge_0 (b3 - a4)). assert (P0 := pow2_ge_0 a0). assert (P1 := pow2_ge_0 b1). assert (P3 := pow2_ge_0 a3). assert (P4 := pow2_ge_0 b4). lra. }
    apply (Rmult_le_compat_l _ _ _ A) in U. assert (KN : 0 <= k * vsq m v 2 t) by (apply Rmult_le_pos; lra). lra.
  Qed.

  Lemma test_vert : forall method v, In method cell_methods -> h <= 1 ->
    Sum (fun t => tarea m t * (fst (test_shear method m v t) ^ 2 + snd (test_shear method m v t) ^ 2)) (trias_of m) <= (12 / kappa + 32) * vert_sum m v.
  Proof.
    intros method v MT H1. unfold vert_sum. rewrite <- Sum_scal. apply Sum_le. intros t Ht. assert (A := area_nn m t). assert (AL := area_le t Ht). rewrite all_vsq.
    assert (A4 : tarea m t <= 4) by (assert (h * h <= 1 * 1) by (apply Rmult_le_compat; lra); lra).
    destruct (grad_vsq t v 2 Ht) as [X2 Y2].
    assert (N0 := vsq_nn v 0 t). assert (N1 := vsq_nn v 1 t). assert (N2 := vsq_nn v 2 t). assert (N3 := vsq_nn v 3 t). assert (N4 := vsq_nn v 4 t).
    set (k := 3 / kappa) in *. assert (KP : 0 < k) by (apply Rdiv_lt_0_compat; lra). replace (12 / kappa) with (4 * k) by (unfold k; field; lra).
    assert (V : exists r3 r4, fst (test_shear method m v t) = tgx m t (comp m v 2) + r3 /\ snd (test_shear method m v t) = tgy m t (comp m v 2) + r4 /\ r3 ^ 2 <= 4 * vsq m v 3 t /\ r4 ^ 2 <= 4 * vsq m v 4 t).
    { assert (MS : forall c, (tmean t (comp m v c)) ^ 2 <= vsq m v c t).
      { intros c. unfold tmean, vsq. set (x := comp m v c (tn1 t)). set (y := comp m v c (tn2 t)). set (z := comp m v c (tn3 t)).
        assert (U1 := pow2_ge_0 (x - y)). assert (U2 := pow2_ge_0 (y - z)). assert (U3 := pow2_ge_0 (x - z)). assert (P0 := pow2_ge_0 x). assert (P1 := pow2_ge_0 y). assert (P3 := pow2_ge_0 z). lra. }
      destruct MT as [<-|[<-|[]]]; unfold test_shear; cbn [String.eqb Ascii.eqb Bool.eqb fst snd]; do 2 eexists; (split; [reflexivity|]); (split; [reflexivity|]).
      - set (l := 1 + literal_error "cell-based"). assert (L : 0 <= l <= 2) by (unfold l, literal_error; cbn [String.eqb Ascii.eqb Bool.eqb]; lra).
        assert (L2 : l ^ 2 <= 4) by (assert (l * l <= 2 * 2) by (apply Rmult_le_compat; lra); lra).
        split; rewrite Rpow_mult_distr; (apply Rmult_le_compat; [apply pow2_ge_0|apply pow2_ge_0|exact L2|apply MS]).
      - assert (GV : forall c, comp m v c (gap_node m t) ^ 2 <= vsq m v c t).
        { intros c. unfold vsq, gap_node. assert (P0 := pow2_ge_0 (comp m v c (tn1 t))). assert (P1 := pow2_ge_0 (comp m v c (tn2 t))). assert (P3 := pow2_ge_0 (comp m v c (tn3 t))). destruct (Rlt_dec _ _); lra. }
        assert (G3 := GV 3%nat). assert (G4 := GV 4%nat). split; lra. }
    destruct V as [r3 [r4 [-> [-> [R3 R4]]]]]. set (gx := tgx m t (comp m v 2)) in *. set (gy := tgy m t (comp m v 2)) in *.
    assert (U : (gx + r3) ^ 2 + (gy + r4) ^ 2 <= 2 * gx ^ 2 + 2 * gy ^ 2 + 2 * (4 * vsq m v 3 t + 4 * vsq m v 4 t)).
    { assert (U1 := pow2_ge_0 (gx - r3)). assert (U2 := pow2_ge_0 (gy - r4)). lra. }
    apply (Rmult_le_compat_l _ _ _ A) in U.
    assert (W : tarea m t * (vsq m v 3 t + vsq m v 4 t) <= 4 * (vsq m v 3 t + vsq m v 4 t)) by (apply Rmult_le_compat_r; lra).
    assert (K0 : 0 <= k * (vsq m v 0 t + vsq m v 1 t + vsq m v 3 t + vsq m v 4 t)) by (apply Rmult_le_pos; lra). lra.
  Qed.

  Lemma method_vert : forall method v, In method cell_methods -> h <= 1 ->
    Sum (fun t => tarea m t * (fst (method_strain method m v t) ^ 2 + snd (method_strain method m v t) ^ 2)) (trias_of m) <= (4 * (24 / kappa) ^ 2 * (12 / kappa) + 2 * (12 / kappa + 32)) * vert_sum m v.
  Proof.
    intros method v MT H1. assert (T1 := test_sq Om m h kappa Q FI Hh Hk method v MT). assert (T2 := test_vert method v MT H1). assert (T3 := strains_vert v).
    match type of T1 with ?x <= _ => set (d1 := x) in * end. match type of T2 with ?x <= _ => set (d2 := x) in * end.
    assert (E : Sum (fun t => tarea m t * (fst (method_strain method m v t) ^ 2 + snd (method_strain method m v t) ^ 2)) (trias_of m) <= 2 * d1 + 2 * d2).
    { unfold d1, d2. rewrite <- !Sum_scal, <- Sum_plus. apply Sum_le. intros t _. assert (A := area_nn m t).
      set (a := fst (method_strain method m v t)). set (a' := snd (method_strain method m v t)). set (b := fst (test_shear method m v t)). set (b' := snd (test_shear method m v t)).
      assert (U1 := pow2_ge_0 (a - b - b)). assert (U2 := pow2_ge_0 (a' - b' - b')).
      assert (U : a ^ 2 + a' ^ 2 <= 2 * ((a - b) ^ 2 + (a' - b') ^ 2) + 2 * (b ^ 2 + b' ^ 2)) by lra. apply (Rmult_le_compat_l _ _ _ A) in U. lra. }
    assert (HB : (24 * h / kappa) ^ 2 <= (24 / kappa) ^ 2).
    { replace (24 * h / kappa) with (24 / kappa * h) by (field; lra). rewrite Rpow_mult_distr. rewrite <- (Rmult_1_r ((24 / kappa) ^ 2)) at 2. apply Rmult_le_compat_l; [apply pow2_ge_0|].
      assert (h * h <= 1 * 1) by (apply Rmult_le_compat; lra). lra. }
    assert (SN : 0 <= strains_sq m v) by (unfold strains_sq; apply Sum_nonneg; intros t _; apply Rmult_le_pos; [apply area_nn|apply strain_sq_nonneg]).
    assert (W1 := Rmult_le_compat_r _ _ _ SN HB). assert (W2 := Rmult_le_compat_l _ _ _ (pow2_ge_0 (24 / kappa)) T3). lra.
  Qed.
End T.
