(** Lemmas behind the independence of the units of measurement (C94). *)
(* P: Num Py Mesh Utils CalcK0 CalcKG AddK0s Spec SpecK0 SpecKG SpecK0s SpecStab SpecStat SpecMono SpecUnits Ex ExK0 ExK0s ExStab *)
From Coq Require Import ZArith Reals List Bool Arith Lra Lia String FunctionalExtensionality.
From Verif Require Import Num Py Mesh Utils CalcK0 CalcKG AddK0s Spec SpecK0 SpecKG SpecK0s SpecStab SpecStat SpecMono SpecUnits
  FSum FMat FDict FGeom FWf FSetup FAsm FDom FAny FKG FK0s FK0t FK0u FLin2 FUnits LK0 LK0s Ex ExK0 ExK0s ExStab.
Import ListNotations.
Local Open Scope R_scope.
Implicit Types (m : mesh R).

(** ** Matrices *)
Section Matrices.
  Variables c f : R.
  Hypothesis Hc : 0 < c.
  Hypothesis Hf : 0 < f.

  Lemma unit_pos : forall i, 0 < dof_unit c i.
  Proof. intros i. unfold dof_unit. destruct (_ <? _)%nat; lra. Qed.
  Lemma unit_delta : forall i, in_units c (delta i) = fun j => dof_unit c i * delta i j + 0 * delta i j.
  Proof. intros i. extensionality j. unfold in_units, delta. destruct (Nat.eqb_spec j i) as [->|_]; ring. Qed.
  Lemma units_form : forall k k', mdim k' = mdim k -> (forall u v, form k' (in_units c u) (in_units c v) = f * c * form k u v) -> other_units c f k k'.
  Proof.
    intros k k' D H. split; [exact D|]. intros i j Hi Hj. assert (X := H (delta i) (delta j)). rewrite form_delta in X by assumption. rewrite <- X, !unit_delta.
    rewrite form_lin_l, !form_lin_r, form_delta by (rewrite D; assumption). ring.
  Qed.

  Let lu (i : nat) : R := if (i mod 5 <? 3)%nat then f else f * c.
  Lemma lu_pos : forall i, 0 < lu i.
  Proof. intros i. unfold lu. destruct (_ <? _)%nat; [exact Hf|apply Rmult_lt_0_compat; assumption]. Qed.
  Lemma lu_unit : forall i, dof_unit c i * lu i = f * c.
  Proof. intros i. unfold dof_unit, lu. destruct (_ <? _)%nat; ring. Qed.
  Lemma units_mulv : forall k k' x i, other_units c f k k' -> (i < mdim k)%nat -> mulv k' (in_units c x) i = lu i * mulv k x i.
  Proof.
    intros k k' x i [D H] Hi. assert (P := unit_pos i). apply (Rmult_eq_reg_l (dof_unit c i)); [|lra]. rewrite <- Rmult_assoc, lu_unit.
    unfold mulv. rewrite D, <- !Sum_scal. apply Sum_ext_in. intros j Hj. apply in_seq in Hj. unfold in_units.
    transitivity (dof_unit c i * dof_unit c j * mentry k' i j * x j); [ring|]. rewrite H by lia. ring.
  Qed.
  Lemma in_units_zero : forall x i, in_units c x i = 0 <-> x i = 0.
  Proof. intros x i. unfold in_units. assert (P := unit_pos i). split; intros H; [|rewrite H; ring]. apply Rmult_integral in H. destruct H; [lra|assumption]. Qed.

  Lemma units_solves : forall k k' S load d, other_units c f k k' -> solves k S load d <-> solves k' S (load_units c f load) (in_units c d).
  Proof.
    intros k k' S load d U. unfold solves. rewrite (proj1 U).
    assert (X : forall i, (i < mdim k)%nat -> (if S i then d i = 0 else mulv k d i = load i) <-> (if S i then in_units c d i = 0 else mulv k' (in_units c d) i = load_units c f load i)).
    { intros i Hi. destruct (S i); [rewrite in_units_zero; tauto|]. rewrite (units_mulv k k' d i U Hi). unfold load_units. fold (lu i). assert (P := lu_pos i).
      split; intros Q; [rewrite Q; reflexivity|]. apply (Rmult_eq_reg_l (lu i)); [exact Q|lra]. }
    split; intros H i Hi; apply X, H; assumption.
  Qed.
  Lemma units_mode : forall k k' G G' S a b x y, other_units c f k k' -> other_units c f G G' -> mdim G = mdim k ->
    buckling_mode k G S a b x y <-> buckling_mode k' G' S a b (in_units c x) (in_units c y).
  Proof.
    intros k k' G G' S a b x y U U' D. unfold buckling_mode. rewrite (proj1 U).
    assert (A : forall z, admissible (mdim k) S z <-> admissible (mdim k) S (in_units c z)).
    { intros z. unfold admissible. split; intros H i Hi Si; apply in_units_zero, H; assumption. }
    rewrite <- !A. split; intros [H1 [H2 H]]; (split; [exact H1|split; [exact H2|]]); intros i Hi Si; specialize (H i Hi Si); assert (P := lu_pos i);
      rewrite ?(units_mulv k k' _ i U Hi), ?(units_mulv G G' _ i U' ltac:(rewrite D; exact Hi)) in *; destruct H as [P1 P2].
    - split.
      + transitivity (lu i * (mulv k x i + (a * mulv G x i - b * mulv G y i))); [ring|rewrite P1; ring].
      + transitivity (lu i * (mulv k y i + (a * mulv G y i + b * mulv G x i))); [ring|rewrite P2; ring].
    - split; apply (Rmult_eq_reg_l (lu i)); lra.
  Qed.
  Lemma units_nonzero : forall n x, nonzero n x <-> nonzero n (in_units c x).
  Proof. intros n x. unfold nonzero. split; intros [i [Hi N]]; exists i; (split; [exact Hi|]); rewrite in_units_zero in *; exact N. Qed.
  Lemma units_back : forall x, exists y, x = in_units c y.
  Proof. intros x. exists (fun i => / dof_unit c i * x i). extensionality i. unfold in_units. assert (P := unit_pos i). field. lra. Qed.
  Lemma units_zero : in_units c (fun _ => 0) = fun _ => 0.
  Proof. extensionality i. unfold in_units. ring. Qed.
  Lemma units_critical : forall k k' G G' S a, other_units c f k k' -> other_units c f G G' -> mdim G = mdim k ->
    critical_factor k G S a <-> critical_factor k' G' S a.
  Proof.
    intros k k' G G' S a U U' D. unfold critical_factor. rewrite (proj1 U).
    assert (M := fun b x => units_mode k k' G G' S b 0 x (fun _ => 0) U U' D). rewrite units_zero in M.
    split; intros [Ha [[x [N X]] L]]; (split; [exact Ha|split]).
    - exists (in_units c x). split; [apply (proj1 (units_nonzero _ _)), N|apply M, X].
    - intros b y Hb Y. destruct (units_back y) as [z ->]. rewrite <- units_nonzero. apply (L b z Hb), M, Y.
    - destruct (units_back x) as [z ->]. exists z. split; [apply (proj2 (units_nonzero _ _)), N|apply M, X].
    - intros b y Hb Y. rewrite units_nonzero. apply (L b _ Hb), M, Y.
  Qed.
End Matrices.

(** ** C94 *)

(** Lengths measured in another unit and forces in another: the matrices of calc_k0, of add_k0s with all three methods and of calc_kG are
    those of the old units, converted. *)
Lemma c94_matrices : forall method m pfn alpha mfa c f, In method methods -> valid m pfn -> thick m -> 0 <= alpha -> 0 < c -> 0 < f ->
  exists m1 K1 k1 m2 K2 k2,
    calc_k0 m pfn = (m1, Ok K1) /\ add_k0s lits_src K1 m1 pfn method alpha mfa = (k1, Ok tt) /\
    calc_k0 (mesh_units c f m) pfn = (m2, Ok K2) /\ add_k0s lits_src K2 m2 pfn method alpha mfa = (k2, Ok tt) /\
    other_units c f K1 K2 /\ other_units c f k1 k2 /\
    forall d d', List.length d = (List.length (nodes m) * 5)%nat -> List.length d' = List.length d -> (forall i, vec_of d' i = dof_unit c i * vec_of d i) ->
      exists G1 G2, calc_kG d m1 pfn = Ok G1 /\ calc_kG d' m2 pfn = Ok G2 /\ other_units c f G1 G2 /\ mdim G1 = mdim k1.
Proof.
  intros method m pfn alpha mfa c f MT V TH A Hc Hf. assert (W := va_wf _ _ V). assert (PL := va_plate _ _ V).
  assert (V2 := un_valid c f Hc m W pfn V). assert (L2 := un_len c f m).
  destruct (valid_spec m pfn V) as [m1 [K1 [E1 [D1 [F1 _]]]]]. destruct (valid_spec _ pfn V2) as [m2 [K2 [E2 [D2 [F2 _]]]]]. rewrite L2 in D2.
  assert (C1 : call_ok m m1 pfn alpha K1) by (constructor; [exists pfn, K1; auto|exact (va_props _ _ V)|exact TH|exact A|exact D1]).
  assert (C2 : call_ok (mesh_units c f m) m2 pfn alpha K2).
  { constructor; [exists pfn, K2; auto|exact (va_props _ _ V2)|apply un_thick; assumption|exact A|rewrite L2; exact D2]. }
  assert (U0 : forall u v, form K2 (in_units c u) (in_units c v) = f * c * form K1 u v) by (intros u v; rewrite F1, F2; apply un_energy; assumption).
  assert (X : exists k1 k2 g1 g2, add_k0s lits_src K1 m1 pfn method alpha mfa = (k1, Ok tt) /\ add_k0s lits_src K2 m2 pfn method alpha mfa = (k2, Ok tt) /\
    adds K1 k1 g1 /\ adds K2 k2 g2 /\ forall u v, g2 (in_units c u) (in_units c v) = f * c * g1 u v).
  { assert (CASE : In method cell_methods \/ method = "edge-based"%string) by (destruct MT as [<-|[<-|[<-|[]]]]; cbn; auto).
    destruct CASE as [MC| ->].
    - destruct (cell_methods_add method m m1 pfn alpha mfa K1 MC C1) as [k1 [G1 A1]]. destruct (cell_methods_add method _ m2 pfn alpha mfa K2 MC C2) as [k2 [G2 A2]].
      exists k1, k2. eexists. eexists. split; [exact G1|]. split; [exact G2|]. split; [exact A1|]. split; [exact A2|].
      intros u v. apply (un_shear c f Hc). intros w t. unfold method_strain. destruct (String.eqb _ _); [apply un_cell; assumption|apply un_ns; assumption].
    - destruct (edge_add m m1 (co_prepared _ _ _ _ _ C1) pfn (co_props _ _ _ _ _ C1) TH alpha A mfa K1 (co_dim _ _ _ _ _ C1) lits_src) as [k1 [G1 A1]].
      destruct (edge_add _ m2 (co_prepared _ _ _ _ _ C2) pfn (co_props _ _ _ _ _ C2) (co_thick _ _ _ _ _ C2) alpha A mfa K2 (co_dim _ _ _ _ _ C2) lits_src) as [k2 [G2 A2]].
      exists k1, k2. eexists. eexists. split; [exact G1|]. split; [exact G2|]. split; [exact A1|]. split; [exact A2|].
      intros u v. cbv beta. change (edge_keys (mesh_units c f m)) with (edge_keys m). rewrite <- Sum_scal. apply Sum_ext_in. intros k Hk.
      rewrite (un_edge_val c f Hc m pfn ph c) by reflexivity. rewrite un_edge_size, un_corr by assumption. rewrite un_edge_Q by assumption. ring. }
  destruct X as [k1 [k2 [g1 [g2 [G1 [G2 [[DA1 A1] [[DA2 A2] HG]]]]]]]].
  exists m1, K1, k1, m2, K2, k2. split; [exact E1|]. split; [exact G1|]. split; [exact E2|]. split; [exact G2|]. split; [|split].
  - apply units_form; [congruence|exact U0].
  - apply units_form; [congruence|]. intros u v. rewrite A1, A2, U0, HG. ring.
  - intros d d' L L' HD.
    destruct (calc_kG_spec m m1 pfn d (co_prepared _ _ _ _ _ C1) (va_props _ _ V) L) as [KG1 [EG1 [DG1 FG1]]].
    destruct (calc_kG_spec _ m2 pfn d' (co_prepared _ _ _ _ _ C2) (va_props _ _ V2) ltac:(rewrite L2; congruence)) as [KG2 [EG2 [DG2 FG2]]]. rewrite L2 in DG2.
    exists KG1, KG2. split; [exact EG1|]. split; [exact EG2|]. split; [|congruence]. apply units_form; [congruence|]. intros u v. rewrite FG1, FG2.
    replace (vec_of d') with (in_units c (vec_of d)) by (extensionality i; rewrite HD; reflexivity). apply un_work; assumption.
Qed.
(** the square of two triangles, from metres and newtons to millimetres and kilonewtons *)
Lemma c94_matrices_ex : (forall pfn, valid duo pfn) /\ thick duo /\ pos (mesh_units 1000 (1/1000) duo) 3 = V3 (1000 * 1) (1000 * 1) (1000 * 0) /\
  ph (prop_units 1000 (1/1000) (ex_prop 1)) = 100 /\ m00 (pD (prop_units 1000 (1/1000) (ex_prop 1))) = 20.
Proof.
  split; [intros pfn; apply two_valid|]. split; [apply with_one; [exact two_wf|cbn; lra]|]. split; [reflexivity|]. unfold prop_units, ex_prop, scale3; cbn. split; lra.
Qed.

(** In the new units the same displacements are the solutions for the same loads, and buckling modes and load factors are the same. *)
Lemma c94_answers : forall method m pfn alpha mfa c f, In method methods -> valid m pfn -> thick m -> 0 <= alpha -> 0 < c -> 0 < f ->
  exists m1 K1 k1 m2 K2 k2,
    calc_k0 m pfn = (m1, Ok K1) /\ add_k0s lits_src K1 m1 pfn method alpha mfa = (k1, Ok tt) /\
    calc_k0 (mesh_units c f m) pfn = (m2, Ok K2) /\ add_k0s lits_src K2 m2 pfn method alpha mfa = (k2, Ok tt) /\
    (forall S load d, solves k1 S load d <-> solves k2 S (load_units c f load) (in_units c d)) /\
    forall d d', List.length d = (List.length (nodes m) * 5)%nat -> List.length d' = List.length d -> (forall i, vec_of d' i = dof_unit c i * vec_of d i) ->
      exists G1 G2, calc_kG d m1 pfn = Ok G1 /\ calc_kG d' m2 pfn = Ok G2 /\ forall S,
        (forall a b x y, buckling_mode k1 G1 S a b x y <-> buckling_mode k2 G2 S a b (in_units c x) (in_units c y)) /\
        forall a, critical_factor k1 G1 S a <-> critical_factor k2 G2 S a.
Proof.
  intros method m pfn alpha mfa c f MT V TH A Hc Hf.
  destruct (c94_matrices method m pfn alpha mfa c f MT V TH A Hc Hf) as [m1 [K1 [k1 [m2 [K2 [k2 [E1 [G1 [E2 [G2 [U0 [U HG]]]]]]]]]]]].
  exists m1, K1, k1, m2, K2, k2. split; [exact E1|]. split; [exact G1|]. split; [exact E2|]. split; [exact G2|]. split.
  - intros S load d. apply units_solves; assumption.
  - intros d d' L L' HD. destruct (HG d d' L L' HD) as [KG1 [KG2 [X1 [X2 [U' DD]]]]]. exists KG1, KG2. split; [exact X1|]. split; [exact X2|]. intros S.
    split; [intros a b x y; apply (units_mode c f); assumption|intros a; apply (units_critical c f); assumption].
Qed.
Lemma c94_answers_ex : forall d, List.length d = 20%nat -> let d' := list_of 20 (in_units 1000 (vec_of d)) in
  List.length d' = List.length d /\ (forall i, vec_of d' i = dof_unit 1000 i * vec_of d i) /\ dof_unit 1000 7 = 1000 /\ dof_unit 1000 9 = 1.
Proof.
  intros d L d'. split; [unfold d', list_of; rewrite map_length, seq_length; congruence|]. split; [|split; reflexivity]. intros i. unfold d', vec_of, list_of.
  destruct (Nat.lt_ge_cases i 20) as [H|H].
  - rewrite (nth_indep _ 0 (in_units 1000 (vec_of d) 0%nat)) by (rewrite map_length, seq_length; exact H). rewrite map_nth, seq_nth by exact H. reflexivity.
  - rewrite !nth_overflow by (rewrite ?map_length, ?seq_length; lia). ring.
Qed.
