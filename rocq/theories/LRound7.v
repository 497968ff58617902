(** Lemmas behind the rounding errors of area_of_polygon and unitvec (C92). *)
(* P: Num Float Py Mesh Utils Vec Spec SpecUtils SpecRound SpecRound7 ExFloat ExRound7 *)
From Coq Require Import ZArith Reals List Bool Arith Lra Lia.
From Flocq Require Import Core BinarySingleNaN.
From Verif Require Import Num Float Py Mesh Utils Vec Spec SpecUtils SpecRound FSum FGeom FFloat FRound3 FRound13 LUtils ExFloat.
From Verif Require Import FRel FInterp2 SpecRound7 FUtil2 ExRound7.
Import ListNotations.
Local Open Scope R_scope.

(** area_of_polygon returns in double precision, and the result differs from the area by at most
    n + 5 roundings of the products that are added. *)
Lemma c92_area : forall ps o, polygon_scale ps ->
  exists a, area_of_polygon (map fst ps) (map snd ps) = Ok a /\ finite a /\ 0 <= val a /\
    Rabs (val a - Rabs (enclosed o (map corner_val ps)) / 2) <= (INR (length ps) + 5) * roundoff * products_sum (map corner_val ps).
Proof.
  intros ps o PS. destruct (area_rounded ps PS) as [a [E [F [P H]]]]. exists a. split; [exact E|]. split; [exact F|]. split; [exact P|]. rewrite <- area2_enclosed, <- B2_sum by exact PS. exact H.
Qed.
(** unitvec: every component is right up to n + 4 roundings, zeros stay zeros, and the length of
    the result is one up to n + 4 roundings. *)
Lemma c92_unit : forall v, vector_scale v ->
  length (unitvec_array v) = length v /\
  (forall i, (i < length v)%nat -> let a := nth i v (nofZ 0) in let b := nth i (unitvec_array v) (nofZ 0) in
    finite b /\ Rabs (val b - val a / length2 (map val v)) <= (INR (length v) + 4) * roundoff * (Rabs (val a) / length2 (map val v)) /\ (val a = 0 -> val b = 0) /\ (0 < val a -> 0 < val b) /\ (val a < 0 -> val b < 0)) /\
  Rabs (length2 (map val (unitvec_array v)) - 1) <= (INR (length v) + 4) * roundoff.
Proof.
  intros v VS. assert (LR := len_range v VS). assert (LP := bpow_gt_0 radix2 (-300)). assert (FW := ve_few _ VS). set (L := length2 (map val v)) in *. assert (L0 : 0 < L) by lra.
  assert (G : gam (length v + 3) <= (INR (length v) + 4) * roundoff).
  { eapply Rle_trans; [apply gam_lin; lia|]. right. rewrite S_INR, plus_INR. cbn [INR]. ring. }
  split; [apply map_length|]. split.
  - intros i Hi a b. assert (I : In a v) by (apply nth_In, Hi). assert (Eb : b = ndiv a (norm_array v)).
    { unfold b, unitvec_array. rewrite (nth_indep _ _ (ndiv (nofZ 0) (norm_array v))) by (rewrite map_length; exact Hi). apply (map_nth (fun a => ndiv a (norm_array v))). }
    rewrite Eb. assert (R := unit_rl v VS a I). fold L in R. assert (E := rl_err _ _ _ R). destruct R as [F [t [T V]]]. assert (TP := fac_pos _ _ T). split; [exact F|]. split; [|split; [|split]].
    + eapply Rle_trans; [exact E|]. unfold Rdiv. rewrite Rabs_mult, (Rabs_right (/ L)) by (left; apply Rinv_0_lt_compat, L0). apply Rmult_le_compat_r; [|exact G].
      apply Rmult_le_pos; [apply Rabs_pos|left; apply Rinv_0_lt_compat, L0].
    + intros Z. rewrite V, Z. unfold Rdiv. ring.
    + intros P. rewrite V. apply Rmult_lt_0_compat; [|exact TP]. apply Rdiv_lt_0_compat; assumption.
    + intros P. rewrite V. assert (0 < - val a / L * t); [|unfold Rdiv in *; lra]. apply Rmult_lt_0_compat; [|exact TP]. apply Rdiv_lt_0_compat; lra.
  - eapply Rle_trans; [|exact G]. apply fac_err. assert (U := upow (length v + 3)). unfold fac. set (P := (1 + roundoff) ^ (length v + 3)) in *.
    assert (EQ : Sum (fun a => (a / L) * (a / L)) (map val v) = 1).
    { rewrite (Sum_ext _ _ (fun a => / (L * L) * (a * a))) by (intros; field; lra). rewrite Sum_scal. assert (Q : L * L = Sum (fun a => a * a) (map val v)) by (unfold L, length2; apply sqrt_sqrt, sumsq_nonneg). rewrite <- Q. field. lra. }
    assert (B : / P * / P * Sum (fun a => (a / L) * (a / L)) (map val v) <= Sum (fun a => a * a) (map val (unitvec_array v)) <= P * P * Sum (fun a => (a / L) * (a / L)) (map val v)).
    { unfold unitvec_array. rewrite map_map, !Sum_map, <- !Sum_scal. split; apply Sum_le; intros a I; destruct (unit_rl v VS a I) as [_ [t [T V]]]; assert (TP := fac_pos _ _ T); fold L in V; rewrite V; destruct T as [T1 T2];
        change ((1 + roundoff) ^ (length v + 3)) with P in T1, T2; set (q := val a / L).
      - replace (q * t * (q * t)) with (t * t * (q * q)) by ring. apply Rmult_le_compat_r; [nra|]. assert (0 < / P) by (apply Rinv_0_lt_compat; lra). apply Rmult_le_compat; lra.
      - replace (q * t * (q * t)) with (t * t * (q * q)) by ring. apply Rmult_le_compat_r; [nra|]. apply Rmult_le_compat; lra. }
    rewrite EQ in B. unfold length2. assert (IP : 0 < / P) by (apply Rinv_0_lt_compat; lra). split.
    + rewrite <- (sqrt_square (/ P)) by lra. apply sqrt_le_1_alt. lra.
    + rewrite <- (sqrt_square P) by lra. apply sqrt_le_1_alt. lra.
Qed.

Lemma small_between : forall e x, (10 <= e)%nat -> (x = 0 \/ / 1024 <= x <= 1024 \/ / 1024 <= - x <= 1024) -> between e x.
Proof.
  intros e x E H. assert (A : 1024 <= 2 ^ e) by (replace 1024 with (2 ^ 10) by (cbn [pow]; ring); apply Rle_pow; [lra|exact E]). assert (B : / 2 ^ e <= / 1024) by (apply Rinv_le_contravar; lra).
  destruct H as [H|[H|H]]; [left; exact H|right; rewrite Rabs_right by lra; lra|right; rewrite Rabs_left by lra; lra].
Qed.
Ltac sizes := apply small_between; [lia|]; dval; try (left; lra); right; (left; lra) || (right; lra).
Ltac each H := cbn [In] in H; repeat (destruct H as [<-|H]); try (destruct H).

(** A quadrilateral whose corners are not doubles before rounding *)
Lemma c92_area_ex : polygon_scale fpolygon /\ length fpolygon = 4%nat.
Proof.
  split; [|reflexivity]. constructor.
  - discriminate.
  - cbn. lia.
  - intros p H. each H; (split; exact I || reflexivity).
  - intros p H. each H; cbn [fst]; sizes.
  - assert (C : forall j, corner (map corner_val fpolygon) j = corner (map corner_val fpolygon) (j mod 4)).
    { intros j. unfold corner. change (Z.of_nat (length (map corner_val fpolygon))) with 4%Z. rewrite Z.mod_mod by lia. reflexivity. }
    intros i. rewrite (C (i + 1)%Z), (C (i - 1)%Z). rewrite <- (Zplus_mod_idemp_l i 1), <- (Zminus_mod_idemp_l i 1). assert (H := Z.mod_pos_bound i 4).
    assert (D : (i mod 4 = 0 \/ i mod 4 = 1 \/ i mod 4 = 2 \/ i mod 4 = 3)%Z) by lia.
    destruct D as [-> |[-> |[-> | ->]]]; unfold corner; rewrite map_length;
      repeat match goal with |- context [Z.to_nat ?k] => let v := eval vm_compute in (Z.to_nat k) in change (Z.to_nat k) with v end; unfold fpolygon, corner_val; cbn [map nth fst snd]; sizes.
Qed.
Lemma c92_unit_ex : vector_scale fvector /\ length fvector = 4%nat.
Proof.
  split; [|reflexivity]. constructor.
  - cbn. lia.
  - intros a H. each H; (split; [exact I || reflexivity|sizes]).
  - exists (nth 0 fvector (nofZ 0)). split; [left; reflexivity|]. cbn [nth fvector]. dval. lra.
Qed.
