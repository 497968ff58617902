(** Inequalities of Korn and Poincare for the linear triangles of a mesh. *)
From Coq Require Import ZArith Reals List Bool Arith Lra Lia Psatz String.
From Verif Require Import Num Py Mesh Utils Spec SpecK0 SpecEq SpecK0s SpecStab SpecStat SpecConv SpecSol SpecSol2 SpecKorn FSum FMat FTensor FDict FGeom FWf FRead2 FAsm FSetup FSmooth FEq FConv FSol FSol2 FSol3.
Import ListNotations.
Local Open Scope R_scope.
Implicit Types (m : mesh R) (t : tria R).

Section Mesh.
  Variable m : mesh R.
  Hypothesis W : wf_mesh m.
  Hypothesis PL : plate m.

  (** what runs along the sides of the triangles cancels inside of the plate *)
  Lemma circulation : forall c : nat -> nat -> R, (forall a b, c b a = - c a b) ->
    (forall k, In k (edge_keys m) -> List.length (tris_on m k) = 1%nat -> c (fst k) (snd k) = 0) ->
    Sum (fun t => sg (tdet m t) * (c (tn1 t) (tn2 t) + c (tn2 t) (tn3 t) + c (tn3 t) (tn1 t))) (trias_of m) = 0.
  Proof.
    intros c AS B0.
    set (o := fun (k : nat * nat) (t : tria R) => sg (det2 (pos m (fst k)) (pos m (snd k)) (pos m (third t k))) * c (fst k) (snd k)).
    assert (OS : forall t a b e, In t (trias_of m) ->
      ((a, b, e) = (tn1 t, tn2 t, tn3 t) \/ (a, b, e) = (tn2 t, tn3 t, tn1 t) \/ (a, b, e) = (tn3 t, tn1 t, tn2 t)) ->
      o (Nat.min a b, Nat.max a b) t = sg (tdet m t) * c a b).
    { intros t a b e Ht H. destruct (wf_distinct m W t Ht) as [H1 [H2 H3]].
      assert (N : a <> b) by (destruct H as [H|[H|H]]; congruence).
      unfold o. rewrite (third_of t a b e H1 H2 H3 N H). cbn [fst snd].
      assert (D : det2 (pos m a) (pos m b) (pos m e) = tdet m t).
      { unfold tdet, det2. destruct H as [H|[H|H]]; injection H as -> -> ->; ring. }
      destruct (Nat.le_ge_cases a b).
      - rewrite Nat.min_l, Nat.max_r by assumption. rewrite D. reflexivity.
      - rewrite Nat.min_r, Nat.max_l by assumption.
        replace (det2 (pos m b) (pos m a) (pos m e)) with (- tdet m t) by (rewrite <- D; unfold det2; ring).
        rewrite sg_opp, (AS a b). ring. }
    rewrite (Sum_ext_in _ _ (fun t => Sum (fun k => o k t) (sides t))).
    - rewrite <- (count_sides m W o). apply Sum_zero. intros k Hk.
      destruct (tris_on m k) as [|t1 [|t2 [|t3 l]]] eqn:E.
      + apply Sum_nil.
      + rewrite Sum_cons, Sum_nil. unfold o. rewrite (B0 k Hk) by (rewrite E; reflexivity). ring.
      + rewrite !Sum_cons, Sum_nil. assert (X := sg_two _ _ (pl_sides m PL k t1 t2 Hk E)). unfold o.
        set (s1 := sg (det2 _ _ (pos m (third t1 k)))) in *. set (s2 := sg (det2 _ _ (pos m (third t2 k)))) in *. replace s2 with (- s1) by lra. ring.
      + assert (X := pl_two m PL k Hk). rewrite E in X. cbn in X. lia.
    - intros t Ht. unfold sides. rewrite !Sum_cons, Sum_nil.
      rewrite (OS t (tn1 t) (tn2 t) (tn3 t) Ht), (OS t (tn2 t) (tn3 t) (tn1 t) Ht), (OS t (tn3 t) (tn1 t) (tn2 t) Ht) by auto. ring.
  Qed.

  Definition zero_edge (q : nat -> R) : Prop := forall k, In k (edge_keys m) -> List.length (tris_on m k) = 1%nat -> q (fst k) = 0 /\ q (snd k) = 0.

  Lemma null_lagrangian : forall f g, zero_edge f -> Sum (fun t => tarea m t * (tgx m t f * tgy m t g - tgy m t f * tgx m t g)) (trias_of m) = 0.
  Proof.
    intros f g ZF. assert (X := circulation (fun a b => (f a * g b - f b * g a) / 2)).
    rewrite <- X.
    - apply Sum_ext_in. intros t Ht. assert (NZ := pl_nondeg m PL t Ht). unfold tarea, tgx, tgy, sg.
      generalize (Rabs (tdet m t)). intros r. unfold tdet, det2 in *. field. exact NZ.
    - intros a b. field.
    - intros k Hk L. destruct (ZF k Hk L) as [-> ->]. field.
  Qed.

  (** the mean of the square over a triangle *)
  Definition msq t (f : nat -> R) : R := (f (tn1 t) * f (tn1 t) + f (tn2 t) * f (tn2 t) + f (tn3 t) * f (tn3 t) + (f (tn1 t) + f (tn2 t) + f (tn3 t)) * (f (tn1 t) + f (tn2 t) + f (tn3 t))) / 12.

  Lemma poincare : forall f X, zero_edge f -> in_strip X m -> Sum (fun t => tarea m t * msq t f) (trias_of m) <= 4 * (X * X) * Sum (fun t => tarea m t * tgx m t f ^ 2) (trias_of m).
  Proof.
    intros f X ZF [x0 HX]. set (x := fun n => vx (pos m n) - x0). set (y := fun n => vy (pos m n)).
    set (c := fun a b => (y b - y a) * (x a * (3 * (f a * f a) + 2 * (f a * f b) + f b * f b) + x b * (f a * f a + 2 * (f a * f b) + 3 * (f b * f b))) / 12).
    set (r := fun t => (x (tn1 t) * f (tn1 t) + x (tn2 t) * f (tn2 t) + x (tn3 t) * f (tn3 t) + (x (tn1 t) + x (tn2 t) + x (tn3 t)) * (f (tn1 t) + f (tn2 t) + f (tn3 t))) / 12).
    assert (Z : Sum (fun t => tarea m t * (msq t f + 2 * r t * tgx m t f)) (trias_of m) = 0).
    { rewrite <- (circulation c).
      - apply Sum_ext_in. intros t Ht. assert (NZ := pl_nondeg m PL t Ht). unfold tarea, tgx, sg, msq, r, c, x, y.
        generalize (Rabs (tdet m t)). intros a. unfold tdet, det2 in *. field. exact NZ.
      - intros a b. unfold c. field.
      - intros k Hk L. destruct (ZF k Hk L) as [Z1 Z2]. unfold c. rewrite Z1, Z2. field. }
    assert (P : Sum (fun t => tarea m t * msq t f) (trias_of m) <= Sum (fun t => tarea m t * (msq t f + 2 * r t * tgx m t f)) (trias_of m)
      + (1 / 2 * Sum (fun t => tarea m t * msq t f) (trias_of m) + 2 * (X * X) * Sum (fun t => tarea m t * tgx m t f ^ 2) (trias_of m))); [|lra].
    rewrite <- !Sum_scal, <- !Sum_plus. apply Sum_le. intros t Ht. assert (A := area_nn m t).
    assert (H : 0 <= 2 * r t * tgx m t f + 1 / 2 * msq t f + 2 * (X * X) * tgx m t f ^ 2).
    { assert (B : forall n, vertex t n -> Rabs (x n) <= X) by (intros n Vn; apply HX, (wf_vertices m W t n Ht Vn)).
      assert (B1 := B (tn1 t) (or_introl eq_refl)). assert (B2 := B (tn2 t) (or_intror (or_introl eq_refl))). assert (B3 := B (tn3 t) (or_intror (or_intror eq_refl))).
      assert (S1 := rb_mult _ _ _ _ B1 B1). assert (S2 := rb_mult _ _ _ _ B2 B2). assert (S3 := rb_mult _ _ _ _ B3 B3).
      assert (S4 := rb_plus _ _ _ _ (rb_plus _ _ _ _ B1 B2) B3). assert (S5 := rb_mult _ _ _ _ S4 S4).
      unfold r, msq. set (g := tgx m t f). set (x1 := x (tn1 t)) in *. set (x2 := x (tn2 t)) in *. set (x3 := x (tn3 t)) in *.
      set (f1 := f (tn1 t)). set (f2 := f (tn2 t)). set (f3 := f (tn3 t)).
      rewrite rb in S1, S2, S3, S5.
      assert (Q1 := sq_nn (f1 + 2 * g * x1)). assert (Q2 := sq_nn (f2 + 2 * g * x2)). assert (Q3 := sq_nn (f3 + 2 * g * x3)). assert (Q4 := sq_nn ((f1 + f2 + f3) + 2 * g * (x1 + x2 + x3))).
      assert (G := pow2_ge_0 g).
      assert (M : g ^ 2 * (x1 * x1 + x2 * x2 + x3 * x3 + (x1 + x2 + x3) * (x1 + x2 + x3)) <= g ^ 2 * (12 * (X * X))) by (apply Rmult_le_compat_l; lra).
      lra. }
    apply (Rmult_le_compat_l _ _ _ A) in H. lra.
  Qed.

  Lemma mean_msq : forall t f, tmean t f ^ 2 <= msq t f.
  Proof.
    intros t f. unfold tmean, msq. set (a := f (tn1 t)). set (b := f (tn2 t)). set (e := f (tn3 t)).
    assert (Q1 := sq_nn (a - b)). assert (Q2 := sq_nn (b - e)). assert (Q3 := sq_nn (a - e)). nra.
  Qed.

  Lemma poincare_mean : forall f X, zero_edge f -> in_strip X m -> Sum (fun t => tarea m t * tmean t f ^ 2) (trias_of m) <= 4 * (X * X) * Sum (fun t => tarea m t * tgx m t f ^ 2) (trias_of m).
  Proof.
    intros f X ZF HX. eapply Rle_trans; [|apply (poincare f X ZF HX)]. apply Sum_le. intros t _. apply Rmult_le_compat_l; [apply area_nn|apply mean_msq].
  Qed.

  (** Korn's first inequality *)
  Lemma korn_grad : forall f g, zero_edge f ->
    Sum (fun t => tarea m t * (tgx m t f ^ 2 + tgy m t f ^ 2 + tgx m t g ^ 2 + tgy m t g ^ 2)) (trias_of m) <=
    2 * Sum (fun t => tarea m t * (tgx m t f ^ 2 + tgy m t g ^ 2 + (tgy m t f + tgx m t g) ^ 2)) (trias_of m).
  Proof.
    intros f g ZF. assert (N := null_lagrangian f g ZF).
    apply Rle_trans with (2 * Sum (fun t => tarea m t * (tgx m t f ^ 2 + tgy m t g ^ 2 + (tgy m t f + tgx m t g) ^ 2)) (trias_of m)
      + 2 * Sum (fun t => tarea m t * (tgx m t f * tgy m t g - tgy m t f * tgx m t g)) (trias_of m)); [|rewrite N; lra].
    rewrite <- !Sum_scal, <- Sum_plus. apply Sum_le. intros t _. assert (A := area_nn m t).
    set (a := tgx m t f). set (b := tgy m t f). set (c := tgx m t g). set (d := tgy m t g).
    assert (Z : a ^ 2 + b ^ 2 + c ^ 2 + d ^ 2 <= 2 * (a ^ 2 + d ^ 2 + (b + c) ^ 2) + 2 * (a * d - b * c)).
    { assert (Q1 := sq_nn (a + d)). assert (Q2 := sq_nn (b + c)). lra. }
    apply (Rmult_le_compat_l _ _ _ A) in Z. lra.
  Qed.

  Section Held.
    Variables (S : nat -> bool) (v : nat -> R) (cs : list nat).
    Hypothesis HS : held cs m S.
    Hypothesis AV : admissible (List.length (nodes m) * 5) S v.
    Hypothesis CS : forall j, In j cs -> (j < 5)%nat.

    Lemma held_zero : forall j, In j cs -> zero_edge (comp m v j).
    Proof.
      intros j Hj k Hk L.
      assert (V : forall n, n = fst k \/ n = snd k -> comp m v j n = 0).
      { intros n Hn. unfold comp. apply AV; [|apply (HS k n j Hk L Hn Hj)].
        assert (In n (node_keys m)).
        { destruct (tris_on m k) as [|t l] eqn:E; [discriminate L|]. assert (X : In t (tris_on m k)) by (rewrite E; left; reflexivity).
          apply tris_on_in in X. destruct X as [Ht [V1 V2]]. destruct Hn as [-> | ->]; [apply (wf_vertices m W t _ Ht V1)|apply (wf_vertices m W t _ Ht V2)]. }
        assert (X := rank_lt m n H). assert (Y := CS j Hj). lia. }
      split; apply V; auto.
    Qed.
  End Held.

  Lemma strain_rot : forall v, Sum (fun t => tarea m t * (tgx m t (comp m v 3) ^ 2 + tgy m t (comp m v 4) ^ 2 + (tgy m t (comp m v 3) + tgx m t (comp m v 4)) ^ 2)) (trias_of m) <= strains_sq m v.
  Proof.
    intros v. unfold strains_sq. apply Sum_le. intros t _. apply Rmult_le_compat_l; [apply area_nn|].
    unfold strain_sq, tria_strain; cbn [exx eyy exy kxx kyy kxy].
    assert (A := sq_nn (tgx m t (comp m v 0))). assert (B := sq_nn (tgy m t (comp m v 1))). assert (C := sq_nn (tgy m t (comp m v 0) + tgx m t (comp m v 1))). lra.
  Qed.
  Lemma strain_mem : forall v, Sum (fun t => tarea m t * (tgx m t (comp m v 0) ^ 2 + tgy m t (comp m v 1) ^ 2 + (tgy m t (comp m v 0) + tgx m t (comp m v 1)) ^ 2)) (trias_of m) <= strains_sq m v.
  Proof.
    intros v. unfold strains_sq. apply Sum_le. intros t _. apply Rmult_le_compat_l; [apply area_nn|].
    unfold strain_sq, tria_strain; cbn [exx eyy exy kxx kyy kxy].
    assert (A := sq_nn (tgx m t (comp m v 3))). assert (B := sq_nn (tgy m t (comp m v 4))). assert (C := sq_nn (tgy m t (comp m v 3) + tgx m t (comp m v 4))). lra.
  Qed.

  (** a pair of components *)
  Lemma korn_pair : forall f g X, zero_edge f -> zero_edge g -> in_strip X m ->
    Sum (fun t => tarea m t * (tmean t f ^ 2 + tmean t g ^ 2 + (tgx m t f ^ 2 + tgy m t f ^ 2 + tgx m t g ^ 2 + tgy m t g ^ 2))) (trias_of m)
    <= (2 + 8 * (X * X)) * Sum (fun t => tarea m t * (tgx m t f ^ 2 + tgy m t g ^ 2 + (tgy m t f + tgx m t g) ^ 2)) (trias_of m).
  Proof.
    intros f g X ZF ZG HX. assert (K := korn_grad f g ZF). assert (P1 := poincare_mean f X ZF HX). assert (P2 := poincare_mean g X ZG HX).
    set (E := Sum (fun t => tarea m t * (tgx m t f ^ 2 + tgy m t g ^ 2 + (tgy m t f + tgx m t g) ^ 2)) (trias_of m)) in *.
    set (G := Sum (fun t => tarea m t * (tgx m t f ^ 2 + tgy m t f ^ 2 + tgx m t g ^ 2 + tgy m t g ^ 2)) (trias_of m)) in *.
    assert (T : Sum (fun t => tarea m t * tgx m t f ^ 2) (trias_of m) + Sum (fun t => tarea m t * tgx m t g ^ 2) (trias_of m) <= G).
    { unfold G. rewrite <- Sum_plus. apply Sum_le. intros t _. assert (A := area_nn m t). assert (Q1 := pow2_ge_0 (tgy m t f)). assert (Q2 := pow2_ge_0 (tgy m t g)).
      assert (0 <= tarea m t * (tgy m t f ^ 2 + tgy m t g ^ 2)) by (apply Rmult_le_pos; lra). lra. }
    assert (XX := sq_nn X). set (Y := X * X) in *.
    assert (T2 : 4 * Y * (Sum (fun t => tarea m t * tgx m t f ^ 2) (trias_of m) + Sum (fun t => tarea m t * tgx m t g ^ 2) (trias_of m)) <= 4 * Y * (2 * E)) by (apply Rmult_le_compat_l; lra).
    rewrite (Sum_ext _ _ (fun t => tarea m t * tmean t f ^ 2 + tarea m t * tmean t g ^ 2 + tarea m t * (tgx m t f ^ 2 + tgy m t f ^ 2 + tgx m t g ^ 2 + tgy m t g ^ 2))) by (intros; ring).
    rewrite !Sum_plus. fold G. lra.
  Qed.

  Lemma korn_held : forall S X, held [3; 4]%nat m S -> in_strip X m -> korn (2 + 8 * (X * X)) m S.
  Proof.
    intros S X HS HX v AV.
    assert (Z3 := held_zero S v [3; 4]%nat HS AV ltac:(cbn; intros; lia) 3%nat ltac:(cbn; auto)). assert (Z4 := held_zero S v [3; 4]%nat HS AV ltac:(cbn; intros; lia) 4%nat ltac:(cbn; auto)).
    eapply Rle_trans; [apply (korn_pair _ _ X Z3 Z4 HX)|]. apply Rmult_le_compat_l; [assert (Y := sq_nn X); lra|apply strain_rot].
  Qed.
End Mesh.
