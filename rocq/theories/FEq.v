(** Facts about equilibrium: the integral of the gradient of a hat function. *)
From Coq Require Import ZArith Reals List Bool Arith Lra Lia Permutation.
From Verif Require Import Num Py Mesh Utils Spec SpecK0 SpecEq FSum FMat FTensor FDict FGeom FWf FRead2 FAsm FSetup FSmooth CalcK0.
Import ListNotations.
Local Open Scope R_scope.
Implicit Types (m : mesh R) (t : tria R).

Definition sg (x : R) : R := Rabs x / x.
Lemma sg_opp : forall x, sg (- x) = - sg x.
Proof. intros x; unfold sg, Rdiv. rewrite Rabs_Ropp. destruct (Req_dec x 0) as [->|N]; [rewrite Ropp_0, Rabs_R0; ring|]. rewrite Rinv_opp. ring. Qed.
Lemma sg_pos : forall x, 0 < x -> sg x = 1.
Proof. intros x H; unfold sg. rewrite Rabs_right by lra. field. lra. Qed.
Lemma sg_neg : forall x, x < 0 -> sg x = -1.
Proof. intros x H; unfold sg. rewrite Rabs_left by lra. field. lra. Qed.
Lemma sg_two : forall x y, x * y < 0 -> sg x + sg y = 0.
Proof.
  intros x y H. destruct (Rtotal_order x 0) as [X|[X|X]].
  - rewrite (sg_neg x X). assert (0 < y) by nra. rewrite (sg_pos y) by assumption. ring.
  - subst; lra.
  - rewrite (sg_pos x X). assert (y < 0) by nra. rewrite (sg_neg y) by assumption. ring.
Qed.

Definition hat (n n' : nat) : R := if Nat.eqb n' n then 1 else 0.
Lemma hat_same : forall n, hat n n = 1.
Proof. intros; unfold hat; rewrite Nat.eqb_refl; reflexivity. Qed.
Lemma hat_diff : forall n n', n' <> n -> hat n n' = 0.
Proof. intros n n' H; unfold hat. destruct (Nat.eqb_spec n' n); [contradiction|reflexivity]. Qed.

Definition at_end (n : nat) (k : nat * nat) : bool := Nat.eqb n (fst k) || Nat.eqb n (snd k).

Section Eq.
  Variable m : mesh R.
  Hypothesis W : wf_mesh m.
  Hypothesis PL : plate m.

  (** outward normal of [t] on its side [k] times the length *)
  Definition outx (t : tria R) (k : nat * nat) : R :=
    sg (det2 (pos m (fst k)) (pos m (snd k)) (pos m (third t k))) * (vy (pos m (snd k)) - vy (pos m (fst k))).
  Definition outy (t : tria R) (k : nat * nat) : R :=
    sg (det2 (pos m (fst k)) (pos m (snd k)) (pos m (third t k))) * (vx (pos m (fst k)) - vx (pos m (snd k))).

  Lemma count_sides : forall f : nat * nat -> tria R -> R,
    Sum (fun k => Sum (f k) (tris_on m k)) (edge_keys m) = Sum (fun t => Sum (fun k => f k t) (sides t)) (trias_of m).
  Proof.
    intros f.
    rewrite (Sum_ext_in _ _ (fun k => Sum (fun t => if mem_key k (sides t) then f k t else 0) (trias_of m))).
    - rewrite Sum_swap. apply Sum_ext_in. intros t Ht.
      rewrite <- (Sum_filter_if _ (fun k => mem_key k (sides t)) (fun k => f k t)). apply Sum_perm.
      apply NoDup_Permutation.
      + apply NoDup_filter, (wf_edges m W).
      + apply sides_nodup. apply (wf_distinct m W t Ht).
      + intros k. rewrite filter_In, mem_key_in. split; [tauto|]. intros H; split; [|exact H].
        apply (wf_edge_keys m W). exists t; auto.
    - intros k Hk. unfold tris_on. rewrite Sum_filter_if. apply Sum_ext_in. intros t Ht.
      rewrite (on_side m W) by assumption. reflexivity.
  Qed.

  Lemma third_of : forall t a b c, tn1 t <> tn2 t -> tn2 t <> tn3 t -> tn3 t <> tn1 t -> a <> b ->
    ((a, b, c) = (tn1 t, tn2 t, tn3 t) \/ (a, b, c) = (tn2 t, tn3 t, tn1 t) \/ (a, b, c) = (tn3 t, tn1 t, tn2 t)) ->
    third t (Nat.min a b, Nat.max a b) = c.
  Proof.
    intros t a b c H1 H2 H3 N H. unfold third; cbn [fst snd].
    assert (X : forall n, Nat.eqb n (Nat.min a b) || Nat.eqb n (Nat.max a b) = (Nat.eqb n a || Nat.eqb n b)).
    { intros n. destruct (Nat.le_ge_cases a b).
      - rewrite Nat.min_l, Nat.max_r by assumption. reflexivity.
      - rewrite Nat.min_r, Nat.max_l by assumption. apply orb_comm. }
    rewrite !X.
    destruct H as [H|[H|H]]; injection H as -> -> ->;
      repeat match goal with |- context [Nat.eqb ?x ?y] => destruct (Nat.eqb_spec x y); try congruence end; reflexivity.
  Qed.

  Lemma out_side : forall t a b c, In t (trias_of m) -> 
    ((a, b, c) = (tn1 t, tn2 t, tn3 t) \/ (a, b, c) = (tn2 t, tn3 t, tn1 t) \/ (a, b, c) = (tn3 t, tn1 t, tn2 t)) ->
    outx t (Nat.min a b, Nat.max a b) = sg (tdet m t) * (vy (pos m b) - vy (pos m a)) /\
    outy t (Nat.min a b, Nat.max a b) = sg (tdet m t) * (vx (pos m a) - vx (pos m b)).
  Proof.
    intros t a b c Ht H. destruct (wf_distinct m W t Ht) as [H1 [H2 H3]].
    assert (N : a <> b) by (destruct H as [H|[H|H]]; congruence).
    unfold outx, outy. rewrite (third_of t a b c H1 H2 H3 N H). cbn [fst snd].
    assert (D : det2 (pos m a) (pos m b) (pos m c) = tdet m t).
    { unfold tdet, det2. destruct H as [H|[H|H]]; injection H as -> -> ->; ring. }
    destruct (Nat.le_ge_cases a b).
    - rewrite Nat.min_l, Nat.max_r by assumption. rewrite D. split; reflexivity.
    - rewrite Nat.min_r, Nat.max_l by assumption.
      replace (det2 (pos m b) (pos m a) (pos m c)) with (- tdet m t) by (rewrite <- D; unfold det2; ring).
      rewrite sg_opp. split; ring.
  Qed.

  Lemma at_end_minmax : forall n a b, at_end n (Nat.min a b, Nat.max a b) = Nat.eqb n a || Nat.eqb n b.
  Proof.
    intros n a b. unfold at_end; cbn [fst snd]. destruct (Nat.le_ge_cases a b).
    - rewrite Nat.min_l, Nat.max_r by assumption. reflexivity.
    - rewrite Nat.min_r, Nat.max_l by assumption. apply orb_comm.
  Qed.

  (** the integral of the gradient of a hat function over a triangle *)
  Lemma hat_tria : forall t n, In t (trias_of m) ->
    2 * (tarea m t * tgx m t (hat n)) = Sum (fun k => if at_end n k then outx t k else 0) (sides t) /\
    2 * (tarea m t * tgy m t (hat n)) = Sum (fun k => if at_end n k then outy t k else 0) (sides t).
  Proof.
    intros t n Ht. destruct (wf_distinct m W t Ht) as [H1 [H2 H3]]. assert (NZ := pl_nondeg m PL t Ht).
    unfold sides. rewrite !Sum_cons, !Sum_nil, !at_end_minmax.
    destruct (out_side t (tn1 t) (tn2 t) (tn3 t) Ht) as [-> ->]; [auto|].
    destruct (out_side t (tn2 t) (tn3 t) (tn1 t) Ht) as [-> ->]; [auto|].
    destruct (out_side t (tn3 t) (tn1 t) (tn2 t) Ht) as [-> ->]; [auto|].
    unfold tarea, tgx, tgy, sg.
    destruct (Nat.eqb_spec n (tn1 t)) as [E1|E1]; [|destruct (Nat.eqb_spec n (tn2 t)) as [E2|E2]; [|destruct (Nat.eqb_spec n (tn3 t)) as [E3|E3]]].
    - rewrite <- E1 in *. destruct (Nat.eqb_spec n (tn2 t)); [congruence|]. destruct (Nat.eqb_spec n (tn3 t)); [congruence|].
      cbn [orb]. rewrite hat_same, !hat_diff by congruence. split; field; exact NZ.
    - rewrite <- E2 in *. destruct (Nat.eqb_spec n (tn3 t)); [congruence|].
      cbn [orb]. rewrite hat_same, !hat_diff by congruence. split; field; exact NZ.
    - rewrite <- E3 in *. cbn [orb]. rewrite hat_same, !hat_diff by congruence. split; field; exact NZ.
    - cbn [orb]. rewrite !hat_diff by congruence. split; field; exact NZ.
  Qed.

  (** on an edge between two triangles the normals cancel *)
  Lemma out_two : forall k, In k (edge_keys m) -> length (tris_on m k) = 2%nat ->
    Sum (fun t => outx t k) (tris_on m k) = 0 /\ Sum (fun t => outy t k) (tris_on m k) = 0.
  Proof.
    intros k Hk L. destruct (tris_on m k) as [|t1 [|t2 [|t3 l]]] eqn:E; try discriminate L.
    assert (X := sg_two _ _ (pl_sides m PL k t1 t2 Hk E)). rewrite !Sum_cons, !Sum_nil. unfold outx, outy.
    set (s1 := sg (det2 _ _ (pos m (third t1 k)))) in *. set (s2 := sg (det2 _ _ (pos m (third t2 k)))) in *.
    replace s2 with (- s1) by lra. split; ring.
  Qed.

  Lemma tris_some : forall k, In k (edge_keys m) -> tris_on m k <> [].
  Proof. intros k Hk E. assert (H := tris_area_pos m W PL k Hk). rewrite E in H. rewrite Sum_nil in H. lra. Qed.

  Lemma grad_hat : forall n,
    Sum (fun t => tarea m t * tgx m t (hat n)) (trias_of m) = Sum (fun k => Sum (fun t => outx t k) (tris_on m k) / 2) (boundary_at m n) /\
    Sum (fun t => tarea m t * tgy m t (hat n)) (trias_of m) = Sum (fun k => Sum (fun t => outy t k) (tris_on m k) / 2) (boundary_at m n).
  Proof.
    intros n. unfold boundary_at.
    assert (G : forall o : tria R -> nat * nat -> R,
      (forall k, In k (edge_keys m) -> length (tris_on m k) = 2%nat -> Sum (fun t => o t k) (tris_on m k) = 0) ->
      Sum (fun t => Sum (fun k => if at_end n k then o t k else 0) (sides t)) (trias_of m) / 2 =
      Sum (fun k => Sum (fun t => o t k) (tris_on m k) / 2)
        (filter (fun k => (Nat.eqb n (fst k) || Nat.eqb n (snd k)) && Nat.eqb (length (tris_on m k)) 1) (edge_keys m))).
    { intros o T. rewrite <- (count_sides (fun k t => if at_end n k then o t k else 0)). rewrite Sum_filter_if.
      unfold Rdiv. rewrite <- Sum_scal_r. apply Sum_ext_in. intros k Hk. fold (at_end n k).
      destruct (at_end n k); cbn [andb].
      - destruct (Nat.eqb_spec (length (tris_on m k)) 1) as [L|L]; [reflexivity|].
        rewrite T; [ring|exact Hk|]. assert (H := pl_two m PL k Hk). assert (H0 := tris_some k Hk).
        destruct (tris_on m k) as [|? [|? [|]]]; cbn in *; try lia; congruence.
      - rewrite (Sum_zero _ (fun _ => 0)) by reflexivity. ring. }
    split.
    - rewrite <- (G outx) by (intros k Hk L; apply out_two; assumption).
      unfold Rdiv. rewrite <- Sum_scal_r. apply Sum_ext_in. intros t Ht. destruct (hat_tria t n Ht) as [<- _]. field.
    - rewrite <- (G outy) by (intros k Hk L; apply out_two; assumption).
      unfold Rdiv. rewrite <- Sum_scal_r. apply Sum_ext_in. intros t Ht. destruct (hat_tria t n Ht) as [_ <-]. field.
  Qed.

  (** sums of smoothed gradients are sums over the triangles *)
  Lemma smooth_sum_x : forall q, Sum (fun k => dom_area m k * sgx m k q) (edge_keys m) = Sum (fun t => tarea m t * tgx m t q) (trias_of m).
  Proof.
    intros q. rewrite (Sum_ext_in _ _ (fun k => Sum (fun t => tarea m t * tgx m t q) (tris_on m k) * / 3)).
    - rewrite Sum_scal_r, (double_count m W). field.
    - intros k Hk. unfold dom_area, sgx. assert (H := tris_area_pos m W PL k Hk). field. lra.
  Qed.
  Lemma smooth_sum_y : forall q, Sum (fun k => dom_area m k * sgy m k q) (edge_keys m) = Sum (fun t => tarea m t * tgy m t q) (trias_of m).
  Proof.
    intros q. rewrite (Sum_ext_in _ _ (fun k => Sum (fun t => tarea m t * tgy m t q) (tris_on m k) * / 3)).
    - rewrite Sum_scal_r, (double_count m W). field.
    - intros k Hk. unfold dom_area, sgy. assert (H := tris_area_pos m W PL k Hk). field. lra.
  Qed.

  (** the outward normal is unique *)
  Lemma outward_unique : forall k t l, In k (edge_keys m) -> tris_on m k = [t] -> outward m k l ->
    fst l = outx t k /\ snd l = outy t k.
  Proof.
    intros k t l Hk E [P L O]. assert (Ht : In t (tris_on m k)) by (rewrite E; left; reflexivity).
    specialize (O t Ht). unfold outx, outy, det2.
    set (dx := vx (pos m (snd k)) - vx (pos m (fst k))) in *. set (dy := vy (pos m (snd k)) - vy (pos m (fst k))) in *.
    set (cx := vx (pos m (third t k)) - vx (pos m (fst k))) in *. set (cy := vy (pos m (third t k)) - vy (pos m (fst k))) in *.
    set (D := dx * cy - cx * dy) in *. set (a := fst l) in *. set (b := snd l) in *.
    replace (vx (pos m (fst k)) - vx (pos m (snd k))) with (- dx) by (unfold dx; ring).
    (* (a, b) = s (dy, -dx) *)
    assert (ND : 0 < dx * dx + dy * dy).
    { destruct (Req_dec dx 0) as [X|X]; [destruct (Req_dec dy 0) as [Y|Y]|].
      - rewrite X, Y in L. assert (a = 0) by nra. assert (b = 0) by nra. rewrite H, H0 in O. lra.
      - assert (0 < dy * dy) by nra. nra.
      - assert (0 < dx * dx) by nra. nra. }
    set (s := (a * dy - b * dx) / (dx * dx + dy * dy)).
    assert (A : a = s * dy). { unfold s. apply (Rmult_eq_reg_r (dx * dx + dy * dy)); [|lra].
      replace ((a * dy - b * dx) / (dx * dx + dy * dy) * dy * (dx * dx + dy * dy)) with ((a * dy - b * dx) * dy) by (field; lra).
      assert (Z : dx * (a * dx + b * dy) = 0) by (rewrite P; ring). lra. }
    assert (B : b = - s * dx). { unfold s. apply (Rmult_eq_reg_r (dx * dx + dy * dy)); [|lra].
      replace (- ((a * dy - b * dx) / (dx * dx + dy * dy)) * dx * (dx * dx + dy * dy)) with (- (a * dy - b * dx) * dx) by (field; lra).
      assert (Z : dy * (a * dx + b * dy) = 0) by (rewrite P; ring). lra. }
    clearbody s. rewrite A, B in L, O |- *.
    assert (S2 : s * s = 1) by nra.
    assert (OD : - s * D < 0) by (unfold D; lra). clearbody D.
    assert (SS : s = 1 \/ s = -1) by (assert ((s - 1) * (s + 1) = 0) by nra; destruct (Rmult_integral _ _ H); lra).
    destruct SS as [-> | ->].
    - rewrite (sg_pos D) by lra. split; ring.
    - rewrite (sg_neg D) by lra. split; ring.
  Qed.

  Lemma outward_exists : forall k t, In k (edge_keys m) -> tris_on m k = [t] -> outward m k (outx t k, outy t k).
  Proof.
    intros k t Hk E. assert (Ht : In t (tris_on m k)) by (rewrite E; left; reflexivity).
    assert (NZ : det2 (pos m (fst k)) (pos m (snd k)) (pos m (third t k)) <> 0).
    { apply tris_on_in in Ht. destruct Ht as [Ht [V1 V2]]. assert (LT := edge_key_lt m W k Hk).
      assert (Q := pl_nondeg m PL t Ht). intros Z. apply Q.
      assert (P : perm3 t (fst k) (snd k) (third t k)).
      { destruct k as [a b]. apply third_perm; cbn [fst snd] in *; [lia|apply (wf_distinct m W t Ht)|assumption|assumption]. }
      unfold tdet. revert Z. destruct P as [P|[P|[P|[P|[P|P]]]]]; destruct P as [-> [-> ->]]; unfold det2; intros Z; lra. }
    unfold outx, outy. constructor; cbn [fst snd].
    - ring.
    - set (D := det2 _ _ _) in *. assert (sg D * sg D = 1).
      { destruct (Rdichotomy D 0 NZ) as [X|X]; [rewrite (sg_neg D X)|rewrite (sg_pos D X)]; ring. }
      match goal with |- ?g = _ => transitivity ((sg D * sg D) * ((vx (pos m (snd k)) - vx (pos m (fst k))) * (vx (pos m (snd k)) - vx (pos m (fst k)))
    + (vy (pos m (snd k)) - vy (pos m (fst k))) * (vy (pos m (snd k)) - vy (pos m (fst k))))); [ring|rewrite H; ring] end.
    - intros t' Ht'. rewrite E in Ht'. destruct Ht' as [<-|[]].
      set (D := det2 _ _ _) in *.
      match goal with |- ?g < 0 => replace g with (- (sg D * D)) by (unfold D at 2, det2; ring) end.
      destruct (Rdichotomy D 0 NZ) as [X|X]; [rewrite (sg_neg D X)|rewrite (sg_pos D X)]; lra.
  Qed.

  Lemma boundary_in : forall n k, In k (boundary_at m n) -> In k (edge_keys m) /\ exists t, tris_on m k = [t].
  Proof.
    intros n k H. unfold boundary_at in H. apply filter_In in H. destruct H as [H B]. split; [exact H|].
    apply andb_prop in B. destruct B as [_ B]. apply Nat.eqb_eq in B.
    destruct (tris_on m k) as [|t [|]]; try discriminate. exists t; reflexivity.
  Qed.

  (** the integral of the gradient of a hat function over the plate *)
  Lemma hat_total : forall n L, (forall k, In k (boundary_at m n) -> outward m k (L k)) ->
    Sum (fun k => dom_area m k * sgx m k (hat n)) (edge_keys m) = Sum (fun k => fst (L k) / 2) (boundary_at m n) /\
    Sum (fun k => dom_area m k * sgy m k (hat n)) (edge_keys m) = Sum (fun k => snd (L k) / 2) (boundary_at m n).
  Proof.
    intros n L H. rewrite smooth_sum_x, smooth_sum_y. destruct (grad_hat n) as [-> ->].
    split; apply Sum_ext_in; intros k Hk; destruct (boundary_in n k Hk) as [Hk' [t E]]; rewrite E, Sum_cons, Sum_nil;
      destruct (outward_unique k t (L k) Hk' E (H k Hk)) as [Q1 Q2]; rewrite ?Q1, ?Q2; field.
  Qed.

  Lemma interior_boundary : forall n, interior m n -> boundary_at m n = [].
  Proof.
    intros n H. unfold boundary_at.
    assert (X : forall k, In k (boundary_at m n) -> False).
    { intros k Hk. destruct (boundary_in n k Hk) as [Hk' [t E]]. unfold boundary_at in Hk. apply filter_In in Hk.
      destruct Hk as [_ Hk]. apply andb_prop in Hk. destruct Hk as [Hk _]. apply orb_prop in Hk. rewrite !Nat.eqb_eq in Hk.
      specialize (H k Hk' Hk). rewrite E in H. discriminate H. }
    unfold boundary_at in X. destruct (filter _ _) as [|k l]; [reflexivity|]. destruct (X k (or_introl eq_refl)).
  Qed.
End Eq.
