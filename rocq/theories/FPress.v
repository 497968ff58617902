(** Facts about the plate of ExPress.v. *)
From Coq Require Import ZArith Reals List Bool Arith Lra Lia String Floats.SpecFloat.
From Verif Require Import Num Float Py Mesh Utils CalcK0 CalcKG AddK0s Spec SpecK0 SpecKG SpecK0s SpecStab SpecStat SpecRound SpecRound2 SpecRound3 SpecRound6
  FSum FMat FDict FGeom FWf FConn FAsm FRound8  FRound FRound3 FRound13 FRound29 LK0 LStab LRound LRound2 LRound3 ExFloat ExPress.
Import ListNotations.
Local Open Scope R_scope.

Lemma w_prop : forall p, (exists n, nodeprop (mesh_val fwarped) n = Some p) \/ (exists t, In t (trias_of (mesh_val fwarped)) /\ tprop t = Some p) ->
  In p (map prop_val [fprop (dz 1); fprop (dz 2); fprop (dz 3)]).
Proof.
  assert (LK := lock_val fwarped). intros p H.
  assert (G : exists q, p = prop_val q /\ In q [fprop (dz 1); fprop (dz 2); fprop (dz 3)]).
  { destruct H as [[n Hn]|[t [H Hp]]].
    - rewrite (prop_lock _ _ LK) in Hn. destruct (nodeprop fwarped n) as [q|] eqn:E; [|discriminate]. injection Hn as <-. exists q. split; [reflexivity|].
      assert (K : In n (node_keys fwarped)).
      { unfold nodeprop in E. destruct (dget Nat.eqb n (nodes fwarped)) as [nd|] eqn:Q; [|discriminate]. apply (dget_in Nat.eqb nat_eqb_spec) in Q. apply in_map_iff. exists (n, nd); auto. }
      rewrite w_keys in K. cbn [In] in K. destruct K as [<-|[<-|[<-|[<-|[]]]]]; vm_compute in E; injection E as <-; [left|right; left|right; right; left|left]; vm_compute; reflexivity.
    - rewrite (trias_lock _ _ LK) in H. apply in_map_iff in H. destruct H as [t' [<- H]]. cbn [tria_val tprop] in Hp. destruct (tprop t') as [q|] eqn:E; [|discriminate]. injection Hp as <-. exists q. split; [reflexivity|].
      destruct H as [<-|[<-|[]]]; vm_compute in E; injection E as <-; [left|right; left]; vm_compute; reflexivity. }
  destruct G as [q [-> Hq]]. apply in_map, Hq.
Qed.

Ltac dz_all := repeat match goal with |- context [val ?d] => match d with S754_finite _ _ _ => fail 1 | S754_zero _ => fail 1 | _ => let v := eval vm_compute in (d : double) in change d with v end end; dval.
Lemma w_pd_one : forall c : double, In c [dz 1; dz 2; dz 3] -> pos_def (prop_val (fprop c)) /\ shear_pos (prop_val (fprop c)).
Proof.
  intros c Hc. split.
  - intros [x y z k l q] N. assert (S : 0 < x * x + y * y + z * z + k * k + l * l + q * q).
    { assert (P : 0 <= x * x /\ 0 <= y * y /\ 0 <= z * z /\ 0 <= k * k /\ 0 <= l * l /\ 0 <= q * q) by (repeat split; apply Rle_0_sqr).
      apply Rnot_le_lt. intros S. apply N.
      assert (Z : forall t, t * t <= 0 -> t = 0) by (intros t Ht; assert (T := Rle_0_sqr t); unfold Rsqr in T; assert (E : t * t = 0) by lra; apply Rmult_integral in E; destruct E; assumption).
      rewrite (Z x), (Z y), (Z z), (Z k), (Z l), (Z q) by lra. reflexivity. }
    assert (SQ : 0 <= (x + k) * (x + k) /\ 0 <= (y + l) * (y + l) /\ 0 <= (z + q) * (z + q) /\ 0 <= (x + y) * (x + y) /\ 0 <= (x + z) * (x + z) /\ 0 <= (y + z) * (y + z) /\ 0 <= (k + l) * (k + l) /\ 0 <= (k + q) * (k + q) /\ 0 <= (l + q) * (l + q)) by (repeat split; apply Rle_0_sqr).
    assert (S2 : 0 <= x * x /\ 0 <= y * y /\ 0 <= z * z /\ 0 <= k * k /\ 0 <= l * l /\ 0 <= q * q) by (repeat split; apply Rle_0_sqr).
    unfold dens, quad3; cbn [exx eyy exy kxx kyy kxy].
    cbn [In] in Hc. destruct Hc as [<-|[<-|[<-|[]]]]; unfold fprop, prop_val; cbn [pA pB pD]; unfold mat3_val; cbn [m00 m01 m02 m10 m11 m12 m20 m21 m22]; dz_all; lra.
  - cbn [In] in Hc. destruct Hc as [<-|[<-|[<-|[]]]]; unfold shear_pos; cbn [prop_val ph pk13 pk23 pE fprop mat2_val e00 e11]; dz_all; lra.
Qed.
Lemma w_pd : all_props (mesh_val fwarped) pos_def /\ all_props (mesh_val fwarped) shear_pos.
Proof.
  assert (G : forall p, (exists n, nodeprop (mesh_val fwarped) n = Some p) \/ (exists t, In t (trias_of (mesh_val fwarped)) /\ tprop t = Some p) -> pos_def p /\ shear_pos p).
  { intros p H. apply w_prop in H. cbn [map In] in H. destruct H as [<-|[<-|[<-|[]]]]; apply w_pd_one; cbn; auto. }
  split; split; intros a p; intros; apply G; eauto.
Qed.

Lemma w_on : map tria_val (tris_on fwarped (1, 3)%nat) = map tria_val (trias_of fwarped).
Proof. vm_compute. reflexivity. Qed.
Lemma w_neighbours : braced "cell-based" (mesh_val fwarped).
Proof.
  assert (LK := lock_val fwarped). change (forall t, In t (trias_of (mesh_val fwarped)) -> has_neighbour (mesh_val fwarped) t). intros t H. rewrite (trias_lock _ _ LK) in H.
  assert (EK : In (1, 3)%nat (edge_keys (mesh_val fwarped))) by (rewrite edge_keys_val, w_edges; cbn; auto).
  assert (T : exists t1 t2, trias_of fwarped = [t1; t2] /\ tn2 t1 = 2%nat /\ tn2 t2 = 3%nat).
  { assert (X := w_trias). destruct (trias_of fwarped) as [|t1 [|t2 [|t3 l]]]; try discriminate. cbn [map] in X. injection X as X1 X2 X3 X4 X5 X6. exists t1, t2. auto. }
  destruct T as [t1 [t2 [E [N1 N2]]]]. rewrite E in H. assert (ON := w_on). rewrite E in ON. cbn [map In] in H, ON.
  destruct H as [<-|[<-|[]]].
  - exists (1, 3)%nat, (tria_val t2). rewrite (tris_on_lock _ _ LK), ON. split; [exact EK|]. split; [left; reflexivity|]. split; [right; left; reflexivity|]. intros Q. apply (f_equal tn2) in Q. cbn [tria_val tn2] in Q. congruence.
  - exists (1, 3)%nat, (tria_val t1). rewrite (tris_on_lock _ _ LK), ON. split; [exact EK|]. split; [right; left; reflexivity|]. split; [left; reflexivity|]. intros Q. apply (f_equal tn2) in Q. cbn [tria_val tn2] in Q. congruence.
Qed.
Lemma w_piece : in_one_piece (mesh_val fwarped).
Proof.
  assert (LK := lock_val fwarped). assert (EK : In (1, 3)%nat (edge_keys (mesh_val fwarped))) by (rewrite edge_keys_val, w_edges; cbn; auto).
  assert (T : exists t1 t2, trias_of fwarped = [t1; t2] /\ (tn1 t1, tn2 t1, tn3 t1) = (1, 2, 3)%nat /\ (tn1 t2, tn2 t2, tn3 t2) = (1, 3, 4)%nat).
  { assert (X := w_trias). destruct (trias_of fwarped) as [|t1 [|t2 [|t3 l]]]; try discriminate. cbn [map] in X. injection X as X1 X2 X3 X4 X5 X6. exists t1, t2. rewrite X1, X2, X3, X4, X5, X6. auto. }
  destruct T as [t1 [t2 [E [N1 N2]]]]. assert (ON := w_on). rewrite E in ON. cbn [map] in ON. injection N1 as A1 A2 A3. injection N2 as B1 B2 B3.
  exists (tria_val t1). rewrite (trias_lock _ _ LK), E. split; [left; reflexivity|]. rewrite (keys_lock _ _ LK), w_keys. intros n Hn.
  assert (L2 : linked (mesh_val fwarped) (tria_val t1) (tria_val t2)).
  { apply linked_next with (tria_val t1) (1, 3)%nat; [apply linked_self|exact EK|rewrite (tris_on_lock _ _ LK), ON; left; reflexivity|rewrite (tris_on_lock _ _ LK), ON; right; left; reflexivity]. }
  cbn [In] in Hn. unfold in_part, vertex. destruct Hn as [<-|[<-|[<-|[<-|[]]]]]; [exists (tria_val t1)|exists (tria_val t1)|exists (tria_val t1)|exists (tria_val t2)]; cbn [tria_val tn1 tn2 tn3];
    (split; [apply linked_self || exact L2|]); rewrite ?A1, ?A2, ?A3, ?B1, ?B2, ?B3; auto.
Qed.
Lemma w_held : forall f, supported f (mesh_val fwarped) held.
Proof.
  intros f. apply (c66_clamped f (mesh_val fwarped) held 1%nat 2%nat); [exact w_wf|exact w_piece| | | | | |].
  - rewrite (keys_lock _ _ (lock_val fwarped)), w_keys. cbn; auto.
  - rewrite (keys_lock _ _ (lock_val fwarped)), w_keys. cbn; auto.
  - left. assert (B := w_bounds). lra.
  - intros c Hc. assert (E : dof (mesh_val fwarped) 1 c = c) by reflexivity. rewrite E. do 5 (destruct c as [|c]; [reflexivity|]). lia.
  - reflexivity.
  - reflexivity.
Qed.

Lemma w_shear0 : shear_scale fwarped 64 (dz 0).
Proof.
  constructor; [apply (ss_props _ _ _ w_shear)| |apply (ss_elements _ _ _ w_shear)]. split; [exact I|]. left. match goal with |- val ?l = _ => let v := eval vm_compute in l in change l with v end. reflexivity.
Qed.
Lemma filter_le : forall A (f : A -> bool) l, (List.length (filter f l) <= List.length l)%nat.
Proof. intros A f l. induction l as [|a l IH]; [cbn; lia|]. cbn [filter]. destruct (f a); cbn [List.length]; lia. Qed.
Lemma w_shared : forall a b, (shared fwarped a b <= 5)%nat.
Proof. intros a b. unfold shared. rewrite w_edges. apply (filter_le _ _ [(1, 2); (2, 3); (1, 3); (3, 4); (1, 4)]%nat). Qed.
Lemma w_common : forall a b, (common fwarped a b <= 2)%nat.
Proof. intros a b. unfold common. eapply Nat.le_trans; [apply filter_le|]. assert (L : List.length (trias_of fwarped) = 2%nat) by reflexivity. lia. Qed.
Lemma w_plate_bound : forall i j, plate_bound fwarped "cell-based" 4 4 2 64 i j <= / 2000.
Proof.
  intros i j. unfold plate_bound, shear_bound, k0_bound, k0_size. cbn [String.eqb Ascii.eqb Bool.eqb].
  assert (A := w_shared (node_at fwarped i) (node_at fwarped j)). assert (B := w_common (node_at fwarped i) (node_at fwarped j)).
  apply le_INR in A, B. assert (A0 := pos_INR (shared fwarped (node_at fwarped i) (node_at fwarped j))). assert (B0 := pos_INR (common fwarped (node_at fwarped i) (node_at fwarped j))).
  set (a := INR (shared _ _ _)) in *. set (b := INR (common _ _ _)) in *. change (INR 5) with (1 + 1 + 1 + 1 + 1) in A. change (INR 2) with (1 + 1) in B. clearbody a b.
  assert (P : 0 <= 4 ^ rotations i j <= 16).
  { unfold rotations. destruct (3 <=? i mod 5)%nat, (3 <=? j mod 5)%nat; cbn [Nat.add pow]; lra. }
  set (p := 4 ^ rotations i j) in *. clearbody p.
  assert (A2 : 0 <= a ^ 2 <= 25) by (cbn [pow]; split; [apply Rmult_le_pos; lra|]; replace 25 with (5 * 5) by ring; apply Rmult_le_compat; lra).
  assert (B2 : 0 <= b ^ 2 <= 4) by (cbn [pow]; split; [apply Rmult_le_pos; lra|]; replace 4 with (2 * 2) by ring; apply Rmult_le_compat; lra).
  assert (PB : p * b ^ 2 <= 16 * 4) by (apply Rmult_le_compat; lra).
  assert (BA : b * a <= 2 * 5) by (apply Rmult_le_compat; lra). assert (BA2 : b * a ^ 2 <= 2 * 25) by (apply Rmult_le_compat; lra).
  unfold roundoff. lra.
Qed.
Lemma w_rows : row_sums 20 (plate_bound fwarped "cell-based" 4 4 2 64) (/ 100).
Proof.
  intros i _. eapply Rle_trans; [apply Sum_le; intros j _; apply w_plate_bound|]. unfold Sum. cbn [seq map]. unfold rsum. cbn [fold_right]. lra.
Qed.
Lemma w_rows_kG : row_sums 20 (kG_bound fwarped 4 2 64 (9 / 8)) (5 / 2).
Proof.
  intros i _. eapply Rle_trans; [apply Sum_le with (g := fun _ => 1 / 8); intros j _|unfold Sum; cbn [seq map]; unfold rsum; cbn [fold_right]; lra].
  unfold kG_bound. destruct (_ && _)%bool; [|lra]. assert (A := w_shared (node_at fwarped i) (node_at fwarped j)). apply le_INR in A. assert (A0 := pos_INR (shared fwarped (node_at fwarped i) (node_at fwarped j))).
  set (a := INR (shared _ _ _)) in *. change (INR 5) with (1 + 1 + 1 + 1 + 1) in A. clearbody a.
  assert (A2 : 0 <= a ^ 2 <= 25) by (cbn [pow]; split; [apply Rmult_le_pos; lra|]; replace 25 with (5 * 5) by ring; apply Rmult_le_compat; lra).
  unfold roundoff. lra.
Qed.
Lemma w_press : kG_scale fwarped 4 64 (9 / 8) fpress /\ List.length fpress = 20%nat.
Proof.
  split; [|reflexivity]. apply small_scale; [lra|].
  match goal with |- context [In _ ?l] => let v := eval vm_compute in l in change l with v end. intros x H. cbn [In] in H.
  repeat (destruct H as [<-|H]; [split; [reflexivity || exact I|dval; rewrite ?Rabs_R0; try apply Rabs_le; lra]|]). destruct H.
Qed.

(** only degree of freedom 12 moves *)
Lemma Sum_12 : forall f, (forall i, (i < 20)%nat -> i <> 12%nat -> f i = 0) -> Sum f (seq 0 20) = f 12%nat.
Proof.
  intros f H. rewrite <- (Sum_delta f 12 20) by lia. apply Sum_ext_in. intros i Hi. apply in_seq in Hi. unfold delta. destruct (Nat.eqb_spec i 12) as [->|N]; [ring|]. rewrite (H i) by lia. ring.
Qed.
Lemma held_zero : forall u, admissible 20 held u -> forall i, (i < 20)%nat -> i <> 12%nat -> u i = 0.
Proof. intros u A i Hi N. apply A; [exact Hi|]. unfold held. apply Nat.eqb_neq in N. rewrite N. reflexivity. Qed.
Lemma form_12 : forall K u, mdim K = 20%nat -> admissible 20 held u -> form K u u = u 12%nat * mentry K 12 12 * u 12%nat.
Proof.
  intros K u D A. unfold form. rewrite D. rewrite Sum_12; [apply Sum_12|]; intros i Hi N; [|apply Sum_zero; intros j _]; rewrite (held_zero u A i Hi N); ring.
Qed.
Lemma len_12 : forall u, admissible 20 held u -> len 20 u ^ 2 = u 12%nat * u 12%nat.
Proof. intros u A. rewrite len_sq. apply Sum_12. intros i Hi N. rewrite (held_zero u A i Hi N). ring. Qed.
Lemma w_k_12 : forall m' k0 k, calc_k0 fwarped true = (m', Ok k0) -> add_k0s lits_src k0 m' true "cell-based" (dz 0) false = (k, Ok tt) -> 87 / 10 <= val (mentry k 12 12).
Proof.
  intros m' k0 k E1 E2. assert (X : match calc_k0 fwarped true with (a, Ok b) => mentry (fst (add_k0s lits_src b a true "cell-based" (dz 0) false)) 12 12 | _ => dz 0 end = S754_finite false 4938022526870064 (-49)) by (vm_compute; reflexivity).
  rewrite E1, E2 in X. cbn [fst] in X. rewrite X. dval. lra.
Qed.
Lemma w_g_12 : forall m' k0 g, calc_k0 fwarped true = (m', Ok k0) -> calc_kG fpress m' true = Ok g -> val (mentry g 12 12) <= - (86 / 10).
Proof.
  intros m' k0 k E1 E2. assert (X : match calc_k0 fwarped true with (a, _) => match calc_kG fpress a true with Ok g => mentry g 12 12 | _ => dz 0 end end = S754_finite true 4864112394393800 (-49)) by (vm_compute; reflexivity).
  rewrite E1, E2 in X. rewrite X. dval. lra.
Qed.
