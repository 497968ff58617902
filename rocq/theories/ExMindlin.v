(** The grid of ExGrid.v, held along its boundary. *)
From Coq Require Import ZArith Reals List Bool Arith Lra Lia Psatz String.
From Verif Require Import Num Py Mesh Utils Spec SpecRead SpecK0 SpecK0s SpecStab SpecStat SpecConv SpecSol SpecSol2 SpecKorn FDict FWf FSum FRenum FSmooth FStab LKG LK0s Ex ExK0 ExK0s ExGrid ExStab ExGrid2.
Import ListNotations.
Local Open Scope R_scope.

(** all degrees of freedom of the nodes on the boundary of the unit square *)
Definition framed (m : mesh R) (i : nat) : bool :=
  let p := pos m (nth (i / 5) (node_keys m) 0%nat) in
  if Req_EM_T (vx p * (1 - vx p) * (vy p * (1 - vy p))) 0 then true else false.

(** deflection that is 0 on the boundary of the unit square *)
Definition dome : motion := {|
  fu := poly (fun x y => 0) (fun x y => 0) (fun x y => 0); fv := poly (fun x y => 0) (fun x y => 0) (fun x y => 0);
  fw := poly (fun x y => x * (1 - x) * (y * (1 - y))) (fun x y => (1 - 2 * x) * (y * (1 - y))) (fun x y => x * (1 - x) * (1 - 2 * y));
  ffx := poly (fun x y => 0) (fun x y => 0) (fun x y => 0); ffy := poly (fun x y => 0) (fun x y => 0) (fun x y => 0) |}.

Lemma sq_nn : forall x : R, 0 <= x * x.
Proof. exact Rle_0_sqr. Qed.
Lemma zero_smooth : smooth unit_square 4 2 (poly (fun x y => 0) (fun x y => 0) (fun x y => 0)).
Proof.
  split; cbn [poly fval fdx fdy].
  - intros x y x' y' _ _. match goal with |- Rabs ?e <= _ => replace e with 0 by ring end. rewrite Rabs_R0. assert (A := sq_nn (x' - x)). assert (B := sq_nn (y' - y)). lra.
  - intros x y _. rewrite Rabs_R0. lra.
Qed.
Lemma abs_mult : forall a b A B, Rabs a <= A -> Rabs b <= B -> Rabs (a * b) <= A * B.
Proof. intros a b A B HA HB. rewrite Rabs_mult. apply Rmult_le_compat; try apply Rabs_pos; assumption. Qed.
Lemma hill : forall x, 0 <= x <= 1 -> Rabs (x * (1 - x)) <= 1 /\ Rabs (1 - 2 * x) <= 1.
Proof. intros x H. split; apply Rabs_le; nra. Qed.
Lemma dome_w : smooth unit_square 4 2 (fw dome).
Proof.
  split; unfold dome; cbn [fw poly fval fdx fdy].
  - intros x y x' y' [Hx Hy] [Hx' Hy']. cbn [fst snd] in *. destruct (hill x Hx) as [P P']. destruct (hill y Hy) as [Q Q'].
    set (a := x' - x). set (b := y' - y). assert (A : Rabs a <= 1) by (apply Rabs_le; unfold a; lra). assert (B : Rabs b <= 1) by (apply Rabs_le; unfold b; lra).
    replace (x' * (1 - x') * (y' * (1 - y')) - (x * (1 - x) * (y * (1 - y)) + (1 - 2 * x) * (y * (1 - y)) * a + x * (1 - x) * (1 - 2 * y) * b))
      with (- (x * (1 - x)) * (b * b) - (y * (1 - y)) * (a * a) + (1 - 2 * x) * (1 - 2 * y) * (a * b) - ((1 - 2 * x) * a) * (b * b) - ((1 - 2 * y) * b) * (a * a) + (a * a) * (b * b)) by (unfold a, b; ring).
    set (p := x * (1 - x)) in *. set (p' := 1 - 2 * x) in *. set (q := y * (1 - y)) in *. set (q' := 1 - 2 * y) in *.
    assert (AA : 0 <= a * a <= 1). { split; [apply sq_nn|]. rewrite <- (Rabs_pos_eq (a * a)) by apply sq_nn. rewrite <- (Rmult_1_l 1). apply abs_mult; assumption. }
    assert (BB : 0 <= b * b) by apply sq_nn.
    assert (T1 : Rabs (p * (b * b)) <= b * b). { rewrite Rabs_mult, (Rabs_pos_eq (b * b)) by exact BB. rewrite <- (Rmult_1_l (b * b)) at 2. apply Rmult_le_compat_r; assumption. }
    assert (T2 : Rabs (q * (a * a)) <= a * a). { rewrite Rabs_mult, (Rabs_pos_eq (a * a)) by apply AA. rewrite <- (Rmult_1_l (a * a)) at 2. apply Rmult_le_compat_r; [apply AA|assumption]. }
    assert (PQ : Rabs (p' * q') <= 1) by (rewrite <- (Rmult_1_l 1); apply abs_mult; assumption).
    assert (T3 : Rabs (p' * q' * (a * b)) <= (a * a + b * b) / 2).
    { rewrite Rabs_mult. apply Rle_trans with (1 * Rabs (a * b)); [apply Rmult_le_compat_r; [apply Rabs_pos|exact PQ]|]. rewrite Rmult_1_l. apply Rabs_le.
      assert (X1 := sq_nn (a - b)). assert (X2 := sq_nn (a + b)). lra. }
    assert (PA : Rabs (p' * a) <= 1) by (rewrite <- (Rmult_1_l 1); apply abs_mult; assumption).
    assert (QB : Rabs (q' * b) <= 1) by (rewrite <- (Rmult_1_l 1); apply abs_mult; assumption).
    assert (T4 : Rabs (p' * a * (b * b)) <= b * b). { rewrite Rabs_mult, (Rabs_pos_eq (b * b)) by exact BB. rewrite <- (Rmult_1_l (b * b)) at 2. apply Rmult_le_compat_r; assumption. }
    assert (T5 : Rabs (q' * b * (a * a)) <= a * a). { rewrite Rabs_mult, (Rabs_pos_eq (a * a)) by apply AA. rewrite <- (Rmult_1_l (a * a)) at 2. apply Rmult_le_compat_r; [apply AA|assumption]. }
    assert (T6 : 0 <= a * a * (b * b) <= b * b). { split; [apply Rmult_le_pos; [apply AA|exact BB]|]. rewrite <- (Rmult_1_l (b * b)) at 2. apply Rmult_le_compat_r; [exact BB|apply AA]. }
    apply Rabs_le. revert T1 T2 T3 T4 T5. unfold Rabs.
    repeat (let H := fresh in destruct (Rcase_abs _) as [H|H]); intros; split; lra.
  - intros x y [Hx Hy]. cbn [fst snd] in *. destruct (hill x Hx) as [P P']. destruct (hill y Hy) as [Q Q'].
    assert (X1 := abs_mult _ _ _ _ P' Q). assert (X2 := abs_mult _ _ _ _ P Q'). lra.
Qed.
Lemma dome_smooth : motion_smooth unit_square 4 2 dome.
Proof. split; [apply zero_smooth|]. split; [apply zero_smooth|]. split; [apply dome_w|]. split; apply zero_smooth. Qed.
Lemma dome_rot : rotations_le unit_square 2 dome.
Proof. intros x y _. unfold dome; cbn. rewrite Rabs_R0. lra. Qed.

Lemma dome_framed : forall m, admissible (List.length (nodes m) * 5) (framed m) (sampled m dome).
Proof.
  intros m i _ Si. unfold framed in Si. cbv zeta in Si. unfold sampled, field, dome. cbv zeta. cbn [fu fv fw ffx ffy poly fval].
  destruct (Req_EM_T _ 0) as [E|E]; [|discriminate]. destruct (i mod 5)%nat as [|[|[|[|k]]]]; auto.
Qed.

Section G.
  Variable n : nat.
  Hypothesis n_pos : (0 < n)%nat.
  Let m := grid_mesh n.

  Definition rim (a : nat) : Prop := exists i j, a = S (grid_id n i j) /\ (i <= n)%nat /\ (j <= n)%nat /\ (i = 0 \/ i = n \/ j = 0 \/ j = n)%nat.

  Lemma alone : forall t1 t2 a b, In t1 (trias_of m) -> In t2 (trias_of m) -> a <> b -> vertex t1 a -> vertex t1 b -> vertex t2 a -> vertex t2 b ->
    List.length (tris_on m (Nat.min a b, Nat.max a b)) = 1%nat -> t1 = t2.
  Proof.
    intros t1 t2 a b I1 I2 N A1 B1 A2 B2 L. destruct (shared_edge m t1 t2 a b (gm_wf n n_pos) I1 I2 N A1 B1 A2 B2) as [_ [T1 T2]].
    destruct (tris_on m _) as [|x [|y l]]; [discriminate| |discriminate]. destruct T1 as [<-|[]]. destruct T2 as [<-|[]]. reflexivity.
  Qed.
  Lemma ends : forall a b x, x = fst (Nat.min a b, Nat.max a b) \/ x = snd (Nat.min a b, Nat.max a b) -> x = a \/ x = b.
  Proof. intros a b x. cbn [fst snd]. lia. Qed.

  Lemma grid_rim : forall k a, In k (edge_keys m) -> List.length (tris_on m k) = 1%nat -> a = fst k \/ a = snd k -> rim a.
  Proof.
    intros k a Hk L Ha. apply (wf_edge_keys m (gm_wf n n_pos)) in Hk. destruct Hk as [t [It Sk]]. destruct (gm_cell n n_pos t It) as [i [j [up C]]].
    destruct C as [Hi [Hj [T1 [T2 T3]]]].
    assert (D : forall x y, k = (Nat.min x y, Nat.max x y) -> forall i' j' up', (i' < n)%nat -> (j' < n)%nat -> x <> y -> vertex t x -> vertex t y ->
      (forall t' : tria R, cell n t' i' j' up' -> vertex t' x /\ vertex t' y) -> cell n t i' j' up').
    { intros x y E i' j' up' H1 H2 N Vx Vy G. destruct (gm_has n n_pos i' j' up' H1 H2) as [t' [It' C']]. destruct (G t' C') as [V1 V2]. rewrite E in L.
      rewrite (alone t t' x y It It' N Vx Vy V1 V2 L). exact C'. }
    assert (V1 : vertex t (tn1 t)) by (left; reflexivity). assert (V2 : vertex t (tn2 t)) by (right; left; reflexivity). assert (V3 : vertex t (tn3 t)) by (right; right; reflexivity).
    destruct up; destruct Sk as [E|[E|[E|[]]]]; symmetry in E; assert (Ha' := Ha); rewrite E in Ha'; apply ends in Ha'; rewrite ?T1, ?T2, ?T3 in *.
    - (* diagonal *) exfalso. destruct (D _ _ E i j false Hi Hj) as [_ [_ [_ [F _]]]]; [intros X; apply id_inj in X; lia|exact V1|exact V2| |].
      + intros t' [_ [_ [B1 [B2 B3]]]]. unfold vertex. rewrite B1, B3. auto.
      + rewrite T2 in F. apply id_inj in F; lia.
    - destruct (Nat.eq_dec (S j) n) as [EJ|NJ].
      + destruct Ha' as [->| ->]; [exists (S i), (S j)|exists i, (S j)]; repeat split; lia.
      + exfalso. destruct (D _ _ E i (S j) false Hi) as [_ [_ [F _]]]; [lia|intros X; apply id_inj in X; lia|exact V2|exact V3| |].
        * intros t' [_ [_ [B1 [B2 B3]]]]. unfold vertex. rewrite B1, B2. auto.
        * rewrite T1 in F. apply id_inj in F; lia.
    - destruct i as [|i].
      + destruct Ha' as [->| ->]; [exists 0%nat, (S j)|exists 0%nat, j]; repeat split; lia.
      + exfalso. destruct (D _ _ E i j false) as [_ [_ [F _]]]; [lia|exact Hj|intros X; apply id_inj in X; lia|exact V3|exact V1| |].
        * intros t' [_ [_ [B1 [B2 B3]]]]. unfold vertex. rewrite B2, B3. auto.
        * rewrite T1 in F. apply id_inj in F; lia.
    - destruct j as [|j].
      + destruct Ha' as [->| ->]; [exists i, 0%nat|exists (S i), 0%nat]; repeat split; lia.
      + exfalso. destruct (D _ _ E i j true Hi) as [_ [_ [F _]]]; [lia|intros X; apply id_inj in X; lia|exact V1|exact V2| |].
        * intros t' [_ [_ [B1 [B2 B3]]]]. unfold vertex. rewrite B2, B3. auto.
        * rewrite T1 in F. apply id_inj in F; lia.
    - destruct (Nat.eq_dec (S i) n) as [EI|NI].
      + destruct Ha' as [->| ->]; [exists (S i), j|exists (S i), (S j)]; repeat split; lia.
      + exfalso. destruct (D _ _ E (S i) j true) as [_ [_ [F _]]]; [lia|exact Hj|intros X; apply id_inj in X; lia|exact V2|exact V3| |].
        * intros t' [_ [_ [B1 [B2 B3]]]]. unfold vertex. rewrite B1, B3. auto.
        * rewrite T1 in F. apply id_inj in F; lia.
    - exfalso. destruct (D _ _ E i j true Hi Hj) as [_ [_ [_ [F _]]]]; [intros X; apply id_inj in X; lia|exact V3|exact V1| |].
      + intros t' [_ [_ [B1 [B2 B3]]]]. unfold vertex. rewrite B1, B2. auto.
      + rewrite T2 in F. apply id_inj in F; lia.
  Qed.

  Lemma gm_pos : forall a, In a (node_keys m) -> pos m a = V3 (IZR (nx n a) / INR n) (IZR (ny n a) / INR n) 0.
  Proof.
    intros a Ha. assert (PE : pos m = pos (grid_read n)) by (apply (wp_pos (grid_read n))). rewrite PE.
    unfold m, grid_mesh, all_same in Ha. rewrite (wp_keys (grid_read n)) in Ha. apply (grid_node n n_pos _ Ha).
  Qed.

  Lemma framed_at : forall a c, In a (node_keys m) -> (c < 5)%nat -> vx (pos m a) * (1 - vx (pos m a)) * (vy (pos m a) * (1 - vy (pos m a))) = 0 -> framed m (rank m a * 5 + c) = true.
  Proof.
    intros a c Ha Hc E. unfold framed. replace ((rank m a * 5 + c) / 5)%nat with (rank m a) by (apply (Nat.div_unique _ 5 (rank m a) c); lia).
    unfold rank. rewrite nth_rank by exact Ha. cbv zeta. destruct (Req_EM_T _ 0); [reflexivity|contradiction].
  Qed.

  Lemma grid_held : forall cs, (forall c, In c cs -> (c < 5)%nat) -> held cs m (framed m).
  Proof.
    intros cs Hcs k a c Hk L Ha Hc. assert (Rm := grid_rim k a Hk L Ha). destruct Rm as [i [j [E [Hi [Hj B]]]]].
    assert (Ia : In a (node_keys m)).
    { apply (wf_edge_keys m (gm_wf n n_pos)) in Hk. destruct Hk as [t [It Sk]]. apply (wf_vertices m (gm_wf n n_pos) t a It). unfold vertex.
      destruct Sk as [<-|[<-|[<-|[]]]]; apply ends in Ha; tauto. }
    apply framed_at; [exact Ia|apply Hcs, Hc|]. rewrite (gm_pos a Ia). cbn [vx vy]. rewrite E, (nx_id n n_pos i j Hj), (ny_id n n_pos i j Hj), <- !INR_IZR_INZ.
    assert (Z := npos n n_pos). assert (I : INR n / INR n = 1) by (field; lra). assert (O : INR 0 / INR n = 0) by (cbn; field; lra).
    destruct B as [-> | [-> | [-> | ->]]]; rewrite ?I, ?O; ring.
  Qed.

  Lemma grid_strip : in_strip (1 / 2) m.
  Proof.
    exists (1 / 2). intros a Ha. destruct (grid_fine_trias n n_pos) as [F _]. destruct (F a Ha) as [X _]. cbn [fst] in X. apply Rabs_le. fold m in X. lra.
  Qed.

  Lemma grid_framed : forall f, supported f m (framed m).
  Proof.
    intros f u RP HS. apply (grid_supported n n_pos f u RP). intros i Hi Ci. apply (HS i Hi). unfold clamped in Ci. unfold framed. fold m in Ci. cbv zeta.
    destruct (Req_EM_T (vx (pos m (nth (i / 5) (node_keys m) 0%nat))) 0) as [E|E]; [|discriminate].
    destruct (Req_EM_T _ 0) as [_|N]; [reflexivity|]. exfalso. apply N. rewrite E. ring.
  Qed.
End G.
