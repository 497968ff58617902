(** The grid of ExGrid.v, clamped on one side. *)
From Coq Require Import ZArith Reals List Bool Arith Lra Lia String.
From Verif Require Import Num Py Mesh Utils Spec SpecRead SpecK0 SpecK0s SpecStab SpecStat SpecConv FDict FWf FSum FRenum FSmooth FStab LKG LK0s Ex ExK0 ExK0s ExGrid ExStab.
Import ListNotations.
Local Open Scope R_scope.

(** all degrees of freedom of the nodes with x = 0 *)
Definition clamped (m : mesh R) (i : nat) : bool := if Req_EM_T (vx (pos m (nth (i / 5) (node_keys m) 0%nat))) 0 then true else false.

(** compression in x *)
Definition press : motion := {|
  fu := poly (fun x y => - x) (fun x y => -1) (fun x y => 0); fv := poly (fun x y => 0) (fun x y => 0) (fun x y => 0);
  fw := poly (fun x y => 0) (fun x y => 0) (fun x y => 0); ffx := poly (fun x y => 0) (fun x y => 0) (fun x y => 0);
  ffy := poly (fun x y => 0) (fun x y => 0) (fun x y => 0) |}.
(** deflection that grows with x *)
Definition rise : motion := {|
  fu := poly (fun x y => 0) (fun x y => 0) (fun x y => 0); fv := poly (fun x y => 0) (fun x y => 0) (fun x y => 0);
  fw := poly (fun x y => x) (fun x y => 1) (fun x y => 0); ffx := poly (fun x y => 0) (fun x y => 0) (fun x y => 0);
  ffy := poly (fun x y => 0) (fun x y => 0) (fun x y => 0) |}.

Ltac lin_smooth d := apply (quad_smooth 0 0 0 d 0 0); cbn [poly fval fdx fdy]; try (intros; ring); rewrite ?Rabs_R0; try lra; intros x y _; lra.
Lemma press_smooth : motion_smooth unit_square 1 2 press.
Proof. unfold motion_smooth, press; cbn [fu fv fw ffx ffy]. split; [lin_smooth (-1)|]. split; [lin_smooth 0|]. split; [lin_smooth 0|]. split; lin_smooth 0. Qed.
Lemma rise_smooth : motion_smooth unit_square 1 2 rise.
Proof. unfold motion_smooth, rise; cbn [fu fv fw ffx ffy]. split; [lin_smooth 0|]. split; [lin_smooth 0|]. split; [lin_smooth 1|]. split; lin_smooth 0. Qed.
Lemma rise_rot : rotations_le unit_square 2 rise.
Proof. intros x y _. unfold rise; cbn. split; apply Rabs_le; lra. Qed.

Lemma sampled_clamped : forall m F, (forall y, fval (fu F) 0 y = 0) -> (forall y, fval (fv F) 0 y = 0) -> (forall y, fval (fw F) 0 y = 0) ->
  (forall y, fval (ffx F) 0 y = 0) -> (forall y, fval (ffy F) 0 y = 0) -> admissible (List.length (nodes m) * 5) (clamped m) (sampled m F).
Proof.
  intros m F U V W X Y i _ Si. unfold clamped in Si. unfold sampled, field. cbv zeta.
  destruct (Req_EM_T (vx (pos m (nth (i / 5) (node_keys m) 0%nat))) 0) as [E|E]; [|discriminate]. rewrite E.
  destruct (i mod 5)%nat as [|[|[|[|k]]]]; auto.
Qed.

Lemma shared_edge : forall (m : mesh R) t1 t2 a b, wf_mesh m -> In t1 (trias_of m) -> In t2 (trias_of m) -> a <> b ->
  vertex t1 a -> vertex t1 b -> vertex t2 a -> vertex t2 b -> let k := (Nat.min a b, Nat.max a b) in
  In k (edge_keys m) /\ In t1 (tris_on m k) /\ In t2 (tris_on m k).
Proof.
  intros m t1 t2 a b W I1 I2 N A1 B1 A2 B2 k.
  assert (S1 : In k (sides t1)).
  { unfold k, sides. unfold vertex in A1, B1. cbn [In].
    destruct A1 as [-> | [-> | ->]]; destruct B1 as [-> | [-> | ->]]; try congruence;
    first [left; f_equal; lia|right; left; f_equal; lia|right; right; left; f_equal; lia]. }
  assert (V : forall t : tria R, vertex t a -> vertex t b -> vertex t (fst k) /\ vertex t (snd k)).
  { intros t Ha Hb. unfold k; cbn [fst snd]. destruct (Nat.min_dec a b) as [-> | ->]; destruct (Nat.max_dec a b) as [-> | ->]; auto. }
  split; [apply (wf_edge_keys m W); exists t1; auto|]. split; apply tris_on_in; auto.
Qed.

Section G.
  Variable n : nat.
  Hypothesis n_pos : (0 < n)%nat.
  Let m := grid_mesh n.

  Lemma gm_wf : wf_mesh m.
  Proof. apply wp_wf, grid_wf, n_pos. Qed.

  Lemma gm_cell : forall t, In t (trias_of m) -> exists i j up, cell n t i j up.
  Proof.
    intros t Ht. unfold m, grid_mesh, all_same in Ht. rewrite (wp_trias _ (grid_wf n n_pos)) in Ht. apply in_map_iff in Ht.
    destruct Ht as [t0 [<- Ht]]. destruct (tria_cell n n_pos t0 Ht) as [i [j [up C]]]. exists i, j, up. exact C.
  Qed.
  Lemma gm_has : forall i j up, (i < n)%nat -> (j < n)%nat -> exists t, In t (trias_of m) /\ cell n t i j up.
  Proof.
    intros i j up Hi Hj. set (b := if up then 1%nat else 0%nat). set (c := (2 * (i * n + j) + b)%nat).
    assert (B : (b < 2)%nat) by (unfold b; destruct up; lia).
    assert (H2 : (c / 2 = i * n + j)%nat) by (symmetry; apply (Nat.div_unique c 2 (i * n + j) b); [exact B|unfold c; lia]).
    assert (L : (c < 2 * (n * n))%nat) by (unfold c; nia).
    destruct (grid_tria n n_pos c L) as [t [E C]]. rewrite H2 in C.
    assert (D1 : ((i * n + j) / n = i)%nat) by (symmetry; apply (Nat.div_unique _ n i j); lia).
    assert (D2 : ((i * n + j) mod n = j)%nat) by (symmetry; apply (Nat.mod_unique _ n i j); lia). rewrite D1, D2 in C.
    assert (EV : Nat.even c = negb up).
    { unfold c. rewrite Nat.even_add, Nat.even_mul. unfold b. destruct up; reflexivity. }
    rewrite EV, negb_involutive in C.
    exists (wp_tria (fun _ => Some (ex_prop 1)) t). split; [|exact C].
    unfold m, grid_mesh, all_same. rewrite (wp_trias _ (grid_wf n n_pos)). apply in_map.
    unfold trias_of. apply in_map_iff. exists (S c, t). split; [reflexivity|]. apply nth_error_In with c. exact E.
  Qed.

  Lemma id_inj : forall i j i' j', (j <= n)%nat -> (j' <= n)%nat -> S (grid_id n i j) = S (grid_id n i' j') -> i = i' /\ j = j'.
  Proof.
    intros i j i' j' Hj Hj' E. assert (X := nx_id n n_pos i j Hj). rewrite E, (nx_id n n_pos i' j' Hj') in X. assert (Y := ny_id n n_pos i j Hj). rewrite E, (ny_id n n_pos i' j' Hj') in Y. lia.
  Qed.

  Lemma diagonal : forall t1 t2 i j, In t1 (trias_of m) -> In t2 (trias_of m) -> cell n t1 i j false -> cell n t2 i j true ->
    t1 <> t2 /\ exists k, In k (edge_keys m) /\ In t1 (tris_on m k) /\ In t2 (tris_on m k).
  Proof.
    intros t1 t2 i j I1 I2 [Hi [Hj [A1 [A2 A3]]]] [_ [_ [B1 [B2 B3]]]]. split.
    - intros E. rewrite E in A2. rewrite A2 in B2. apply id_inj in B2; lia.
    - eexists. apply (shared_edge m t1 t2 (S (grid_id n i j)) (S (grid_id n (S i) (S j))) gm_wf I1 I2); unfold vertex; rewrite ?A1, ?A3, ?B1, ?B2; auto.
      intros E. apply id_inj in E; lia.
  Qed.
  Lemma upright : forall t1 t2 i j, In t1 (trias_of m) -> In t2 (trias_of m) -> cell n t1 (S i) j true -> cell n t2 i j false ->
    exists k, In k (edge_keys m) /\ In t1 (tris_on m k) /\ In t2 (tris_on m k).
  Proof.
    intros t1 t2 i j I1 I2 [Hi [Hj [A1 [A2 A3]]]] [_ [_ [B1 [B2 B3]]]].
    eexists. apply (shared_edge m t1 t2 (S (grid_id n (S i) j)) (S (grid_id n (S i) (S j))) gm_wf I1 I2); unfold vertex; rewrite ?A1, ?A3, ?B2, ?B3; auto.
    intros E. apply id_inj in E; lia.
  Qed.

  Lemma grid_braced : braced "cell-based" m.
  Proof.
    unfold braced. cbn. intros t Ht. destruct (gm_cell t Ht) as [i [j [up C]]]. assert (Hi := proj1 C). assert (Hj := proj1 (proj2 C)).
    destruct (gm_has i j (negb up) Hi Hj) as [t' [Ht' C']]. unfold has_neighbour. destruct up; cbn [negb] in C'.
    - destruct (diagonal t' t i j Ht' Ht C' C) as [N [k [K1 [K2 K3]]]]. exists k, t'. auto.
    - destruct (diagonal t t' i j Ht Ht' C C') as [N [k [K1 [K2 K3]]]]. exists k, t'. auto.
  Qed.

  Lemma to_left : forall t i j t1, In t1 (trias_of m) -> linked m t t1 -> cell n t1 i j true -> exists t0, In t0 (trias_of m) /\ linked m t t0 /\ cell n t0 0 j true.
  Proof.
    intros t i j. induction i as [|i IH]; intros t1 I1 L C; [exists t1; auto|].
    assert (Hi := proj1 C). assert (Hj := proj1 (proj2 C)).
    destruct (gm_has i j false) as [t2 [I2 C2]]; [lia|lia|]. destruct (gm_has i j true) as [t3 [I3 C3]]; [lia|lia|].
    destruct (upright t1 t2 i j I1 I2 C C2) as [k [K1 [K2 K3]]]. destruct (diagonal t2 t3 i j I2 I3 C2 C3) as [_ [k' [K1' [K2' K3']]]].
    apply (IH t3 I3); [|exact C3]. apply (linked_next m t t2 t3 k'); auto. apply (linked_next m t t1 t2 k); auto.
  Qed.

  (** every part of the grid contains two nodes with x = 0 *)
  Lemma part_left : forall t, In t (trias_of m) -> exists a b, in_part m t a /\ in_part m t b /\ In a (node_keys m) /\ In b (node_keys m) /\
    vx (pos m a) = 0 /\ vx (pos m b) = 0 /\ vy (pos m a) <> vy (pos m b).
  Proof.
    intros t Ht. destruct (gm_cell t Ht) as [i [j [up C]]]. assert (Hi := proj1 C). assert (Hj := proj1 (proj2 C)).
    assert (X : exists t0, In t0 (trias_of m) /\ linked m t t0 /\ cell n t0 0 j true).
    { destruct up; [apply (to_left t i j t Ht (linked_self m t) C)|]. destruct (gm_has i j true Hi Hj) as [t' [Ht' C']].
      destruct (diagonal t t' i j Ht Ht' C C') as [_ [k [K1 [K2 K3]]]]. apply (to_left t i j t' Ht'); [|exact C'].
      apply (linked_next m t t t' k); auto. constructor. }
    destruct X as [t0 [I0 [L C0]]]. assert (CC := cell_coords n n_pos t0 0 j true C0). destruct CC as [X1 [Y1 [_ [_ [X3 Y3]]]]].
    exists (tn1 t0), (tn3 t0).
    assert (V1 : vertex t0 (tn1 t0)) by (left; reflexivity). assert (V3 : vertex t0 (tn3 t0)) by (right; right; reflexivity).
    assert (N1 := wf_vertices m gm_wf t0 _ I0 V1). assert (N3 := wf_vertices m gm_wf t0 _ I0 V3).
    split; [exists t0; auto|]. split; [exists t0; auto|]. split; [exact N1|]. split; [exact N3|].
    assert (PE : pos m = pos (grid_read n)) by (apply (wp_pos (grid_read n))). rewrite PE.
    unfold m, grid_mesh, all_same in N1, N3. rewrite (wp_keys (grid_read n)) in N1, N3.
    destruct (grid_node n n_pos _ N1) as [_ ->]. destruct (grid_node n n_pos _ N3) as [_ ->]. cbn [vx vy].
    rewrite X1, X3, Y1, Y3. assert (Z := npos n n_pos). split; [cbn; field; lra|]. split; [cbn; field; lra|].
    rewrite plus_IZR. intros E. assert (E' : 1 / INR n = 0) by lra. assert (0 < 1 / INR n) by (apply Rdiv_lt_0_compat; lra). lra.
  Qed.

  (** every node is a vertex *)
  Lemma node_in : forall a, In a (node_keys m) -> exists t, In t (trias_of m) /\ vertex t a.
  Proof.
    intros a Ha. unfold m, grid_mesh, all_same in Ha. rewrite (wp_keys (grid_read n)) in Ha. destruct (grid_node n n_pos a Ha) as [R _].
    set (i := ((a - 1) / S n)%nat). set (j := ((a - 1) mod S n)%nat).
    assert (E : a = S (grid_id n i j)) by (assert (D := Nat.div_mod (a - 1) (S n) ltac:(lia)); fold i j in D; unfold grid_id; nia).
    assert (Hj : (j < S n)%nat) by (apply Nat.mod_upper_bound; lia). assert (Hi : (i < S n)%nat) by (apply Nat.div_lt_upper_bound; lia).
    rewrite E. unfold vertex. destruct (Nat.eq_dec i n) as [Ei|Ei]; destruct (Nat.eq_dec j n) as [Ej|Ej].
    - destruct (gm_has (n - 1) (n - 1) true) as [t [It [_ [_ [_ [C _]]]]]]; [lia|lia|]. exists t. split; [exact It|]. right; left. rewrite C. do 2 f_equal; lia.
    - destruct (gm_has (n - 1) j false) as [t [It [_ [_ [_ [C _]]]]]]; [lia|lia|]. exists t. split; [exact It|]. right; left. rewrite C. do 2 f_equal; lia.
    - destruct (gm_has i (n - 1) true) as [t [It [_ [_ [_ [_ C]]]]]]; [lia|lia|]. exists t. split; [exact It|]. right; right. rewrite C. do 2 f_equal; lia.
    - destruct (gm_has i j true) as [t [It [_ [_ [C _]]]]]; [lia|lia|]. exists t. split; [exact It|]. left. rewrite C. reflexivity.
  Qed.

  Lemma nth_rank : forall l a, In a l -> nth (index_in a l) l 0%nat = a.
  Proof.
    induction l as [|b l IH]; intros a H; [destruct H|]. cbn [index_in]. destruct (Nat.eqb_spec a b) as [->|N]; [reflexivity|]. cbn [nth]. apply IH. destruct H; [congruence|assumption].
  Qed.

  Lemma grid_supported : forall f, supported f m (clamped m).
  Proof.
    intros f u RP HS.
    assert (Z : forall a c, In a (node_keys m) -> (c < 5)%nat -> vx (pos m a) = 0 -> comp m u c a = 0).
    { intros a c Ha Hc Hx. unfold comp. apply HS; [assert (L := rank_lt m a Ha); lia|]. unfold clamped.
      replace ((rank m a * 5 + c) / 5)%nat with (rank m a) by (apply (Nat.div_unique _ 5 (rank m a) c); lia). unfold rank. rewrite nth_rank by exact Ha.
      destruct (Req_EM_T (vx (pos m a)) 0); [reflexivity|contradiction]. }
    assert (G : forall a c, In a (node_keys m) -> (c < 5)%nat -> comp m u c a = 0).
    { intros a c Ha Hc. destruct (node_in a Ha) as [t [It Va]]. assert (Pa : in_part m t a) by (exists t; split; [constructor|exact Va]).
      destruct (RP t It) as [[tx [ty [th PM]]] [w0 [px [py TL]]]]. destruct (part_left t It) as [b1 [b2 [P1 [P2 [N1 [N2 [X1 [X2 Y]]]]]]]].
      destruct (PM b1 P1) as [U1 V1]. destruct (PM b2 P2) as [U2 V2]. destruct (TL b1 P1) as [W1 [F1 G1]].
      rewrite (Z b1 0%nat N1 ltac:(lia) X1) in U1. rewrite (Z b1 1%nat N1 ltac:(lia) X1), X1 in V1. rewrite (Z b2 0%nat N2 ltac:(lia) X2) in U2.
      rewrite (Z b1 2%nat N1 ltac:(lia) X1), X1 in W1. rewrite (Z b1 3%nat N1 ltac:(lia) X1) in F1. rewrite (Z b1 4%nat N1 ltac:(lia) X1) in G1.
      assert (TH : th = 0).
      { assert (E : th * (vy (pos m b1) - vy (pos m b2)) = 0) by lra. apply Rmult_integral in E. destruct E as [E|E]; [exact E|]. exfalso. apply Y. lra. }
      subst th px py. assert (TX : tx = 0) by lra. assert (TY : ty = 0) by lra. assert (W0 : w0 = 0) by lra. subst tx ty w0.
      destruct (PM a Pa) as [U V]. destruct (TL a Pa) as [W [F G]].
      destruct c as [|[|[|[|[|c]]]]]; [lra|lra|lra|lra|lra|lia]. }
    intros i Hi. assert (L : (i / 5 < List.length (nodes m))%nat) by (apply Nat.div_lt_upper_bound; lia).
    destruct (rank_onto m (i / 5) L (wf_nodes m gm_wf)) as [a [Ha E]].
    assert (X := G a (i mod 5)%nat Ha ltac:(apply Nat.mod_upper_bound; lia)). unfold comp in X. rewrite E in X.
    replace (i / 5 * 5 + i mod 5)%nat with i in X by (assert (D := Nat.div_mod i 5 ltac:(lia)); lia). exact X.
  Qed.

  Lemma grid_pd : all_props m pos_def /\ all_props m shear_pos.
  Proof. split; (apply with_one; [apply grid_wf, n_pos|]); [apply ex_pos_def|apply ex_shear_pos]; lra. Qed.
End G.
