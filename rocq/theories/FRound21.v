(** The shear stiffness of the cell-based methods, in doubles and in reals. *)
From Coq Require Import ZArith Reals List Bool Arith Lra Lia QArith Qreals String.
From Flocq Require Import Core.
From Verif Require Import Num Float Py Mesh Utils CalcK0 AddK0s Spec SpecRound SpecRound2 FGeom FDict FMat FWf FOut FSetup FFloat FTree FK0s FRound FRound2 FRound3 FRound4 FRound5 FRound6 FRound8 FRound9 FRound10 FRound11 FRound14 FRound15 FRound16 FRound17 FRound18 FRound19 FRound20.
Import ListNotations.
Local Open Scope R_scope.

Notation tria_val := SpecRound.tria_val.

Lemma tri_area3_flat : forall a b c : vec3 R, vz b = vz a -> vz c = vz a -> tri_area3 a b c = Rabs (det2 a b c) / 2.
Proof.
  intros a b c Zb Zc. unfold tri_area3, norm, cross, vsub, dot, det2; cbn [vx vy vz]. rewrite Zb, Zc. rnum.
  match goal with |- 1 / 2 * sqrt ?e = Rabs ?d / 2 => replace e with (Rsqr d) by (unfold Rsqr; ring) end. rewrite sqrt_Rsqr_abs. field.
Qed.

(** ** The largest of several lengths *)
Section Max.
  Variable eps : R.
  Hypothesis E0 : roundoff <= eps.
  Definition len (x : double) (X : R) : Prop := rel eps 12 x X /\ rng (-84) 65 X.
  Lemma len_max : forall ls LS, Forall2 len ls LS -> forall a A, len a A -> len (nmaxl a ls) (nmaxl A LS).
  Proof.
    intros ls LS H. induction H as [|x X ls LS HX _ IH]; intros a A HA; [exact HA|]. cbn [nmaxl]. apply IH. destruct HX as [X1 X2]. destruct HA as [A1 A2].
    rewrite nmax2_Rmax. split; [apply rel_max; assumption|]. unfold Rmax. destruct (Rle_dec A X); assumption.
  Qed.
End Max.

Section Trias.
  Variables (m : mesh double) (h rho s kappa : R).
  Hypothesis KS : k0_scale m h rho kappa s.
  Hypothesis WM : wf_mesh (mesh_val m).
  Hypothesis PL : plate (mesh_val m).
  Notation M := (mesh_val m).
  Let delta := kappa * roundoff.
  Let eps := delta * rho.
  Let SL := FRound9.SL m h rho s kappa KS.
  Let K1 := FRound9.K1 m h rho s kappa KS.
  Let KX := FRound9.KX m h rho s kappa KS.
  Let Wm := FRound9.Wm m WM.
  Let E0 : roundoff <= eps := eps_low h rho s kappa SL.
  Let E1 : eps <= / 1048576 := eps_high h rho s kappa SL.
  Notation LK := (lock_val m).
  Variables (es : list ((nat * nat) * edge double)) (ES : list ((nat * nat) * edge R)).
  Notation mm := (number m es).
  Notation MM := (number M ES).

  Lemma tri_perm : forall t a b o, In t (trias_of m) -> perm3 t a b o -> tri h rho (pos M a) (pos M b) (pos M o) (mid3 (pos M a) (pos M b) (pos M o)).
  Proof.
    intros t a b o T1 P.
    assert (HT : In (tria_val t) (trias_of M)) by (rewrite (trias_lock _ _ LK); apply in_map, T1).
    destruct (perm3_vertex _ _ _ _ P) as [Va [Vb Vo]]. destruct (pl_flat M PL) as [z Z]. rewrite (keys_lock _ _ LK) in Z.
    assert (Ka := wf_vertices m Wm t a T1 Va). assert (Kb := wf_vertices m Wm t b T1 Vb). assert (Ko := wf_vertices m Wm t o T1 Vo).
    constructor.
    - apply (ks_size _ _ _ _ _ KS t); assumption.
    - apply (ks_size _ _ _ _ _ KS t); assumption.
    - apply (ks_size _ _ _ _ _ KS t); assumption.
    - rewrite !Z by assumption. split; [reflexivity|]. split; [reflexivity|]. unfold mid3, vdivs, vadd; cbn [vx vy vz]; rnum. rewrite !Z by assumption. field.
    - unfold mid3, vdivs, vadd; cbn [vx vy vz]; rnum. split; field.
    - assert (F := ks_fat _ _ _ _ _ KS _ HT). rewrite (tarea_perm M (tria_val t) a b o P) in F. lra.
  Qed.

  Lemma num_ex : forall n, In n (node_keys m) -> exists nd, get_node mm n = Ok nd /\ get_node MM n = Ok (node_val nd) /\ exact h kappa (nxyz nd) (vec_val (nxyz nd)) /\
    vec_val (nxyz nd) = pos M n /\ nindex nd = Some (rank m n) /\ nprop nd = nodeprop m n.
  Proof.
    intros n Hn. destruct (node_ex m h rho s kappa KS WM n Hn) as [nd [G [_ [E [V _]]]]]. exists (set_index (rank m n) nd).
    assert (GN := node_number _ m es n nd G). split; [exact GN|]. split; [rewrite (get_node_lock _ _ (lock_number m es ES)), GN; reflexivity|].
    split; [rewrite <- V in E; exact E|]. split; [exact V|]. split; [reflexivity|]. unfold nodeprop. unfold get_node in G. destruct (dget Nat.eqb n (nodes m)); [|discriminate]. injection G as ->. reflexivity.
  Qed.

  Lemma side_len : forall t k, In t (trias_of m) -> In k (sides t) -> exists x X, edge_length mm k = Ok x /\ edge_length MM k = Ok X /\ len eps x X.
  Proof.
    intros t k T1 Hk. destruct (sides_vertices _ _ Hk) as [Va Vb].
    assert (PE : exists o, perm3 t (fst k) (snd k) o).
    { cbn in Hk. unfold perm3. destruct Hk as [<-|[<-|[<-|[]]]]; cbn [fst snd]; [exists (tn3 t)|exists (tn1 t)|exists (tn2 t)];
        match goal with |- context [Nat.min ?a ?b] => destruct (Nat.min_spec a b) as [[? ->]|[? ->]]; destruct (Nat.max_spec a b) as [[? ->]|[? ->]] end; try lia; intuition. }
    destruct PE as [o P]. assert (T := tri_perm t _ _ o T1 P).
    destruct (num_ex _ (wf_vertices m Wm t _ T1 Va)) as [a [Ga [GA [[Ea _] [Va' _]]]]]. destruct (num_ex _ (wf_vertices m Wm t _ T1 Vb)) as [b [Gb [GB [[Eb _] [Vb' _]]]]].
    unfold edge_length. rewrite Ga, Gb, GA, GB. cbn [bind]. eexists. eexists. split; [reflexivity|]. split; [reflexivity|].
    rewrite Va' in Ea. rewrite Vb' in Eb. destruct (tr_z _ _ _ _ _ _ T) as [Z1 _].
    assert (LW := tri_low2 h rho s kappa SL _ _ _ _ (tri_swap _ _ _ _ _ _ T)).
    destruct (side_rel h rho s kappa SL _ _ _ _ Ea Eb (tr_12 _ _ _ _ _ _ T) Z1 LW) as [R1 R2].
    replace (norm (vsub (nxyz (node_val a)) (nxyz (node_val b)))) with (norm3 (vx (pos M (fst k)) - vx (pos M (snd k))) (vy (pos M (fst k)) - vy (pos M (snd k))) (vz (pos M (fst k)) - vz (pos M (snd k)))).
    - split; assumption.
    - cbn [node_val nxyz]. rewrite Va', Vb'. reflexivity.
  Qed.

  (** area and length of a triangle *)
  Lemma tria_geo : forall t, In t (trias_of m) -> exists ac A, get_area mm t = Ok ac /\ get_area MM (tria_val t) = Ok A /\ finite ac /\ Rabs (val ac - A) <= 30 * (delta * (h * h)) /\
    A = Rabs (det2 (pos M (tn1 t)) (pos M (tn2 t)) (pos M (tn3 t))) / 2 /\ A <= h * h /\
    (forall mfa, exists l L, maxl_tria mm t ac mfa = Ok l /\ maxl_tria MM (tria_val t) A mfa = Ok L /\ rel eps 32 l L /\ rng (-84) 66 L).
  Proof.
    intros t T1. assert (P : perm3 t (tn1 t) (tn2 t) (tn3 t)) by (left; auto). assert (T := tri_perm t _ _ _ T1 P).
    destruct (num_ex (tn1 t)) as [d1 [G1 [H1 [[X1 _] [V1 _]]]]]; [apply (wf_vertices m Wm t _ T1); left; reflexivity|].
    destruct (num_ex (tn2 t)) as [d2 [G2 [H2 [[X2 _] [V2 _]]]]]; [apply (wf_vertices m Wm t _ T1); right; left; reflexivity|].
    destruct (num_ex (tn3 t)) as [d3 [G3 [H3 [[X3 _] [V3 _]]]]]; [apply (wf_vertices m Wm t _ T1); right; right; reflexivity|].
    rewrite V1 in X1. rewrite V2 in X2. rewrite V3 in X3. destruct (tr_z _ _ _ _ _ _ T) as [Z1 [Z2 _]].
    destruct (tri_area_near h rho s kappa SL _ _ _ _ _ _ X1 X2 X3 (apart_sym _ _ _ (tr_12 _ _ _ _ _ _ T)) (apart_sym _ _ _ (tr_1o _ _ _ _ _ _ T)) ltac:(congruence) ltac:(congruence) (tr_fat _ _ _ _ _ _ T)) as [FA [EA UA]].
    exists (tri_area3 (nxyz d1) (nxyz d2) (nxyz d3)), (Rabs (det2 (pos M (tn1 t)) (pos M (tn2 t)) (pos M (tn3 t))) / 2).
    set (A := Rabs (det2 _ _ _) / 2) in *. set (ac := tri_area3 _ _ _) in *.
    split; [unfold get_area; rewrite G1, G2, G3; reflexivity|].
    split.
    { unfold get_area. change (tn1 (tria_val t)) with (tn1 t). change (tn2 (tria_val t)) with (tn2 t). change (tn3 (tria_val t)) with (tn3 t). rewrite H1, H2, H3. cbn [bind node_val nxyz]. f_equal.
      rewrite V1, V2, V3. apply tri_area3_flat; congruence. }
    split; [exact FA|]. split; [exact EA|]. split; [reflexivity|]. split; [exact UA|].
    intros mfa. destruct mfa; unfold maxl_tria.
    - exists (nsqrt ac), (sqrt A). split; [reflexivity|]. split; [reflexivity|].
      assert (HP := h_pos _ _ _ _ SL). assert (DP := d_pos _ _ _ _ SL). fold delta in DP. assert (FT := tr_fat _ _ _ _ _ _ T). assert (HA : h * h <= rho * A) by (unfold A; lra).
      assert (HH : 0 < h * h) by (apply Rmult_lt_0_compat; assumption). assert (R1 := sl_rho _ _ _ _ SL).
      assert (AP : 0 < A) by (apply Rmult_lt_reg_l with rho; lra).
      assert (GA : rng (-146) 128 A).
      { assert (HR := h_rng h rho s kappa SL). assert (RR := rho_rng h rho s kappa SL). assert (H2' := rng_mul _ _ _ _ _ _ HR HR). assert (D := rng_div _ _ _ _ _ _ H2' RR). cbn [Z.add Z.sub Z.opp] in D, H2'.
        assert (Q : h * h / rho <= A) by (apply Rmult_le_reg_l with rho; [lra|]; replace (rho * (h * h / rho)) with (h * h) by (field; lra); exact HA).
        destruct (rng_le _ _ (-146) 128 _ D ltac:(lia) ltac:(lia)) as [L1 _]. destruct H2' as [_ L2]. split; [lra|exact (Rle_trans _ _ _ UA L2)]. }
      assert (GS : rng (-73) 64 (sqrt A)).
      { destruct GA as [L1 L2]. assert (B1 := bpow_gt_0 radix2 (-73)). assert (B2 := bpow_gt_0 radix2 64). split.
        - rewrite <- (sqrt_square (bpow radix2 (-73))) by lra. apply sqrt_le_1_alt. rewrite <- bpow_plus. exact L1.
        - rewrite <- (sqrt_square (bpow radix2 64)) by lra. apply sqrt_le_1_alt. rewrite <- bpow_plus. exact L2. }
      split; [|apply (rng_le _ _ _ _ _ GS); lia]. replace 32 with (30 + 2) by ring. apply (rel_sqrt eps E0 E1); [|apply (rng_mid _ _ _ GS); lia|lra].
      split; [exact FA|]. split; [exact AP|]. split; [lra|]. eapply Rle_trans; [exact EA|]. unfold eps.
      apply Rle_trans with (30 * (delta * (rho * A))); [|right; ring]. apply Rmult_le_compat_l; [lra|]. apply Rmult_le_compat_l; [lra|exact HA].
    - change (tedges (tria_val t)) with (tedges t).
      assert (SE : forall k, In k (tedges t) -> In k (sides t)) by (intros k Hk; apply (wf_tria_edges m Wm t T1 k), Hk).
      assert (NE : tedges t <> []).
      { assert (Q : In (hd (0, 0)%nat (sides t)) (tedges t)) by (apply (wf_tria_edges m Wm t T1); left; reflexivity). intros E. rewrite E in Q. destruct Q. }
      assert (MP : forall ks, (forall k, In k ks -> In k (sides t)) -> exists ls LS, mapM (edge_length mm) ks = Ok ls /\ mapM (edge_length MM) ks = Ok LS /\ Forall2 (len eps) ls LS).
      { induction ks as [|k ks IH]; intros HK; [exists [], []; repeat constructor|]. destruct (side_len t k T1 (HK k (or_introl eq_refl))) as [x [X [Q1 [Q2 Q3]]]].
        destruct IH as [ls [LS [Q4 [Q5 Q6]]]]; [intros k' H'; apply HK; right; exact H'|]. exists (x :: ls), (X :: LS). cbn [mapM]. rewrite Q1, Q2. cbn [bind]. rewrite Q4, Q5. cbn [bind]. split; [reflexivity|]. split; [reflexivity|]. constructor; assumption. }
      destruct (MP _ SE) as [ls [LS [Q1 [Q2 Q3]]]]. rewrite Q1, Q2. cbn [bind]. destruct Q3 as [|x X ls LS HX HS].
      + exfalso. apply NE. destruct (tedges t) as [|k ks]; [reflexivity|]. cbn [mapM] in Q1. destruct (edge_length mm k); [|discriminate]. cbn [bind] in Q1. destruct (mapM (edge_length mm) ks); discriminate.
      + exists (nmaxl x ls), (nmaxl X LS). split; [reflexivity|]. split; [reflexivity|]. destruct (len_max eps E0 _ _ HS _ _ HX) as [W1 W2]. split; [apply (rel_mono eps E0 12); [exact W1|lra]|apply (rng_le _ _ _ _ _ W2); lia].
  Qed.

  (** ** Contributions of a triangle *)
  Variable alpha : double.
  Variable pfn : bool.
  Hypothesis SS : shear_scale m s alpha.
  Hypothesis PC : props_complete M pfn.

  Lemma fine_of : forall p, (exists n, nodeprop m n = Some p) \/ (exists t, In t (trias_of m) /\ tprop t = Some p) -> prop_fine s p.
  Proof. intros p H. destruct (ss_props _ _ _ SS p H) as [H1 [H2 [H3 H4]]]. split; [exact H1|]. split; [exact H2|]. split; [exact H3|exact H4]. Qed.
  Lemma node_fine : pfn = true -> forall t n, In t (trias_of m) -> vertex t n -> exists p, nodeprop m n = Some p /\ prop_fine s p.
  Proof.
    intros -> t n T1 V. unfold props_complete in PC. assert (EK : forall k, In k (sides t) -> nodeprop m (fst k) <> None /\ nodeprop m (snd k) <> None).
    { intros k Hk. assert (Q : In k (edge_keys M)) by (apply (wf_edge_keys M WM); exists (tria_val t); split; [rewrite (trias_lock _ _ LK); apply in_map, T1|exact Hk]).
      destruct (PC k Q) as [A B]. rewrite (prop_lock _ _ LK) in A, B. split; intros E; [apply A|apply B]; rewrite E; reflexivity. }
    assert (NZ : nodeprop m n <> None).
    { destruct V as [->|[->| ->]].
      - destruct (EK _ (or_introl eq_refl)) as [A B]. cbn [fst snd] in A, B. destruct (Nat.min_spec (tn1 t) (tn2 t)) as [[? E]|[? E]]; destruct (Nat.max_spec (tn1 t) (tn2 t)) as [[? E']|[? E']]; rewrite E in A; rewrite E' in B; try assumption; lia.
      - destruct (EK _ (or_introl eq_refl)) as [A B]. cbn [fst snd] in A, B. destruct (Nat.min_spec (tn1 t) (tn2 t)) as [[? E]|[? E]]; destruct (Nat.max_spec (tn1 t) (tn2 t)) as [[? E']|[? E']]; rewrite E in A; rewrite E' in B; try assumption; try lia.
      - destruct (EK _ (or_intror (or_introl eq_refl))) as [A B]. cbn [fst snd] in A, B. destruct (Nat.min_spec (tn2 t) (tn3 t)) as [[? E]|[? E]]; destruct (Nat.max_spec (tn2 t) (tn3 t)) as [[? E']|[? E']]; rewrite E in A; rewrite E' in B; try assumption; try lia. }
    destruct (nodeprop m n) as [p|] eqn:E; [|contradiction]. exists p. split; [reflexivity|]. apply fine_of. left. exists n. exact E.
  Qed.
  Lemma tria_fine : pfn = false -> forall t, In t (trias_of m) -> exists p, tprop t = Some p /\ prop_fine s p.
  Proof.
    intros -> t T1. unfold props_complete in PC. assert (Q := PC (tria_val t)). rewrite (trias_lock _ _ LK) in Q. specialize (Q (in_map _ _ _ T1)). change (tprop (tria_val t)) with (option_map prop_val (tprop t)) in Q. destruct (tprop t) as [p|] eqn:E; [|contradiction].
    exists p. split; [reflexivity|]. apply fine_of. right. exists t. auto.
  Qed.

  Definition both (t : tria double) (i j : nat) : nat := if is_vertex (node_at m i) t && is_vertex (node_at m j) t then 1%nat else 0%nat.
  Lemma nth_index : forall l n, In n l -> nth (index_in n l) l 0%nat = n.
  Proof. induction l as [|a l IH]; intros n H; [destruct H|]. cbn [index_in]. destruct (Nat.eqb_spec n a) as [->|N]; [reflexivity|]. cbn [nth]. apply IH. destruct H as [->|H]; [congruence|exact H]. Qed.
  Lemma node_at_rank : forall n c, In n (node_keys m) -> (c < 5)%nat -> node_at m (rank m n * 5 + c) = n.
  Proof. intros n c H C. unfold node_at. rewrite (Nat.div_add_l _ 5) by lia. rewrite Nat.div_small, Nat.add_0_r by exact C. apply nth_index, H. Qed.

  Lemma hits_both : forall t a b o, In t (trias_of m) -> perm3 t a b o -> forall i j, (hits (grid [rank m a; rank m b; rank m o]) i j <= both t i j)%nat.
  Proof.
    intros t a b o T1 P i j. destruct (perm3_vertex _ _ _ _ P) as [Va [Vb Vo]]. destruct (perm3_distinct _ _ _ _ (wf_distinct m Wm t T1) P) as [D1 [D2 D3]].
    assert (Ka := wf_vertices m Wm t a T1 Va). assert (Kb := wf_vertices m Wm t b T1 Vb). assert (Ko := wf_vertices m Wm t o T1 Vo).
    assert (ND : NoDup [rank m a; rank m b; rank m o]).
    { assert (RI : forall x y, In x (node_keys m) -> In y (node_keys m) -> x <> y -> rank m x <> rank m y) by (intros x y Hx Hy N E; apply N; apply (rank_inj m); assumption).
      constructor; [cbn; intros [E|[E|[]]]; [apply (RI b a) in E|apply (RI o a) in E]; auto|]. constructor; [cbn; intros [E|[]]; apply (RI o b) in E; auto|]. constructor; [intros []|constructor]. }
    destruct (in_dec pair_dec (i, j) (grid [rank m a; rank m b; rank m o])) as [H|H].
    - assert (L := hits_nodup (grid [rank m a; rank m b; rank m o]) i j (NoDup_prod _ _ _ _ (dofsN_nodup _ ND) (dofsN_nodup _ ND))).
      unfold grid in H. apply in_prod_iff in H. destruct H as [Hi Hj]. apply dofsN_in in Hi, Hj.
      assert (Q : forall x c, In x [rank m a; rank m b; rank m o] -> (2 <= c < 5)%nat -> is_vertex (node_at m (x * 5 + c)) t = true).
      { intros x c Hx Hc. apply is_vertex_iff. destruct Hx as [<-|[<-|[<-|[]]]]; rewrite node_at_rank by (try assumption; lia); assumption. }
      destruct Hi as [x [c [Hx [Hc ->]]]]. destruct Hj as [y [d [Hy [Hd ->]]]]. unfold both. rewrite (Q x c Hx Hc), (Q y d Hy Hd). exact L.
    - rewrite (proj1 (count_occ_not_In pair_dec _ _) H). lia.
  Qed.

  Section One.
    Variable t : tria double.
    Hypothesis T1 : In t (trias_of m).
    Variable mfa : bool.

    Record local (a b o : nat) (n1 n2 n3 : node double) (mid : vec3 double) : Prop := {
      lo_perm : perm3 t a b o;
      lo_n : pfn = true -> forall n, In n [n1; n2; n3] -> exists p, nprop n = Some p /\ prop_fine s p;
      lo_1 : exact h kappa (nxyz n1) (vec_val (nxyz n1)); lo_2 : exact h kappa (nxyz n2) (vec_val (nxyz n2)); lo_3 : exact h kappa (nxyz n3) (vec_val (nxyz n3));
      lo_p : vec_val (nxyz n1) = pos M a /\ vec_val (nxyz n2) = pos M b /\ vec_val (nxyz n3) = pos M o;
      lo_tri : tri h rho (vec_val (nxyz n1)) (vec_val (nxyz n2)) (vec_val (nxyz n3)) (mid3 (pos M (tn1 t)) (pos M (tn2 t)) (pos M (tn3 t)));
      lo_mid : clv h kappa 3 mid (mid3 (pos M (tn1 t)) (pos M (tn2 t)) (pos M (tn3 t)));
      lo_i : nindex n1 = Some (rank m a) /\ nindex n2 = Some (rank m b) /\ nindex n3 = Some (rank m o);
      lo_r : (rank m a < List.length (nodes m) /\ rank m b < List.length (nodes m) /\ rank m o < List.length (nodes m))%nat
    }.
    Lemma local_swap : forall a b o n1 n2 n3 mid, local a b o n1 n2 n3 mid -> local b a o n2 n1 n3 mid.
    Proof.
      intros a b o n1 n2 n3 mid [A1 A2 A3 A4 A5 [A6 [A7 A8]] A9 B1 [B2 [B3 B4]] [B5 [B6 B7]]].
      constructor; auto; [apply perm3_swap, A1|intros PF n Hn; apply A2; [exact PF|cbn in *; tauto]|apply tri_swap, A9].
    Qed.
    Lemma local_ex : exists d1 d2 d3 mid, get_node mm (tn1 t) = Ok d1 /\ get_node mm (tn2 t) = Ok d2 /\ get_node mm (tn3 t) = Ok d3 /\ getMid mm t = Ok mid /\
      get_node MM (tn1 t) = Ok (node_val d1) /\ get_node MM (tn2 t) = Ok (node_val d2) /\ get_node MM (tn3 t) = Ok (node_val d3) /\ getMid MM (tria_val t) = Ok (mid3 (pos M (tn1 t)) (pos M (tn2 t)) (pos M (tn3 t))) /\
      local (tn1 t) (tn2 t) (tn3 t) d1 d2 d3 mid.
    Proof.
      assert (P : perm3 t (tn1 t) (tn2 t) (tn3 t)) by (left; auto). assert (T := tri_perm t _ _ _ T1 P).
      assert (Ka : In (tn1 t) (node_keys m)) by (apply (wf_vertices m Wm t _ T1); left; reflexivity). assert (Kb : In (tn2 t) (node_keys m)) by (apply (wf_vertices m Wm t _ T1); right; left; reflexivity).
      assert (Ko : In (tn3 t) (node_keys m)) by (apply (wf_vertices m Wm t _ T1); right; right; reflexivity).
      destruct (num_ex _ Ka) as [d1 [G1 [H1 [X1 [V1 [I1 Q1]]]]]]. destruct (num_ex _ Kb) as [d2 [G2 [H2 [X2 [V2 [I2 Q2]]]]]]. destruct (num_ex _ Ko) as [d3 [G3 [H3 [X3 [V3 [I3 Q3]]]]]].
      destruct (mid_lock m h rho s kappa KS WM t _ _ _ T1 P) as [mid [GM [GM' CM]]].
      exists d1, d2, d3, mid. split; [exact G1|]. split; [exact G2|]. split; [exact G3|]. split; [apply mid_number, GM|]. split; [exact H1|]. split; [exact H2|]. split; [exact H3|]. split; [apply mid_number, GM'|].
      constructor; auto.
      - intros PF n Hn. destruct Hn as [<-|[<-|[<-|[]]]]; [rewrite Q1|rewrite Q2|rewrite Q3]; apply (node_fine PF t _ T1); unfold vertex; auto.
      - rewrite V1, V2, V3. exact T.
      - split; [|split]; apply rank_lt; assumption.
    Qed.

    Let FA := proj1 (ss_alpha _ _ _ SS).
    Let VA : val alpha = 0 \/ in64 (val alpha) := proj2 (ss_alpha _ _ _ SS).
    Let nn := List.length (nodes m).

    Lemma cell_lock : exists us US hs, cell_tria lits_src mm pfn alpha mfa t = Ok us /\ cell_tria lits_src MM pfn (val alpha) mfa (tria_val t) = Ok US /\
      steps (nn * 5) (Bc h rho s 310 155000 3 4) (Ec h rho s kappa 310 155000 3 4) us US hs /\ forall i j, (hits hs i j <= both t i j)%nat.
    Proof.
      destruct local_ex as [d1 [d2 [d3 [mid [G1 [G2 [G3 [GM [H1 [H2 [H3 [HM LO]]]]]]]]]]]].
      destruct (tria_geo t T1) as [ac [A [GA [HA [FAc [EAc [VAc [UAc ML]]]]]]]]. destruct (ML mfa) as [l [L [GL [HL [RL RG]]]]].
      assert (OR := orient_cell_near h rho s kappa SL d1 d2 d3 mid _ (lo_1 _ _ _ _ _ _ _ LO) (lo_2 _ _ _ _ _ _ _ LO) (lo_tri _ _ _ _ _ _ _ LO) (lo_mid _ _ _ _ _ _ _ LO)).
      destruct OR as [O1 O2]. destruct (lo_p _ _ _ _ _ _ _ LO) as [V1 [V2 V3]].
      assert (GO : forall a b n1 n2, local a b (tn3 t) n1 n2 d3 mid -> orient_cell mid d1 d2 d3 = (n1, n2, d3) ->
        orient_cell (mid3 (pos M (tn1 t)) (pos M (tn2 t)) (pos M (tn3 t))) (node_val d1) (node_val d2) (node_val d3) = (node_val n1, node_val n2, node_val d3) ->
        Rabs (det2 (vec_val (nxyz n1)) (vec_val (nxyz n2)) (vec_val (nxyz d3))) / 2 = A ->
        exists us US hs, cell_tria lits_src mm pfn alpha mfa t = Ok us /\ cell_tria lits_src MM pfn (val alpha) mfa (tria_val t) = Ok US /\
          steps (nn * 5) (Bc h rho s 310 155000 3 4) (Ec h rho s kappa 310 155000 3 4) us US hs /\ forall i j, (hits hs i j <= both t i j)%nat).
      { intros a b n1 n2 [A1 A2 A3 A4 A5 _ A9 B1 [B2 [B3 B4]] B5] Q1 Q2 DT.
        destruct (cell_local h rho s kappa SL K1 KX alpha FA VA pfn t n1 n2 d3 mid _ A2 (fun PF => tria_fine PF t T1) A3 A4 A5 A9 B1 _ _ _ nn B2 B3 B4 B5 ac A l L FAc EAc (eq_sym DT) UAc RL RG) as [us [US [C1 [C2 C3]]]].
        exists us, US, (cells (rank m a) (rank m b) (rank m (tn3 t))).
        split; [eapply cell_tria_rest; eassumption|]. split; [eapply cell_tria_rest; eassumption|]. split; [exact C3|]. apply hits_both; assumption. }
      destruct (Rlt_dec (det2 (vec_val (nxyz d1)) (vec_val (nxyz d2)) (vec_val (nxyz d3))) 0) as [NE|PO].
      - apply (GO _ _ _ _ (local_swap _ _ _ _ _ _ _ LO) O1 O2). rewrite VAc, V1, V2, V3. f_equal. replace (det2 (pos M (tn2 t)) (pos M (tn1 t)) (pos M (tn3 t))) with (- det2 (pos M (tn1 t)) (pos M (tn2 t)) (pos M (tn3 t))) by (unfold det2; ring). apply Rabs_Ropp.
      - apply (GO _ _ _ _ LO O1 O2). rewrite VAc, V1, V2, V3. reflexivity.
    Qed.
    Lemma cellns_lock : exists us US hs, cellns_tria mm pfn alpha mfa t = Ok us /\ cellns_tria MM pfn (val alpha) mfa (tria_val t) = Ok US /\
      steps (nn * 5) (Bc h rho s 7 1500 1 2) (Ec h rho s kappa 7 1500 1 2) us US hs /\ forall i j, (hits hs i j <= both t i j)%nat.
    Proof.
      destruct local_ex as [d1 [d2 [d3 [mid [G1 [G2 [G3 [GM [H1 [H2 [H3 [HM LO]]]]]]]]]]]].
      destruct (tria_geo t T1) as [ac [A [GA [HA [FAc [EAc [VAc [UAc ML]]]]]]]]. destruct (ML mfa) as [l [L [GL [HL [RL RG]]]]].
      assert (OR := orient_cellns_near h rho s kappa SL d1 d2 d3 _ (lo_1 _ _ _ _ _ _ _ LO) (lo_2 _ _ _ _ _ _ _ LO) (lo_3 _ _ _ _ _ _ _ LO) (lo_tri _ _ _ _ _ _ _ LO)).
      destruct OR as [O1 O2]. destruct (lo_p _ _ _ _ _ _ _ LO) as [V1 [V2 V3]].
      assert (GO : forall a b n1 n2, local a b (tn3 t) n1 n2 d3 mid -> orient_cellns d1 d2 d3 = (n1, n2, d3) ->
        orient_cellns (node_val d1) (node_val d2) (node_val d3) = (node_val n1, node_val n2, node_val d3) ->
        Rabs (det2 (vec_val (nxyz n1)) (vec_val (nxyz n2)) (vec_val (nxyz d3))) / 2 = A ->
        exists us US hs, cellns_tria mm pfn alpha mfa t = Ok us /\ cellns_tria MM pfn (val alpha) mfa (tria_val t) = Ok US /\
          steps (nn * 5) (Bc h rho s 7 1500 1 2) (Ec h rho s kappa 7 1500 1 2) us US hs /\ forall i j, (hits hs i j <= both t i j)%nat).
      { intros a b n1 n2 [A1 A2 A3 A4 A5 _ A9 B1 [B2 [B3 B4]] B5] Q1 Q2 DT.
        destruct (cellns_local h rho s kappa SL alpha FA VA pfn t n1 n2 d3 _ A2 (fun PF => tria_fine PF t T1) A3 A4 A5 A9 _ _ _ nn B2 B3 B4 B5 ac A l L FAc EAc (eq_sym DT) UAc RL RG) as [us [US [C1 [C2 C3]]]].
        exists us, US, (cells (rank m a) (rank m b) (rank m (tn3 t))).
        split; [eapply cellns_tria_rest; eassumption|]. split; [eapply cellns_tria_rest; eassumption|]. split; [exact C3|]. apply hits_both; assumption. }
      destruct (Rlt_dec (det2 (vec_val (nxyz d1)) (vec_val (nxyz d2)) (vec_val (nxyz d3))) 0) as [NE|PO].
      - apply (GO _ _ _ _ (local_swap _ _ _ _ _ _ _ LO) O1 O2). rewrite VAc, V1, V2, V3. f_equal. replace (det2 (pos M (tn2 t)) (pos M (tn1 t)) (pos M (tn3 t))) with (- det2 (pos M (tn1 t)) (pos M (tn2 t)) (pos M (tn3 t))) by (unfold det2; ring). apply Rabs_Ropp.
      - apply (GO _ _ _ _ LO O1 O2). rewrite VAc, V1, V2, V3. reflexivity.
    Qed.
  End One.
End Trias.
