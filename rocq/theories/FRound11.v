(** The contributions of an edge of a numbered mesh in doubles and in reals. *)
From Coq Require Import ZArith Reals List Bool Arith Lra Lia QArith Qreals Permutation.
From Flocq Require Import Core.
From Verif Require Import Num Float Py Mesh Utils CalcK0 Spec SpecK0 SpecRound FDict FWf FOut FSetup FMat FAsm FK0 FFloat FTree FRound FRound2 FRound3 FRound4 FRound5 FRound6 FRound7 FRound8 FRound9 FRound10.
Import ListNotations.
Local Open Scope R_scope.

Lemma node_number : forall T (m : mesh T) es n nd, get_node m n = Ok nd -> get_node (number m es) n = Ok (set_index (rank m n) nd).
Proof.
  intros T m es n nd H. unfold get_node in *. unfold number; cbn [nodes]. rewrite number_get.
  destruct (dget Nat.eqb n (nodes m)); [|discriminate]. injection H as ->. reflexivity.
Qed.
Lemma mid_number : forall T (N : Num T) (m : mesh T) es t x, getMid m t = Ok x -> getMid (number m es) t = Ok x.
Proof.
  intros T N m es t x H. unfold getMid in *.
  destruct (get_node m (tn1 t)) as [d1|] eqn:E1; [|discriminate]. cbn [bind] in H. destruct (get_node m (tn2 t)) as [d2|] eqn:E2; [|discriminate]. cbn [bind] in H.
  destruct (get_node m (tn3 t)) as [d3|] eqn:E3; [|discriminate]. cbn [bind] in H.
  rewrite (node_number _ _ es _ _ E1), (node_number _ _ es _ _ E2), (node_number _ _ es _ _ E3). exact H.
Qed.

Lemma NoDup_join : forall A (l l' : list A), NoDup l -> NoDup l' -> (forall x, In x l -> In x l' -> False) -> NoDup (l ++ l').
Proof.
  intros A l l' N N' H. induction N as [|a l NI N IH]; [exact N'|]. cbn. constructor.
  - intros X. apply in_app_or in X. destruct X as [X|X]; [contradiction|]. apply (H a); [left; reflexivity|exact X].
  - apply IH. intros x X Y. apply (H x); [right; exact X|exact Y].
Qed.
Lemma NoDup_prod : forall A B (l : list A) (l' : list B), NoDup l -> NoDup l' -> NoDup (list_prod l l').
Proof.
  intros A B l l' N N'. induction N as [|a l NI N IH]; [constructor|]. cbn [list_prod]. apply NoDup_join.
  - apply FinFun.Injective_map_NoDup; [intros x y E; congruence|exact N'].
  - exact IH.
  - intros [x y] H1 H2. apply in_map_iff in H1. destruct H1 as [z [E _]]. injection E as <- <-. apply in_prod_iff in H2. tauto.
Qed.
Lemma dofs4_in : forall ix d, In d (dofs4 ix) <-> exists j c, In j ix /\ In c [0; 1; 3; 4]%Z /\ d = (j * 5 + c)%Z.
Proof.
  intros ix d. unfold dofs4. rewrite in_flat_map. split.
  - intros [j [J H]]. cbn [In] in H. destruct H as [H|[H|[H|[H|[]]]]]; [exists j, 0%Z|exists j, 1%Z|exists j, 3%Z|exists j, 4%Z]; cbn; split; auto; split; auto; tauto.
  - intros [j [c [J [C ->]]]]. exists j. split; [exact J|]. cbn in C |- *. destruct C as [<-|[<-|[<-|[<-|[]]]]]; auto.
Qed.
Lemma dofs4_nodup : forall ix, NoDup ix -> NoDup (dofs4 ix).
Proof.
  intros ix N. induction N as [|j ix NI N IH]; [constructor|]. change (dofs4 (j :: ix)) with ([j * 5 + 0; j * 5 + 1; j * 5 + 3; j * 5 + 4]%Z ++ dofs4 ix).
  apply NoDup_join; [|exact IH|].
  - repeat constructor; cbn [In]; lia.
  - intros d H1 H2. apply dofs4_in in H2. destruct H2 as [j' [c [J [C ->]]]]. assert (j' = j); [|subst; contradiction]. cbn [In] in H1, C. lia.
Qed.

Section Numbered.
  Variables (m : mesh double) (h rho s kappa : R).
  Hypothesis KS : k0_scale m h rho kappa s.
  Hypothesis WM : wf_mesh (mesh_val m).
  Hypothesis PL : plate (mesh_val m).
  Variable pfn : bool.
  Hypothesis PC : props_complete (mesh_val m) pfn.
  Variables (es : list ((nat * nat) * edge double)) (ES : list ((nat * nat) * edge R)).
  Notation M := (mesh_val m).
  Notation m2 := (number m es).
  Notation M2 := (number (mesh_val m) ES).
  Let delta := kappa * roundoff.
  Notation sl := (SL m h rho s kappa KS).
  Notation LK := (lock_number m es ES).
  Hypothesis EK : map fst ES = edge_keys M.
  Hypothesis RD : forall k e, In (k, e) ES -> ready M k e.

  Lemma sameM : same M M2.
  Proof. apply numbered_same, EK. Qed.
  Lemma wfM2 : wf_mesh M2.
  Proof. apply numbered_wf; assumption. Qed.

  Lemma tarea_bounds : forall k t, In k (edge_keys m) -> In t (tris_on m k) -> h * h <= rho * tarea M (tria_val t) /\ 0 <= tarea M (tria_val t) <= h * h.
  Proof.
    intros k t Hk Ht. assert (T := tri_lock m h rho s kappa KS WM PL k t Hk Ht).
    assert (T1 : In t (trias_of m)) by (apply tris_on_in in Ht; tauto).
    assert (HT : In (tria_val t) (trias_of M)) by (rewrite (trias_lock _ _ (lock_val m)); apply in_map, T1).
    split; [exact (ks_fat _ _ _ _ _ KS _ HT)|].
    destruct (edge_tria m (wf_val m WM) k t Hk Ht) as [P _].
    rewrite (tarea_perm M (tria_val t) (fst k) (snd k) (third t k) P).
    destruct (tr_12 _ _ _ _ _ _ T) as [X1 Y1]. destruct (tr_1o _ _ _ _ _ _ T) as [X2 Y2]. unfold det2.
    set (x1 := vx (pos M (fst k))) in *. set (x2 := vx (pos M (snd k))) in *. set (x3 := vx (pos M (third t k))) in *.
    set (y1 := vy (pos M (fst k))) in *. set (y2 := vy (pos M (snd k))) in *. set (y3 := vy (pos M (third t k))) in *.
    assert (HP := h_pos _ _ _ _ sl).
    assert (A : Rabs ((x2 - x1) * (y3 - y1)) <= h * h) by (rewrite Rabs_mult; apply Rmult_le_compat; try apply Rabs_pos; rewrite Rabs_minus_sym; assumption).
    assert (B : Rabs ((x3 - x1) * (y2 - y1)) <= h * h) by (rewrite Rabs_mult; apply Rmult_le_compat; try apply Rabs_pos; rewrite Rabs_minus_sym; assumption).
    assert (C := Rabs_triang ((x2 - x1) * (y3 - y1)) (- ((x3 - x1) * (y2 - y1)))). rewrite Rabs_Ropp in C.
    assert (D := Rabs_pos ((x2 - x1) * (y3 - y1) - (x3 - x1) * (y2 - y1))). unfold Rminus in *. lra.
  Qed.

  Lemma two_cases : forall k, In k (edge_keys m) -> (exists t, tris_on m k = [t]) \/ exists t1 t2, tris_on m k = [t1; t2].
  Proof.
    intros k Hk. assert (L2 : (length (tris_on m k) <= 2)%nat).
    { assert (X := pl_two M PL k). rewrite edge_keys_val, (tris_on_lock _ _ (lock_val m)), map_length in X. apply X, Hk. }
    assert (NE := tris_on_nonempty m (wf_val m WM) _ Hk). destruct (tris_on m k) as [|t1 [|t2 [|t3 l]]]; [contradiction|left; exists t1; reflexivity|right; exists t1, t2; reflexivity|cbn in L2; lia].
  Qed.

  Lemma dom_bounds : forall k, In k (edge_keys m) -> h * h <= 3 * rho * dom_area M k /\ 0 <= dom_area M k <= 2 / 3 * (h * h).
  Proof.
    intros k Hk. assert (R1 := ks_rho _ _ _ _ _ KS). assert (HP := h_pos _ _ _ _ sl). assert (HH : 0 < h * h) by (apply Rmult_lt_0_compat; assumption).
    destruct (two_cases k Hk) as [[t E]|[t1 [t2 E]]].
    - destruct (tarea_bounds k t Hk) as [A [B C]]; [rewrite E; left; reflexivity|].
      rewrite (dom_area1 M k (tria_val t)) by (rewrite (tris_on_lock _ _ (lock_val m)), E; reflexivity). lra.
    - destruct (tarea_bounds k t1 Hk) as [A [B C]]; [rewrite E; left; reflexivity|].
      destruct (tarea_bounds k t2 Hk) as [A' [B' C']]; [rewrite E; right; left; reflexivity|].
      rewrite (dom_area2 M k (tria_val t1) (tria_val t2)) by (rewrite (tris_on_lock _ _ (lock_val m)), E; reflexivity). lra.
  Qed.

  Section One.
    Variables (k : nat * nat) (e : edge double) (E : edge R).
    Hypothesis Hk : In k (edge_keys m).
    Hypothesis HE : In (k, E) ES.
    Hypothesis NE : near_edge h rho s kappa e E.

    Lemma RDk : ready M k E.
    Proof. exact (RD _ _ HE). Qed.
    Lemma RD2 : ready M2 k E.
    Proof. apply (same_ready _ _ sameM), RDk. Qed.
    Lemma Hk2 : In k (edge_keys M2).
    Proof. rewrite (sm_edges _ _ sameM), edge_keys_val. exact Hk. Qed.

    Lemma tria_area : forall t, In t (tris_on m k) -> exists mid MM da db, get_tria m2 (eid t) = Ok t /\ get_tria M2 (eid t) = Ok (tria_val t) /\
      getMid m2 t = Ok mid /\ getMid M2 (tria_val t) = Ok MM /\
      get_node m2 (fst k) = Ok da /\ get_node m2 (snd k) = Ok db /\
      (exists a A, area_of_points [mid; nxyz db; nxyz da] = Ok a /\ area_of_points [MM; vec_val (nxyz db); vec_val (nxyz da)] = Ok A /\ finite a /\ Rabs (val a - A) <= 30 * (delta * (h * h))) /\
      (exists a A, area_of_points [mid; nxyz da; nxyz db] = Ok a /\ area_of_points [MM; vec_val (nxyz da); vec_val (nxyz db)] = Ok A /\ finite a /\ Rabs (val a - A) <= 30 * (delta * (h * h))).
    Proof.
      intros t Ht. assert (T := tri_lock m h rho s kappa KS WM PL k t Hk Ht). assert (T' := tri_swap _ _ _ _ _ _ T).
      destruct (edge_tria m (wf_val m WM) k t Hk Ht) as [P [_ [_ [_ [Ka [Kb Ko]]]]]].
      assert (T1 : In t (trias_of m)) by (apply tris_on_in in Ht; tauto).
      assert (GT : get_tria m2 (eid t) = Ok t) by (change (get_tria m2 (eid t)) with (get_tria m (eid t)); apply tria_found; [apply wf_val, WM|exact T1]).
      destruct (mid_lock m h rho s kappa KS WM t _ _ _ T1 P) as [mid [G1 [G2 C]]].
      destruct (node_ex m h rho s kappa KS WM _ Ka) as [da [Ga [_ [Xa [Va _]]]]]. destruct (node_ex m h rho s kappa KS WM _ Kb) as [db [Gb [_ [Xb [Vb _]]]]].
      destruct (tri_m h rho s kappa sl _ _ _ _ T) as [_ A1]. destruct (tri_m h rho s kappa sl _ _ _ _ T') as [_ A2].
      exists mid. eexists. exists (set_index (rank m (fst k)) da), (set_index (rank m (snd k)) db).
      split; [exact GT|]. split; [rewrite (get_tria_lock _ _ LK), GT; reflexivity|]. split; [apply mid_number; exact G1|]. split; [apply mid_number; exact G2|].
      split; [apply node_number, Ga|]. split; [apply node_number, Gb|].
      cbn [nxyz set_index]. rewrite Va, Vb. split.
      - exact (area3 h rho s kappa sl (K1 _ _ _ _ _ KS) (KX _ _ _ _ _ KS) _ _ _ _ _ _ Xa Xb C (tr_12 _ _ _ _ _ _ T) A1 A2).
      - exact (area3 h rho s kappa sl (K1 _ _ _ _ _ KS) (KX _ _ _ _ _ KS) _ _ _ _ _ _ Xb Xa C (tr_12 _ _ _ _ _ _ T') A2 A1).
    Qed.

    Lemma areas_lock : exists ta TA, edge_areas m2 e = Ok ta /\ edge_areas M2 E = Ok TA /\ ta_near h rho s kappa ta TA /\
      (forall p, tprop (fst (fst ta)) = Some p \/ (exists y, snd ta = Some y /\ tprop (fst y) = Some p) -> prop_near h rho s kappa p (prop_val p)) /\
      (forall Y, snd TA = Some Y -> snd (fst TA) + snd Y = dom_area M k).
    Proof.
      assert (EN := rd_ends _ _ _ RDk). assert (ET := rd_trias _ _ _ RDk). rewrite (tris_on_lock _ _ (lock_val m)), map_map in ET. change (map (fun x => eid (tria_val x)) (tris_on m k)) with (map eid (tris_on m k)) in ET.
      assert (Ea : en1 E = fst k) by (rewrite <- EN; reflexivity). assert (Eb : en2 E = snd k) by (rewrite <- EN; reflexivity).
      assert (R2 := edge_areas_ready M2 wfM2 (same_plate _ _ sameM PL) k E Hk2 RD2).
      rewrite (same_tris_on _ _ sameM), (same_tarea _ _ sameM), (tris_on_lock _ _ (lock_val m)) in R2.
      assert (TPN : forall t, In t (tris_on m k) -> forall p, tprop t = Some p -> prop_near h rho s kappa p (prop_val p)).
      { intros t Ht p Hp. apply (stiff_near h rho s kappa sl). apply (ks_stiff _ _ _ _ _ KS). right. exists t. split; [apply tris_on_in in Ht; tauto|exact Hp]. }
      assert (TB := fun t => tarea_bounds k t Hk).
      unfold edge_areas in *. rewrite (ne_t _ _ _ _ _ _ NE), (ne_1 _ _ _ _ _ _ NE), (ne_2 _ _ _ _ _ _ NE), ET, Ea, Eb in *.
      destruct (two_cases k Hk) as [[t1 Q]|[t1 [t2 Q]]]; rewrite Q in *; cbn [map] in *.
      - destruct (tria_area t1) as [mid [MM [da [db [G1 [G1' [M1 [M1' [Ga [Gb [[a [A [X1 [X2 [F X3]]]]] _]]]]]]]]]]]; [rewrite Q; left; reflexivity|].
        rewrite !(get_node_lock _ _ LK) in *. rewrite G1, G1' in *. cbn [bind] in *. rewrite M1, M1' in *. cbn [bind] in *. rewrite Ga, Gb in *. cbn [bind rmap] in *.
        change (nxyz (node_val da)) with (vec_val (nxyz da)) in *. change (nxyz (node_val db)) with (vec_val (nxyz db)) in *. rewrite X1, X2 in *. cbn [bind] in *.
        eexists; eexists. split; [reflexivity|]. split; [reflexivity|]. split; [split; [reflexivity|exact I]|]. cbn [fst snd]. split.
        + intros p [H|[y [H _]]]; [|discriminate]. apply (TPN t1); [left; reflexivity|exact H].
        + intros Y H; discriminate.
      - destruct (tria_area t1) as [mid [MM [da [db [G1 [G1' [M1 [M1' [Ga [Gb [[a [A [X1 [X2 [F X3]]]]] _]]]]]]]]]]]; [rewrite Q; left; reflexivity|].
        destruct (tria_area t2) as [mid' [MM' [da' [db' [H1 [H1' [N1 [N1' [Ga' [Gb' [_ [a' [A' [Y1 [Y2 [F' Y3]]]]]]]]]]]]]]]]; [rewrite Q; right; left; reflexivity|].
        assert (da' = da) by congruence. assert (db' = db) by congruence. subst da' db'.
        rewrite !(get_node_lock _ _ LK) in *. rewrite G1, G1' in *. cbn [bind] in *. rewrite M1, M1' in *. cbn [bind] in *. rewrite Ga, Gb in *. cbn [bind rmap] in *.
        change (nxyz (node_val da)) with (vec_val (nxyz da)) in *. change (nxyz (node_val db)) with (vec_val (nxyz db)) in *. rewrite X1, X2 in *. cbn [bind] in *.
        rewrite H1, H1' in *. cbn [bind] in *. rewrite N1, N1' in *. cbn [bind] in *. rewrite Y1, Y2 in *. cbn [bind] in *.
        destruct R2 as [[u [U1 U2]]|[u1 [u2 [U1 U2]]]]; [discriminate|]. injection U1 as <- <-. injection U2 as EA EA'.
        destruct (TB t1 (or_introl eq_refl)) as [_ B1]. destruct (TB t2 (or_intror (or_introl eq_refl))) as [_ B2].
        eexists; eexists. split; [reflexivity|]. split; [reflexivity|]. split; [|split].
        + split; [reflexivity|]. cbn [fst snd]. split; [reflexivity|].
          split; [apply (area3_near h rho s kappa); [assumption|assumption|lra]|]. split; [apply (area3_near h rho s kappa); [assumption|assumption|lra]|]. lra.
        + cbn [fst snd]. intros p [H|[y [H H']]]; [|injection H as <-]; [apply (TPN t1)|apply (TPN t2)]; cbn; auto.
        + cbn [fst snd]. intros Y H. injection H as <-. cbn [snd]. rewrite (dom_area2 M k (tria_val t1) (tria_val t2)) by (rewrite (tris_on_lock _ _ (lock_val m)), Q; reflexivity). lra.
    Qed.

    Lemma ids_domain : forall q n, In q (eipts E) -> In n (ids3 q) -> on_domain m k n /\ In n (node_keys m).
    Proof.
      intros q n Hq Hn. assert (W := wf_val m WM).
      assert (V : forall t a b, ((a, b) = k \/ (b, a) = k) -> In (tria_val t) (tris_on M k) -> In n [a; b; third (tria_val t) k] -> on_domain m k n /\ In n (node_keys m)).
      { intros t a b Eab Ht Hn'. rewrite (tris_on_lock _ _ (lock_val m)) in Ht. apply in_map_iff in Ht. destruct Ht as [t' [E' Ht]].
        change (third (tria_val t) k) with (third t k) in Hn'.
        assert (TT : third t k = third t' k) by (change (third t k) with (third (tria_val t) k); rewrite <- E'; reflexivity). rewrite TT in Hn'.
        destruct (edge_tria m W k t' Hk Ht) as [P [_ [_ [_ [Ka [Kb Ko]]]]]]. destruct (perm3_vertex _ _ _ _ P) as [Va [Vb Vo]].
        assert (X : (vertex t' a /\ In a (node_keys m)) /\ (vertex t' b /\ In b (node_keys m))) by (destruct Eab as [<-|<-]; cbn [fst snd] in *; auto).
        destruct X as [[X1 X2] [X3 X4]]. cbn [In] in Hn'. destruct Hn' as [<-|[<-|[<-|[]]]]; (split; [exists t'; split; assumption|assumption]). }
      assert (TV : forall T, In T (tris_on M k) -> exists t, T = tria_val t).
      { intros T HT. rewrite (tris_on_lock _ _ (lock_val m)) in HT. apply in_map_iff in HT. destruct HT as [t [<- _]]. exists t; reflexivity. }
      destruct (rd_dom _ _ _ RDk) as [n1 [n2 [Eab [[t1 R1]|[t1 [t2 R2]]]]]].
      - assert (I1 : In t1 (tris_on M k)) by (rewrite (r1_tris _ _ _ _ _ _ R1); left; reflexivity). destruct (TV t1 I1) as [u ->].
        apply (V u n1 n2 Eab I1). rewrite (r1_ipts _ _ _ _ _ _ R1) in Hq. cbn [In] in Hq. destruct Hq as [<-|[<-|[<-|[]]]]; exact Hn.
      - assert (I1 : In t1 (tris_on M k)) by (rewrite (r2_tris _ _ _ _ _ _ _ R2); left; reflexivity). destruct (TV t1 I1) as [u1 ->].
        assert (I2 : In t2 (tris_on M k)) by (rewrite (r2_tris _ _ _ _ _ _ _ R2); right; left; reflexivity). destruct (TV t2 I2) as [u2 ->].
        rewrite (r2_ipts _ _ _ _ _ _ _ R2) in Hq. cbn [In] in Hq.
        destruct Hq as [<-|[<-|[<-|[<-|[]]]]]; [apply (V u1 n1 n2 Eab I1)|apply (V u1 n1 n2 Eab I1)|apply (V u2 n1 n2 Eab I2)|apply (V u2 n1 n2 Eab I2)]; exact Hn.
    Qed.

    Lemma edge_lock : exists us US D, k0_edge m2 pfn e = Ok us /\ k0_edge M2 pfn E = Ok US /\ upds_ok (length (nodes m) * 5) US /\ NoDup (map fst us) /\
      Forall2 (upd_near h rho s kappa D) us US /\ forall d, In d D -> exists n c, on_domain m k n /\ In n (node_keys m) /\ (c < 5)%nat /\ d = Z.of_nat (rank m n * 5 + c).
    Proof.
      destruct (k0_edge_ready M2 wfM2 (same_plate _ _ sameM PL) pfn (same_props _ _ sameM pfn PC) k E Hk2 RD2 (numbered_indexed M ES WM EK)) as [US [KE [OK _]]].
      destruct areas_lock as [ta [TA [Eta [ETA [TN [TP TS]]]]]].
      destruct (ne_Ac _ _ _ _ _ _ NE) as [a [A [Ea [EA [Fa Xa]]]]]. assert (A = dom_area M k) by (rewrite (rd_Ac _ _ _ RDk) in EA; congruence). subst A.
      destruct (dom_bounds k Hk) as [LB UB].
      assert (IPF := ne_ipts _ _ _ _ _ _ NE).
      assert (IDF : Forall2 (fun p q => ids3 p = ids3 q) (eipts e) (eipts E)).
      { clear -IPF. induction IPF as [|p q l l' [X1 X2 X3 _ _ _ _ _ _] F IH]; constructor; [unfold ids3; congruence|exact IH]. }
      pose proof KE as KE'. unfold k0_edge in KE. rewrite ETA in KE. cbn [bind] in KE. rewrite (domain_lock m2 M2 (get_index_lock _ _ LK) _ _ _ IDF) in KE.
      destruct (domain_indices m2 (-1)%Z (eipts e)) as [ix|] eqn:DI; [|discriminate]. cbn [bind] in KE.
      destruct (ipt_rows M2 (indexpos ix) (eipts E)) as [RW|] eqn:RR; [|discriminate]. cbn [bind] in KE. rewrite EA in KE. cbn [get_or bind] in KE.
      destruct (edge_ABD M2 pfn E (dom_area M k) TA) as [F|] eqn:AB; [|discriminate]. cbn [bind] in KE. injection KE as KE.
      destruct (rows_lock h rho s kappa sl m2 M2 LK ix _ _ _ DI IPF RR) as [rw [Rr RN]].
      assert (NPN : forall n p, node_prop m2 n = Ok p -> prop_near h rho s kappa p (prop_val p)).
      { intros n p Hp. apply (stiff_near h rho s kappa sl). apply (ks_stiff _ _ _ _ _ KS). left. exists n. rewrite <- (number_prop m es n). unfold node_prop, get_node in Hp. unfold nodeprop.
        destruct (dget Nat.eqb n (nodes m2)) as [nd|]; [|discriminate]. cbn [get_or bind] in Hp. destruct (nprop nd); [|discriminate]. injection Hp as ->. reflexivity. }
      destruct (ABD_lock h rho s kappa sl m2 M2 LK pfn e E a (dom_area M k) ta TA F (ne_1 _ _ _ _ _ _ NE) (ne_2 _ _ _ _ _ _ NE) (ne_o1 _ _ _ _ _ _ NE) (ne_o2 _ _ _ _ _ _ NE) NPN TP TN Fa Xa LB TS AB) as [f [Ef FN]].
      destruct (domain_shape _ m2 _ ix DI) as [i1 [i2 [i3 [i4 [-> [ND [_ JJ]]]]]]].
      set (bd := Nat.eqb (length (eipts e)) 3) in *.
      assert (NA := area_near h rho s kappa a _ Fa Xa UB).
      destruct (area_inv h rho s kappa sl a _ Xa LB) as [N0 NI].
      assert (G := entries_near h rho s kappa sl bd i1 i2 i3 i4 (k0_args a f rw) (k0_args (dom_area M k) F RW) (args_near h rho s kappa sl bd a _ f F rw RW NA FN RN)).
      assert (Z1 : k0_args a f rw 0%nat = a) by (destruct rw as [[[? ?] ?] ?]; reflexivity). assert (Z2 : k0_args (dom_area M k) F RW 0%nat = dom_area M k) by (destruct RW as [[[? ?] ?] ?]; reflexivity).
      rewrite Z1, Z2 in G. specialize (G N0 NI).
      exists (k0_updates [i1; i2; i3; i4] a (f pA) (f pB) (f pD) rw), US. eexists. split; [|split; [exact KE'|split; [|split; [|split]]]].
      - unfold k0_edge. rewrite Eta. cbn [bind]. rewrite DI. cbn [bind]. rewrite Rr. cbn [bind]. rewrite Ea. cbn [get_or bind]. rewrite Ef. reflexivity.
      - rewrite (sm_len _ _ sameM) in OK. unfold mesh_val in OK. cbn [nodes] in OK. rewrite map_length in OK. exact OK.
      - rewrite k0_updates_args, k0_at_pos. apply NoDup_prod; apply dofs4_nodup, ND.
      - rewrite <- KE, !k0_updates_args. exact G.
      - intros d Hd. apply dofs4_in in Hd. destruct Hd as [j [c [J [C ->]]]].
        assert (J' : In j (real_ix bd [i1; i2; i3; i4])) by (destruct bd; exact J). destruct (JJ j J') as [p [n [P [In3 GI]]]].
        assert (Q : exists q, In q (eipts E) /\ In n (ids3 q)).
        { clear -IDF P In3. induction IDF as [|x y l l' E0 F IH]; [destruct P|]. destruct P as [->|P].
          - exists y. split; [left; reflexivity|]. rewrite <- E0. exact In3.
          - destruct (IH P) as [q [Q1 Q2]]. exists q. split; [right; exact Q1|exact Q2]. }
        destruct Q as [q [Q1 Q2]]. destruct (ids_domain q n Q1 Q2) as [O1 O2].
        exists n, (Z.to_nat c). split; [exact O1|]. split; [exact O2|].
        assert (j = Z.of_nat (rank m n)).
        { destruct (node_ex m h rho s kappa KS WM n O2) as [nd [Gn _]]. unfold get_index in GI. rewrite (node_number _ _ es _ _ Gn) in GI. injection GI as <-. reflexivity. }
        subst j. cbn [In] in C. split; lia.
    Qed.
  End One.
End Numbered.
