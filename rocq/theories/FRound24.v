(** Rounding errors of calc_kG. *)
From Coq Require Import ZArith Reals List Bool Arith Lra Lia QArith Qreals Permutation.
From Flocq Require Import Core.
From Verif Require Import Num Float Py Mesh Utils CalcK0 AddK0s CalcKG Spec SpecK0 SpecKG SpecRound SpecRound3 FDict FWf FOut FSetup FMat FAsm FK0 FKG FFloat FTree
  FRound FRound2 FRound3 FRound4 FRound5 FRound6 FRound7 FRound8 FRound9 FRound10 FRound11 FRound12 FRound15 FRound22 FRound23.
Import ListNotations.
Local Open Scope R_scope.

(** ** Lists of contributions *)
Lemma combine_map2 : forall A B C D (f : A -> C) (g : B -> D) l l', combine (map f l) (map g l') = map (fun x => (f (fst x), g (snd x))) (combine l l').
Proof. intros A B C D f g l. induction l as [|a l IH]; intros [|b l']; cbn; [reflexivity..|]. rewrite IH. reflexivity. Qed.
Lemma map_fst_combine : forall A B (l : list A) (l' : list B), length l = length l' -> map fst (combine l l') = l.
Proof. intros A B l. induction l as [|a l IH]; intros [|b l'] L; cbn in *; try discriminate; [reflexivity|]. rewrite IH by lia. reflexivity. Qed.

Lemma steps_where : forall n B E A (z : A -> bool) (pf : A -> Z * Z) (hp : A -> nat * nat) (f : A -> double) (F : A -> R) l,
  (forall a, In a l -> if z a then in_range n (fst (pf a)) /\ in_range n (snd (pf a)) /\ finite (f a) /\ val (f a) = 0 /\ F a = 0
     else pf a = (Z.of_nat (fst (hp a)), Z.of_nat (snd (hp a))) /\ (fst (hp a) < n)%nat /\ (snd (hp a) < n)%nat /\ finite (f a) /\
       Rabs (F a) <= B (fst (hp a)) (snd (hp a)) /\ Rabs (val (f a) - F a) <= E (fst (hp a)) (snd (hp a))) ->
  steps n B E (map (fun a => (pf a, f a)) l) (map (fun a => (pf a, F a)) l) (map hp (filter (fun a => negb (z a)) l)).
Proof.
  intros n B E A z pf hp f F l. induction l as [|a l IH]; intros H; [constructor|]. assert (IH' := IH (fun x Hx => H x (or_intror Hx))).
  specialize (H a (or_introl eq_refl)). cbn [map filter]. destruct (z a) eqn:Z; cbn [negb].
  - destruct H as [H1 [H2 [H3 [H4 ->]]]]. destruct (pf a) as [r c]. apply st_zero; assumption.
  - destruct H as [-> [H1 [H2 [H3 [H4 H5]]]]]. cbn [map]. destruct (hp a) as [r c]. apply st_hit; assumption.
Qed.

Lemma NoDup_map_on : forall A B (f : A -> B) l, NoDup l -> (forall x y, In x l -> In y l -> f x = f y -> x = y) -> NoDup (map f l).
Proof.
  intros A B f l N. induction N as [|a l NI N IH]; intros H; [constructor|]. cbn. constructor.
  - intros X. apply in_map_iff in X. destruct X as [x [E X]]. assert (x = a) by (apply H; [right; exact X|left; reflexivity|exact E]). subst. contradiction.
  - apply IH. intros x y Hx Hy. apply H; right; assumption.
Qed.

Lemma nth_index : forall l n, In n l -> nth (index_in n l) l 0%nat = n.
Proof. induction l as [|a l IH]; intros n H; [destruct H|]. cbn [index_in]. destruct (Nat.eqb_spec n a) as [->|N]; [reflexivity|]. cbn [nth]. apply IH. destruct H as [->|H]; [congruence|exact H]. Qed.

Lemma areas_from : forall T (N : Num T) (m : mesh T) e ta, edge_areas m e = Ok ta -> forall p,
  tprop (fst (fst ta)) = Some p \/ (exists y, snd ta = Some y /\ tprop (fst y) = Some p) -> exists t, In t (trias_of m) /\ tprop t = Some p.
Proof.
  intros T N m e ta H p HP. unfold edge_areas in H.
  assert (G : forall i t, get_tria m i = Ok t -> In t (trias_of m)).
  { intros i t G. unfold get_tria in G. destruct (dget Nat.eqb i (elements m)) eqn:X; [|discriminate]. injection G as <-. apply (dget_in Nat.eqb Nat.eqb_eq) in X. apply in_map_iff. exists (i, t0). auto. }
  destruct (etrias e) as [|t1 rest]; [discriminate|]. destruct (get_tria m t1) as [tr1|] eqn:G1; [|discriminate]. cbn [bind] in H. apply G in G1.
  destruct (getMid m tr1); [|discriminate]. cbn [bind] in H. destruct (get_node m (en1 e)); [|discriminate]. cbn [bind] in H. destruct (get_node m (en2 e)); [|discriminate]. cbn [bind] in H.
  destruct (area_of_points _); [|discriminate]. cbn [bind] in H. destruct rest as [|t2 [|t3 rest]]; [| |discriminate].
  - injection H as <-. cbn [fst snd] in HP. destruct HP as [HP|[y [Y _]]]; [exists tr1; auto|discriminate].
  - destruct (get_tria m t2) as [tr2|] eqn:G2; [|discriminate]. cbn [bind] in H. apply G in G2. destruct (getMid m tr2); [|discriminate]. cbn [bind] in H. destruct (area_of_points _); [|discriminate]. cbn [bind] in H.
    injection H as <-. cbn [fst snd] in HP. destruct HP as [HP|[y [Y HP]]]; [exists tr1; auto|]. injection Y as <-. exists tr2. auto.
Qed.

Lemma in_pos4 : forall p q, In (p, q) pos4 -> (p < 4)%nat /\ (q < 4)%nat.
Proof. intros p q H. unfold pos4 in H. apply in_prod_iff in H. rewrite !in_seq in H. lia. Qed.
Lemma NoDup_pos4 : NoDup pos4.
Proof. unfold pos4. apply NoDup_prod; apply seq_NoDup. Qed.
Lemma len_trees : length pos4 = length kG_trees.
Proof. reflexivity. Qed.
Local Opaque kG_trees pos4 evalG.

Section Numbered.
  Variables (m : mesh double) (h rho s kappa w : R) (d : list double).
  Hypothesis KS : k0_scale m h rho kappa s.
  Hypothesis KG : kG_scale m h s w d.
  Hypothesis WM : wf_mesh (mesh_val m).
  Hypothesis PL : plate (mesh_val m).
  Hypothesis LD : length d = (length (nodes m) * 5)%nat.
  Hypothesis NN : nodes m <> [].
  Notation M := (mesh_val m).
  Let delta := kappa * roundoff.
  Notation sl := (SL m h rho s kappa KS).

  Lemma slw : scales h rho w delta.
  Proof. destruct sl. constructor; try assumption. exact (kg_w _ _ _ _ _ KG). Qed.
  Lemma slsw : scales h rho (s * w) delta.
  Proof. destruct sl. constructor; try assumption. exact (kg_sw _ _ _ _ _ KG). Qed.
  Definition Bk (i j : nat) : R := 500000 * (rho * rho * rho) * (s * w).
  Definition Ek (i j : nat) : R := 480000000 * delta * (rho * rho * rho * rho) * (s * w).
  Lemma kGb_bounds : forall y Y, nearF h rho (s * w) delta kGb y Y -> finite y /\ Rabs Y <= Bk 0 0 /\ Rabs (val y - Y) <= Ek 0 0.
  Proof.
    intros y Y [F [_ [_ [_ [A B]]]]]. unfold kGb, sc in *. cbn [fv frv fd frd fh fs pow powerRZ] in *. unfold Bk, Ek.
    change (Q2R 500000) with (500000 * / 1) in A. change (Q2R 480000000) with (480000000 * / 1) in B. split; [exact F|]. split; lra.
  Qed.
  Lemma zero_bounds : forall y Y, nearF h rho (s * w) delta (Fb 0 3 0 4 0 1) y Y -> finite y /\ val y = 0 /\ Y = 0.
  Proof.
    intros y Y [F [_ [_ [_ [A B]]]]]. cbn [fv frv fd frd fh fs] in *. rewrite RMicromega.Q2R_0 in *. split; [exact F|].
    rewrite ?Rmult_0_l in A. assert (Y0 : Y = 0) by (apply abs_split in A; lra). subst Y.
    replace (0 * delta * rho ^ 4 * sc h (s * w) (Fb 0 3 0 4 0 1)) with 0 in B by ring. apply abs_split in B. split; lra.
  Qed.

  Lemma index_rank : forall (es : list ((nat * nat) * edge double)) n j, In n (node_keys m) -> get_index (number m es) n = Ok j -> j = Z.of_nat (rank m n).
  Proof. intros es n j O2 GI. destruct (node_ex m h rho s kappa KS WM n O2) as [nd [Gn _]]. unfold get_index in GI. rewrite (node_number _ _ es _ _ Gn) in GI. injection GI as <-. reflexivity. Qed.
  Lemma node_at_row : forall n c, In n (node_keys m) -> (c < 5)%nat -> node_at m (rank m n * 5 + c) = n.
  Proof. intros n c I C. unfold node_at. rewrite Nat.div_add_l by lia. rewrite Nat.div_small by exact C. rewrite Nat.add_0_r. apply nth_index, I. Qed.

  Variable pfn : bool.
  Hypothesis PC : props_complete (mesh_val m) pfn.
  Variables (es : list ((nat * nat) * edge double)) (ES : list ((nat * nat) * edge R)).
  Notation m2 := (number m es).
  Notation M2 := (number (mesh_val m) ES).
  Notation LK := (lock_number m es ES).
  Hypothesis EK : map fst ES = edge_keys M.
  Hypothesis RD : forall k e, In (k, e) ES -> ready M k e.

  Definition weight (k : nat * nat) (i j : nat) : nat := if (Nat.eqb (i mod 5) 2 && Nat.eqb (j mod 5) 2 && both m (node_at m i) (node_at m j) k)%bool then 1%nat else 0%nat.

  Section One.
    Variables (k : nat * nat) (e : edge double) (E : edge R).
    Hypothesis Hk : In k (edge_keys m).
    Hypothesis HE : In (k, E) ES.
    Hypothesis NE : near_edge h rho s kappa e E.

    Lemma kG_edge_lock : exists us US hs, kG_edge m2 pfn d e = Ok us /\ kG_edge M2 pfn (map val d) E = Ok US /\
      steps (length (nodes m) * 5) Bk Ek us US hs /\ forall i j, (hits hs i j <= weight k i j)%nat.
    Proof.
      assert (SM := sameM m ES EK).
      assert (LM : length (nodes M2) = length (nodes m)) by (rewrite (sm_len _ _ SM); unfold mesh_val; cbn [nodes]; apply map_length).
      assert (NP : (0 < length (nodes m))%nat) by (destruct (nodes m); [contradiction|cbn; lia]).
      destruct (kG_edge_dummy_ready M2 (wfM2 m WM ES EK RD) (same_plate _ _ SM PL) pfn (same_props _ _ SM pfn PC) k E (Hk2 m ES EK k Hk) (RD2 m ES EK RD k E HE) (numbered_indexed M ES WM EK) 0%Z)
        with (d := map val d) as [US [KE [OK _]]]; [rewrite LM; lia|lia|rewrite map_length, LM; exact LD|].
      change (kG_edge_dummy 0 M2 pfn (map val d) E) with (kG_edge M2 pfn (map val d) E) in KE.
      destruct (areas_lock m h rho s kappa KS WM PL es ES EK RD k e E Hk HE NE) as [ta [TA [Eta [ETA [TN [TP TS]]]]]].
      destruct (ne_Ac _ _ _ _ _ _ NE) as [a [A [Ea [EA [Fa Xa]]]]]. assert (A = dom_area M k) by (rewrite (rd_Ac _ _ _ (RD _ _ HE)) in EA; congruence). subst A.
      destruct (dom_bounds m h rho s kappa KS WM PL k Hk) as [LB UB].
      assert (IPF := ne_ipts _ _ _ _ _ _ NE).
      assert (IDF : Forall2 (fun p q => ids3 p = ids3 q) (eipts e) (eipts E)).
      { clear -IPF. induction IPF as [|p q l l' [X1 X2 X3 _ _ _ _ _ _] F IH]; constructor; [unfold ids3; congruence|exact IH]. }
      pose proof KE as KE'. unfold kG_edge in KE. rewrite ETA in KE. cbn [bind] in KE. rewrite (domain_lock m2 M2 (get_index_lock _ _ LK) _ _ _ IDF) in KE.
      destruct (domain_indices m2 0%Z (eipts e)) as [ix|] eqn:DI; [|discriminate]. cbn [bind] in KE.
      destruct (ipt_rows M2 (indexpos ix) (eipts E)) as [RW|] eqn:RR; [|discriminate]. cbn [bind] in KE. rewrite EA in KE. cbn [get_or bind] in KE.
      destruct (edge_ABD M2 pfn E (dom_area M k) TA) as [F|] eqn:AB; [|discriminate]. cbn [bind] in KE.
      destruct (domain_shape0 _ m2 _ ix DI) as [i1 [i2 [i3 [i4 [bd [Eix SH]]]]]].
      destruct (rowsz_lock h rho s kappa sl m2 M2 LK bd ix _ _ _ SH IPF RR) as [rw [Rr RN]].
      destruct (ABD_sel h rho s kappa sl m2 M2 LK pfn e E a (dom_area M k) ta TA F (ne_1 _ _ _ _ _ _ NE) (ne_2 _ _ _ _ _ _ NE) (ne_o1 _ _ _ _ _ _ NE) (ne_o2 _ _ _ _ _ _ NE) TN Fa Xa LB TS AB) as [f [Ef [FS [FT1 FT2]]]].
      (* nodes of the positions *)
      assert (NODE : forall p, (p < 4)%nat -> bd <> Some p -> exists n, on_domain m k n /\ In n (node_keys m) /\ nth p ix 0%Z = Z.of_nat (rank m n)).
      { intros p Hp NB. destruct (s0_node _ _ _ _ SH p Hp NB) as [q [n [P [In3 GI]]]].
        assert (Q : exists q', In q' (eipts E) /\ In n (ids3 q')).
        { clear -IDF P In3. induction IDF as [|x y l l' E0 F IH]; [destruct P|]. destruct P as [->|P].
          - exists y. split; [left; reflexivity|]. rewrite <- E0. exact In3.
          - destruct (IH P) as [q' [Q1 Q2]]. exists q'. split; [right; exact Q1|exact Q2]. }
        destruct Q as [q' [Q1 Q2]]. destruct (ids_domain m WM ES RD k E Hk HE q' n Q1 Q2) as [O1 O2]. exists n. split; [exact O1|]. split; [exact O2|]. apply (index_rank es n); assumption. }
      assert (RNG : forall p, (p < 4)%nat -> (0 <= nth p ix 0 < Z.of_nat (length (nodes m)))%Z).
      { intros p Hp. assert (DEC : bd = Some p \/ bd <> Some p) by (destruct bd as [z|]; [destruct (Nat.eq_dec z p); [left; congruence|right; congruence]|right; discriminate]).
        destruct DEC as [B|B]; [rewrite (s0_zero _ _ _ _ SH p B); lia|]. destruct (NODE p Hp B) as [n [_ [Kn ->]]]. apply rank_lt in Kn. lia. }
      destruct (slice5_lock d _ _ LD (RNG 0%nat ltac:(lia))) as [x1 [P1 [Q1 [L1 C1]]]]. destruct (slice5_lock d _ _ LD (RNG 1%nat ltac:(lia))) as [x2 [P2 [Q2 [L2 C2]]]].
      destruct (slice5_lock d _ _ LD (RNG 2%nat ltac:(lia))) as [x3 [P3 [Q3 [L3 C3]]]]. destruct (slice5_lock d _ _ LD (RNG 3%nat ltac:(lia))) as [x4 [P4 [Q4 [L4 C4]]]].
      unfold membrane_force in KE. rewrite Q1 in KE. cbn [bind] in KE. rewrite Q2 in KE. cbn [bind] in KE. rewrite Q3 in KE. cbn [bind] in KE. rewrite Q4 in KE. cbn [bind] in KE.
      assert (DN : forall x, (forall y, In y x -> In y d) -> length x = 5%nat -> forall c, (c < 5)%nat -> nearF h rho w delta disb (nth0 c x) (nth0 c (map val x))).
      { intros x Hx Lx c Hc. apply (disp_near h rho w kappa slw); [|exact Lx|exact Hc]. intros y Hy. apply (kg_d _ _ _ _ _ KG). apply Hx, Hy. }
      assert (NA := area_near h rho s kappa a _ Fa Xa UB).
      destruct (area_inv h rho s kappa sl a _ Xa LB) as [N0 NI].
      assert (NR := rows_list_near h rho s kappa sl bd rw RW RN).
      assert (USED : forall p, used m2 ta p -> full s (pA p) /\ full s (pB p)).
      { intros p U. assert (V : (exists n, nodeprop m n = Some p) \/ (exists t, In t (trias_of m) /\ tprop t = Some p)).
        { destruct U as [[n Hp]|U].
          - left. exists n. rewrite <- (number_prop m es n). unfold node_prop, get_node in Hp. unfold nodeprop.
            destruct (dget Nat.eqb n (nodes m2)) as [nd|]; [|discriminate]. cbn [get_or bind] in Hp. destruct (nprop nd); [|discriminate]. injection Hp as ->. reflexivity.
          - right. apply (areas_from _ _ m2 e ta Eta p U). }
        assert (G := kg_stiff _ _ _ _ _ KG p V). split; intros y Hy; apply G; apply in_or_app; [left|right]; exact Hy. }
      assert (SEL : forall sel selR, (forall p, used m2 ta p -> full s (sel p)) -> (forall p, selR (prop_val p) = mat3_val (sel p)) ->
        forall i, (i < 9)%nat -> nearF h rho s delta stb (nth i (mat_list (f sel)) (nofZ 0)) (nth i (mat_list (F selR)) 0)).
      { intros sel selR U EQ. apply (nine h rho s kappa).
        - apply FS. intros p Hp. rewrite EQ. apply (full_mat h rho s kappa sl), U, Hp.
        - rewrite <- FT1, <- FT2. apply FS. intros p Hp. rewrite EQ. apply (full_mat h rho s kappa sl), U, Hp. }
      assert (SA := SEL pA pA (fun p Hp => proj1 (USED p Hp)) (fun p => eq_refl)). assert (SB := SEL pB pB (fun p Hp => proj2 (USED p Hp)) (fun p => eq_refl)).
      assert (HB := s0_bd _ _ _ _ SH).
      assert (ND : forall c, (c < 5)%nat -> nearF h rho w delta disb (nth0 c x1) (nth0 c (map val x1)) /\ nearF h rho w delta disb (nth0 c x2) (nth0 c (map val x2)) /\
         nearF h rho w delta disb (nth0 c x3) (nth0 c (map val x3)) /\ nearF h rho w delta disb (nth0 c x4) (nth0 c (map val x4))) by (intros c Hc; auto).
      assert (ST := strain_lock h rho s w kappa slw bd HB a _ rw RW NA N0 NI NR _ _ _ _ _ _ _ _ ND).
      assert (FN := force_lock h rho s w kappa sl slw _ _ _ _ (fun i I => conj (SA i I) (SB i I)) _ _ _ _ (ST 0%nat 1%nat ltac:(lia) ltac:(lia)) (ST 3%nat 4%nat ltac:(lia) ltac:(lia))).
      assert (EN := entries_lock h rho s w kappa slsw bd HB a _ rw RW NA N0 NI NR _ _ FN).
      injection KE as KE. rewrite Eix, kG_eq, (kG_at_eq _ _ L0R), combine_map2 in KE.
      set (hp := fun pe : (nat * nat) * expr => (Z.to_nat (nth (fst (fst pe)) ix 0 * 5 + 2), Z.to_nat (nth (snd (fst pe)) ix 0 * 5 + 2))%Z).
      eexists. exists US. eexists. split; [|split; [exact KE'|split]].
      - unfold kG_edge. rewrite Eta. cbn [bind]. rewrite DI. cbn [bind]. rewrite Rr. cbn [bind]. rewrite Ea. cbn [get_or bind]. rewrite Ef. cbn [bind].
        unfold membrane_force. rewrite P1. cbn [bind]. rewrite P2. cbn [bind]. rewrite P3. cbn [bind]. rewrite P4. cbn [bind]. rewrite Eix, kG_eq, (kG_at_eq _ _ L0F), combine_map2. reflexivity.
      - rewrite <- KE. apply (steps_where _ _ _ _ (fun pe => holder bd (fst pe)) (fun pe => at4 i1 i2 i3 i4 (fst pe)) hp).
        intros [[p q] t] Hin. specialize (EN (p, q) t Hin). cbn [fst snd]. apply in_combine_l in Hin. apply in_pos4 in Hin. destruct Hin as [Hp Hq].
        assert (Rp := RNG p ltac:(lia)). assert (Rq := RNG q ltac:(lia)). unfold at4, hp. cbn [fst snd]. rewrite <- Eix. destruct (holder bd (p, q)) eqn:HO.
        + apply zero_bounds in EN. unfold in_range. split; [lia|]. split; [lia|exact EN].
        + apply kGb_bounds in EN. split; [f_equal; lia|]. split; [lia|]. split; [lia|exact EN].
      - intros i j. set (l := filter _ (combine pos4 kG_trees)).
        assert (INL : forall x, In x l -> (fst (fst x) < 4)%nat /\ (snd (fst x) < 4)%nat /\ bd <> Some (fst (fst x)) /\ bd <> Some (snd (fst x))).
        { intros [[p q] t] Hx. unfold l in Hx. apply filter_In in Hx. destruct Hx as [Hx Hz]. cbn [fst snd] in *. apply in_combine_l in Hx. apply in_pos4 in Hx.
          split; [lia|]. split; [lia|]. unfold holder in Hz. cbn [fst snd] in Hz. destruct bd as [z|]; [|split; discriminate]. apply negb_true_iff, orb_false_iff in Hz. destruct Hz as [Z1 Z2].
          apply Nat.eqb_neq in Z1, Z2. split; congruence. }
        assert (NDL : NoDup (map hp l)).
        { replace (map hp l) with (map (fun pq => (Z.to_nat (nth (fst pq) ix 0 * 5 + 2), Z.to_nat (nth (snd pq) ix 0 * 5 + 2))%Z) (map fst l)) by (rewrite map_map; reflexivity).
          apply NoDup_map_on.
          - unfold l. assert (NF : forall (c : list ((nat * nat) * expr)) g, NoDup (map fst c) -> NoDup (map fst (filter g c))).
            { clear. intros c g. induction c as [|x c IH]; intros N; [constructor|]. cbn [map] in N. inversion N as [|? ? NI N']; subst. cbn [filter]. destruct (g x); [|apply IH, N'].
              cbn [map]. constructor; [|apply IH, N']. intros X. apply NI. apply in_map_iff in X. destruct X as [y [EQ Y]]. apply filter_In in Y. apply in_map_iff. exists y. tauto. }
            apply NF. rewrite map_fst_combine by exact len_trees. exact NoDup_pos4.
          - intros u v Hu Hv EQ. apply in_map_iff in Hu, Hv. destruct Hu as [u' [<- Hu]]. destruct Hv as [v' [<- Hv]]. destruct (INL u' Hu) as [A1 [A2 [A3 A4]]]. destruct (INL v' Hv) as [B1 [B2 [B3 B4]]].
            assert (R1 := RNG _ A1). assert (R2 := RNG _ A2). assert (R3 := RNG _ B1). assert (R4 := RNG _ B2). injection EQ as E1 E2.
            assert (X1 := s0_inj _ _ _ _ SH _ _ A1 B1 A3 B3 ltac:(lia)). assert (X2 := s0_inj _ _ _ _ SH _ _ A2 B2 A4 B4 ltac:(lia)).
            destruct u' as [[? ?] ?], v' as [[? ?] ?]. cbn in *. congruence. }
        assert (LE1 := proj1 (NoDup_count_occ pair_dec (map hp l)) NDL (i, j)).
        destruct (count_occ pair_dec (map hp l) (i, j)) as [|c] eqn:CO; [lia|].
        assert (IN : In (i, j) (map hp l)) by (apply (count_occ_In pair_dec); lia). apply in_map_iff in IN. destruct IN as [x [EQ IN]]. destruct (INL x IN) as [A1 [A2 [A3 A4]]].
        destruct (NODE _ A1 A3) as [n1 [O1 [K1 E1]]]. destruct (NODE _ A2 A4) as [n2 [O2 [K2 E2]]]. unfold hp in EQ. rewrite E1, E2 in EQ. injection EQ as Ei Ej.
        assert (Ei' : i = (rank m n1 * 5 + 2)%nat) by lia. assert (Ej' : j = (rank m n2 * 5 + 2)%nat) by lia. clear Ei Ej. subst i j.
        unfold weight. rewrite !node_at_row by (assumption || lia). rewrite (both_true m n1 n2 k O1 O2).
        assert (MD : forall r, ((r * 5 + 2) mod 5 = 2)%nat) by (intros r; rewrite Nat.add_comm, Nat.mod_add by lia; reflexivity). rewrite !MD. cbn. lia.
    Qed.
  End One.

  Lemma room_k : forall i j, room (fun _ _ => 0) (fun _ _ => 0) (fun _ _ => 0) Bk Ek i j.
  Proof.
    intros i j. unfold room, Bk, Ek. assert (B5 := b500pos). rewrite Rabs_R0.
    assert (SL := slsw). set (x := s * w) in *. assert (XP := s_pos _ _ _ _ SL). assert (R1 := sl_rho _ _ _ _ SL). assert (DP := d_pos _ _ _ _ SL). assert (DL := sl_delta _ _ _ _ SL). assert (SM := sl_small _ _ _ _ SL).
    assert (RM := rho_max rho _ DL SM). assert (SS := sl_s _ _ _ _ SL). unfold in64 in SS.
    assert (R2 : 1 <= rho * rho <= 131072 * 131072) by (split; [rewrite <- (Rmult_1_r 1); apply Rmult_le_compat; lra|apply Rmult_le_compat; lra]).
    assert (R3 : 1 <= rho * rho * rho <= 131072 * 131072 * 131072) by (split; [rewrite <- (Rmult_1_r 1); apply Rmult_le_compat; lra|apply Rmult_le_compat; lra]).
    assert (R4 : rho * rho * rho <= rho * rho * rho * rho) by (rewrite <- (Rmult_1_r (rho * rho * rho)) at 1; apply Rmult_le_compat_l; lra).
    assert (P3 : x <= rho * rho * rho * x) by (rewrite <- (Rmult_1_l x) at 1; apply Rmult_le_compat_r; lra).
    assert (P4 : rho * rho * rho * x <= rho * rho * rho * rho * x) by (apply Rmult_le_compat_r; lra).
    assert (Q3 : rho * rho * rho * x <= 131072 * 131072 * 131072 * 18446744073709551616) by (apply Rmult_le_compat; lra).
    assert (Q4 : delta * (rho * rho) * (rho * rho * x) <= / 1048576 * (131072 * 131072 * 18446744073709551616)).
    { apply Rmult_le_compat; [apply Rmult_le_pos; lra|apply Rmult_le_pos; lra|exact SM|]. apply Rmult_le_compat; lra. }
    assert (EP : 0 <= delta * (rho * rho * rho * rho * x)) by (apply Rmult_le_pos; lra).
    assert (EQ : 480000000 * delta * (rho * rho * rho * rho) * x = 480000000 * (delta * (rho * rho) * (rho * rho * x))) by ring.
    assert (EQ' : 480000000 * delta * (rho * rho * rho * rho) * x = 480000000 * (delta * (rho * rho * rho * rho * x))) by ring.
    assert (D1 : roundoff * (rho * rho * rho * x) <= delta * (rho * rho * rho * rho * x)) by (apply Rmult_le_compat; unfold roundoff in *; lra).
    assert (D2 : roundoff * x <= delta * (rho * rho * rho * rho * x)) by (apply Rmult_le_compat; unfold roundoff in *; lra).
    assert (EE : eta <= roundoff * / 18446744073709551616).
    { unfold eta. assert (X : bpow radix2 (-1074) <= bpow radix2 (-117)) by (apply bpow_le; lia).
      assert (Y : bpow radix2 (-117) = / 166153499473114484112975882535043072) by reflexivity. rewrite Y in X. unfold roundoff. lra. }
    assert (EX : roundoff * / 18446744073709551616 <= roundoff * x) by (apply Rmult_le_compat_l; [unfold roundoff; lra|lra]).
    assert (B2' : 1606938044258990275541962092341162602522202993782792835301376 <= bpow radix2 500).
    { assert (Z : bpow radix2 200 = 1606938044258990275541962092341162602522202993782792835301376) by reflexivity. rewrite <- Z. apply bpow_le. lia. }
    split; [lra|]. split; [lra|]. split; [lra|]. split; [split; [apply Rmult_le_pos; lra|lra]|]. split; [split; [rewrite EQ'; lra|rewrite EQ; lra]|]. split; [rewrite EQ'; lra|rewrite EQ'; lra].
  Qed.

  Lemma weight_sum : forall i j, sumn weight (edge_keys m) i j = if (Nat.eqb (i mod 5) 2 && Nat.eqb (j mod 5) 2)%bool then shared m (node_at m i) (node_at m j) else 0%nat.
  Proof.
    intros i j. unfold shared. induction (edge_keys m) as [|k l IH]; [cbn; destruct (_ && _)%bool; reflexivity|]. cbn [sumn filter]. rewrite IH. unfold weight, both.
    destruct (Nat.eqb (i mod 5) 2 && Nat.eqb (j mod 5) 2)%bool; [|reflexivity]. cbn [andb]. destruct (_ && _)%bool; reflexivity.
  Qed.
  Lemma sumn_map : forall A B (f : A -> B) (g : B -> nat -> nat -> nat) l i j, sumn (fun a => g (f a)) l i j = sumn g (map f l) i j.
  Proof. intros A B f g l i j. induction l as [|a l IH]; [reflexivity|]. cbn [sumn map]. rewrite IH. reflexivity. Qed.
  Lemma assemble_body : forall T (NT : Num T) (m0 : mesh T) dd l K K', for_each (add_body (fun ke => kG_edge m0 pfn dd (snd ke))) l K = (K', Ok tt) -> kG_assemble m0 pfn dd l K = Ok K'.
  Proof.
    intros T NT m0 dd l. induction l as [|[x e] l IH]; intros K K' H; [injection H as ->; reflexivity|]. cbn [for_each] in H. unfold add_body at 1 in H. cbn [snd] in H. cbn [kG_assemble].
    destruct (kG_edge m0 pfn dd e) as [us|]; [|discriminate]. cbn [bind]. destruct (mupdates us K) as [K1 [[]|]]; [|discriminate]. apply IH, H.
  Qed.

  Theorem kG_lock : Forall2 (in_step h rho s kappa) es ES -> exists G GR, calc_kG d m2 pfn = Ok G /\ calc_kG (map val d) M2 pfn = Ok GR /\
    mdim G = (length (nodes m) * 5)%nat /\ mdim GR = (length (nodes m) * 5)%nat /\
    forall i j, (i < length (nodes m) * 5)%nat -> (j < length (nodes m) * 5)%nat ->
      let c := INR (if (Nat.eqb (i mod 5) 2 && Nat.eqb (j mod 5) 2)%bool then shared m (node_at m i) (node_at m j) else 0%nat) in
      finite (mentry G i j) /\ Rabs (mentry GR i j) <= c * Bk i j /\ Rabs (val (mentry G i j) - mentry GR i j) <= 3 / 2 * (c * c) * Ek i j.
  Proof.
    intros FS. set (n := (length (nodes m) * 5)%nat).
    assert (KE : map fst es = edge_keys m).
    { rewrite <- edge_keys_val, <- EK. clear -FS. induction FS as [|x X l L [A _] F IH]; [reflexivity|]. cbn [map]. rewrite A, IH. reflexivity. }
    assert (LIM : forall i j, limc (0 + sumn (fun ke => weight (fst ke)) es i j)).
    { intros i j. unfold limc. cbn [Nat.add]. rewrite sumn_map, KE, weight_sum, INR_IZR_INZ. apply IZR_le. assert (L := ks_edges _ _ _ _ _ KS).
      assert (Q : (shared m (node_at m i) (node_at m j) <= length (edges m))%nat) by (unfold shared; eapply Nat.le_trans; [apply filter_len|]; unfold edge_keys; rewrite map_length; lia).
      destruct (_ && _)%bool; lia. }
    destruct (elements_run n (fun _ _ => 0) (fun _ _ => 0) (fun _ _ => 0) Bk Ek (fun i j _ _ => room_k i j) _ _ (in_step h rho s kappa)
      (fun ke => kG_edge m2 pfn d (snd ke)) (fun ke => kG_edge M2 pfn (map val d) (snd ke)) (fun ke => weight (fst ke)) es ES FS) with (c := fun _ _ : nat => 0%nat) (k := @zeros double NumF n) (K := @zeros R NumR n)
      as [G [GR [A1 [A2 [A3 [A4 H]]]]]].
    - intros [k e] [K E] He HE [Q NE]. cbn [fst snd] in *. subst K. apply kG_edge_lock with (E := E); [|exact HE|exact NE]. rewrite <- KE. apply in_map_iff. exists (k, e). auto.
    - reflexivity.
    - reflexivity.
    - intros i j Hi Hj. split; [apply LIM|]. unfold zeros; cbn [mentry]. destruct (fl_ofZ 0 ltac:(lia)) as [F0 V0]. split; [exact F0|]. rewrite V0. rnum. unfold tot. cbn [INR]. rewrite Rminus_0_r, Rabs_R0. split; lra.
    - exists G, GR. unfold calc_kG. rewrite map_length, LD, Nat.div_mul by lia. fold n. cbn [edges number].
      split; [apply assemble_body, A1|]. split; [apply assemble_body, A2|]. split; [exact A3|]. split; [exact A4|].
      intros i j Hi Hj. match goal with |- context [INR ?x] => set (c := INR x) end. specialize (H i j Hi Hj). destruct H as [F [B D]]. cbn [Nat.add] in B, D. rewrite sumn_map, KE, weight_sum in B, D. fold c in B, D. split; [exact F|].
      rewrite Rminus_0_r in B. split; [exact B|]. unfold tot in D. rewrite sumn_map, KE, weight_sum in D || idtac. fold c in D. lra.
  Qed.
End Numbered.

(** the edges after calc_k0 *)
Lemma calc_edges : forall (m : mesh double) h rho s kappa pfn, k0_scale m h rho kappa s -> valid (mesh_val m) pfn ->
  exists es ES k K, calc_k0 m pfn = (number m es, Ok k) /\ calc_k0 (mesh_val m) pfn = (number (mesh_val m) ES, Ok K) /\
    Forall2 (in_step h rho s kappa) es ES /\ map fst ES = edge_keys (mesh_val m) /\ forall k e, In (k, e) ES -> ready (mesh_val m) k e.
Proof.
  intros m h rho s kappa pfn KS [WM PL PC N].
  assert (NN : nodes m <> []) by (intros E; apply N; unfold mesh_val; cbn [nodes]; rewrite E; reflexivity).
  destruct (setups_lock m h rho s kappa KS WM PL (edges m) (fun x H => H)) as [es [ES [S1 [S2 [F EKm]]]]].
  destruct (setup_edges_ready (mesh_val m) (edges (mesh_val m)) WM PL (fun x H => H)) as [ES' [S3 [EK RD]]].
  assert (ES' = ES) by (change (edges (mesh_val m)) with (map (fun x => (fst x, edge_val (snd x))) (edges m)) in S3; congruence). subst ES'.
  destruct (calc_lock m h rho s kappa pfn KS WM PL PC NN) as [k [K [E1 [E2 _]]]].
  assert (X : forall T (NT : Num T) (m0 : mesh T) es0 k0, setup_edges m0 (edges m0) = (es0, Ok tt) -> snd (calc_k0 m0 pfn) = Ok k0 -> calc_k0 m0 pfn = (number m0 es0, Ok k0)).
  { clear. intros T NT m0 es0 k0 S E. unfold calc_k0 in *. rewrite S in *. destruct (check_edges m0 pfn (edges m0)); [|discriminate]. destruct (nodes m0) eqn:X; [discriminate|]. cbn [snd] in E. rewrite E. unfold number. rewrite X. reflexivity. }
  exists es, ES, k, K. split; [apply X; assumption|]. split; [apply X; assumption|]. auto.
Qed.
