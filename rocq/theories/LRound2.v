(** Lemmas behind the property on the rounding errors of add_k0s (C86). *)
(* P: Num Float Py Mesh Utils CalcK0 AddK0s Spec SpecK0 SpecK0s SpecRound SpecRound2 ExFloat *)
From Coq Require Import ZArith Reals List Bool Arith Lra Lia QArith Qreals String.
From Flocq Require Import Core.
From Verif Require Import Num Float Py Mesh Utils CalcK0 AddK0s Spec SpecK0 SpecKG SpecK0s SpecRound SpecRound2 FSum FMat FDict FWf FOut FSetup FAsm FK0 FAny FRound FRound2 FRound3 FRound8 FRound9 FRound12 FRound13 FRound15 FRound17 FRound19 FRound21 LK0 LK0s LRound ExFloat ExK0.
Import ListNotations.
Local Open Scope R_scope.

Lemma calc_number : forall T (NT : Num T) (m : mesh T) pfn m' K, calc_k0 m pfn = (m', Ok K) -> m' = number m (edges m').
Proof.
  intros T NT m pfn m' K E. destruct (calc_k0_inv T NT m pfn m' K E) as [A [B _]]. destruct m' as [n e d]. cbn [nodes elements edges] in *. unfold number. rewrite A, B. reflexivity.
Qed.
Lemma bpow500 : bpow radix2 500 = 2 ^ 500.
Proof. rewrite bpow_powerRZ. change (IZR radix2) with 2. change 500%Z with (Z.of_nat 500). rewrite <- pow_powerRZ. reflexivity. Qed.

Lemma common_sum : forall m i j, sumn (both m) (map snd (elements m)) i j = common m (node_at m i) (node_at m j).
Proof.
  intros m i j. unfold common. change (map snd (elements m)) with (trias_of m). induction (trias_of m) as [|t l IH]; [reflexivity|]. cbn [sumn filter]. rewrite IH. unfold both. destruct (_ && _); reflexivity.
Qed.
Lemma common_le : forall T (m : mesh T) a b, (common m a b <= List.length (elements m))%nat.
Proof. intros T m a b. unfold common. rewrite <- (map_length snd (elements m)). change (map snd (elements m)) with (trias_of m). induction (trias_of m) as [|t l IH]; [apply le_n|]. cbn [filter]. destruct (_ && _); cbn [List.length]; lia. Qed.
Lemma shared_le : forall T (m : mesh T) a b, (shared m a b <= List.length (edges m))%nat.
Proof. intros T m a b. unfold shared. rewrite <- (map_length fst (edges m)). change (map fst (edges m)) with (edge_keys m). induction (edge_keys m) as [|t l IH]; [apply le_n|]. cbn [filter]. destruct (_ && _); cbn [List.length]; lia. Qed.

(** calc_k0 in doubles and in exact arithmetic: the start of the sums of add_k0s. *)
Lemma k0_start : forall (m : mesh double) pfn h rho kappa s, valid (mesh_val m) pfn -> k0_scale m h rho kappa s ->
  exists m' K0 M' KR, calc_k0 m pfn = (m', Ok K0) /\ calc_k0 (mesh_val m) pfn = (M', Ok KR) /\ mdim K0 = (List.length (nodes m) * 5)%nat /\ mdim KR = (List.length (nodes m) * 5)%nat /\
    forall i j, (i < List.length (nodes m) * 5)%nat -> (j < List.length (nodes m) * 5)%nat -> finite (mentry K0 i j) /\ Rabs (val (mentry K0 i j) - mentry KR i j) <= k0_bound m rho kappa s i j /\
      Rabs (mentry KR i j) + k0_bound m rho kappa s i j <= k0_size m rho s i j + k0_bound m rho kappa s i j /\ k0_size m rho s i j + k0_bound m rho kappa s i j <= 2 ^ 500.
Proof.
  intros m pfn h rho kappa s V KS. destruct V as [W P PC0 N].
  assert (NN : nodes m <> []) by (intros E; apply N; unfold mesh_val; cbn [nodes]; rewrite E; reflexivity).
  destruct (calc_lock m h rho s kappa pfn KS W P PC0 NN) as [K0 [KR [E1 [E2 H]]]].
  destruct (calc_k0 m pfn) as [m' r] eqn:C1. destruct (calc_k0 (mesh_val m) pfn) as [M' r'] eqn:C2. cbn [snd] in E1, E2. subst r r'.
  destruct (c18_numbering _ _ _ _ _ _ C1) as [_ [_ D1]]. destruct (c18_numbering _ _ _ _ _ _ C2) as [_ [_ D2]].
  assert (D2' : mdim KR = (List.length (nodes m) * 5)%nat) by (rewrite D2; unfold mesh_val; cbn [nodes]; rewrite map_length; reflexivity).
  exists m', K0, M', KR. split; [reflexivity|]. split; [reflexivity|]. split; [exact D1|]. split; [exact D2'|].
  intros i j Hi Hj. assert (ND := wf_nodes m (wf_val m W)). destruct (row_node _ m i ND Hi) as [I1 [I2 I3]]. destruct (row_node _ m j ND Hj) as [J1 [J2 J3]].
    destruct (H _ _ _ _ I1 J1 I2 J2) as [F [Z B]]. rewrite I3, J3 in F, B, Z. split; [exact F|].
    assert (SL := SL m h rho s kappa KS). destruct (consts h rho s kappa SL) as [SP [R1 [DP [DL [BP [EP _]]]]]].
    assert (KB : 3 / 2 * (INR (shared m (node_at m i) (node_at m j)) * INR (shared m (node_at m i) (node_at m j))) * err rho s kappa <= k0_bound m rho kappa s i j).
    { unfold k0_bound, err. set (c := INR _). assert (Q : 0 <= c * c * err rho s kappa) by (apply Rmult_le_pos; [apply Rle_0_sqr|lra]). unfold err in Q. cbn [pow]. lra. }
    split; [lra|]. split; [apply Rplus_le_compat_r; unfold k0_size; unfold big in Z; lra|].
    unfold k0_size, k0_bound. set (c := INR _). assert (CP : 0 <= c) by apply pos_INR.
    assert (CL : c <= 4294967296).
    { unfold c. rewrite INR_IZR_INZ. apply IZR_le. assert (L := ks_edges _ _ _ _ _ KS). assert (Q := shared_le _ m (node_at m i) (node_at m j)). lia. }
    assert (RX := rho_max rho _ (sl_delta _ _ _ _ SL) (sl_small _ _ _ _ SL)). assert (SU := proj2 (sl_s _ _ _ _ SL)). assert (SM := sl_small _ _ _ _ SL).
    assert (RR : rho * rho <= 131072 * 131072) by (apply Rmult_le_compat; lra). assert (R0 : 0 <= rho * rho) by (apply Rmult_le_pos; lra).
    assert (SC : s * c <= 18446744073709551616 * 4294967296) by (apply Rmult_le_compat; lra). assert (S0 : 0 <= s * c) by (apply Rmult_le_pos; lra).
    assert (T1 : rho * rho * (s * c) <= 131072 * 131072 * (18446744073709551616 * 4294967296)) by (apply Rmult_le_compat; lra).
    assert (T2 : kappa * roundoff * (rho * rho) * (rho * (s * c * c)) <= / 1048576 * (131072 * (18446744073709551616 * 4294967296 * 4294967296))).
    { assert (S1 : 0 <= s * c * c) by (apply Rmult_le_pos; lra). apply Rmult_le_compat; [apply Rmult_le_pos; lra|apply Rmult_le_pos; lra|exact SM|]. apply Rmult_le_compat; try lra. apply Rmult_le_compat; lra. }
    apply Rle_trans with (2 ^ 200); [|apply Rle_pow; [lra|lia]]. apply Rle_trans with (IZR (2 ^ 200)); [|right; symmetry; exact (pow_IZR 2 200)].
    replace (864 * (rho * rho) * s * c + 1048576 * (kappa * roundoff) * (rho * rho * rho) * s * c ^ 2) with (864 * (rho * rho * (s * c)) + 1048576 * (kappa * roundoff * (rho * rho) * (rho * (s * c * c)))) by ring.
    let v := eval vm_compute in (2 ^ 200)%Z in change (2 ^ 200)%Z with v. lra.
Qed.

(** ** C86 *)

(** add_k0s with a cell-based method in doubles, compared with add_k0s in exact arithmetic on the plate with the same data: whatever
    matrix it is added to, both succeed, the entries in doubles are finite, and entry (i, j) differs by at most the difference before
    and the rounding errors of the c triangles that have the nodes of row i and column j. *)
Lemma c86_error : forall (m : mesh double) pfn pfn' method alpha mfa h rho kappa s m' K0 M' R0,
  valid (mesh_val m) pfn -> k0_scale m h rho kappa s -> shear_scale m s alpha -> props_complete (mesh_val m) pfn' -> In method cell_methods ->
  calc_k0 m pfn = (m', Ok K0) -> calc_k0 (mesh_val m) pfn = (M', Ok R0) ->
  forall (k : matrix double) (K : matrix R) (e x : nat -> nat -> R) n, n = (List.length (nodes m) * 5)%nat -> mdim k = n -> mdim K = n ->
  (forall i j, (i < n)%nat -> (j < n)%nat -> finite (mentry k i j) /\ Rabs (val (mentry k i j) - mentry K i j) <= e i j /\
    Rabs (mentry K i j) + e i j <= x i j /\ x i j <= 2 ^ 500) ->
  exists k' K', add_k0s lits_src k m' pfn' method alpha mfa = (k', Ok tt) /\ add_k0s lits_src K M' pfn' method (val alpha) mfa = (K', Ok tt) /\
    mdim k' = n /\ mdim K' = n /\
    forall i j, (i < n)%nat -> (j < n)%nat -> finite (mentry k' i j) /\
      Rabs (val (mentry k' i j) - mentry K' i j) <= e i j + shear_bound m method h rho kappa s (x i j) i j.
Proof.
  intros m pfn pfn' method alpha mfa h rho kappa s m' K0 M' R0 [W PL _ _] KS SS PC HM C1 C2 k K e x n -> Dk DK H.
  assert (N1 := calc_number _ _ _ _ _ _ C1). assert (N2 := calc_number _ _ _ _ _ _ C2).
  assert (EM := lk_elements _ _ (lock_number m (edges m') (edges M'))). rewrite <- N1, <- N2 in EM.
  assert (E0 : elements m' = elements m) by apply (calc_k0_inv _ _ _ _ _ _ C1).
  assert (SL := SL m h rho s kappa KS). set (n := (List.length (nodes m) * 5)%nat) in *.
  assert (F2 : Forall2 (fun t T => T = tria_val t) (map snd (elements m')) (map snd (elements M'))).
  { rewrite EM. clear. induction (elements m') as [|[a t] l IH]; [constructor|]. constructor; [reflexivity|exact IH]. }
  assert (LIM : forall i j, limc (0 + sumn (both m) (map snd (elements m')) i j)).
  { intros i j. unfold limc. cbn [Nat.add]. rewrite E0, common_sum, INR_IZR_INZ. apply IZR_le. assert (L := ss_elements _ _ _ SS). assert (Q := common_le _ m (node_at m i) (node_at m j)). lia. }
  assert (GEN : forall v d rv rd (f : tria double -> res (list (Z * Z * double))) (g : tria R -> res (list (Z * Z * R))) cb,
    (0 <= v)%Q -> (100 * v <= d)%Q -> (1000 <= d)%Q -> (d <= 1073741824)%Q -> (rv <= rd)%nat -> (rd <= rv + 2)%nat -> (rd <= 6)%nat -> 3 / 2 * Q2R d <= cb ->
    (forall t, In t (trias_of m) -> exists us US hs, f t = Ok us /\ g (tria_val t) = Ok US /\
      steps n (Bc h rho s v d rv rd) (Ec h rho s kappa v d rv rd) us US hs /\ forall i j, (hits hs i j <= both m t i j)%nat) ->
    exists k' K', for_each (add_body f) (map snd (elements m')) k = (k', Ok tt) /\ for_each (add_body g) (map snd (elements M')) K = (K', Ok tt) /\ mdim k' = n /\ mdim K' = n /\
      forall i j, (i < n)%nat -> (j < n)%nat -> finite (mentry k' i j) /\
        Rabs (val (mentry k' i j) - mentry K' i j) <= e i j + (cb * (kappa * roundoff) * rho ^ rd * s * h ^ rotations i j * INR (common m (node_at m i) (node_at m j)) ^ 2 + 2 * INR (common m (node_at m i) (node_at m j)) * roundoff * x i j)).
  { intros v d rv rd f g cb Hv Hd Hl Hu R1 R2 R3 HC HF.
    destruct (elements_run n (mentry K) e x (Bc h rho s v d rv rd) (Ec h rho s kappa v d rv rd)
      (fun i j Hi Hj => coef_room h rho s kappa SL v d rv rd Hv Hd Hl Hu R1 R2 R3 (mentry K) e x i j
        (Rle_trans _ _ _ (Rabs_pos _) (proj1 (proj2 (H i j Hi Hj)))) (proj1 (proj2 (proj2 (H i j Hi Hj)))) ltac:(rewrite bpow500; apply (H i j Hi Hj)))
      _ _ _ f g (both m) _ _ F2) with (c := fun _ _ : nat => 0%nat) (k := k) (K := K) as [k' [K' [A1 [A2 [A3 [A4 G]]]]]].
    - intros t T Ht _ ->. apply HF. rewrite E0 in Ht. exact Ht.
    - exact Dk.
    - exact DK.
    - intros i j Hi Hj. split; [apply LIM|]. destruct (H i j Hi Hj) as [F [D _]]. split; [exact F|]. split.
      + replace (mentry K i j - mentry K i j) with 0 by ring. rewrite Rabs_R0. cbn [INR]. lra.
      + unfold tot. cbn [INR]. lra.
    - exists k', K'. split; [exact A1|]. split; [exact A2|]. split; [exact A3|]. split; [exact A4|]. intros i j Hi Hj. destruct (G i j Hi Hj) as [F [_ D]]. split; [exact F|].
      eapply Rle_trans; [exact D|]. unfold tot. cbn [Nat.add]. rewrite E0, common_sum. set (c := INR (common m (node_at m i) (node_at m j))).
      rewrite Rplus_assoc. apply Rplus_le_compat_l. apply Rplus_le_compat; [|right; ring]. unfold Ec. rewrite (sc_val h s v d rv rd).
      assert (CP : 0 <= c) by apply pos_INR. assert (SP := rng_pos _ _ _ (sc_rng h rho s kappa SL i j)). assert (RP : 1 <= rho ^ rd) by (apply pow_R1_Rle, (sl_rho _ _ _ _ SL)).
      assert (DP := d_pos _ _ _ _ SL).
      assert (Q : 0 <= kappa * roundoff * rho ^ rd * (h ^ rotations i j * s) * c ^ 2).
      { apply Rmult_le_pos; [|apply pow_le, CP]. apply Rmult_le_pos; [|lra]. apply Rmult_le_pos; lra. }
      apply Rle_trans with (3 / 2 * Q2R d * (kappa * roundoff * rho ^ rd * (h ^ rotations i j * s) * c ^ 2)); [right; ring|].
      replace (cb * (kappa * roundoff) * rho ^ rd * s * h ^ rotations i j * c ^ 2) with (cb * (kappa * roundoff * rho ^ rd * (h ^ rotations i j * s) * c ^ 2)) by ring.
      apply Rmult_le_compat_r; assumption. }
  unfold shear_bound. destruct HM as [<-|[<-|[]]].
  - unfold add_k0s, add_k0s_cell. cbn [String.eqb Ascii.eqb Bool.eqb].
    replace (rho * rho * rho * rho) with (rho ^ 4) by ring.
    apply (GEN 310%Q 155000%Q 3%nat 4%nat); try (unfold Qle; cbn; lia); try lia; [unfold Q2R; cbn; lra|].
    intros t Ht. rewrite N1, N2. apply (cell_lock m h rho s kappa KS W PL (edges m') (edges M') alpha pfn' SS PC t Ht mfa).
  - unfold add_k0s, add_k0s_cellns. cbn [String.eqb Ascii.eqb Bool.eqb].
    replace (rho * rho) with (rho ^ 2) by ring.
    apply (GEN 7%Q 1500%Q 1%nat 2%nat); try (unfold Qle; cbn; lia); try lia; [unfold Q2R; cbn; lra|].
    intros t Ht. rewrite N1, N2. apply (cellns_lock m h rho s kappa KS W PL (edges m') (edges M') alpha pfn' SS PC t Ht mfa).
Qed.

(** calc_k0 followed by add_k0s. *)
Lemma c86_plate : forall (m : mesh double) pfn pfn' method alpha mfa h rho kappa s,
  valid (mesh_val m) pfn -> k0_scale m h rho kappa s -> shear_scale m s alpha -> props_complete (mesh_val m) pfn' -> In method cell_methods ->
  exists m' k0 k M' K0 K, calc_k0 m pfn = (m', Ok k0) /\ add_k0s lits_src k0 m' pfn' method alpha mfa = (k, Ok tt) /\
    calc_k0 (mesh_val m) pfn = (M', Ok K0) /\ add_k0s lits_src K0 M' pfn' method (val alpha) mfa = (K, Ok tt) /\
    mdim k = (List.length (nodes m) * 5)%nat /\ mdim K = (List.length (nodes m) * 5)%nat /\
    forall i j, (i < List.length (nodes m) * 5)%nat -> (j < List.length (nodes m) * 5)%nat ->
      finite (mentry k i j) /\ Rabs (val (mentry k i j) - mentry K i j) <= plate_bound m method h rho kappa s i j.
Proof.
  intros m pfn pfn' method alpha mfa h rho kappa s V KS SS PC HM. destruct (k0_start m pfn h rho kappa s V KS) as [m' [K0 [M' [KR [C1 [C2 [D1 [D2 H]]]]]]]].
  destruct (c86_error m pfn pfn' method alpha mfa h rho kappa s m' K0 M' KR V KS SS PC HM C1 C2 K0 KR (k0_bound m rho kappa s) (fun i j => k0_size m rho s i j + k0_bound m rho kappa s i j) _ eq_refl D1 D2 H) as [k [K [A1 [A2 [A3 [A4 G]]]]]].
  exists m', K0, k, M', KR, K. split; [exact C1|]. split; [exact A1|]. split; [exact C2|]. split; [exact A2|]. split; [exact A3|]. split; [exact A4|]. exact G.
Qed.

(** The energies of the matrix in doubles are the smoothed energy of the membrane and bending strains and the shear energy of exact
    arithmetic, up to rounding errors. *)
Lemma c86_energy : forall (m : mesh double) pfn pfn' method alpha mfa h rho kappa s,
  valid (mesh_val m) pfn -> k0_scale m h rho kappa s -> shear_scale m s alpha -> props_complete (mesh_val m) pfn' -> In method cell_methods ->
  exists m' k0 k, calc_k0 m pfn = (m', Ok k0) /\ add_k0s lits_src k0 m' pfn' method alpha mfa = (k, Ok tt) /\
    forall u v, Rabs (form (matrix_val k) u v - (k0_energy (mesh_val m) pfn u v + shear_energy (method_strain method (mesh_val m)) (mesh_val m) pfn' (val alpha) mfa u v))
      <= Sum (fun i => Sum (fun j => Rabs (u i) * plate_bound m method h rho kappa s i j * Rabs (v j)) (seq 0 (mdim k))) (seq 0 (mdim k)).
Proof.
  intros m pfn pfn' method alpha mfa h rho kappa s V KS SS PC HM. destruct (c86_plate m pfn pfn' method alpha mfa h rho kappa s V KS SS PC HM) as [m' [k0 [k [M' [K0 [K [C1 [A1 [C2 [A2 [D1 [D2 H]]]]]]]]]]]].
  exists m', k0, k. split; [exact C1|]. split; [exact A1|]. intros u v.
  assert (CO : call_ok (mesh_val m) M' pfn' (val alpha) K0).
  { constructor; [exists pfn, K0; auto|exact PC| | |apply (c18_numbering _ _ _ _ _ _ C2)].
    - assert (LK := lock_val m). split.
      + intros n p Hp. rewrite (prop_lock _ _ LK) in Hp. destruct (nodeprop m n) as [q|] eqn:E; [|discriminate]. injection Hp as <-. destruct (ss_props _ _ _ SS q (or_introl (ex_intro _ n E))) as [_ [_ [_ [L _]]]]. cbn [prop_val ph]. lra.
      + intros t p Ht Hp. rewrite (trias_lock _ _ LK) in Ht. apply in_map_iff in Ht. destruct Ht as [t' [<- Ht]]. cbn in Hp. destruct (tprop t') as [q|] eqn:E; [|discriminate]. injection Hp as <-.
        destruct (ss_props _ _ _ SS q (or_intror (ex_intro _ t' (conj Ht E)))) as [_ [_ [_ [L _]]]]. cbn [prop_val ph]. lra.
    - destruct (ss_alpha _ _ _ SS) as [_ [->|[L _]]]; lra. }
  destruct (cell_methods_add method _ _ _ _ mfa _ HM CO) as [K' [E [_ F]]]. rewrite A2 in E. injection E as <-.
  destruct (valid_spec _ _ V) as [M2 [K2 [E [_ [G _]]]]]. rewrite C2 in E. injection E as <- <-. rewrite <- G, <- F. unfold form. rewrite D2, <- D1. cbn [matrix_val mdim mentry].
  set (l := seq 0 (mdim k)).
  replace (Sum (fun i => Sum (fun j => u i * val (mentry k i j) * v j) l) l - Sum (fun i => Sum (fun j => u i * mentry K i j * v j) l) l)
    with (Sum (fun i => Sum (fun j => u i * (val (mentry k i j) - mentry K i j) * v j) l) l).
  - apply Sum_abs_le. intros i Hi. apply Sum_abs_le. intros j Hj. apply in_seq in Hi, Hj. destruct (H i j) as [_ B]; [lia|lia|].
    rewrite !Rabs_mult. apply Rmult_le_compat_r; [apply Rabs_pos|]. apply Rmult_le_compat_l; [apply Rabs_pos|exact B].
  - unfold Rminus at 2. rewrite <- (Rmult_1_l (Sum (fun i => Sum (fun j => u i * mentry K i j * v j) l) l)), Ropp_mult_distr_l, <- Sum_scal, <- Sum_plus.
    apply Sum_ext. intros i. rewrite <- Sum_scal, <- Sum_plus. apply Sum_ext. intros j. ring.
Qed.

(** Shear stiffnesses of up to 18, a thickness of the double next to 1/10, shear correction factors of the doubles next to 5/6 and 4/5. *)
Lemma w_shear : shear_scale fwarped 64 (dz 2).
Proof.
  constructor.
  - assert (G : forall p, In p [fprop (dz 1); fprop (dz 2); fprop (dz 3)] -> (forall x, In x [pk13 p; pk23 p] -> finite x /\ Rabs (val x) <= 1) /\
      (forall x, In x [e00 (pE p); e11 (pE p)] -> finite x /\ Rabs (val x) <= 64) /\ finite (ph p) /\ / 18446744073709551616 <= val (ph p) <= 18446744073709551616).
    { intros p Hp. split; [|split].
      - intros x Hx. assert (H : In x (flat_map (fun p => [pk13 p; pk23 p]) [fprop (dz 1); fprop (dz 2); fprop (dz 3)])) by (apply in_flat_map; exists p; auto). clear Hp Hx p. revert x H.
        match goal with |- context [In _ ?l] => let v := eval vm_compute in l in change l with v end. intros x H. cbn [In] in H.
        repeat (destruct H as [<-|H]; [split; [reflexivity || exact I|dval; rewrite ?Rabs_R0; try (rewrite Rabs_right by lra); lra]|]). destruct H.
      - intros x Hx. assert (H : In x (flat_map (fun p => [e00 (pE p); e11 (pE p)]) [fprop (dz 1); fprop (dz 2); fprop (dz 3)])) by (apply in_flat_map; exists p; auto). clear Hp Hx p. revert x H.
        match goal with |- context [In _ ?l] => let v := eval vm_compute in l in change l with v end. intros x H. cbn [In] in H.
        repeat (destruct H as [<-|H]; [split; [reflexivity || exact I|dval; rewrite ?Rabs_R0; try (rewrite Rabs_right by lra); lra]|]). destruct H.
      - cbn [In] in Hp. destruct Hp as [<-|[<-|[<-|[]]]]; cbn [ph fprop];
          match goal with |- finite ?l /\ _ => let v := eval vm_compute in l in change l with v end; (split; [reflexivity|dval; lra]). }
    intros p [[n Hn]|[t [H Hp]]].
    + apply G. assert (K : In n (node_keys fwarped)).
      { unfold nodeprop in Hn. destruct (dget Nat.eqb n (nodes fwarped)) as [nd|] eqn:Q; [|discriminate]. apply (dget_in Nat.eqb nat_eqb_spec) in Q. apply in_map_iff. exists (n, nd); auto. }
      rewrite w_keys in K. cbn [In] in K. destruct K as [<-|[<-|[<-|[<-|[]]]]]; vm_compute in Hn; injection Hn as <-; [left|right; left|right; right; left|left]; vm_compute; reflexivity.
    + apply G. destruct H as [<-|[<-|[]]]; vm_compute in Hp; injection Hp as <-; [left|right; left]; vm_compute; reflexivity.
  - split; [reflexivity|]. right. match goal with |- _ <= val ?l <= _ => let v := eval vm_compute in l in change l with v end. dval; lra.
  - vm_compute. discriminate.
Qed.

(** The plate of C81 with alpha = 2: an error of at most 1/100000 is added to the stiffness of the deflections of node 1. *)
Lemma c86_plate_ex : forall pfn pfn' method, In method cell_methods -> valid (mesh_val fwarped) pfn /\ k0_scale fwarped 4 4 2 64 /\ shear_scale fwarped 64 (dz 2) /\
  props_complete (mesh_val fwarped) pfn' /\ shear_bound fwarped method 4 4 2 64 (k0_size fwarped 4 64 2 2 + k0_bound fwarped 4 2 64 2 2) 2 2 <= / 200000.
Proof.
  intros pfn pfn' method HM. split; [apply w_valid|]. split; [exact w_scale|]. split; [exact w_shear|]. split; [apply (w_valid pfn')|]. unfold shear_bound, k0_size, k0_bound.
  assert (E : shared fwarped (node_at fwarped 2) (node_at fwarped 2) = 5%nat) by (vm_compute; reflexivity). rewrite E.
  assert (E' : common fwarped (node_at fwarped 2) (node_at fwarped 2) = 2%nat) by (vm_compute; reflexivity). rewrite E'. change (rotations 2 2) with 0%nat. unfold roundoff. cbn [INR pow].
  destruct HM as [<-|[<-|[]]]; cbn [String.eqb Ascii.eqb Bool.eqb]; lra.
Qed.

(** The shear stiffness alone, added to a matrix of zeros, and to a matrix of thirds in doubles. *)
Lemma c86_error_ex : forall pfn pfn', exists m' K0 M' R0, valid (mesh_val fwarped) pfn /\ k0_scale fwarped 4 4 2 64 /\ shear_scale fwarped 64 (dz 2) /\ props_complete (mesh_val fwarped) pfn' /\
  calc_k0 fwarped pfn = (m', Ok K0) /\ calc_k0 (mesh_val fwarped) pfn = (M', Ok R0) /\
  (forall i j, finite (mentry (@zeros double NumF 20) i j) /\ Rabs (val (mentry (@zeros double NumF 20) i j) - mentry (@zeros R NumR 20) i j) <= 0 /\ Rabs (mentry (@zeros R NumR 20) i j) + 0 <= 0 /\ 0 <= 2 ^ 500) /\
  (forall i j, let k := Matrix 20 (fun _ _ => ndiv (dz 1) (dz 3)) in let K := Matrix 20 (fun _ _ => 1 / 3) in
    finite (mentry k i j) /\ Rabs (val (mentry k i j) - mentry K i j) <= roundoff /\ Rabs (mentry K i j) + roundoff <= 1 /\ 1 <= 2 ^ 500).
Proof.
  intros pfn pfn'. destruct (c81_error fwarped pfn 4 4 2 64 (w_valid pfn) w_scale) as [m' [K0 [M' [R0 [C1 [C2 _]]]]]]. exists m', K0, M', R0.
  split; [apply w_valid|]. split; [exact w_scale|]. split; [exact w_shear|]. split; [apply (w_valid pfn')|]. split; [exact C1|]. split; [exact C2|]. split.
  - intros i j. cbn [zeros mentry]. split; [reflexivity|]. split; [|split].
    + match goal with |- Rabs (?x - ?y) <= 0 => change x with 0; change y with 0 end. rewrite Rminus_0_r, Rabs_R0. lra.
    + match goal with |- Rabs ?x + 0 <= 0 => change x with 0 end. rewrite Rabs_R0. lra.
    + apply pow_le. lra.
  - intros i j. cbn [mentry]. cbv zeta. match goal with |- finite ?l /\ _ => let v := eval vm_compute in l in change l with v end. split; [reflexivity|]. dval. split; [|split].
    + unfold roundoff. apply abs_join; lra.
    + unfold roundoff. rewrite Rabs_right; lra.
    + apply pow_R1_Rle. lra.
Qed.
