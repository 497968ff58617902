(** Lemmas behind the property on the rounding errors of the edge-based shear stiffness (C88). *)
(* P: Num Float Py Mesh Utils CalcK0 AddK0s Spec SpecK0 SpecKG SpecK0s SpecEdge SpecRound SpecRound2 SpecRound4 ExFloat ExLevel *)
From Coq Require Import ZArith Reals List Bool Arith Lra Lia QArith Qreals String.
From Flocq Require Import Core.
From Verif Require Import Num Float Py Mesh Utils CalcK0 AddK0s Spec SpecK0 SpecKG SpecK0s SpecEdge SpecRound SpecRound2 SpecRound4 FSum FMat FDict FWf FOut FSetup FAsm FK0 FAny FRound FRound2 FRound3 FRound8 FRound9 FRound12 FRound13 FRound15 FRound17 FRound19 FRound21 FRound24 FRound27 FRound28 LK0 LK0s LEdge LDec LStat LRound LRound2 ExFloat ExLevel ExK0.
Import ListNotations.
Local Open Scope R_scope.

Lemma edge_of : forall h rho s kappa es ES, Forall2 (in_step h rho s kappa) es ES -> Forall2 (fun e E => near_edge h rho s kappa e E /\ exists k, In (k, E) ES) (map snd es) (map snd ES).
Proof.
  intros h rho s kappa es ES F. assert (G : forall l L, Forall2 (in_step h rho s kappa) l L -> (forall x, In x L -> In x ES) -> Forall2 (fun e E => near_edge h rho s kappa e E /\ exists k, In (k, E) ES) (map snd l) (map snd L)).
  { intros l L H. induction H as [|[k e] [k' E] l L [_ HN] _ IH]; intros HI; [constructor|]. cbn [map snd] in *. constructor; [|apply IH; intros x Hx; apply HI; right; exact Hx]. split; [exact HN|]. exists k'. apply HI. left. reflexivity. }
  apply (G _ _ F). auto.
Qed.
Definition dom_weight (m : mesh double) (e : edge double) (i j : nat) : nat := if FRound12.both m (node_at m i) (node_at m j) (en1 e, en2 e) then 1%nat else 0%nat.
Lemma dom_sum : forall m l i j, sumn (dom_weight m) l i j = List.length (filter (FRound12.both m (node_at m i) (node_at m j)) (map (fun e => (en1 e, en2 e)) l)).
Proof. intros m l i j. induction l as [|e l IH]; [reflexivity|]. cbn [sumn map filter]. rewrite IH. unfold dom_weight. destruct (FRound12.both _ _ _ _); reflexivity. Qed.
Lemma edge_names : forall h rho s kappa (m : mesh double) es ES, Forall2 (in_step h rho s kappa) es ES -> map fst ES = edge_keys (mesh_val m) -> (forall k e, In (k, e) ES -> ready (mesh_val m) k e) ->
  map (fun e => (en1 e, en2 e)) (map snd es) = edge_keys m.
Proof.
  intros h rho s kappa m es ES F EK RD. rewrite edge_keys_val in EK. rewrite <- EK. clear EK. induction F as [|[k e] [k' E] l L [Q HN] _ IH]; [reflexivity|]. cbn [map fst snd] in *. f_equal.
  - assert (R := rd_ends _ _ _ (RD k' E (or_introl eq_refl))). rewrite <- R, (ne_1 _ _ _ _ _ _ HN), (ne_2 _ _ _ _ _ _ HN). reflexivity.
  - apply IH. intros k0 e0 H0. apply RD. right. exact H0.
Qed.

(** ** C88 *)

(** add_k0s with the edge-based method in doubles, compared with add_k0s in exact arithmetic on the plate with the same data: whatever
    matrix it is added to, both succeed, the entries in doubles are finite, and entry (i, j) differs by at most the difference before
    and the rounding errors of the c edges whose domains have the nodes of row i and column j. *)
Lemma c88_error : forall (m : mesh double) pfn pfn' alpha mfa h rho kappa s m' K0 M' R0,
  valid (mesh_val m) pfn -> k0_scale m h rho kappa s -> shear_scale m s alpha -> edge_fine m h rho s -> props_complete (mesh_val m) pfn' ->
  calc_k0 m pfn = (m', Ok K0) -> calc_k0 (mesh_val m) pfn = (M', Ok R0) ->
  forall (k : matrix double) (K : matrix R) (e x : nat -> nat -> R) n, n = (List.length (nodes m) * 5)%nat -> mdim k = n -> mdim K = n ->
  (forall i j, (i < n)%nat -> (j < n)%nat -> finite (mentry k i j) /\ Rabs (val (mentry k i j) - mentry K i j) <= e i j /\
    Rabs (mentry K i j) + e i j <= x i j /\ x i j <= 2 ^ 500) ->
  exists k' K', add_k0s lits_src k m' pfn' "edge-based" alpha mfa = (k', Ok tt) /\ add_k0s lits_src K M' pfn' "edge-based" (val alpha) mfa = (K', Ok tt) /\
    mdim k' = n /\ mdim K' = n /\
    forall i j, (i < n)%nat -> (j < n)%nat -> finite (mentry k' i j) /\
      Rabs (val (mentry k' i j) - mentry K' i j) <= e i j + edge_bound m h rho kappa s (x i j) i j.
Proof.
  intros m pfn pfn' alpha mfa h rho kappa s m' K0 M' R0 V KS SS SE PC C1 C2 k K e x n -> Dk DK H.
  destruct (calc_edges m h rho s kappa pfn KS V) as [es [ES [k1 [k2 [C3 [C4 [F [EK RD]]]]]]]]. rewrite C1 in C3. injection C3 as -> _. rewrite C2 in C4. injection C4 as -> _.
  destruct V as [W PL _ _]. assert (SL := SL m h rho s kappa KS). set (n := (List.length (nodes m) * 5)%nat) in *.
  assert (F2 := edge_of _ _ _ _ _ _ F). assert (EN := edge_names _ _ _ _ _ _ _ F EK RD).
  assert (SU : forall i j, sumn (dom_weight m) (map snd es) i j = shared m (node_at m i) (node_at m j)) by (intros i j; rewrite dom_sum, EN; reflexivity).
  assert (LIM : forall i j, limc (0 + sumn (dom_weight m) (map snd es) i j)).
  { intros i j. unfold limc. cbn [Nat.add]. rewrite SU, INR_IZR_INZ. apply IZR_le. assert (L := ks_edges _ _ _ _ _ KS). assert (Q := shared_le _ m (node_at m i) (node_at m j)). lia. }
  unfold add_k0s, add_k0s_edge. cbn [String.eqb Ascii.eqb Bool.eqb number edges].
  destruct (elements_run n (mentry K) e x (Bc h rho s 280 345000 5 6) (Ec h rho s kappa 280 345000 5 6)
    (fun i j Hi Hj => coef_room h rho s kappa SL 280 345000 5 6 ltac:(unfold Qle; cbn; lia) ltac:(unfold Qle; cbn; lia) ltac:(unfold Qle; cbn; lia) ltac:(unfold Qle; cbn; lia) ltac:(lia) ltac:(lia) ltac:(lia) (mentry K) e x i j
      (Rle_trans _ _ _ (Rabs_pos _) (proj1 (proj2 (H i j Hi Hj)))) (proj1 (proj2 (proj2 (H i j Hi Hj)))) ltac:(rewrite bpow500; apply (H i j Hi Hj)))
    _ _ _ (edge_shear lits_src (number m es) pfn' alpha mfa) (edge_shear lits_src (number (mesh_val m) ES) pfn' (val alpha) mfa) (dom_weight m) _ _ F2) with (c := fun _ _ : nat => 0%nat) (k := k) (K := K) as [k' [K' [A1 [A2 [A3 [A4 G]]]]]].
  - intros a b _ _ [HN [k0 HI]]. assert (RK := RD _ _ HI). assert (Hk : In k0 (edge_keys m)) by (rewrite <- edge_keys_val, <- EK; apply (in_map fst _ _ HI)).
    destruct (edge_lock m h rho s kappa KS W PL es ES alpha pfn' SS SE PC k0 a b Hk RK HN mfa) as [us [US [hs [Q1 [Q2 [Q3 Q4]]]]]]. exists us, US, hs. split; [exact Q1|]. split; [exact Q2|]. split; [exact Q3|].
    intros i j. unfold dom_weight. rewrite (ne_1 _ _ _ _ _ _ HN), (ne_2 _ _ _ _ _ _ HN), (rd_ends _ _ _ RK). apply Q4.
  - exact Dk.
  - exact DK.
  - intros i j Hi Hj. split; [apply LIM|]. destruct (H i j Hi Hj) as [Fi [D _]]. split; [exact Fi|]. split.
    + replace (mentry K i j - mentry K i j) with 0 by ring. rewrite Rabs_R0. cbn [INR]. lra.
    + unfold tot. cbn [INR]. lra.
  - exists k', K'. split; [exact A1|]. split; [exact A2|]. split; [exact A3|]. split; [exact A4|]. intros i j Hi Hj. destruct (G i j Hi Hj) as [Fi [_ D]]. split; [exact Fi|].
    eapply Rle_trans; [exact D|]. unfold tot, edge_bound. cbn [Nat.add]. rewrite SU. set (c := INR (shared m (node_at m i) (node_at m j))).
    rewrite Rplus_assoc. apply Rplus_le_compat_l. apply Rplus_le_compat; [|right; ring]. unfold Ec. rewrite (sc_val h s 280 345000 5 6).
    assert (CP : 0 <= c) by apply pos_INR. assert (SP := rng_pos _ _ _ (sc_rng h rho s kappa SL i j)). assert (RP : 1 <= rho ^ 6) by (apply pow_R1_Rle, (sl_rho _ _ _ _ SL)).
    assert (DP := d_pos _ _ _ _ SL). replace (rho * rho * rho * rho * rho * rho) with (rho ^ 6) by ring.
    assert (Q : 0 <= kappa * roundoff * rho ^ 6 * (h ^ rotations i j * s) * c ^ 2).
    { apply Rmult_le_pos; [|apply pow_le, CP]. apply Rmult_le_pos; [|lra]. apply Rmult_le_pos; lra. }
    apply Rle_trans with (3 / 2 * Q2R 345000 * (kappa * roundoff * rho ^ 6 * (h ^ rotations i j * s) * c ^ 2)); [right; ring|].
    replace (524288 * (kappa * roundoff) * rho ^ 6 * s * h ^ rotations i j * c ^ 2) with (524288 * (kappa * roundoff * rho ^ 6 * (h ^ rotations i j * s) * c ^ 2)) by ring.
    apply Rmult_le_compat_r; [exact Q|]. unfold Q2R; cbn; lra.
Qed.

(** calc_k0 followed by the edge-based method. *)
Lemma c88_plate : forall (m : mesh double) pfn pfn' alpha mfa h rho kappa s,
  valid (mesh_val m) pfn -> k0_scale m h rho kappa s -> shear_scale m s alpha -> edge_fine m h rho s -> props_complete (mesh_val m) pfn' ->
  exists m' k0 k M' K0 K, calc_k0 m pfn = (m', Ok k0) /\ add_k0s lits_src k0 m' pfn' "edge-based" alpha mfa = (k, Ok tt) /\
    calc_k0 (mesh_val m) pfn = (M', Ok K0) /\ add_k0s lits_src K0 M' pfn' "edge-based" (val alpha) mfa = (K, Ok tt) /\
    mdim k = (List.length (nodes m) * 5)%nat /\ mdim K = (List.length (nodes m) * 5)%nat /\
    forall i j, (i < List.length (nodes m) * 5)%nat -> (j < List.length (nodes m) * 5)%nat ->
      finite (mentry k i j) /\ Rabs (val (mentry k i j) - mentry K i j) <= plate_edge_bound m h rho kappa s i j.
Proof.
  intros m pfn pfn' alpha mfa h rho kappa s V KS SS SE PC. destruct (k0_start m pfn h rho kappa s V KS) as [m' [K0 [M' [KR [C1 [C2 [D1 [D2 H]]]]]]]].
  destruct (c88_error m pfn pfn' alpha mfa h rho kappa s m' K0 M' KR V KS SS SE PC C1 C2 K0 KR (k0_bound m rho kappa s) (fun i j => k0_size m rho s i j + k0_bound m rho kappa s i j) _ eq_refl D1 D2 H) as [k [K [A1 [A2 [A3 [A4 G]]]]]].
  exists m', K0, k, M', KR, K. split; [exact C1|]. split; [exact A1|]. split; [exact C2|]. split; [exact A2|]. split; [exact A3|]. split; [exact A4|]. exact G.
Qed.

Lemma form_diff : forall (k : matrix double) (K : matrix R) (B : nat -> nat -> R) n u v, mdim k = n -> mdim K = n ->
  (forall i j, (i < n)%nat -> (j < n)%nat -> Rabs (val (mentry k i j) - mentry K i j) <= B i j) ->
  Rabs (form (matrix_val k) u v - form K u v) <= Sum (fun i => Sum (fun j => Rabs (u i) * B i j * Rabs (v j)) (seq 0 n)) (seq 0 n).
Proof.
  intros k K B n u v D1 D2 H. unfold form. cbn [matrix_val mdim mentry]. rewrite D1, D2. set (l := seq 0 n).
  replace (Sum (fun i => Sum (fun j => u i * val (mentry k i j) * v j) l) l - Sum (fun i => Sum (fun j => u i * mentry K i j * v j) l) l)
    with (Sum (fun i => Sum (fun j => u i * (val (mentry k i j) - mentry K i j) * v j) l) l).
  - apply Sum_abs_le. intros i Hi. apply Sum_abs_le. intros j Hj. apply in_seq in Hi, Hj. assert (B' := H i j ltac:(lia) ltac:(lia)).
    rewrite !Rabs_mult. apply Rmult_le_compat_r; [apply Rabs_pos|]. apply Rmult_le_compat_l; [apply Rabs_pos|exact B'].
  - unfold Rminus at 2. rewrite <- (Rmult_1_l (Sum (fun i => Sum (fun j => u i * mentry K i j * v j) l) l)), Ropp_mult_distr_l, <- Sum_scal, <- Sum_plus.
    apply Sum_ext. intros i. rewrite <- Sum_scal, <- Sum_plus. apply Sum_ext. intros j. ring.
Qed.
Lemma call_val : forall (m : mesh double) pfn pfn' alpha s M' K0, valid (mesh_val m) pfn -> shear_scale m s alpha -> props_complete (mesh_val m) pfn' -> calc_k0 (mesh_val m) pfn = (M', Ok K0) -> call_ok (mesh_val m) M' pfn' (val alpha) K0.
Proof.
  intros m pfn pfn' alpha s M' K0 VV SS PC C2. constructor; [exists pfn, K0; auto|exact PC| | |apply (c18_numbering _ _ _ _ _ _ C2)].
  - assert (LK := lock_val m). split.
    + intros n p Hp. rewrite (prop_lock _ _ LK) in Hp. destruct (nodeprop m n) as [q|] eqn:E; [|discriminate]. injection Hp as <-. destruct (ss_props _ _ _ SS q (or_introl (ex_intro _ n E))) as [_ [_ [_ [L _]]]]. cbn [prop_val ph]. lra.
    + intros t p Ht Hp. rewrite (trias_lock _ _ LK) in Ht. apply in_map_iff in Ht. destruct Ht as [t' [<- Ht]]. cbn in Hp. destruct (tprop t') as [q|] eqn:E; [|discriminate]. injection Hp as <-.
      destruct (ss_props _ _ _ SS q (or_intror (ex_intro _ t' (conj Ht E)))) as [_ [_ [_ [L _]]]]. cbn [prop_val ph]. lra.
  - destruct (ss_alpha _ _ _ SS) as [_ [->|[L _]]]; lra.
Qed.

(** The energies of the matrix in doubles, on plates whose interior edges start at a node with y = z: the smoothed energy of the
    membrane and bending strains and the energy of the discrete shear strains (C79), up to the rounding errors and the truncated decimals
    of the code (C80). *)
Lemma c88_energy : forall (m : mesh double) pfn pfn' alpha mfa h rho kappa s h' rho' c e,
  valid (mesh_val m) pfn -> k0_scale m h rho kappa s -> shear_scale m s alpha -> edge_fine m h rho s -> props_complete (mesh_val m) pfn' ->
  edge_scale (mesh_val m) h' rho' c e -> starts_level (mesh_val m) ->
  exists m' k0 k, calc_k0 m pfn = (m', Ok k0) /\ add_k0s lits_src k0 m' pfn' "edge-based" alpha mfa = (k, Ok tt) /\
    forall U V u v, field_scale (mesh_val m) h' U u -> field_scale (mesh_val m) h' V v ->
      Rabs (form (matrix_val k) u v - (k0_energy (mesh_val m) pfn u v +
        edge_energy (mesh_val m) pfn' (val alpha) mfa (strain_edge (mesh_val m) u) (strain_edge (mesh_val m) v)))
      <= Sum (fun i => Sum (fun j => Rabs (u i) * plate_edge_bound m h rho kappa s i j * Rabs (v j)) (seq 0 (mdim k))) (seq 0 (mdim k)) +
         decimals_error (mesh_val m) rho' c e U V.
Proof.
  intros m pfn pfn' alpha mfa h rho kappa s h' rho' c e VV KS SS SE PC ES SL. destruct (c88_plate m pfn pfn' alpha mfa h rho kappa s VV KS SS SE PC) as [m' [k0 [k [M' [K0 [K [C1 [A1 [C2 [A2 [D1 [D2 H]]]]]]]]]]]].
  exists m', k0, k. split; [exact C1|]. split; [exact A1|]. intros U V u v FU FV.
  destruct (c80_energy _ _ pfn' (val alpha) mfa K0 h' rho' c e (call_val m pfn pfn' alpha s M' K0 VV SS PC C2) ES SL) as [K' [E X]]. rewrite A2 in E. injection E as <-. specialize (X U V u v FU FV).
  destruct (valid_spec _ _ VV) as [M2 [K2 [E [_ [G _]]]]]. rewrite C2 in E. injection E as <- <-. rewrite G in X.
  assert (Y := form_diff k K (plate_edge_bound m h rho kappa s) _ u v D1 D2 (fun i j Hi Hj => proj2 (H i j Hi Hj))). rewrite D1.
  apply abs_split in X, Y. apply abs_join; lra.
Qed.

(** On any plate, up to the same errors: the added stiffness is symmetric. *)
Lemma c88_symmetric : forall (m : mesh double) pfn pfn' alpha mfa h rho kappa s h' rho' c e,
  valid (mesh_val m) pfn -> k0_scale m h rho kappa s -> shear_scale m s alpha -> edge_fine m h rho s -> props_complete (mesh_val m) pfn' ->
  edge_scale (mesh_val m) h' rho' c e ->
  exists m' k0 k, calc_k0 m pfn = (m', Ok k0) /\ add_k0s lits_src k0 m' pfn' "edge-based" alpha mfa = (k, Ok tt) /\
    forall U V u v, field_scale (mesh_val m) h' U u -> field_scale (mesh_val m) h' V v ->
      Rabs (form (matrix_val k) u v - form (matrix_val k) v u)
      <= Sum (fun i => Sum (fun j => Rabs (u i) * plate_edge_bound m h rho kappa s i j * Rabs (v j)) (seq 0 (mdim k))) (seq 0 (mdim k)) +
         Sum (fun i => Sum (fun j => Rabs (v i) * plate_edge_bound m h rho kappa s i j * Rabs (u j)) (seq 0 (mdim k))) (seq 0 (mdim k)) +
         2 * decimals_error (mesh_val m) rho' c e U V.
Proof.
  intros m pfn pfn' alpha mfa h rho kappa s h' rho' c e VV KS SS SE PC ES. destruct (c88_plate m pfn pfn' alpha mfa h rho kappa s VV KS SS SE PC) as [m' [k0 [k [M' [K0 [K [C1 [A1 [C2 [A2 [D1 [D2 H]]]]]]]]]]]].
  exists m', k0, k. split; [exact C1|]. split; [exact A1|]. intros U V u v FU FV.
  destruct (c80_symmetry _ _ pfn' (val alpha) mfa K0 h' rho' c e (call_val m pfn pfn' alpha s M' K0 VV SS PC C2) ES) as [K' [E X]]. rewrite A2 in E. injection E as <-. destruct (X U V u v FU FV) as [Z _].
  assert (S : form K0 u v = form K0 v u).
  { destruct (valid_spec _ _ VV) as [M2 [K2 [E [_ [G _]]]]]. rewrite C2 in E. injection E as <- <-. rewrite !G. apply k0_sym. }
  assert (Y := form_diff k K (plate_edge_bound m h rho kappa s) _ u v D1 D2 (fun i j Hi Hj => proj2 (H i j Hi Hj))). assert (Y' := form_diff k K (plate_edge_bound m h rho kappa s) _ v u D1 D2 (fun i j Hi Hj => proj2 (H i j Hi Hj))). rewrite D1.
  apply abs_split in Y, Y', Z. apply abs_join; lra.
Qed.

(** The plate of C81 at the height y = z of its third node, with alpha = 2: an error of at most 1/1000 is added to the stiffness of the
    deflections of node 1. *)
Lemma c88_plate_ex : forall pfn pfn', valid (mesh_val flevel) pfn /\ k0_scale flevel 4 4 2 64 /\ shear_scale flevel 64 (dz 2) /\ edge_fine flevel 4 4 64 /\
  props_complete (mesh_val flevel) pfn' /\ edge_bound flevel 4 4 2 64 (k0_size flevel 4 64 2 2 + k0_bound flevel 4 2 64 2 2) 2 2 <= / 1000.
Proof.
  intros pfn pfn'. split; [apply v_valid|]. split; [exact v_scale|]. split; [exact v_shear|]. split; [exact v_fine|]. split; [apply v_props|]. unfold edge_bound, k0_size, k0_bound.
  assert (E : shared flevel (node_at flevel 2) (node_at flevel 2) = 5%nat) by (vm_compute; reflexivity). rewrite E. change (rotations 2 2) with 0%nat. unfold roundoff. cbn [INR pow]. lra.
Qed.

(** The shear stiffness alone, added to a matrix of zeros, and to a matrix of thirds in doubles. *)
Lemma c88_error_ex : forall pfn pfn', exists m' K0 M' R0, valid (mesh_val flevel) pfn /\ k0_scale flevel 4 4 2 64 /\ shear_scale flevel 64 (dz 2) /\ edge_fine flevel 4 4 64 /\ props_complete (mesh_val flevel) pfn' /\
  calc_k0 flevel pfn = (m', Ok K0) /\ calc_k0 (mesh_val flevel) pfn = (M', Ok R0) /\
  (forall i j, finite (mentry (@zeros double NumF 20) i j) /\ Rabs (val (mentry (@zeros double NumF 20) i j) - mentry (@zeros R NumR 20) i j) <= 0 /\ Rabs (mentry (@zeros R NumR 20) i j) + 0 <= 0 /\ 0 <= 2 ^ 500) /\
  (forall i j, let k := Matrix 20 (fun _ _ => ndiv (dz 1) (dz 3)) in let K := Matrix 20 (fun _ _ => 1 / 3) in
    finite (mentry k i j) /\ Rabs (val (mentry k i j) - mentry K i j) <= roundoff /\ Rabs (mentry K i j) + roundoff <= 1 /\ 1 <= 2 ^ 500).
Proof.
  intros pfn pfn'. destruct (c81_error flevel pfn 4 4 2 64 (v_valid pfn) v_scale) as [m' [K0 [M' [R0 [C1 [C2 _]]]]]]. exists m', K0, M', R0.
  split; [apply v_valid|]. split; [exact v_scale|]. split; [exact v_shear|]. split; [exact v_fine|]. split; [apply v_props|]. split; [exact C1|]. split; [exact C2|].
  destruct (c86_error_ex pfn pfn') as [_ [_ [_ [_ [_ [_ [_ [_ [_ [_ H]]]]]]]]]]. exact H.
Qed.

(** Deflections of 1 with rotations of 1/4: the truncated decimals contribute at most 1/10^7. *)
Lemma c88_energy_ex : forall pfn pfn', valid (mesh_val flevel) pfn /\ k0_scale flevel 4 4 2 64 /\ shear_scale flevel 64 (dz 2) /\ edge_fine flevel 4 4 64 /\
  props_complete (mesh_val flevel) pfn' /\ edge_scale (mesh_val flevel) 4 9 1 18 /\ starts_level (mesh_val flevel) /\
  (exists u, field_scale (mesh_val flevel) 4 1 u /\ comp (mesh_val flevel) u 2 3 = 1 /\ comp (mesh_val flevel) u 4 3 = 1 / 4) /\
  decimals_error (mesh_val flevel) 9 1 18 1 1 <= / 10000000.
Proof.
  intros pfn pfn'. split; [apply v_valid|]. split; [exact v_scale|]. split; [exact v_shear|]. split; [exact v_fine|]. split; [apply v_props|]. split; [exact v_edge|]. split; [exact v_level|].
  split.
  - exists (fun i => if Nat.eqb (i mod 5) 2 then 1 else 1 / 4).
    assert (B : forall c n, (c < 5)%nat -> comp (mesh_val flevel) (fun i => if Nat.eqb (i mod 5) 2 then 1 else 1 / 4) c n = if Nat.eqb c 2 then 1 else 1 / 4).
    { intros c n Hc. unfold comp. replace ((rank (mesh_val flevel) n * 5 + c) mod 5)%nat with c; [reflexivity|]. rewrite Nat.add_comm, Nat.mod_add, Nat.mod_small by lia. reflexivity. }
    split; [|rewrite !B by lia; cbn [Nat.eqb]; auto]. intros n _. rewrite !B by lia. cbn [Nat.eqb]. rewrite Rabs_R1, (Rabs_right (1 / 4)) by lra. lra.
  - unfold decimals_error. assert (E : List.length (edge_keys (mesh_val flevel)) = 5%nat) by (rewrite edge_keys_val, v_edges; reflexivity). rewrite E. cbn [INR]. lra.
Qed.
Lemma c88_symmetric_ex : forall pfn pfn', valid (mesh_val flevel) pfn /\ k0_scale flevel 4 4 2 64 /\ shear_scale flevel 64 (dz 2) /\ edge_fine flevel 4 4 64 /\
  props_complete (mesh_val flevel) pfn' /\ edge_scale (mesh_val flevel) 4 9 1 18 /\ exists u, field_scale (mesh_val flevel) 4 1 u /\ comp (mesh_val flevel) u 2 3 = 1 /\ comp (mesh_val flevel) u 4 3 = 1 / 4.
Proof. intros pfn pfn'. destruct (c88_energy_ex pfn pfn') as [A [B [C [D [E [F [_ [G _]]]]]]]]. repeat (split; [assumption|]). exact G. Qed.
