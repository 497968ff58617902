(** Lemmas behind the properties on static and buckling problems with the matrices in double precision (C90, C91). *)
(* P: Num Float Py Mesh Utils CalcK0 CalcKG AddK0s Spec SpecK0 SpecKG SpecK0s SpecStab SpecStat SpecRound SpecRound2 SpecRound3 SpecRound6 ExFloat ExPress *)
From Coq Require Import ZArith Reals List Bool Arith Lra Lia String Floats.SpecFloat.
From Verif Require Import Num Float Py Mesh Utils CalcK0 CalcKG AddK0s Spec SpecK0 SpecKG SpecK0s SpecStab SpecStat SpecRound SpecRound2 SpecRound3 SpecRound6
  FSum FMat FDict FGeom FWf FConn FAsm FKG FLin FLin2 FLin3 FStab FStab2 FStab3 FRound3 FRound13 FRound29 LK0 LKG LK0s LStab LStat LRound LRound2 LRound3 ExFloat ExPress FPress.
Import ListNotations.
Local Open Scope R_scope.

Lemma shared_comm : forall (m : mesh double) a b, shared m a b = shared m b a.
Proof. intros m a b. unfold shared. f_equal. apply filter_ext. intros k. apply andb_comm. Qed.
Lemma common_comm : forall (m : mesh double) a b, common m a b = common m b a.
Proof. intros m a b. unfold common. f_equal. apply filter_ext. intros k. apply andb_comm. Qed.
Lemma plate_bound_comm : forall (m : mesh double) method h rho kappa s i j, plate_bound m method h rho kappa s i j = plate_bound m method h rho kappa s j i.
Proof.
  intros. unfold plate_bound, shear_bound, k0_bound, k0_size. rewrite (shared_comm m (node_at m j)), (common_comm m (node_at m j)).
  replace (rotations j i) with (rotations i j) by (unfold rotations; lia). reflexivity.
Qed.
Lemma kG_bound_comm : forall (m : mesh double) rho kappa s w i j, kG_bound m rho kappa s w i j = kG_bound m rho kappa s w j i.
Proof. intros. unfold kG_bound. rewrite (shared_comm m (node_at m j)), (andb_comm (Nat.eqb (j mod 5) 2)). reflexivity. Qed.
Lemma alpha_nonneg : forall m s alpha, shear_scale m s alpha -> 0 <= val alpha.
Proof. intros m s alpha H. destruct (ss_alpha _ _ _ H) as [_ [E|E]]; lra. Qed.
Lemma val_nodes : forall m : mesh double, List.length (nodes (mesh_val m)) = List.length (nodes m).
Proof. intros m. apply map_length. Qed.

(** ** C90 *)

(** A static problem with the matrix in doubles (a cell-based method): if the smallest stiffness [mu] of the supported plate exceeds the
    sum [eps] of the rounding errors of a row, it has exactly one solution for every load; and what a solver returns for it, with whatever
    residual, differs from the exact solution of the exact problem by at most (eps |d| + |residual|) / (mu - eps). *)
Lemma c90_static : forall (m : mesh double) pfn method alpha mfa h rho kappa s,
  valid (mesh_val m) pfn -> k0_scale m h rho kappa s -> shear_scale m s alpha -> In method cell_methods ->
  all_props (mesh_val m) pos_def -> all_props (mesh_val m) shear_pos -> braced method (mesh_val m) ->
  exists m' k0 k M' K0 K, calc_k0 m pfn = (m', Ok k0) /\ add_k0s lits_src k0 m' pfn method alpha mfa = (k, Ok tt) /\
    calc_k0 (mesh_val m) pfn = (M', Ok K0) /\ add_k0s lits_src K0 M' pfn method (val alpha) mfa = (K, Ok tt) /\
    let n := (List.length (nodes m) * 5)%nat in mdim k = n /\ mdim K = n /\
    forall S, supported (1 + literal_error method) (mesh_val m) S ->
      (exists mu, 0 < mu /\ stiffness_at_least K S mu) /\
      forall mu eps, stiffness_at_least K S mu -> row_sums n (plate_bound m method h rho kappa s) eps -> eps < mu ->
        stiffness_at_least (matrix_val k) S (mu - eps) /\
        forall load, exists d d', only_solution K S load d /\ only_solution (matrix_val k) S load d' /\
          forall x, admissible n S x -> len n (fun i => x i - d i) <= (eps * len n d + len n (residual (matrix_val k) S load x)) / (mu - eps).
Proof.
  intros m pfn method alpha mfa h rho kappa s V SC SS MT PP SP BR.
  destruct (c86_plate m pfn pfn method alpha mfa h rho kappa s V SC SS (va_props _ _ V) MT) as [m' [k0 [k [M' [K0 [K [E1 [E2 [E3 [E4 [D1 [D2 B]]]]]]]]]]]].
  exists m', k0, k, M', K0, K. repeat (split; [assumption|]). intros S HS.
  set (n := (List.length (nodes m) * 5)%nat) in *.
  assert (AL := alpha_nonneg m s alpha SS).
  destruct (total_spec method MT (mesh_val m) pfn V (val alpha) mfa SP AL) as [M2 [K2 [K3 [F3 [F4 [D F]]]]]]. rewrite E3 in F3. injection F3 as <- <-. rewrite E4 in F4. injection F4 as <-.
  assert (SY := tot_sym method (mesh_val m) pfn (val alpha) mfa K F).
  assert (PD := tot_pd method MT (mesh_val m) pfn V (val alpha) mfa PP SP AL BR K D F S HS).
  split.
  - destruct (coercive K S SY (fun u A => proj1 (PD u A)) (fun u A => proj2 (PD u A))) as [C [HC CO]]. exists (/ (C + 1)). split; [apply Rinv_0_lt_compat; lra|].
    intros u A. rewrite len_sq. specialize (CO u A). assert (P := proj1 (PD u A)). apply Rmult_le_reg_l with (C + 1); [lra|]. rewrite <- Rmult_assoc, Rinv_r by lra. lra.
  - intros mu eps ST RS LT.
    assert (DK : mdim (matrix_val k) = mdim K) by (cbn [matrix_val mdim]; congruence).
    assert (BD : forall i j, (i < mdim K)%nat -> (j < mdim K)%nat -> Rabs (mentry (matrix_val k) i j - mentry K i j) <= plate_bound m method h rho kappa s i j) by (rewrite D2; intros i j Hi Hj; apply B; assumption).
    assert (BS : forall i j, (i < mdim K)%nat -> (j < mdim K)%nat -> plate_bound m method h rho kappa s i j = plate_bound m method h rho kappa s j i) by (intros; apply plate_bound_comm).
    rewrite <- D2 in RS. split; [exact (pert_stiff _ K S _ mu eps DK BD BS RS ST)|]. intros load.
    destruct (solve_unique K S PD load) as [d HD]. destruct (pert_solve _ K S _ mu eps DK BD BS RS ST LT load) as [d' HD']. exists d, d'. split; [exact HD|]. split; [exact HD'|].
    intros x AX. assert (C := pert_close _ K S _ mu eps DK BD BS RS ST load d x (proj1 HD) ltac:(rewrite D2; exact AX)). rewrite D2 in C.
    apply Rmult_le_reg_l with (mu - eps); [lra|]. unfold Rdiv. rewrite (Rmult_comm (_ + _)), <- Rmult_assoc, Rinv_r, Rmult_1_l by lra. exact C.
Qed.

(** Two triangles with only the deflection of node 3 free: its stiffness is more than 8, the rounding errors of a row are less than 1/100. *)
Lemma c90_static_ex : let M := mesh_val fwarped in
  valid M true /\ k0_scale fwarped 4 4 2 64 /\ shear_scale fwarped 64 (dz 0) /\ all_props M pos_def /\ all_props M shear_pos /\ braced "cell-based" M /\
  supported (1 + literal_error "cell-based") M held /\ row_sums 20 (plate_bound fwarped "cell-based" 4 4 2 64) (/ 100) /\
  forall M' K0 K, calc_k0 M true = (M', Ok K0) -> add_k0s lits_src K0 M' true "cell-based" (val (dz 0)) false = (K, Ok tt) -> stiffness_at_least K held 8.
Proof.
  intros M. split; [apply w_valid|]. split; [exact w_scale|]. split; [exact w_shear0|]. split; [apply w_pd|]. split; [apply w_pd|]. split; [exact w_neighbours|]. split; [apply w_held|]. split; [exact w_rows|].
  intros M' K0 K F3 F4. destruct (c86_plate fwarped true true "cell-based" (dz 0) false 4 4 2 64 (w_valid true) w_scale w_shear0 (w_props true) ltac:(cbn; auto)) as [m' [k0 [k [M2 [K2 [K3 [E1 [E2 [E3 [E4 [D1 [D2 B]]]]]]]]]]]].
  change M with (mesh_val fwarped) in F3. rewrite E3 in F3. injection F3 as <- <-. rewrite E4 in F4. injection F4 as <-. change (List.length (nodes fwarped) * 5)%nat with 20%nat in *.
  intros u A. rewrite D2 in A |- *. rewrite (form_12 K3 u D2 A), (len_12 u A).
  destruct (B 12%nat 12%nat) as [_ X]; [lia|lia|]. assert (Y := w_plate_bound 12 12). assert (Z := w_k_12 m' k0 k E1 E2). apply abs_split in X.
  assert (Q : 0 <= u 12%nat * u 12%nat) by apply Rle_0_sqr. assert (P : 0 <= (mentry K3 12 12 - 8) * (u 12%nat * u 12%nat)) by (apply Rmult_le_pos; [lra|exact Q]). lra.
Qed.

(** ** C91 *)

(** Buckling with the matrices in doubles: if the exact problem has a critical load factor [a], the energy of the matrices in doubles is
    positive on all supported displacements for load factors below it and negative for the mode above it, except in an interval around a
    that shrinks with the rounding errors; without a critical load factor the energy is positive for all load factors for which the
    rounding errors are small. *)
Lemma c91_buckling : forall (m : mesh double) pfn method alpha mfa h rho kappa s w d,
  valid (mesh_val m) pfn -> k0_scale m h rho kappa s -> shear_scale m s alpha -> kG_scale m h s w d -> In method cell_methods ->
  all_props (mesh_val m) pos_def -> all_props (mesh_val m) shear_pos -> braced method (mesh_val m) -> List.length d = (List.length (nodes m) * 5)%nat ->
  exists m' k0 k g M' K0 K G, calc_k0 m pfn = (m', Ok k0) /\ add_k0s lits_src k0 m' pfn method alpha mfa = (k, Ok tt) /\ calc_kG d m' pfn = Ok g /\
    calc_k0 (mesh_val m) pfn = (M', Ok K0) /\ add_k0s lits_src K0 M' pfn method (val alpha) mfa = (K, Ok tt) /\ calc_kG (map val d) M' pfn = Ok G /\
    let n := (List.length (nodes m) * 5)%nat in
    forall S mu eps epsG, supported (1 + literal_error method) (mesh_val m) S -> 0 < mu -> stiffness_at_least K S mu ->
      row_sums n (plate_bound m method h rho kappa s) eps -> row_sums n (kG_bound m rho kappa s w) epsG ->
      ((exists v, admissible n S v /\ form G v v < 0) ->
       exists a x, 0 < a /\ buckling_mode K G S a 0 x (fun _ => 0) /\ nonzero n x /\
         (forall a' y, 0 < a' < a -> buckling_mode K G S a' 0 y (fun _ => 0) -> ~ nonzero n y) /\
         (forall b, 0 <= b -> eps + b * epsG < (1 - b / a) * mu -> forall v, admissible n S v -> nonzero n v -> 0 < form (matrix_val k) v v + b * form (matrix_val g) v v) /\
         (forall b, 0 <= b -> eps + b * epsG < (b / a - 1) * mu -> form (matrix_val k) x x + b * form (matrix_val g) x x < 0)) /\
      ((forall v, admissible n S v -> 0 <= form G v v) ->
       forall b, 0 <= b -> eps + b * epsG < mu -> forall v, admissible n S v -> nonzero n v -> 0 < form (matrix_val k) v v + b * form (matrix_val g) v v).
Proof.
  intros m pfn method alpha mfa h rho kappa s w d V SC SS SG MT PP SP BR L.
  destruct (c86_plate m pfn pfn method alpha mfa h rho kappa s V SC SS (va_props _ _ V) MT) as [m' [k0 [k [M' [K0 [K [E1 [E2 [E3 [E4 [D1 [D2 B]]]]]]]]]]]].
  destruct (c87_error m pfn pfn d h rho kappa s w V SC SG (va_props _ _ V) L) as [m2 [k2 [g [M2 [K2 [G [F1 [F2 [F3 [F4 [D3 [D4 BG]]]]]]]]]]]].
  rewrite E1 in F1. injection F1 as <- <-. rewrite E3 in F3. injection F3 as <- <-.
  exists m', k0, k, g, M', K0, K, G. repeat (split; [assumption|]). intros n S mu eps epsG HS PM ST RS RG.
  assert (AL := alpha_nonneg m s alpha SS).
  destruct (total_spec method MT (mesh_val m) pfn V (val alpha) mfa SP AL) as [M3 [K3 [K4 [G3 [G4 [D F]]]]]]. rewrite E3 in G3. injection G3 as <- <-. rewrite E4 in G4. injection G4 as <-.
  assert (SY := tot_sym method (mesh_val m) pfn (val alpha) mfa K F).
  assert (PD := tot_pd method MT (mesh_val m) pfn V (val alpha) mfa PP SP AL BR K D F S HS).
  destruct (calc_kG_spec (mesh_val m) M' pfn (map val d)) as [G' [EG [DG FG]]]; [exists pfn, K0; auto|apply (va_props _ _ V)|rewrite map_length, val_nodes; exact L|].
  rewrite F4 in EG. injection EG as <-.
  assert (SYG : forall u v, form G u v = form G v u) by (intros u v; rewrite !FG; apply kG_sym).
  assert (DD : mdim G = mdim K) by congruence.
  assert (X1 : forall v, Rabs (form (matrix_val k) v v - form K v v) <= eps * (len n v * len n v)).
  { intros v. unfold n. rewrite <- D2. apply form_diff with (plate_bound m method h rho kappa s); [cbn [matrix_val mdim]; congruence| | |unfold n in RS; rewrite <- D2 in RS; exact RS].
    - rewrite D2. intros i j Hi Hj. apply B; assumption.
    - intros. apply plate_bound_comm. }
  assert (X2 : forall v, Rabs (form (matrix_val g) v v - form G v v) <= epsG * (len n v * len n v)).
  { intros v. unfold n. rewrite <- D4. apply form_diff with (kG_bound m rho kappa s w); [cbn [matrix_val mdim]; congruence| | |unfold n in RG; rewrite <- D4 in RG; exact RG].
    - rewrite D4. intros i j Hi Hj. apply BG; assumption.
    - intros. apply kG_bound_comm. }
  assert (Y1 : forall v b, 0 <= b -> Rabs (form (matrix_val k) v v + b * form (matrix_val g) v v - (form K v v + b * form G v v)) <= (eps + b * epsG) * (len n v) ^ 2).
  { intros v b Hb. specialize (X1 v). specialize (X2 v). apply (Rmult_le_compat_l b) in X2; [|exact Hb]. rewrite <- (Rabs_right b) in X2 at 1 by lra. rewrite <- Rabs_mult in X2.
    replace (form (matrix_val k) v v + b * form (matrix_val g) v v - (form K v v + b * form G v v)) with ((form (matrix_val k) v v - form K v v) + b * (form (matrix_val g) v v - form G v v)) by ring.
    eapply Rle_trans; [apply Rabs_triang|]. lra. }
  assert (NP : forall v, nonzero n v -> 0 < len n v ^ 2).
  { intros v [i [Hi Nv]]. destruct (len_pos n v) as [P|Z]; [apply pow_lt, P|]. exfalso. apply Nv. symmetry in Z. apply (len_zero n v Z i Hi). }
  split.
  - intros N. destruct (critical K G S DD SY SYG PD) as [a [x [Ha [MO [NX [BE AB]]]]]]; [rewrite D2; exact N|]. rewrite D2 in NX, BE. fold n in NX, BE.
    exists a, x. split; [exact Ha|]. split; [exact MO|]. split; [exact NX|]. split; [|split].
    + intros a' y Ha' MY NY. assert (AY : admissible n S y) by (destruct MY as [A _]; rewrite D2 in A; exact A).
      destruct (mode_work K G S DD PD a' y MY ltac:(rewrite D2; exact NY)) as [_ Q]. assert (P := BE a' y ltac:(lra) AY NY). lra.
    + intros b Hb LT v AV NV. specialize (Y1 v b Hb). apply abs_split in Y1. specialize (NP v NV). assert (SV := ST v ltac:(rewrite D2; exact AV)). rewrite D2 in SV. fold n in SV.
      assert (C0 : 0 <= form K v v + a * form G v v).
      { apply Rnot_lt_le. intros NEG. assert (LIM : forall t, 0 < t < 1 -> 0 < form K v v + (a * t) * form G v v).
        { intros t Ht. apply BE; [|exact AV|exact NV]. split; [apply Rmult_le_pos; lra|]. rewrite <- (Rmult_1_r a) at 2. apply Rmult_lt_compat_l; lra. }
        assert (KP := proj1 (PD v ltac:(rewrite D2; exact AV))).
        set (p := form K v v) in *. set (q := a * form G v v) in *.
        assert (PQ : p + q < 0) by exact NEG.
        assert (T : 0 < p + (a * ((p + - q) / (2 * - q))) * form G v v).
        { apply LIM. split; [apply Rdiv_lt_0_compat; lra|]. apply Rmult_lt_reg_r with (2 * - q); [lra|]. unfold Rdiv. rewrite Rmult_assoc, Rinv_l by lra. lra. }
        replace (p + (a * ((p + - q) / (2 * - q))) * form G v v) with (p + q * ((p + - q) / (2 * - q))) in T by (unfold q; ring).
        replace (p + q * ((p + - q) / (2 * - q))) with ((p + q) / 2) in T by (field; lra). lra. }
      assert (EQ : form K v v + b * form G v v = (1 - b / a) * form K v v + b / a * (form K v v + a * form G v v)) by (field; lra).
      assert (BA : 0 <= b / a) by (apply Rmult_le_pos; [exact Hb|apply Rlt_le, Rinv_0_lt_compat, Ha]).
      assert (C1 := Rmult_le_pos _ _ BA C0).
      destruct (Rle_or_lt 0 (1 - b / a)) as [P|P].
      * assert (C2 := Rmult_le_compat_l _ _ _ P SV). assert (C3 := Rmult_lt_compat_r _ _ _ NP LT). lra.
      * exfalso. assert (E0 : 0 <= eps + b * epsG).
        { assert (R0 := Rle_trans _ _ _ (Rabs_pos _) (X1 v)). assert (R1 := Rle_trans _ _ _ (Rabs_pos _) (X2 v)).
          assert (Q1 : 0 <= eps) by (apply Rmult_le_reg_r with (len n v * len n v); lra).
          assert (Q2 : 0 <= epsG) by (apply Rmult_le_reg_r with (len n v * len n v); lra).
          assert (Q3 := Rmult_le_pos _ _ Hb Q2). lra. }
        assert (Q := Rmult_lt_compat_r mu _ _ PM P). lra.
    + intros b Hb LT. specialize (Y1 x b Hb). apply abs_split in Y1. specialize (NP x NX). assert (AX : admissible n S x) by (destruct MO as [A _]; rewrite D2 in A; exact A).
      assert (SV := ST x ltac:(rewrite D2; exact AX)). rewrite D2 in SV. fold n in SV.
      destruct (mode_work K G S DD PD a x MO ltac:(rewrite D2; exact NX)) as [_ Q].
      assert (EQ : form K x x + b * form G x x = - (b / a - 1) * form K x x) by (rewrite Q; field; lra).
      destruct (Rle_or_lt 0 (b / a - 1)) as [P|P].
      * assert (C2 := Rmult_le_compat_l _ _ _ P SV). assert (C3 := Rmult_lt_compat_r _ _ _ NP LT). lra.
      * exfalso. assert (E0 : 0 <= eps + b * epsG).
        { assert (R0 := Rle_trans _ _ _ (Rabs_pos _) (X1 x)). assert (R1 := Rle_trans _ _ _ (Rabs_pos _) (X2 x)).
          assert (Q1 : 0 <= eps) by (apply Rmult_le_reg_r with (len n x * len n x); lra).
          assert (Q2 : 0 <= epsG) by (apply Rmult_le_reg_r with (len n x * len n x); lra).
          assert (Q3 := Rmult_le_pos _ _ Hb Q2). lra. }
        assert (R2 := Rmult_lt_compat_r mu _ _ PM P). lra.
  - intros NN b Hb LT v AV NV. specialize (Y1 v b Hb). apply abs_split in Y1. specialize (NP v NV). assert (SV := ST v ltac:(rewrite D2; exact AV)). rewrite D2 in SV. fold n in SV.
    assert (C1 := Rmult_le_pos _ _ Hb (NN v AV)). assert (C3 := Rmult_lt_compat_r _ _ _ NP LT). lra.
Qed.

(** The same plate compressed along x: the membrane forces do negative work on the free deflection. *)
Lemma c91_buckling_ex : kG_scale fwarped 4 64 (9 / 8) fpress /\ List.length fpress = 20%nat /\ row_sums 20 (kG_bound fwarped 4 2 64 (9 / 8)) (5 / 2) /\
  forall M' K0 G, calc_k0 (mesh_val fwarped) true = (M', Ok K0) -> calc_kG (map val fpress) M' true = Ok G -> exists v, admissible 20 held v /\ form G v v < 0.
Proof.
  split; [apply w_press|]. split; [apply w_press|]. split; [exact w_rows_kG|]. intros M' K0 G F1 F2.
  destruct (c87_error fwarped true true fpress 4 4 2 64 (9 / 8) (w_valid true) w_scale (proj1 w_press) (w_props true) eq_refl) as [m' [k0 [g [M2 [K2 [G2 [E1 [E2 [E3 [E4 [D1 [D2 B]]]]]]]]]]]].
  rewrite E3 in F1. injection F1 as <- <-. rewrite E4 in F2. injection F2 as <-. change (List.length (nodes fwarped) * 5)%nat with 20%nat in *.
  exists (delta 12). assert (A : admissible 20 held (delta 12)) by (intros i Hi H; unfold held in H; unfold delta; destruct (Nat.eqb i 12); [discriminate|reflexivity]).
  split; [exact A|]. rewrite (form_12 G2 _ D2 A). change (delta 12 12) with 1. destruct (B 12%nat 12%nat) as [_ X]; [lia|lia|]. apply abs_split in X.
  assert (Z := w_g_12 m' k0 g E1 E2). assert (Y : kG_bound fwarped 4 2 64 (9 / 8) 12 12 <= 1 / 8).
  { unfold kG_bound. assert (E : shared fwarped (node_at fwarped 12) (node_at fwarped 12) = 5%nat) by (vm_compute; reflexivity). rewrite E. unfold roundoff. cbn [Nat.modulo Nat.divmod Nat.eqb andb fst snd Nat.sub INR pow]. lra. }
  lra.
Qed.
