(** Lemmas behind the properties on static and buckling problems (C68-C70). *)
(* P: Num Py Mesh Utils CalcK0 CalcKG AddK0s Spec SpecK0 SpecKG SpecK0s SpecStab SpecStat Ex ExK0 ExK0s ExStab *)
From Coq Require Import ZArith Reals List Bool Arith Lra Lia String.
From Verif Require Import Num Py Mesh Utils CalcK0 CalcKG AddK0s Spec SpecK0 SpecKG SpecK0s SpecStab SpecStat FSum FMat FDict FGeom FWf FConn FDom FAny FAsm FTensor FSmooth FRenum
  FKG FK0s FK0u FLin FLin2 FLin3 FStab FStab2 FStab3 FStab4 LK0 LKG LK0s LStab Ex ExK0 ExK0s ExStab.
Import ListNotations.
Local Open Scope R_scope.
Implicit Types (m : mesh R).

Lemma k0_sym : forall m pfn u v, k0_energy m pfn u v = k0_energy m pfn v u.
Proof. intros. unfold k0_energy. apply Sum_ext. intros k. rewrite dens_sym. reflexivity. Qed.
Lemma kG_sym : forall m pfn d u v, kG_energy m pfn d u v = kG_energy m pfn d v u.
Proof. intros. unfold kG_energy. apply Sum_ext. intros k. unfold edge_work. rewrite work_sym. reflexivity. Qed.

Section Method.
  Variable method : string.
  Hypothesis MT : In method cell_methods.
  Variable m : mesh R.
  Variable pfn : bool.
  Hypothesis V : valid m pfn.
  Variable alpha : R.
  Variable mfa : bool.
  Hypothesis PP : all_props m pos_def.
  Hypothesis SP : all_props m shear_pos.
  Hypothesis A : 0 <= alpha.
  Hypothesis BR : braced method m.
  Variable k' : matrix R.
  Hypothesis D : mdim k' = (List.length (nodes m) * 5)%nat.
  Hypothesis F : forall u v, form k' u v = k0_energy m pfn u v + shear_energy (method_strain method m) m pfn alpha mfa u v.

  Lemma tot_sym : forall u v, form k' u v = form k' v u.
  Proof. intros u v. rewrite !F, k0_sym, energy_sym. reflexivity. Qed.
  Lemma tot_pd : forall S, supported (1 + literal_error method) m S ->
    forall u, (forall i, (i < mdim k')%nat -> S i = true -> u i = 0) -> 0 <= form k' u u /\ (form k' u u = 0 -> forall i, (i < mdim k')%nat -> u i = 0).
  Proof.
    intros S HS u HU. rewrite F. split; [apply (total_nonneg method m pfn V alpha mfa PP SP A)|]. rewrite D in *. intros Z. apply HS; [|exact HU].
    apply (total_kernel method MT m pfn V alpha mfa PP SP A BR). exact Z.
  Qed.
End Method.

(** ** C68 *)

(** Linear buckling is well-behaved: for supports that allow no rigid motion all load factors are real, in a mode
    the strain energy is minus the load factor times the work of the membrane forces, and modes of different
    load factors are orthogonal in k0 and in kG. *)
Lemma c68_buckling : forall method m pfn alpha mfa, In method cell_methods -> valid m pfn ->
  all_props m pos_def -> all_props m shear_pos -> 0 <= alpha -> braced method m ->
  exists m' K k', calc_k0 m pfn = (m', Ok K) /\ add_k0s lits_src K m' pfn method alpha mfa = (k', Ok tt) /\
  forall S d, supported (1 + literal_error method) m S -> List.length d = (List.length (nodes m) * 5)%nat ->
  exists KG, calc_kG d m' pfn = Ok KG /\
    (forall a b x y, buckling_mode k' KG S a b x y -> nonzero (mdim k') x \/ nonzero (mdim k') y -> b = 0) /\
    (forall a x, buckling_mode k' KG S a 0 x (fun _ => 0) -> nonzero (mdim k') x ->
       0 < form k' x x /\ form k' x x = - a * form KG x x) /\
    (forall a1 a2 x1 x2, buckling_mode k' KG S a1 0 x1 (fun _ => 0) -> buckling_mode k' KG S a2 0 x2 (fun _ => 0) -> a1 <> a2 ->
       form k' x1 x2 = 0 /\ form KG x1 x2 = 0).
Proof.
  intros method m pfn alpha mfa MT V PP SP A BR.
  destruct (total_spec method MT m pfn V alpha mfa SP A) as [m' [K [k' [E [E' [D F]]]]]].
  exists m', K, k'. split; [exact E|]. split; [exact E'|]. intros S d HS L.
  destruct (calc_kG_spec m m' pfn d) as [KG [EG [DG FG]]]; [exists pfn, K; auto|apply (va_props _ _ V)|exact L|].
  exists KG. split; [exact EG|].
  assert (DD : mdim KG = mdim k') by congruence.
  assert (S1 := tot_sym method m pfn alpha mfa k' F).
  assert (S2 : forall u v, form KG u v = form KG v u) by (intros u v; rewrite !FG; apply kG_sym).
  assert (P := tot_pd method MT m pfn V alpha mfa PP SP A BR k' D F S HS).
  split; [|split].
  - exact (factor_real k' KG S DD S1 S2 P).
  - exact (mode_work k' KG S DD P).
  - exact (modes_orthogonal k' KG S DD S1 S2).
Qed.
Lemma c68_buckling_ex : forall pfn, valid duo pfn /\ all_props duo pos_def /\ all_props duo shear_pos /\ braced "cell-based" duo /\
  forall f, f <> 0 -> supported f duo (fun i => (i mod 5 <? 3)%nat && (i <? 15)%nat).
Proof.
  intros pfn. destruct (c66_unique_ex pfn) as [X1 [X2 [X3 [X4 _]]]]. split; [exact X1|]. split; [exact X2|]. split; [exact X3|]. split; [exact X4|].
  exact c66_six_ex.
Qed.

(** The critical load: there is a positive load factor exactly if the membrane forces do negative work on some
    displacement that respects the supports. Then there is a smallest one: with a smaller load the plate is stable
    (the energy of every displacement is positive), with a larger one the mode has negative energy. *)
Lemma c68_critical : forall method m pfn alpha mfa, In method cell_methods -> valid m pfn ->
  all_props m pos_def -> all_props m shear_pos -> 0 <= alpha -> braced method m ->
  exists m' K k', calc_k0 m pfn = (m', Ok K) /\ add_k0s lits_src K m' pfn method alpha mfa = (k', Ok tt) /\
  forall S d, supported (1 + literal_error method) m S -> List.length d = (List.length (nodes m) * 5)%nat ->
  exists KG, calc_kG d m' pfn = Ok KG /\
    ((exists v, admissible (mdim k') S v /\ form KG v v < 0) <->
     (exists a x, 0 < a /\ buckling_mode k' KG S a 0 x (fun _ => 0) /\ nonzero (mdim k') x)) /\
    ((exists v, admissible (mdim k') S v /\ form KG v v < 0) ->
     exists a x, 0 < a /\ buckling_mode k' KG S a 0 x (fun _ => 0) /\ nonzero (mdim k') x /\
      (forall b v, 0 <= b < a -> admissible (mdim k') S v -> nonzero (mdim k') v -> 0 < form k' v v + b * form KG v v) /\
      (forall b, a < b -> form k' x x + b * form KG x x < 0)).
Proof.
  intros method m pfn alpha mfa MT V PP SP A BR.
  destruct (total_spec method MT m pfn V alpha mfa SP A) as [m' [K [k' [E [E' [D F]]]]]].
  exists m', K, k'. split; [exact E|]. split; [exact E'|]. intros S d HS L.
  destruct (calc_kG_spec m m' pfn d) as [KG [EG [DG FG]]]; [exists pfn, K; auto|apply (va_props _ _ V)|exact L|].
  exists KG. split; [exact EG|].
  assert (DD : mdim KG = mdim k') by congruence.
  assert (S1 := tot_sym method m pfn alpha mfa k' F).
  assert (S2 : forall u v, form KG u v = form KG v u) by (intros u v; rewrite !FG; apply kG_sym).
  assert (P := tot_pd method MT m pfn V alpha mfa PP SP A BR k' D F S HS).
  assert (C := critical k' KG S DD S1 S2 P).
  split; [|exact C]. split.
  - intros X. destruct (C X) as [a [x [Ha [M [N _]]]]]. exists a, x. auto.
  - intros [a [x [Ha [M N]]]]. exists x. split; [apply M|]. destruct (mode_work k' KG S DD P a x M N) as [Q1 Q2].
    apply Rnot_le_lt. intros G. assert (Y := Rmult_le_pos a _ (Rlt_le _ _ Ha) G). lra.
Qed.
(** the square of two triangles, clamped in one node, under compression along x *)
Lemma c68_critical_ex : forall m' K, calc_k0 duo true = (m', Ok K) ->
  let d := list_of 20 (field duo (fun i n => match i with 0%nat => - vx (pos duo n) | _ => 0 end)) in
  exists KG v, calc_kG d m' true = Ok KG /\ admissible 20 (fun i => (i <? 7)%nat) v /\ form KG v v < 0.
Proof.
  intros m' K E d.
  assert (AF : affine_field duo (vec_of d) (fun _ => 0) (fun i => match i with 0%nat => -1 | _ => 0 end) (fun _ => 0)).
  { intros i n Hi _ Hn. unfold d. change 20%nat with (List.length (nodes duo) * 5)%nat. rewrite comp_list, field_comp by assumption.
    unfold affine. destruct i; ring. }
  destruct (c44_uniform duo m' true d (ex_prop 1) _ _ _ (ex_intro _ true (ex_intro _ K (conj (two_valid _ true) E)))
    (va_props _ _ (two_valid _ true)) eq_refl (with_one two_read (ex_prop 1) _ two_wf eq_refl) AF) as [KG [EG [_ F]]].
  set (v := field duo (fun i n => match i with 2%nat => vx (pos duo n) | _ => 0 end)).
  assert (AV : affine_w duo v 0 1 0).
  { intros n Hn. unfold v. rewrite field_comp by (auto; lia). unfold affine. ring. }
  exists KG, v. split; [exact EG|]. split.
  - intros i _ Hi. apply Nat.ltb_lt in Hi.
    destruct i as [|[|[|[|[|[|[|i]]]]]]]; try reflexivity; lia.
  - rewrite (F v v _ _ _ _ _ _ AV AV).
    assert (TA : total_area duo = 1).
    { destruct duo_pos as [P1 [P2 [P3 P4]]]. unfold total_area. rewrite duo_trias. rewrite !Sum_cons, Sum_nil.
      unfold tarea, tdet. change (tn1 (duo_t 0)) with 1%nat. change (tn2 (duo_t 0)) with 2%nat. change (tn3 (duo_t 0)) with 3%nat.
      change (tn1 (duo_t 1)) with 1%nat. change (tn2 (duo_t 1)) with 3%nat. change (tn3 (duo_t 1)) with 4%nat. rewrite P1, P2, P3, P4.
      unfold det2; cbn [vx vy]. match goal with |- Rabs ?a / 2 + (Rabs ?b / 2 + 0) = 1 => replace a with 1 by ring; replace b with 1 by ring end.
      rewrite Rabs_R1. lra. }
    rewrite TA. unfold work, membrane, affine_strain; cbn. lra.
Qed.

(** The buckling load does not depend on the reference load: for c times the displacements the modes are the same
    and the load factors are divided by c. *)
Lemma c68_proportional : forall m m' pfn K S c d dc, prepared_from m m' -> props_complete m pfn ->
  List.length d = (List.length (nodes m) * 5)%nat -> List.length dc = List.length d -> mdim K = List.length d ->
  c <> 0 -> (forall i, vec_of dc i = c * vec_of d i) ->
  exists KG KGc, calc_kG d m' pfn = Ok KG /\ calc_kG dc m' pfn = Ok KGc /\
  forall a b x y, buckling_mode K KG S a b x y <-> buckling_mode K KGc S (a / c) (b / c) x y.
Proof.
  intros m m' pfn K S c d dc P PC L Lc DK NZ H.
  destruct (c42_linear m m' pfn dc d d c 0 P PC ltac:(congruence) ltac:(congruence) ltac:(congruence)) as [KGc [KG [KG' [E [E1 [E2 [D1 [_ LIN]]]]]]]].
  { intros i. rewrite H. ring. }
  exists KG, KGc. split; [exact E1|]. split; [exact E|].
  destruct (calc_kG_spec m m' pfn d P PC L) as [KG0 [E0 [D0 _]]]. rewrite E1 in E0. injection E0 as <-.
  assert (DD : mdim KG = mdim K) by congruence. assert (DDc : mdim KGc = mdim K) by congruence.
  assert (MV : forall v i, (i < mdim K)%nat -> mulv KGc v i = c * mulv KG v i).
  { intros v i Hi. unfold mulv. rewrite DD, DDc, <- Sum_scal. apply Sum_ext_in. intros j Hj. apply in_seq in Hj.
    rewrite (LIN i j) by (rewrite DDc; lia). ring. }
  intros a b x y. unfold buckling_mode. split; intros [Ax [Ay B]]; (split; [exact Ax|]; split; [exact Ay|]; intros i Hi Si);
    destruct (B i Hi Si) as [B1 B2]; rewrite !MV in * by exact Hi.
  - replace (a / c * (c * mulv KG x i) - b / c * (c * mulv KG y i)) with (a * mulv KG x i - b * mulv KG y i) by (field; exact NZ).
    replace (a / c * (c * mulv KG y i) + b / c * (c * mulv KG x i)) with (a * mulv KG y i + b * mulv KG x i) by (field; exact NZ). auto.
  - replace (a / c * (c * mulv KG x i) - b / c * (c * mulv KG y i)) with (a * mulv KG x i - b * mulv KG y i) in B1 by (field; exact NZ).
    replace (a / c * (c * mulv KG y i) + b / c * (c * mulv KG x i)) with (a * mulv KG y i + b * mulv KG x i) in B2 by (field; exact NZ). auto.
Qed.
Lemma c68_proportional_ex : (exists m', prepared_from ex_mesh m') /\ props_complete ex_mesh true /\
  (forall i, vec_of (list_of 30 (fun i => 2 * ex_lin i)) i = 2 * vec_of (list_of 30 ex_lin) i).
Proof.
  split; [apply (prepare ex_mesh true (ex_valid true))|]. split; [apply ex_props|]. intros i.
  destruct (Nat.lt_ge_cases i 30) as [L|L]; [rewrite !vec_list by exact L; reflexivity|].
  unfold vec_of, list_of. rewrite !nth_overflow by (rewrite map_length, seq_length; exact L). ring.
Qed.

(** ** C69 *)

(** Reciprocity: the work of the first loads on the displacements of the second is that of the second loads on the
    displacements of the first. *)
Lemma c69_reciprocity : forall method m pfn alpha mfa, In method cell_methods -> valid m pfn -> all_props m shear_pos -> 0 <= alpha ->
  exists m' K k', calc_k0 m pfn = (m', Ok K) /\ add_k0s lits_src K m' pfn method alpha mfa = (k', Ok tt) /\
  forall S l1 l2 d1 d2, solves k' S l1 d1 -> solves k' S l2 d2 -> load_work (mdim k') l1 d2 = load_work (mdim k') l2 d1.
Proof.
  intros method m pfn alpha mfa MT V SP A.
  destruct (total_spec method MT m pfn V alpha mfa SP A) as [m' [K [k' [E [E' [D F]]]]]].
  exists m', K, k'. split; [exact E|]. split; [exact E'|]. intros S l1 l2 d1 d2.
  apply (reciprocity k' S (tot_sym method m pfn alpha mfa k' F)).
Qed.
Lemma c69_reciprocity_ex : forall pfn, valid ex_mesh pfn /\ all_props ex_mesh shear_pos.
Proof. intros pfn. split; [apply ex_valid|exact ex_all_sp]. Qed.

(** Minimum of the potential energy: the solution is the displacement that respects the supports and has the least
    strain energy minus work of the loads; this is minus half of the work of the loads. *)
Lemma c69_minimum : forall method m pfn alpha mfa, In method cell_methods -> valid m pfn ->
  all_props m pos_def -> all_props m shear_pos -> 0 <= alpha -> braced method m ->
  exists m' K k', calc_k0 m pfn = (m', Ok K) /\ add_k0s lits_src K m' pfn method alpha mfa = (k', Ok tt) /\
  forall S load d, supported (1 + literal_error method) m S -> solves k' S load d ->
    potential k' load d = - load_work (mdim k') load d / 2 /\
    forall v, admissible (mdim k') S v -> potential k' load d <= potential k' load v /\
      (potential k' load v = potential k' load d -> forall i, (i < mdim k')%nat -> v i = d i).
Proof.
  intros method m pfn alpha mfa MT V PP SP A BR.
  destruct (total_spec method MT m pfn V alpha mfa SP A) as [m' [K [k' [E [E' [D F]]]]]].
  exists m', K, k'. split; [exact E|]. split; [exact E'|]. intros S load d HS HD.
  assert (S1 := tot_sym method m pfn alpha mfa k' F).
  split; [apply (potential_sol k' S load d HD)|]. intros v Av.
  assert (X := potential_at k' S S1 load d v HD Av).
  set (e := fun i => 1 * v i + -1 * d i) in *.
  assert (Ae : forall i, (i < mdim k')%nat -> S i = true -> e i = 0).
  { intros i Hi Si. unfold e. rewrite (Av i Hi Si), (solves_admissible k' S load d HD i Hi Si). ring. }
  destruct (tot_pd method MT m pfn V alpha mfa PP SP A BR k' D F S HS e Ae) as [P Z].
  split; [lra|]. intros Q i Hi. assert (R0 : form k' e e = 0) by lra. specialize (Z R0 i Hi). unfold e in Z. lra.
Qed.
Lemma c69_minimum_ex : forall pfn, valid duo pfn /\ all_props duo pos_def /\ all_props duo shear_pos /\ braced "cell-based" duo /\
  forall f, supported f duo (fun i => (i <? 7)%nat).
Proof.
  intros pfn. destruct (c66_unique_ex pfn) as [X1 [X2 [X3 [X4 _]]]]. split; [exact X1|]. split; [exact X2|]. split; [exact X3|]. split; [exact X4|].
  exact c66_clamped_ex.
Qed.

(** ** C70 *)

Lemma wp_base : forall m np tp pfn, valid (with_props np tp m) pfn -> wf_mesh m /\ plate m /\ nodes m <> [].
Proof.
  intros m np tp pfn V.
  assert (W : wf_mesh m) by (apply (conn_wf _ _ (conn_sym _ _ (wp_conn m np tp)) (va_wf _ _ V))).
  split; [exact W|]. split.
  - assert (Q := va_plate _ _ V). constructor.
    + destruct (pl_flat _ Q) as [z H]. exists z. intros n. rewrite <- (wp_keys m np tp), <- (wp_pos m np tp). apply H.
    + intros t Ht. assert (H := pl_nondeg _ Q (wp_tria tp t)). rewrite (wp_trias m W) in H.
      specialize (H (in_map _ _ _ Ht)). unfold tdet in H. rewrite wp_pos in H. exact H.
    + intros k Hk. assert (H := pl_two _ Q k Hk). rewrite (wp_tris_on m W), map_length in H. exact H.
    + intros k t1 t2 Hk T. assert (H := pl_sides _ Q k (wp_tria tp t1) (wp_tria tp t2) Hk).
      rewrite (wp_tris_on m W), T in H. specialize (H eq_refl). rewrite wp_pos in H. exact H.
  - intros N. apply (va_nodes _ _ V). cbn [with_props nodes]. rewrite N. reflexivity.
Qed.

Section Stiffer.
  Variable m : mesh R.
  Variables np1 tp1 np2 tp2 : nat -> option (prop R).
  Variable pfn : bool.
  Hypothesis HN : forall n, rel_opt stiffer (np1 n) (np2 n).
  Hypothesis HT : forall e, rel_opt stiffer (tp1 e) (tp2 e).
  Notation m1 := (with_props np1 tp1 m).
  Notation m2 := (with_props np2 tp2 m).
  Hypothesis V : valid m1 pfn.

  Definition sub3 (a b : mat3 R) : mat3 R := lin3 1 (-1) a b.
  Definition gain (p1 p2 : prop R) : prop R :=
    {| pA := sub3 (pA p2) (pA p1); pB := sub3 (pB p2) (pB p1); pD := sub3 (pD p2) (pD p1); pE := pE p1; ph := ph p1; pk13 := pk13 p1; pk23 := pk23 p1 |}.
  Definition gain_opt (o1 o2 : option (prop R)) : option (prop R) := match o1, o2 with Some p1, Some p2 => Some (gain p1 p2) | _, _ => None end.
  Lemma gain_lin : forall o1 o2, rel_opt stiffer o1 o2 -> lin_opt 1 (-1) o1 o2 (gain_opt o1 o2).
  Proof.
    assert (X : forall a b : mat3 R, a = lin3 1 (-1) b (sub3 b a)) by (intros [] []; unfold sub3, lin3; cbn; f_equal; ring).
    intros [p1|] [p2|] H; cbn in *; auto. unfold lin_prop, gain; cbn. repeat split; apply X.
  Qed.
  Lemma gain_psd : forall p1 p2, stiffer p1 p2 -> psd (gain p1 p2).
  Proof.
    intros p1 p2 [H _] e. specialize (H e). unfold gain, sub3; cbn [pA pB pD]. rewrite dens_lin. lra.
  Qed.
  Let W := proj1 (wp_base m np1 tp1 pfn V).
  Let npd n := gain_opt (np1 n) (np2 n).
  Let tpd e := gain_opt (tp1 e) (tp2 e).
  Lemma stiffer_valid : valid m2 pfn /\ valid (with_props npd tpd m) pfn.
  Proof.
    destruct (wp_base m np1 tp1 pfn V) as [W' [PL N0]].
    destruct (wp_complete m W np1 tp1 np2 tp2 npd tpd 1 (-1) (fun n => gain_lin _ _ (HN n)) (fun e => gain_lin _ _ (HT e)) pfn (va_props _ _ V)) as [P2 Pd].
    assert (VV : forall np0 tp0, props_complete (with_props np0 tp0 m) pfn -> valid (with_props np0 tp0 m) pfn).
    { intros np0 tp0 P0. constructor; [apply wp_wf, W'|apply wp_plate; assumption|exact P0|].
      cbn [with_props nodes]. destruct (nodes m); [congruence|discriminate]. }
    split; apply VV; assumption.
  Qed.
  Lemma k0_grows : forall u, k0_energy m1 pfn u u <= k0_energy m2 pfn u u.
  Proof.
    intros u. rewrite (wp_energy m W np1 tp1 np2 tp2 npd tpd 1 (-1) (fun n => gain_lin _ _ (HN n)) (fun e => gain_lin _ _ (HT e))).
    assert (X : 0 <= k0_energy (with_props npd tpd m) pfn u u); [|lra].
    assert (Vd := proj2 stiffer_valid). unfold k0_energy. apply Sum_nonneg. intros k Hk.
    apply Rmult_le_pos; [apply Rlt_le, (dom_area_pos _ (va_wf _ _ Vd) (va_plate _ _ Vd) k Hk)|]. apply stiffness_psd; [exact Vd| |exact Hk].
    assert (GP : forall o1 o2 p, rel_opt stiffer o1 o2 -> gain_opt o1 o2 = Some p -> psd p).
    { intros [p1|] [p2|] p H; cbn in *; try discriminate. intros Q; injection Q as <-. apply gain_psd, H. }
    split.
    - intros n p. unfold nodeprop. rewrite (wp_dget m). destruct (dget Nat.eqb n (nodes m)); cbn; [|discriminate]. apply GP, HN.
    - intros t p. rewrite (wp_trias m W). intros Ht. apply in_map_iff in Ht. destruct Ht as [t0 [<- _]]. cbn. apply GP, HT.
  Qed.

  Lemma val_grows : forall (f : prop R -> R) t, In t (trias_of m) -> (forall p q, stiffer p q -> f p <= f q) ->
    tria_val m1 pfn f (wp_tria tp1 t) <= tria_val m2 pfn f (wp_tria tp2 t).
  Proof.
    intros f t Ht G. assert (W' := W). clear W V.
    assert (PV : forall o o', rel_opt stiffer o o' -> pval f o <= pval f o') by (intros [p|] [q|] H; cbn in *; try contradiction; auto; lra).
    unfold tria_val. destruct pfn; cbn [wp_tria tn1 tn2 tn3 tprop].
    - assert (VX : forall n, vertex t n -> In n (node_keys m)) by (intros n; apply (wf_vertices m W' t n Ht)).
      rewrite !wp_prop by (apply VX; unfold vertex; auto).
      assert (P1 := PV _ _ (HN (tn1 t))). assert (P2 := PV _ _ (HN (tn2 t))). assert (P3 := PV _ _ (HN (tn3 t))). lra.
    - apply PV, HT.
  Qed.

  Lemma shear_grows : forall method alpha mfa u, In method cell_methods -> thick m1 -> stiff m1 -> 0 <= alpha ->
    shear_energy (method_strain method m1) m1 pfn alpha mfa u u <= shear_energy (method_strain method m2) m2 pfn alpha mfa u u.
  Proof.
    intros method alpha mfa u MT TH ST A. unfold shear_energy. rewrite !(wp_trias m W), !Sum_map. apply Sum_le. intros t Ht.
    assert (Ht1 : In (wp_tria tp1 t) (trias_of m1)) by (rewrite (wp_trias m W); apply in_map, Ht).
    assert (GM : forall np tp, method_strain method (with_props np tp m) u (wp_tria tp t) = method_strain method m u t).
    { intros np tp. unfold method_strain. destruct (String.eqb method "cell-based"); [apply wp_cell|apply wp_ns]. }
    rewrite !GM. set (g := method_strain method m u t).
    assert (EH : tria_val m2 pfn ph (wp_tria tp2 t) = tria_val m1 pfn ph (wp_tria tp1 t)).
    { symmetry. apply (wp_val m W np1 tp1 np2 tp2 pfn stiffer ph ph t Ht HN HT). intros p q Q. symmetry. apply Q. }
    rewrite EH.
    assert (ES : tria_size m2 mfa (wp_tria tp2 t) = tria_size m1 mfa (wp_tria tp1 t)) by (unfold tria_size, dist, tarea, tdet; rewrite !wp_pos; reflexivity).
    assert (EA : tarea m2 (wp_tria tp2 t) = tarea m1 (wp_tria tp1 t)) by (unfold tarea, tdet; rewrite !wp_pos; reflexivity).
    rewrite ES, EA.
    assert (C := corr_range alpha (tria_val m1 pfn ph (wp_tria tp1 t)) (tria_size m1 mfa (wp_tria tp1 t)) A
       (thickness m1 pfn _ (va_wf _ _ V) (va_props _ _ V) TH Ht1)).
    assert (AR := area_pos m1 (va_plate _ _ V) _ Ht1).
    apply Rmult_le_compat_l; [apply Rmult_le_pos; lra|].
    assert (NN : forall f, (forall p, 0 <= pk13 p /\ 0 <= pk23 p /\ 0 <= e00 (pE p) /\ 0 <= e11 (pE p) -> 0 <= f p) -> 0 <= tria_val m1 pfn f (wp_tria tp1 t)).
    { intros f Hf. apply tria_val_nonneg; [|exact Ht1]. refine (all_imp m1 _ _ _ ST). exact Hf. }
    assert (G4 : tria_G44 m1 pfn (wp_tria tp1 t) <= tria_G44 m2 pfn (wp_tria tp2 t)).
    { unfold tria_G44. apply Rmult_le_compat; [apply NN; tauto|apply (NN (fun p => e00 (pE p))); tauto|apply val_grows; [exact Ht|]|apply (val_grows (fun p => e00 (pE p))); [exact Ht|]];
        intros p q Q; apply Q. }
    assert (G5 : tria_G55 m1 pfn (wp_tria tp1 t) <= tria_G55 m2 pfn (wp_tria tp2 t)).
    { unfold tria_G55. apply Rmult_le_compat; [apply NN; tauto|apply (NN (fun p => e11 (pE p))); tauto|apply val_grows; [exact Ht|]|apply (val_grows (fun p => e11 (pE p))); [exact Ht|]];
        intros p q Q; apply Q. }
    rewrite !Rmult_assoc. apply Rplus_le_compat; (apply Rmult_le_compat_r; [apply Rle_0_sqr|assumption]).
  Qed.
  Lemma stiffer_thick : thick m1 -> thick m2.
  Proof.
    intros [T1 T2].
    split.
    - intros n p. unfold nodeprop. rewrite (wp_dget m). intros Q. specialize (T1 n). unfold nodeprop in T1. rewrite (wp_dget m) in T1.
      destruct (dget Nat.eqb n (nodes m)) eqn:E; cbn in *; [|discriminate]. specialize (HN n). rewrite Q in HN.
      destruct (np1 n) as [p1|] eqn:E1; cbn in HN; [|contradiction]. destruct HN as [_ [-> _]]. apply (T1 p1). reflexivity.
    - intros t p Ht Q. rewrite (wp_trias m W) in Ht. apply in_map_iff in Ht. destruct Ht as [t0 [<- Ht0]]. cbn in Q.
      specialize (HT (eid t0)). rewrite Q in HT. destruct (tp1 (eid t0)) as [p1|] eqn:E1; cbn in HT; [|contradiction]. destruct HT as [_ [-> _]].
      apply (T2 (wp_tria tp1 t0) p1); [rewrite (wp_trias m W); apply in_map, Ht0|exact E1].
  Qed.
End Stiffer.

(** Stiffening never softens: with laminates that are at least as stiff everywhere (and of the same thickness) the energy
    of every displacement is at least as large, and the work of any loads on their displacements (the compliance) is not larger. *)
Lemma c70_stiffer : forall method m np1 tp1 np2 tp2 pfn alpha mfa, In method cell_methods ->
  let m1 := with_props np1 tp1 m in let m2 := with_props np2 tp2 m in
  valid m1 pfn -> all_props m1 psd -> thick m1 -> stiff m1 -> 0 <= alpha ->
  (forall n, rel_opt stiffer (np1 n) (np2 n)) -> (forall e, rel_opt stiffer (tp1 e) (tp2 e)) ->
  exists m1' K1 k1 m2' K2 k2,
    calc_k0 m1 pfn = (m1', Ok K1) /\ add_k0s lits_src K1 m1' pfn method alpha mfa = (k1, Ok tt) /\
    calc_k0 m2 pfn = (m2', Ok K2) /\ add_k0s lits_src K2 m2' pfn method alpha mfa = (k2, Ok tt) /\
    mdim k2 = mdim k1 /\ (forall u, form K1 u u <= form K2 u u) /\ (forall u, form k1 u u <= form k2 u u) /\
    forall S load d1 d2, solves k1 S load d1 -> solves k2 S load d2 -> load_work (mdim k1) load d2 <= load_work (mdim k1) load d1.
Proof.
  intros method m np1 tp1 np2 tp2 pfn alpha mfa MT m1 m2 V PS TH ST A HN HT.
  assert (V2 := proj1 (stiffer_valid m np1 tp1 np2 tp2 pfn HN HT V)).
  assert (TH2 := stiffer_thick m np1 tp1 np2 tp2 pfn HN HT V TH).
  assert (TS : forall mm, valid mm pfn -> thick mm -> exists m' K k', calc_k0 mm pfn = (m', Ok K) /\ add_k0s lits_src K m' pfn method alpha mfa = (k', Ok tt) /\
    mdim k' = (List.length (nodes mm) * 5)%nat /\ (forall u v, form K u v = k0_energy mm pfn u v) /\
    forall u v, form k' u v = k0_energy mm pfn u v + shear_energy (method_strain method mm) mm pfn alpha mfa u v).
  { intros mm VM TM. destruct (valid_spec mm pfn VM) as [m' [K [E [D [F _]]]]].
    assert (C : call_ok mm m' pfn alpha K).
    { constructor; [exists pfn, K; auto|exact (va_props _ _ VM)|exact TM|exact A|exact D]. }
    destruct (cell_methods_add method mm m' pfn alpha mfa K MT C) as [k' [E' [D' F']]]. exists m', K, k'.
    split; [exact E|]. split; [exact E'|]. split; [congruence|]. split; [exact F|]. intros u v. rewrite F', F. reflexivity. }
  destruct (TS m1 V TH) as [m1' [K1 [k1 [E1 [E1' [D1 [F1 F1']]]]]]]. destruct (TS m2 V2 TH2) as [m2' [K2 [k2 [E2 [E2' [D2 [F2 F2']]]]]]].
  exists m1', K1, k1, m2', K2, k2. split; [exact E1|]. split; [exact E1'|]. split; [exact E2|]. split; [exact E2'|].
  assert (D : mdim k2 = mdim k1) by (rewrite D1, D2; unfold m1, m2; cbn [with_props nodes]; rewrite !map_length; reflexivity).
  split; [exact D|].
  assert (G0 : forall u, form K1 u u <= form K2 u u) by (intros u; rewrite F1, F2; apply (k0_grows m np1 tp1 np2 tp2 pfn HN HT V)).
  assert (G1 : forall u, form k1 u u <= form k2 u u).
  { intros u. specialize (G0 u). rewrite F1, F2 in G0. rewrite F1', F2'.
    assert (X := shear_grows m np1 tp1 np2 tp2 pfn HN HT V method alpha mfa u MT TH ST A). fold m1 m2 in X. lra. }
  split; [exact G0|]. split; [exact G1|]. intros S load d1 d2. apply (compliance k1 k2 S load d1 d2 D).
  - intros u v. rewrite !F1', k0_sym, energy_sym. reflexivity.
  - intros u. rewrite F1'.
    assert (X : 0 <= k0_energy m1 pfn u u).
    { unfold k0_energy. apply Sum_nonneg. intros k Hk.
      apply Rmult_le_pos; [apply Rlt_le, (dom_area_pos _ (va_wf _ _ V) (va_plate _ _ V) k Hk)|apply stiffness_psd; assumption]. }
    assert (Y := energy_nonneg (method_strain method m1) m1 pfn alpha mfa u (va_wf _ _ V) (va_props _ _ V) TH ST A). lra.
  - exact G1.
Qed.
(** the laminates of Ex.v: ex_prop 1 below ex_prop 3 in the nodes with even numbers *)
Lemma c70_stiffer_ex : forall pfn, let np1 (n : nat) := Some (ex_prop 1) in
  let np2 (n : nat) := Some (ex_prop (if Nat.even n then 3 else 1)) in
  valid (with_props np1 np1 ex_mesh) pfn /\ all_props (with_props np1 np1 ex_mesh) psd /\
  thick (with_props np1 np1 ex_mesh) /\ stiff (with_props np1 np1 ex_mesh) /\ forall n, rel_opt stiffer (np1 n) (np2 n).
Proof.
  intros pfn np1 np2. split; [apply ex_with_valid; discriminate|].
  split; [apply with_one; [apply ex_wf|apply ex_psd; lra]|]. split; [apply with_one; [apply ex_wf|cbn; lra]|].
  split; [apply with_one; [apply ex_wf|cbn; lra]|]. intros n. cbn.
  assert (X : forall e, 0 <= dens (pA (ex_prop 1)) (pB (ex_prop 1)) (pD (ex_prop 1)) e e) by (apply ex_psd; lra).
  assert (Y : forall e, dens (pA (ex_prop 3)) (pB (ex_prop 3)) (pD (ex_prop 3)) e e = 3 * dens (pA (ex_prop 1)) (pB (ex_prop 1)) (pD (ex_prop 1)) e e)
    by (intros e; unfold dens, quad3, ex_prop; cbn; ring).
  destruct (Nat.even n); unfold stiffer; repeat split; try (cbn; lra); intros e; [rewrite Y; specialize (X e); lra|lra].
Qed.
