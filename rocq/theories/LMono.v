(** Lemmas behind the comparison of the answers of static and buckling problems (C93). *)
(* P: Num Py Mesh Utils CalcK0 CalcKG AddK0s Spec SpecK0 SpecKG SpecK0s SpecStab SpecStat SpecMono Ex ExK0 ExK0s ExStab ExMono *)
From Coq Require Import ZArith Reals List Bool Arith Lra Lia String.
From Verif Require Import Num Py Mesh Utils CalcK0 CalcKG AddK0s Spec SpecK0 SpecKG SpecK0s SpecStab SpecStat SpecMono
  FSum FMat FDict FGeom FWf FConn FDom FAny FAsm FTensor FSmooth FRenum FKG FK0s FK0u FLin FLin2 FLin3 FStab FStab2 FStab3 FStab4 LK0 LKG LK0s LStab LStat FMono Ex ExK0 ExK0s ExStab ExMono.
Import ListNotations.
Local Open Scope R_scope.

(** ** C93 *)

(** More supports: the compliance is not larger; a plate that buckles with more supports also buckles with fewer, at a load that is not larger. *)
Lemma c93_supports : forall method m pfn alpha mfa, In method cell_methods -> valid m pfn ->
  all_props m pos_def -> all_props m shear_pos -> 0 <= alpha -> braced method m ->
  exists m' K k, calc_k0 m pfn = (m', Ok K) /\ add_k0s lits_src K m' pfn method alpha mfa = (k, Ok tt) /\
  forall S S', supported (1 + literal_error method) m S -> more_supports (mdim k) S S' ->
    (forall load d d', solves k S load d -> solves k S' load d' -> load_work (mdim k) load d' <= load_work (mdim k) load d) /\
    forall d, List.length d = (List.length (nodes m) * 5)%nat -> exists KG, calc_kG d m' pfn = Ok KG /\
      forall a', critical_factor k KG S' a' -> exists a, critical_factor k KG S a /\ a <= a'.
Proof.
  intros method m pfn alpha mfa MT V PP SP A BR.
  destruct (total_spec method MT m pfn V alpha mfa SP A) as [m' [K [k [E [E' [D F]]]]]].
  exists m', K, k. split; [exact E|]. split; [exact E'|]. intros S S' HS MS.
  assert (S1 := tot_sym method m pfn alpha mfa k F). assert (P := tot_pd method MT m pfn V alpha mfa PP SP A BR k D F S HS).
  split.
  - intros load d d' H H'. apply (compliance_less k k S S' eq_refl S1 MS P (fun u => Rle_refl _) load d d' H H').
  - intros d L. destruct (calc_kG_spec m m' pfn d) as [KG [EG [DG FG]]]; [exists pfn, K; auto|apply (va_props _ _ V)|exact L|]. exists KG. split; [exact EG|].
    assert (S2 : forall u v, form KG u v = form KG v u) by (intros u v; rewrite !FG; apply kG_sym). assert (DD : mdim KG = mdim k) by congruence.
    intros a' C. apply (factor_least k k KG KG S S' eq_refl DD DD S1 S2 (fun u v => eq_refl) MS P (fun u => Rle_refl _) a' C).
Qed.

(** A larger alpha: the compliance is not smaller, the critical load factor not larger, and there is one or there is none for both. *)
Lemma c93_alpha : forall method m pfn alpha beta mfa, In method cell_methods -> valid m pfn ->
  all_props m pos_def -> all_props m shear_pos -> 0 <= alpha <= beta -> braced method m ->
  exists m' K ka kb, calc_k0 m pfn = (m', Ok K) /\ add_k0s lits_src K m' pfn method alpha mfa = (ka, Ok tt) /\ add_k0s lits_src K m' pfn method beta mfa = (kb, Ok tt) /\
  forall S, supported (1 + literal_error method) m S ->
    (forall load da db, solves ka S load da -> solves kb S load db -> load_work (mdim ka) load da <= load_work (mdim ka) load db) /\
    forall d, List.length d = (List.length (nodes m) * 5)%nat -> exists KG, calc_kG d m' pfn = Ok KG /\
      (forall a, critical_factor ka KG S a -> exists b, critical_factor kb KG S b /\ b <= a) /\
      forall b, critical_factor kb KG S b -> exists a, critical_factor ka KG S a.
Proof.
  intros method m pfn alpha beta mfa MT V PP SP A BR.
  destruct (total_spec method MT m pfn V alpha mfa SP (proj1 A)) as [m' [K [ka [E [Ea [Da Fa]]]]]].
  destruct (total_spec method MT m pfn V beta mfa SP ltac:(lra)) as [m2 [K2 [kb [E2 [Eb [Db Fb]]]]]]. rewrite E in E2. injection E2 as <- <-.
  exists m', K, ka, kb. split; [exact E|]. split; [exact Ea|]. split; [exact Eb|]. intros S HS.
  assert (S1 := tot_sym method m pfn alpha mfa ka Fa). assert (S2 := tot_sym method m pfn beta mfa kb Fb).
  assert (P := tot_pd method MT m pfn V beta mfa PP SP ltac:(lra) BR kb Db Fb S HS). assert (DD : mdim ka = mdim kb) by congruence.
  assert (LE : forall u, form kb u u <= form ka u u).
  { assert (ST : stiff m) by (refine (all_imp m shear_pos _ _ SP); intros p Q; destruct Q as [_ [Q1 [Q2 [Q3 Q4]]]]; repeat split; lra).
    destruct (valid_spec m pfn V) as [m3 [K3 [E3 [D3 _]]]]. rewrite E in E3. injection E3 as <- <-.
    assert (C : call_ok m m' pfn alpha K) by (constructor; [exists pfn, K; auto|exact (va_props _ _ V)|apply sp_thick, SP|lra|exact D3]).
    destruct (c36_cell_monotone method m m' pfn mfa K alpha beta MT C (proj2 A) ST) as [xa [xb [G1 [G2 G]]]]. rewrite Ea in G1. rewrite Eb in G2. injection G1 as <-. injection G2 as <-.
    intros u. apply G. }
  assert (MS : more_supports (mdim kb) S S) by (intros i _ H; exact H).
  split.
  - intros load da db Ha Hb. rewrite DD. exact (compliance_less kb ka S S DD S2 MS P LE load db da Hb Ha).
  - intros d L. destruct (calc_kG_spec m m' pfn d) as [KG [EG [DG FG]]]; [exists pfn, K; auto|apply (va_props _ _ V)|exact L|]. exists KG. split; [exact EG|].
    assert (SG : forall u v, form KG u v = form KG v u) by (intros u v; rewrite !FG; apply kG_sym). assert (DK : mdim KG = mdim kb) by congruence.
    split.
    + intros a C. exact (factor_least kb ka KG KG S S DD DK DK S2 SG (fun u v => eq_refl) MS P LE a C).
    + intros b C. exact (factor_exists kb ka KG KG S S DD DK DK S1 SG (fun u v => eq_refl) MS P LE (fun i _ => eq_refl) b C).
Qed.

(** Laminates that are at least as stiff, with the same membrane and coupling stiffness and the same thickness: the critical load factor
    is not smaller, and there is one or there is none for both. *)
Lemma c93_stiffer : forall method m np1 tp1 np2 tp2 pfn alpha mfa, In method cell_methods ->
  let m1 := with_props np1 tp1 m in let m2 := with_props np2 tp2 m in
  valid m1 pfn -> all_props m1 pos_def -> all_props m1 shear_pos -> 0 <= alpha -> braced method m1 ->
  (forall n, rel_opt stiffer_bending (np1 n) (np2 n)) -> (forall e, rel_opt stiffer_bending (tp1 e) (tp2 e)) ->
  exists m1' K1 k1 m2' K2 k2,
    calc_k0 m1 pfn = (m1', Ok K1) /\ add_k0s lits_src K1 m1' pfn method alpha mfa = (k1, Ok tt) /\
    calc_k0 m2 pfn = (m2', Ok K2) /\ add_k0s lits_src K2 m2' pfn method alpha mfa = (k2, Ok tt) /\
    forall S d, supported (1 + literal_error method) m1 S -> List.length d = (List.length (nodes m) * 5)%nat ->
      exists G1 G2, calc_kG d m1' pfn = Ok G1 /\ calc_kG d m2' pfn = Ok G2 /\
        (forall a2, critical_factor k2 G2 S a2 -> exists a1, critical_factor k1 G1 S a1 /\ a1 <= a2) /\
        forall a1, critical_factor k1 G1 S a1 -> exists a2, critical_factor k2 G2 S a2.
Proof.
  intros method m np1 tp1 np2 tp2 pfn alpha mfa MT m1 m2 V PP SP A BR HN HT.
  assert (HN1 : forall n, rel_opt stiffer (np1 n) (np2 n)) by (intros n; apply rel_stiffer, HN). assert (HT1 : forall e, rel_opt stiffer (tp1 e) (tp2 e)) by (intros e; apply rel_stiffer, HT).
  destruct (wp_base m np1 tp1 pfn V) as [W [PL N0]].
  assert (V2 := proj1 (stiffer_valid m np1 tp1 np2 tp2 pfn HN1 HT1 V)).
  assert (SP2 : all_props m2 shear_pos).
  { apply (stiffer_all m W np1 tp1 np2 tp2 HN HT shear_pos); [|exact SP]. intros p q [_ [H1 [H2 [H3 [H4 H5]]]]] [Q0 [Q1 [Q2 [Q3 Q4]]]]. repeat split; lra. }
  assert (PS : all_props m1 psd).
  { refine (all_imp m1 pos_def _ _ PP). intros p Q e. destruct (strain_dec e) as [->|NE]; [right; unfold dens, quad3; cbn; ring|left; apply Q, NE]. }
  assert (ST : stiff m1) by (refine (all_imp m1 shear_pos _ _ SP); intros p [_ [Q1 [Q2 [Q3 Q4]]]]; repeat split; lra).
  destruct (c70_stiffer method m np1 tp1 np2 tp2 pfn alpha mfa MT V PS (sp_thick m1 SP) ST A HN1 HT1) as [m1' [K1 [k1 [m2' [K2 [k2 [E1 [E1' [E2 [E2' [DD [_ [LE _]]]]]]]]]]]]].
  fold m1 m2 in E1, E1', E2, E2'. exists m1', K1, k1, m2', K2, k2. split; [exact E1|]. split; [exact E1'|]. split; [exact E2|]. split; [exact E2'|].
  destruct (total_spec method MT m1 pfn V alpha mfa SP A) as [x1 [X1 [y1 [G1 [G1' [D1 F1]]]]]]. rewrite E1 in G1. injection G1 as <- <-. rewrite E1' in G1'. injection G1' as <-.
  destruct (total_spec method MT m2 pfn V2 alpha mfa SP2 A) as [x2 [X2 [y2 [G2 [G2' [D2 F2]]]]]]. rewrite E2 in G2. injection G2 as <- <-. rewrite E2' in G2'. injection G2' as <-.
  intros S d HS L. assert (L1 : List.length (nodes m1) = List.length (nodes m)) by (unfold m1; cbn [with_props nodes]; apply map_length). assert (L2 : List.length (nodes m2) = List.length (nodes m)) by (unfold m2; cbn [with_props nodes]; apply map_length).
  destruct (calc_kG_spec m1 m1' pfn d) as [KG1 [EG1 [DG1 FG1]]]; [exists pfn, K1; auto|apply (va_props _ _ V)|rewrite L1; exact L|].
  destruct (calc_kG_spec m2 m2' pfn d) as [KG2 [EG2 [DG2 FG2]]]; [exists pfn, K2; auto|apply (va_props _ _ V2)|rewrite L2; exact L|].
  exists KG1, KG2. split; [exact EG1|]. split; [exact EG2|].
  assert (S1 := tot_sym method m1 pfn alpha mfa k1 F1). assert (S2 := tot_sym method m2 pfn alpha mfa k2 F2).
  assert (P := tot_pd method MT m1 pfn V alpha mfa PP SP A BR k1 D1 F1 S HS).
  assert (SG : forall u v, form KG1 u v = form KG1 v u) by (intros u v; rewrite !FG1; apply kG_sym).
  assert (EG : forall u v, form KG2 u v = form KG1 u v) by (intros u v; rewrite FG1, FG2; apply (same_kG m W np1 tp1 np2 tp2 HN HT)).
  assert (DK1 : mdim KG1 = mdim k1) by congruence. assert (DK2 : mdim KG2 = mdim k1) by congruence.
  assert (MS : more_supports (mdim k1) S S) by (intros i _ H; exact H). split.
  - intros a C. exact (factor_least k1 k2 KG1 KG2 S S DD DK1 DK2 S1 SG EG MS P LE a C).
  - intros b C. exact (factor_exists k1 k2 KG1 KG2 S S DD DK1 DK2 S2 SG EG MS P LE (fun i _ => eq_refl) b C).
Qed.

(** The square of two triangles, one node clamped and another guided, under compression along x: it has a critical load factor; all the
    nodes supported in u and v on top of that are more supports. *)
Lemma c93_supports_ex : forall pfn, valid duo pfn /\ all_props duo pos_def /\ all_props duo shear_pos /\ braced "cell-based" duo /\
  (forall f, supported f duo (fun i => (i <? 7)%nat)) /\ more_supports 20 (fun i => (i <? 7)%nat) (fun i => (i <? 7)%nat || (i mod 5 <? 2)%nat).
Proof.
  intros pfn. destruct (c69_minimum_ex pfn) as [X1 [X2 [X3 [X4 X5]]]]. repeat (split; [assumption|]). intros i _ ->. reflexivity.
Qed.
(** the same square *)
Lemma c93_alpha_ex : forall m' K k, calc_k0 duo true = (m', Ok K) -> add_k0s lits_src K m' true "cell-based" 1 false = (k, Ok tt) ->
  let d := list_of 20 (field duo (fun i n => match i with 0%nat => - vx (pos duo n) | _ => 0 end)) in
  exists KG a, calc_kG d m' true = Ok KG /\ critical_factor k KG (fun i => (i <? 7)%nat) a.
Proof.
  intros m' K k E E' d. destruct (c68_critical_ex m' K E) as [KG [v [EG [A N]]]]. destruct (c69_minimum_ex true) as [X1 [X2 [X3 [X4 X5]]]].
  destruct (c68_critical "cell-based" duo true 1 false ltac:(cbn; auto) X1 X2 X3 ltac:(lra) X4) as [m2 [K2 [k2 [F [F' C]]]]]. rewrite E in F. injection F as <- <-. rewrite E' in F'. injection F' as <-.
  destruct (C (fun i => (i <? 7)%nat) d (X5 _) eq_refl) as [KG2 [EG2 [_ H]]]. assert (Q0 := eq_trans (eq_sym EG) EG2). injection Q0 as <-.
  destruct (total_spec "cell-based" ltac:(cbn; auto) duo true X1 1 false X3 ltac:(lra)) as [m3 [K3 [k3 [F3 [F3' [D3 T3]]]]]]. rewrite E in F3. injection F3 as <- <-. rewrite E' in F3'. injection F3' as <-.
  assert (DK : mdim k = 20%nat) by (rewrite D3; reflexivity). rewrite DK in H.
  destruct (H (ex_intro _ v (conj A N))) as [a [x [Ha [M [NX [BE _]]]]]]. exists KG, a. split; [exact EG|]. split; [exact Ha|]. rewrite DK. split; [exists x; auto|].
  intros b y Hb MY NY. assert (P := tot_pd "cell-based" ltac:(cbn; auto) duo true X1 1 false X2 X3 ltac:(lra) X4 k D3 T3 (fun i => (i <? 7)%nat) (X5 _)).
  destruct (calc_kG_spec duo m' true d) as [G2 [EG3 [DG FG]]]; [exists true, K; auto|apply (va_props _ _ X1)|reflexivity|]. assert (Q1 := eq_trans (eq_sym EG) EG3). injection Q1 as <-.
  assert (DD : mdim KG = mdim k) by congruence.
  destruct (mode_work k KG _ DD P b y MY ltac:(rewrite DK; exact NY)) as [W1 W2]. assert (Q := BE b y ltac:(lra)). rewrite <- DK in Q. specialize (Q (proj1 MY)). rewrite DK in Q. specialize (Q NY). lra.
Qed.
(** twice the bending stiffness in the nodes and triangles with odd numbers *)
Lemma c93_stiffer_ex : let np1 (n : nat) := Some (ex_prop 1) in let np2 (n : nat) := Some (if Nat.odd n then ex_bend else ex_prop 1) in
  with_props np1 np1 two_read = duo /\ forall n, rel_opt stiffer_bending (np1 n) (np2 n).
Proof.
  intros np1 np2. split; [reflexivity|]. intros n. unfold np1, np2. cbn [rel_opt]. destruct (Nat.odd n).
  - split; [|split; reflexivity]. split; [|unfold ex_bend; cbn; repeat split; lra]. intros e. unfold dens, quad3, ex_bend, ex_prop; cbn. set (x := kxx e). set (y := kyy e). set (z := kxy e).
    match goal with |- ?a <= ?b => assert (Q : b - a = 20*x*x + 16*y*y + 8*z*z + 12*x*y + 4*x*z + 4*y*z) by ring end.
    assert (0 <= (x + y) * (x + y)) by apply Rle_0_sqr. assert (0 <= (x + z) * (x + z)) by apply Rle_0_sqr. assert (0 <= (y + z) * (y + z)) by apply Rle_0_sqr.
    assert (0 <= x * x) by apply Rle_0_sqr. assert (0 <= y * y) by apply Rle_0_sqr. assert (0 <= z * z) by apply Rle_0_sqr. lra.
  - split; [|split; reflexivity]. split; [intros; lra|]. repeat split; lra.
Qed.
