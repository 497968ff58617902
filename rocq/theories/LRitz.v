(** Lemmas behind the property on bounds from smooth motions (C98). *)
(* P: Num Py Mesh Utils CalcK0 CalcKG AddK0s Spec SpecK0 SpecKG SpecK0s SpecStab SpecStat SpecConv SpecMono SpecSol Ex ExK0 ExK0s ExStab ExGrid ExGrid2 *)
From Coq Require Import ZArith Reals List Bool Arith Lra Lia String.
From Verif Require Import Num Py Mesh Utils CalcK0 CalcKG AddK0s Spec SpecK0 SpecKG SpecK0s SpecStab SpecStat SpecConv SpecMono SpecSol FSum FMat FWf FTensor FSmooth FStab FStab2 FConn FKG FK0s
  FConv FLin2 FLin3 LK0 LKG LK0s LStab LStat LConv LSol Ex ExK0 ExK0s ExStab ExGrid ExGrid2.
Import ListNotations.
Local Open Scope R_scope.
Implicit Types (m : mesh R).

(** ** C98 *)

(** The work of the loads on the computed deflections is bounded from below by the Ritz value of every smooth motion that
    respects the supports: twice the work of the loads on the motion minus its energy as a Mindlin plate, up to eps (and the
    decimals in the code) on all sufficiently fine meshes. *)
Lemma c98_deflection : forall Om method alpha mfa c th M s b kappa A eps, In method cell_methods ->
  0 <= alpha -> 0 <= c -> 0 < th -> 0 <= M -> 0 <= s -> 0 <= b -> 0 < kappa -> 0 <= A -> 0 < eps ->
  exists h0, 0 < h0 /\ forall m pfn h P Q F u, 0 < h <= h0 -> valid m pfn -> all_props m pos_def -> all_props m shear_pos ->
    bounded c m -> shear_bounded c th m -> fine Om m h kappa P -> fine_trias Om m h kappa Q -> total_area m <= A ->
    motion_smooth Om M s F -> rotations_le Om b F -> samples m F u ->
    exists m' K k', calc_k0 m pfn = (m', Ok K) /\ add_k0s lits_src K m' pfn method alpha mfa = (k', Ok tt) /\
      forall S load d, admissible (mdim k') S u -> solves k' S load d ->
        let e := 24 * third_error method * b / kappa in
        2 * load_work (mdim k') load u - (riemann_energy m pfn P F + riemann_shear m pfn Q F) - eps - 2 * (c * c) * (e * (2 * (s + b) + e)) * A
          <= load_work (mdim k') load d.
Proof.
  intros Om method alpha mfa c th M s b kappa A eps HM AL C T MN SN BN K SS E.
  destruct (c78_convergence Om method alpha mfa c th M s b kappa A eps HM AL C T MN SN BN K SS E) as [h0 [H0 HH]]. exists h0. split; [exact H0|].
  intros m pfn h P Q F u Hh V PP SP B SB FI FT TA SM RB SA.
  destruct (HH m pfn h P Q F u Hh V B SB FI FT TA SM RB SA) as [m' [K0 [k' [E0 [E1 N]]]]]. exists m', K0, k'. split; [exact E0|]. split; [exact E1|].
  intros S load d AU SO e. cbv zeta in N. fold e in N.
  destruct (total_spec method HM m pfn V alpha mfa SP AL) as [m2 [K2 [k2 [F0 [F1 [D FM]]]]]]. rewrite E0 in F0. injection F0 as <- <-. rewrite E1 in F1. injection F1 as <-.
  assert (SY := tot_sym method m pfn alpha mfa k' FM).
  assert (X := potential_at k' S SY load d u SO AU). rewrite (potential_sol k' S load d SO) in X. unfold potential in X.
  set (v := fun i => 1 * u i + -1 * d i) in X.
  assert (NN : 0 <= form k' v v) by (rewrite FM; apply (total_nonneg method m pfn V alpha mfa PP SP AL)).
  rewrite rb in N. lra.
Qed.

(** The grid, clamped at x = 0, with the deflection w = x; there are such meshes below every mesh size, and the static problem
    has a solution. *)
Lemma c98_deflection_ex : forall h0 pfn, 0 < h0 -> exists h m P Q, let u := sampled m rise in 0 < h <= h0 /\ valid m pfn /\ all_props m pos_def /\ all_props m shear_pos /\
  bounded 20 m /\ shear_bounded 20 (1 / 10) m /\ fine unit_square m h (1 / 2) P /\ fine_trias unit_square m h (1 / 2) Q /\ total_area m <= 1 /\
  motion_smooth unit_square 1 2 rise /\ rotations_le unit_square 2 rise /\ samples m rise u /\
  exists m' K k', calc_k0 m pfn = (m', Ok K) /\ add_k0s lits_src K m' pfn "cell-based" 1 false = (k', Ok tt) /\ admissible (mdim k') (clamped m) u /\
    forall load, exists d, solves k' (clamped m) load d.
Proof.
  intros h0 pfn H. destruct (grid_small h0 H) as [n [Hn Hh]]. exists (1 / INR n), (grid_mesh n), (grid_point n), (grid_tpoint n). cbv zeta.
  destruct (grid_pd n Hn) as [PP SP]. assert (V := grid_valid n Hn pfn).
  split; [exact Hh|]. split; [exact V|]. split; [exact PP|]. split; [exact SP|]. split; [apply grid_bounded, Hn|]. split; [apply grid_shear_bounded, Hn|].
  split; [apply grid_fine, Hn|]. split; [apply grid_fine_trias, Hn|]. split; [rewrite (grid_total n Hn); apply Rle_refl|].
  split; [apply rise_smooth|]. split; [apply rise_rot|]. split; [apply sampled_ok|].
  destruct (c66_unique "cell-based" (grid_mesh n) pfn 1 false ltac:(cbn; auto) V PP SP ltac:(lra) (grid_braced n Hn)) as [m' [K [k' [E0 [E1 U]]]]].
  exists m', K, k'. split; [exact E0|]. split; [exact E1|].
  destruct (total_spec "cell-based" ltac:(cbn; auto) (grid_mesh n) pfn V 1 false SP ltac:(lra)) as [m2 [K2 [k2 [F0 [F1 [D _]]]]]]. rewrite E0 in F0. injection F0 as <- <-. rewrite E1 in F1. injection F1 as <-.
  split; [rewrite D; apply sampled_clamped; intros; reflexivity|].
  intros load. destruct (U (clamped (grid_mesh n)) load (grid_supported n Hn _)) as [d [SO _]]. exists d. exact SO.
Qed.

Section Rayleigh.
  Variables (method : string) (m : mesh R) (pfn : bool) (alpha : R) (mfa : bool).
  Hypothesis HM : In method cell_methods.
  Hypothesis V : valid m pfn.
  Hypothesis PP : all_props m pos_def.
  Hypothesis SP : all_props m shear_pos.
  Hypothesis AL : 0 <= alpha.
  Hypothesis BR : braced method m.
  Variables (m' : mesh R) (K k' KG : matrix R) (d : list R) (S : nat -> bool) (w : nat -> R).
  Hypothesis EK : calc_k0 m pfn = (m', Ok K).
  Hypothesis Ek : add_k0s lits_src K m' pfn method alpha mfa = (k', Ok tt).
  Hypothesis LD : List.length d = (List.length (nodes m) * 5)%nat.
  Hypothesis EG : calc_kG d m' pfn = Ok KG.
  Hypothesis SU : supported (1 + literal_error method) m S.
  Hypothesis AW : admissible (mdim k') S w.

  Lemma facts : 0 <= form k' w w /\
    (form KG w w < 0 -> exists a, critical_factor k' KG S a) /\
    forall a, critical_factor k' KG S a -> 0 <= form k' w w + a * form KG w w.
  Proof.
    destruct (c68_critical method m pfn alpha mfa HM V PP SP AL BR) as [m2 [K2 [k2 [F0 [F1 C]]]]]. rewrite EK in F0. injection F0 as <- <-. rewrite Ek in F1. injection F1 as <-.
    destruct (C S d SU LD) as [KG2 [G2 [_ CR]]]. rewrite EG in G2. injection G2 as <-.
    destruct (total_spec method HM m pfn V alpha mfa SP AL) as [m2 [K2 [k2 [F0 [F1 [D FM]]]]]]. rewrite EK in F0. injection F0 as <- <-. rewrite Ek in F1. injection F1 as <-.
    assert (NN : 0 <= form k' w w) by (rewrite FM; apply (total_nonneg method m pfn V alpha mfa PP SP AL)).
    split; [exact NN|].
    assert (NZ : form KG w w < 0 -> nonzero (mdim k') w).
    { intros NG. destruct (c41_average m m' pfn d (ex_intro _ pfn (ex_intro _ K (conj V EK))) (va_props _ _ V) LD) as [KG3 [G3 [DG _]]]. rewrite EG in G3. injection G3 as <-.
      destruct (forallb (fun i => if Req_EM_T (w i) 0 then true else false) (seq 0 (mdim k'))) eqn:FB.
      - exfalso. rewrite forallb_forall in FB. assert (Z : form KG w w = 0); [|lra].
        unfold form. apply Sum_zero. intros i Hi. apply Sum_zero. intros j Hj. rewrite DG, <- D in Hi. specialize (FB i Hi). destruct (Req_EM_T (w i) 0) as [->|]; [ring|discriminate].
      - assert (X : ~ forall i, In i (seq 0 (mdim k')) -> (if Req_EM_T (w i) 0 then true else false) = true) by (intros X; apply forallb_forall in X; congruence).
        destruct (existsb (fun i => if Req_EM_T (w i) 0 then false else true) (seq 0 (mdim k'))) eqn:EB.
        + apply existsb_exists in EB. destruct EB as [i [Hi Ei]]. exists i. apply in_seq in Hi. split; [lia|]. destruct (Req_EM_T (w i) 0); [discriminate|assumption].
        + exfalso. apply X. intros i Hi. destruct (Req_EM_T (w i) 0) as [|N]; [reflexivity|]. exfalso.
          assert (Y : existsb (fun i => if Req_EM_T (w i) 0 then false else true) (seq 0 (mdim k')) = true); [|congruence].
          apply existsb_exists. exists i. split; [exact Hi|]. destruct (Req_EM_T (w i) 0); [contradiction|reflexivity]. }
    assert (ST : form KG w w < 0 -> exists a0 x, 0 < a0 /\ buckling_mode k' KG S a0 0 x (fun _ => 0) /\ nonzero (mdim k') x /\
      forall b v, 0 <= b < a0 -> admissible (mdim k') S v -> nonzero (mdim k') v -> 0 < form k' v v + b * form KG v v).
    { intros NG. destruct (CR (ex_intro _ w (conj AW NG))) as [a0 [x [P1 [P2 [P3 [P4 _]]]]]]. exists a0, x. auto. }
    split.
    - intros NG. destruct (ST NG) as [a0 [x [P1 [P2 [P3 P4]]]]]. exists a0. split; [exact P1|]. split; [exists x; auto|].
      intros b y Hb BM NY. destruct (c68_buckling method m pfn alpha mfa HM V PP SP AL BR) as [m2 [K2 [k2 [F0 [F1 C2]]]]]. rewrite EK in F0. injection F0 as <- <-. rewrite Ek in F1. injection F1 as <-.
      destruct (C2 S d SU LD) as [KG2 [G2 [_ [CE _]]]]. rewrite EG in G2. injection G2 as <-. destruct (CE b y BM NY) as [_ EQ].
      assert (X := P4 b y ltac:(lra) (proj1 BM) NY). lra.
    - intros a [A1 [_ A3]]. destruct (Rle_lt_dec 0 (form KG w w)) as [NG|NG].
      + assert (0 <= a * form KG w w) by (apply Rmult_le_pos; lra). lra.
      + destruct (ST NG) as [a0 [x [P1 [P2 [P3 P4]]]]].
        assert (LE : a <= a0). { destruct (Rle_lt_dec a a0) as [|L]; [assumption|]. exfalso. apply (A3 a0 x); auto. }
        destruct (Rle_lt_dec 0 (form k' w w + a * form KG w w)) as [|NEG]; [assumption|]. exfalso.
        set (b := form k' w w / - form KG w w).
        assert (EB : form k' w w + b * form KG w w = 0) by (unfold b; field; lra).
        assert (B0 : 0 <= b) by (unfold b, Rdiv; apply Rmult_le_pos; [exact NN|left; apply Rinv_0_lt_compat; lra]).
        assert (B1 : b < a). { apply Rmult_lt_reg_r with (- form KG w w); [lra|]. lra. }
        assert (X := P4 b w ltac:(lra) AW (NZ NG)). lra.
  Qed.

  Lemma quotient : forall r eps en err, Rabs (form KG w w - r) <= eps -> Rabs (form k' w w - en) <= err ->
    (r < - eps -> exists a, critical_factor k' KG S a) /\ forall a, critical_factor k' KG S a -> a * (- r - eps) <= en + err.
  Proof.
    intros r eps en err H1 H2. destruct facts as [NN [EX BD]]. rewrite rb in H1. rewrite rb in H2. split.
    - intros L. apply EX. lra.
    - intros a CA. assert (X := BD a CA). destruct CA as [A1 _].
      assert (Y : a * (- r - eps) <= a * (- form KG w w)) by (apply Rmult_le_compat_l; lra). lra.
  Qed.
End Rayleigh.

(** The critical load factor is bounded from above by the Rayleigh quotient of every smooth motion G that respects the
    supports: its energy as a Mindlin plate over minus the work of the membrane forces on it; if this work is negative there is
    a critical load factor.  The static solution samples the motion F. *)
Lemma c98_buckling : forall Om method alpha mfa c th M s b kappa A eps, In method cell_methods ->
  0 <= alpha -> 0 <= c -> 0 < th -> 0 <= M -> 0 <= s -> 0 <= b -> 0 < kappa -> 0 <= A -> 0 < eps ->
  exists h0, 0 < h0 /\ forall m pfn h P Q F G d w, 0 < h <= h0 -> valid m pfn -> all_props m pos_def -> all_props m shear_pos -> braced method m ->
    bounded c m -> shear_bounded c th m -> fine Om m h kappa P -> fine_trias Om m h kappa Q -> total_area m <= A ->
    motion_smooth Om M s F -> motion_smooth Om M s G -> rotations_le Om b G ->
    List.length d = (List.length (nodes m) * 5)%nat -> samples m F (vec_of d) -> samples m G w ->
    exists m' K k' KG, calc_k0 m pfn = (m', Ok K) /\ add_k0s lits_src K m' pfn method alpha mfa = (k', Ok tt) /\ calc_kG d m' pfn = Ok KG /\
      forall S, supported (1 + literal_error method) m S -> admissible (mdim k') S w ->
        (riemann_work m pfn P F G < - eps -> exists a, critical_factor k' KG S a) /\
        forall a, critical_factor k' KG S a ->
          let e := 24 * third_error method * b / kappa in
          a * (- riemann_work m pfn P F G - eps)
            <= riemann_energy m pfn P G + riemann_shear m pfn Q G + (eps + 2 * (c * c) * (e * (2 * (s + b) + e)) * A).
Proof.
  intros Om method alpha mfa c th M s b kappa A eps HM AL C T MN SN BN K SS E.
  destruct (c78_convergence Om method alpha mfa c th M s b kappa A eps HM AL C T MN SN BN K SS E) as [h1 [H1 HH1]].
  destruct (c77_convergence Om c M s kappa A eps C MN SN K SS E) as [h2 [H2 HH2]].
  exists (Rmin h1 h2). split; [apply Rmin_pos; assumption|].
  intros m pfn h P Q F G d w Hh V PP SP BR B SB FI FT TA SF SG RB LD SA SW.
  assert (L1 : 0 < h <= h1) by (split; [lra|eapply Rle_trans; [apply Hh|apply Rmin_l]]).
  assert (L2 : 0 < h <= h2) by (split; [lra|eapply Rle_trans; [apply Hh|apply Rmin_r]]).
  destruct (HH1 m pfn h P Q G w L1 V B SB FI FT TA SG RB SW) as [m' [K0 [k' [E0 [E1 N1]]]]].
  destruct (HH2 m m' pfn h P F G d w L2 (ex_intro _ pfn (ex_intro _ K0 (conj V E0))) (va_props _ _ V) B FI TA SF SG LD SA SW) as [KG [EG N2]].
  exists m', K0, k', KG. split; [exact E0|]. split; [exact E1|]. split; [exact EG|]. intros S SU AW. cbv zeta in N1 |- *.
  exact (quotient method m pfn alpha mfa HM V PP SP AL BR m' K0 k' KG d S w E0 E1 LD EG SU AW _ _ _ _ N2 N1).
Qed.

Lemma press_rise : forall n pfn, (0 < n)%nat -> riemann_work (grid_mesh n) pfn (grid_point n) press rise = - 10.
Proof.
  intros n pfn Hn. assert (V := grid_valid n Hn pfn). unfold riemann_work.
  transitivity (Sum (fun k => - 10 * dom_area (grid_mesh n) k) (edge_keys (grid_mesh n))).
  - apply Sum_ext_in. intros k Hk. rewrite !(stiffness_one (grid_mesh n) pfn (ex_prop 1) k _ (va_wf _ _ V) (va_plate _ _ V) (va_props _ _ V) (grid_one n Hn) Hk).
    destruct (grid_point n k) as [x y]. unfold work, membrane, true_strain, press, rise, ex_prop; cbn [poly fu fv fw ffx ffy fdx fdy pA pB m00 m01 m02 m10 m11 m12 m20 m21 m22 exx eyy exy kxx kyy kxy vx vy vz]. ring.
  - rewrite Sum_scal, (Sum_dom_area _ (va_wf _ _ V)), (grid_total n Hn). ring.
Qed.

(** The same grid under compression in x; the work of the membrane forces is -10, so for eps < 10 there is a critical load factor. *)
Lemma c98_buckling_ex : forall h0 pfn, 0 < h0 -> exists h m P Q, let w := sampled m rise in let d := list_of (List.length (nodes m) * 5) (sampled m press) in
  0 < h <= h0 /\ valid m pfn /\ all_props m pos_def /\ all_props m shear_pos /\ braced "cell-based" m /\
  bounded 20 m /\ shear_bounded 20 (1 / 10) m /\ fine unit_square m h (1 / 2) P /\ fine_trias unit_square m h (1 / 2) Q /\ total_area m <= 1 /\
  motion_smooth unit_square 1 2 press /\ motion_smooth unit_square 1 2 rise /\ rotations_le unit_square 2 rise /\
  List.length d = (List.length (nodes m) * 5)%nat /\ samples m press (vec_of d) /\ samples m rise w /\
  (forall f, supported f m (clamped m)) /\ admissible (List.length (nodes m) * 5) (clamped m) w /\ riemann_work m pfn P press rise = - 10.
Proof.
  intros h0 pfn H. destruct (grid_small h0 H) as [n [Hn Hh]]. exists (1 / INR n), (grid_mesh n), (grid_point n), (grid_tpoint n). cbv zeta.
  destruct (grid_pd n Hn) as [PP SP]. assert (V := grid_valid n Hn pfn).
  split; [exact Hh|]. split; [exact V|]. split; [exact PP|]. split; [exact SP|]. split; [apply grid_braced, Hn|]. split; [apply grid_bounded, Hn|]. split; [apply grid_shear_bounded, Hn|].
  split; [apply grid_fine, Hn|]. split; [apply grid_fine_trias, Hn|]. split; [rewrite (grid_total n Hn); apply Rle_refl|].
  split; [apply press_smooth|]. split; [apply rise_smooth|]. split; [apply rise_rot|]. split; [apply (sampled_list (grid_mesh n) press)|]. split; [apply sampled_list|]. split; [apply sampled_ok|].
  split; [intros f; apply grid_supported, Hn|]. split; [apply sampled_clamped; intros; reflexivity|apply press_rise, Hn].
Qed.

(** The same when the static solution is computed: [d] solves the static problem without shear of k0 with supports S0 and
    loads that belong to the motion F. *)
Lemma c98_computed : forall Om method alpha mfa c th lam M s b kappa A D eps, In method cell_methods ->
  0 <= alpha -> 0 <= c -> 0 < th -> 0 < lam -> 0 <= M -> 0 <= s -> 0 <= b -> 0 < kappa -> 0 <= A -> 0 <= D -> 0 < eps ->
  exists h0, 0 < h0 /\ forall m pfn p h P Q F G u w S0 load delta, 0 < h <= h0 -> valid m pfn -> all_props m (fun q => q = p) -> stiffness_ge lam p -> shear_pos p ->
    mat3_bounded c (pA p) -> mat3_bounded c (pB p) -> mat3_bounded c (pD p) -> braced method m -> shear_bounded c th m ->
    fine Om m h kappa P -> fine_trias Om m h kappa Q -> total_area m <= A ->
    motion_smooth Om M s F -> motion_smooth Om M s G -> rotations_le Om b G -> samples m F u -> samples m G w ->
    admissible (List.length (nodes m) * 5) S0 u -> 0 < delta <= D * h -> loads_of m p S0 Q F delta load ->
    exists m' K k', calc_k0 m pfn = (m', Ok K) /\ add_k0s lits_src K m' pfn method alpha mfa = (k', Ok tt) /\
      forall d, List.length d = (List.length (nodes m) * 5)%nat -> solves K S0 load (vec_of d) ->
      exists KG, calc_kG d m' pfn = Ok KG /\
        forall S, supported (1 + literal_error method) m S -> admissible (mdim k') S w ->
        (riemann_work m pfn P F G < - eps -> exists a, critical_factor k' KG S a) /\
        forall a, critical_factor k' KG S a ->
          let e := 24 * third_error method * b / kappa in
          a * (- riemann_work m pfn P F G - eps)
            <= riemann_energy m pfn P G + riemann_shear m pfn Q G + (eps + 2 * (c * c) * (e * (2 * (s + b) + e)) * A).
Proof.
  intros Om method alpha mfa c th lam M s b kappa A D eps HM AL C T HL MN SN BN K SS HD E.
  destruct (c78_convergence Om method alpha mfa c th M s b kappa A eps HM AL C T MN SN BN K SS E) as [h1 [H1 HH1]].
  destruct (c97_convergence Om c lam M s kappa A D eps C HL MN SN K SS HD E) as [h2 [H2 HH2]].
  exists (Rmin h1 h2). split; [apply Rmin_pos; assumption|].
  intros m pfn p h P Q F G u w S0 load delta Hh V OP SG SP BA BB BD BR SB FI FT TA SF SM RB SA SW AU HDe LD.
  assert (L1 : 0 < h <= h1) by (split; [lra|eapply Rle_trans; [apply Hh|apply Rmin_l]]).
  assert (L2 : 0 < h <= h2) by (split; [lra|eapply Rle_trans; [apply Hh|apply Rmin_r]]).
  assert (B : bounded c m) by (apply (all_imp m (fun q => q = p)); [intros q ->; auto|exact OP]).
  assert (PP : all_props m pos_def).
  { apply (all_imp m (fun q => q = p)); [|exact OP]. intros q -> e NE. assert (X := SG e). assert (Y : 0 < strain_sq e); [|assert (0 < lam * strain_sq e) by (apply Rmult_lt_0_compat; assumption); lra].
    destruct (Rle_lt_dec (strain_sq e) 0) as [Z|]; [|assumption]. exfalso. apply NE. destruct e as [a1 a2 a3 a4 a5 a6]. unfold strain_sq in Z; cbn [exx eyy exy kxx kyy kxy] in Z.
    assert (Q1 := Rle_0_sqr a1). assert (Q2 := Rle_0_sqr a2). assert (Q3 := Rle_0_sqr a3). assert (Q4 := Rle_0_sqr a4). assert (Q5 := Rle_0_sqr a5). assert (Q6 := Rle_0_sqr a6).
    unfold Rsqr in *. f_equal; apply Rsqr_0_uniq; unfold Rsqr; lra. }
  assert (SP' : all_props m shear_pos) by (apply (all_imp m (fun q => q = p)); [intros q ->; exact SP|exact OP]).
  destruct (HH1 m pfn h P Q G w L1 V B SB FI FT TA SM RB SW) as [m' [K0 [k' [E0 [E1 N1]]]]].
  destruct (HH2 m pfn p h P Q F G u w S0 load delta L2 V OP SG BA BB BD FI FT TA SF SM SA SW AU HDe LD) as [m2 [K2 [F0 N]]]. rewrite E0 in F0. injection F0 as <- <-.
  exists m', K0, k'. split; [exact E0|]. split; [exact E1|]. intros d LN SO. destruct (N d LN SO) as [KG [EG N2]]. exists KG. split; [exact EG|]. intros S SU AW. cbv zeta in N1 |- *.
  exact (quotient method m pfn alpha mfa HM V PP SP' AL BR m' K0 k' KG d S w E0 E1 LN EG SU AW _ _ _ _ N2 N1).
Qed.

(** The grid; the loads are those that k0 assigns to the compression, and they have this solution. *)
Lemma c98_computed_ex : forall h0 pfn, 0 < h0 -> exists h m P Q, let p := ex_prop 1 in let u := sampled m press in let w := sampled m rise in let N := (List.length (nodes m) * 5)%nat in
  0 < h <= h0 /\ valid m pfn /\ all_props m (fun q => q = p) /\ stiffness_ge 1 p /\ shear_pos p /\ braced "cell-based" m /\ shear_bounded 20 (1 / 10) m /\
  fine unit_square m h (1 / 2) P /\ fine_trias unit_square m h (1 / 2) Q /\ total_area m <= 1 /\
  motion_smooth unit_square 1 2 press /\ motion_smooth unit_square 1 2 rise /\ samples m press u /\ samples m rise w /\
  admissible N (clamped m) u /\ admissible N (clamped m) w /\ riemann_work m pfn P press rise = - 10 /\
  exists m' K, calc_k0 m pfn = (m', Ok K) /\ loads_of m p (clamped m) Q press (408 * h) (mulv K u) /\ solves K (clamped m) (mulv K u) (vec_of (list_of N u)).
Proof.
  intros h0 pfn H. destruct (grid_small h0 H) as [n [Hn Hh]]. exists (1 / INR n), (grid_mesh n), (grid_point n), (grid_tpoint n). cbv zeta.
  assert (V := grid_valid n Hn pfn). assert (AU : admissible (List.length (nodes (grid_mesh n)) * 5) (clamped (grid_mesh n)) (sampled (grid_mesh n) press)) by (apply sampled_clamped; intros; cbn; ring).
  split; [exact Hh|]. split; [exact V|]. split; [apply grid_one, Hn|]. split; [exact ex_stiff_ge|]. split; [apply ex_shear_pos; lra|]. split; [apply grid_braced, Hn|]. split; [apply grid_shear_bounded, Hn|].
  split; [apply grid_fine, Hn|]. split; [apply grid_fine_trias, Hn|]. split; [rewrite (grid_total n Hn); apply Rle_refl|].
  split; [apply press_smooth|]. split; [apply rise_smooth|]. split; [apply sampled_ok|]. split; [apply sampled_ok|]. split; [exact AU|].
  split; [apply sampled_clamped; intros; reflexivity|]. split; [apply press_rise, Hn|].
  destruct (c96_loads unit_square (grid_mesh n) pfn (ex_prop 1) (1 / INR n) (1 / 2) (grid_tpoint n) 1 2 press (sampled (grid_mesh n) press) (clamped (grid_mesh n)) V (grid_one n Hn)
    (grid_fine_trias n Hn) (proj1 Hh) ltac:(lra) ltac:(lra) press_smooth (sampled_ok _ _)) as [m' [K [E L]]].
  exists m', K. split; [exact E|]. split.
  - replace (408 * (1 / INR n)) with (204 * 1 * (1 / INR n) / (1 / 2)); [exact L|]. field. apply Rgt_not_eq, lt_0_INR, Hn.
  - assert (D : mdim K = (List.length (nodes (grid_mesh n)) * 5)%nat). { destruct (valid_spec (grid_mesh n) pfn V) as [m1 [K1 [E1 [D _]]]]. assert (Q := eq_trans (eq_sym E) E1). injection Q as _ <-. exact D. }
    intros i Hi. rewrite (mulv_list K _ _ i D). destruct (clamped (grid_mesh n) i) eqn:C; [|reflexivity]. rewrite vec_list by lia. apply AU; [lia|exact C].
Qed.
