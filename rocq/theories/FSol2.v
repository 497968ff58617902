(** Distance between the solution of a static problem and a smooth motion in equilibrium with the loads. *)
From Coq Require Import ZArith Reals List Bool Arith Lra Lia Psatz.
From Verif Require Import Num Py Mesh Utils CalcK0 Spec SpecK0 SpecKG SpecK0s SpecStab SpecStat SpecConv SpecSol FSum FMat FDict FGeom FWf FRead2 FAsm FTensor FSmooth FStab FStab2
  FConv FSol FLin2 LKG.
Import ListNotations.
Local Open Scope R_scope.
Implicit Types (m : mesh R).

(** ** Strains *)

Lemma near_trans : forall a b e f g, near_strain a e f -> near_strain b f g -> near_strain (a + b) e g.
Proof.
  intros a b e f g [E1 [E2 [E3 [E4 [E5 E6]]]]] [F1 [F2 [F3 [F4 [F5 F6]]]]].
  assert (P : forall x y z, Rabs (x - y) <= a -> Rabs (y - z) <= b -> Rabs (x - z) <= a + b).
  { intros x y z H1 H2. replace (x - z) with ((x - y) + (y - z)) by ring. apply rb_plus; assumption. }
  repeat split; eapply P; eassumption.
Qed.
Lemma near_sym : forall a e f, near_strain a e f -> near_strain a f e.
Proof. intros a e f [E1 [E2 [E3 [E4 [E5 E6]]]]]. repeat split; rewrite Rabs_minus_sym; assumption. Qed.
Lemma near_weak : forall a b e f, near_strain a e f -> a <= b -> near_strain b e f.
Proof. intros a b e f [E1 [E2 [E3 [E4 [E5 E6]]]]] H. repeat split; eapply Rle_trans; eassumption. Qed.

Lemma sq_nn : forall x : R, 0 <= x * x.
Proof. intros x. nra. Qed.

Lemma strain_le_sqrt : forall e, strain_le (sqrt (strain_sq e)) e.
Proof.
  intros e. assert (N := strain_sq_nonneg e).
  assert (P : forall x, x * x <= strain_sq e -> Rabs x <= sqrt (strain_sq e)).
  { intros x H. rewrite <- (sqrt_Rsqr_abs x). apply sqrt_le_1_alt. exact H. }
  assert (Q := sq_nn (exx e)). assert (Q1 := sq_nn (eyy e)). assert (Q2 := sq_nn (exy e)). assert (Q3 := sq_nn (kxx e)). assert (Q4 := sq_nn (kyy e)). assert (Q5 := sq_nn (kxy e)).
  unfold strain_sq in *. repeat split; apply P; unfold strain_sq; lra.
Qed.

(** 2 a x <= a^2 / th + th x^2 *)
Lemma young : forall a x th, 0 < th -> a * x <= a * a / (4 * th) + th * (x * x).
Proof.
  intros a x th H. assert (Q := sq_nn (a / (2 * th) - x)).
  assert (E : th * ((a / (2 * th) - x) * (a / (2 * th) - x)) = a * a / (4 * th) - a * x + th * (x * x)) by (field; lra).
  assert (P : 0 <= th * ((a / (2 * th) - x) * (a / (2 * th) - x))) by (apply Rmult_le_pos; lra). lra.
Qed.

Lemma dens_young : forall c A B D g f eta th, mat3_bounded c A -> mat3_bounded c B -> mat3_bounded c D -> strain_le eta g -> 0 < th ->
  Rabs (dens A B D g f) <= 36 * c * eta * (36 * c * eta) / (4 * th) + th * strain_sq f.
Proof.
  intros c A B D g f eta th HA HB HD G T. eapply Rle_trans; [apply (dens_bound c A B D g f eta (sqrt (strain_sq f))); try assumption; apply strain_le_sqrt|].
  assert (Y := young (36 * c * eta) (sqrt (strain_sq f)) th T). rewrite sqrt_sqrt in Y by apply strain_sq_nonneg. exact Y.
Qed.

(** ** Smoothed strains as means *)

Lemma dens_mean_r : forall m k v A B D e, 0 < Sum (tarea m) (tris_on m k) ->
  dens A B D e (smoothed_strain m v k) * Sum (tarea m) (tris_on m k) = Sum (fun t => tarea m t * dens A B D e (tria_strain m v t)) (tris_on m k).
Proof.
  intros m k v A B D e P.
  assert (L : exists a1 a2 a3 a4 a5 a6, forall f, dens A B D e f = a1 * exx f + a2 * eyy f + a3 * exy f + a4 * kxx f + a5 * kyy f + a6 * kxy f).
  { exists (m00 A * exx e + m01 A * eyy e + m02 A * exy e + m00 B * kxx e + m01 B * kyy e + m02 B * kxy e).
    exists (m01 A * exx e + m11 A * eyy e + m12 A * exy e + m01 B * kxx e + m11 B * kyy e + m12 B * kxy e).
    exists (m02 A * exx e + m12 A * eyy e + m22 A * exy e + m02 B * kxx e + m12 B * kyy e + m22 B * kxy e).
    exists (m00 B * exx e + m01 B * eyy e + m02 B * exy e + m00 D * kxx e + m01 D * kyy e + m02 D * kxy e).
    exists (m01 B * exx e + m11 B * eyy e + m12 B * exy e + m01 D * kxx e + m11 D * kyy e + m12 D * kxy e).
    exists (m02 B * exx e + m12 B * eyy e + m22 B * exy e + m02 D * kxx e + m12 D * kyy e + m22 D * kxy e).
    intros f. unfold dens, quad3. ring. }
  destruct L as [a1 [a2 [a3 [a4 [a5 [a6 L]]]]]]. rewrite L.
  rewrite (Sum_ext _ (fun t => tarea m t * dens A B D e (tria_strain m v t)) (fun t => a1 * (tarea m t * tgx m t (comp m v 0)) + a2 * (tarea m t * tgy m t (comp m v 1)) +
    a3 * (tarea m t * tgy m t (comp m v 0)) + a3 * (tarea m t * tgx m t (comp m v 1)) +
    a4 * (tarea m t * tgx m t (comp m v 3)) + a5 * (tarea m t * tgy m t (comp m v 4)) +
    a6 * (tarea m t * tgy m t (comp m v 3)) + a6 * (tarea m t * tgx m t (comp m v 4)))).
  - rewrite !Sum_plus, !Sum_scal. cbn [smoothed_strain exx eyy exy kxx kyy kxy]. unfold sgx, sgy. field. lra.
  - intros t. rewrite L. cbn [tria_strain exx eyy exy kxx kyy kxy]. ring.
Qed.

Lemma dens_sub_l : forall A B D e g f, dens A B D e f - dens A B D g f = dens A B D (sub_strain e g) f.
Proof. intros A B D [e1 e2 e3 e4 e5 e6] [g1 g2 g3 g4 g5 g6] f; unfold dens, sub_strain, quad3; cbn [exx eyy exy kxx kyy kxy]. ring. Qed.

Lemma tria_strain_lin : forall m u v a b t, tria_strain m (fun i => a * u i + b * v i) t =
  sadd_s (sscale a (tria_strain m u t)) (sscale b (tria_strain m v t)).
Proof.
  intros. unfold tria_strain, sadd_s, sscale; cbn [exx eyy exy kxx kyy kxy].
  assert (C : forall c, comp m (fun i => a * u i + b * v i) c = fun n => a * comp m u c n + b * comp m v c n) by reflexivity.
  rewrite !C, !tgx_lin, !tgy_lin. f_equal; ring.
Qed.
Lemma smoothed_lin : forall m u v a b k, smoothed_strain m (fun i => a * u i + b * v i) k =
  sadd_s (sscale a (smoothed_strain m u k)) (sscale b (smoothed_strain m v k)).
Proof.
  intros. unfold smoothed_strain, sadd_s, sscale; cbn [exx eyy exy kxx kyy kxy].
  assert (C : forall c, comp m (fun i => a * u i + b * v i) c = fun n => a * comp m u c n + b * comp m v c n) by reflexivity.
  rewrite !C, !sgx_lin, !sgy_lin. f_equal; ring.
Qed.

Section Sol.
  Variables (Om : R * R -> Prop) (m : mesh R) (pfn : bool) (p : prop R) (h kappa : R) (Q : tria R -> R * R) (c lam M s : R) (F : motion) (u : nat -> R).
  Hypothesis V : valid m pfn.
  Hypothesis OP : all_props m (fun q => q = p).
  Hypothesis SG : stiffness_ge lam p.
  Hypothesis BA : mat3_bounded c (pA p).
  Hypothesis BB : mat3_bounded c (pB p).
  Hypothesis BD : mat3_bounded c (pD p).
  Hypothesis FI : fine_trias Om m h kappa Q.
  Hypothesis Hh : 0 < h.
  Hypothesis Hk : 0 < kappa.
  Hypothesis Hl : 0 < lam.
  Hypothesis Hc : 0 <= c.
  Hypothesis HM : 0 <= M.
  Hypothesis SM : motion_smooth Om M s F.
  Hypothesis SA : samples m F u.
  Let W := va_wf _ _ V.
  Let PL := va_plate _ _ V.

  Lemma fine_shapely : shapely (kappa / 4) m.
  Proof.
    intros t Ht. destruct FI as [_ FT]. destruct (FT t Ht) as [_ [N A]]. exists (2 * h). split; [lra|]. split.
    - intros a b Va Vb. destruct (N a Va) as [A1 A2]. destruct (N b Vb) as [B1 B2]. rewrite rb in A1, A2, B1, B2. split; rewrite rb; lra.
    - replace (kappa / 4 * (2 * h * (2 * h))) with (kappa * (h * h)) by field. exact A.
  Qed.

  Lemma tria_near_at : forall t q r, In t (trias_of m) -> Om q -> (forall n, vertex t n -> near m r q n) ->
    near_strain (12 * M * (r * r * r) / (kappa * (h * h))) (tria_strain m u t) (true_strain F q).
  Proof.
    intros t q r Ht HQ N. destruct FI as [FN FT]. destruct (FT t Ht) as [_ [_ A]].
    assert (Z : 0 < kappa * (h * h)) by (apply Rmult_lt_0_compat; [exact Hk|apply Rmult_lt_0_compat; exact Hh]).
    assert (G : forall f j, smooth Om M s f -> (forall n, In n (node_keys m) -> comp m u j n = fval f (vx (pos m n)) (vy (pos m n))) ->
      Rabs (tgx m t (comp m u j) - fdx f (fst q) (snd q)) <= 6 * M * (r * r * r) / (kappa * (h * h)) /\
      Rabs (tgy m t (comp m u j) - fdy f (fst q) (snd q)) <= 6 * M * (r * r * r) / (kappa * (h * h))).
    { intros f j SF HF. apply (tria_grad Om m t f M s r (kappa * (h * h)) q (comp m u j) SF HQ); try assumption.
      - intros n Vn. apply FN. apply (wf_vertices m W t n Ht Vn).
      - intros n Vn. apply HF. apply (wf_vertices m W t n Ht Vn). }
    destruct SM as [SU [SV [_ [SX SY]]]].
    destruct (G (fu F) 0%nat SU) as [U1 U2]; [intros n Hn; apply (SA n Hn)|].
    destruct (G (fv F) 1%nat SV) as [V1 V2]; [intros n Hn; apply (SA n Hn)|].
    destruct (G (ffx F) 3%nat SX) as [X1 X2]; [intros n Hn; apply (SA n Hn)|].
    destruct (G (ffy F) 4%nat SY) as [Y1 Y2]; [intros n Hn; apply (SA n Hn)|].
    replace (12 * M * (r * r * r) / (kappa * (h * h))) with (6 * M * (r * r * r) / (kappa * (h * h)) + 6 * M * (r * r * r) / (kappa * (h * h))) by (field; lra).
    set (b := 6 * M * (r * r * r) / (kappa * (h * h))) in *. assert (B0 := rb_nonneg _ _ U1).
    assert (PM : forall a b' c' d' z, Rabs (a - c') <= z -> Rabs (b' - d') <= z -> Rabs (a + b' - (c' + d')) <= z + z).
    { intros a b' c' d' z H1 H2. replace (a + b' - (c' + d')) with ((a - c') + (b' - d')) by ring. apply rb_plus; assumption. }
    destruct q as [x y]; cbn [fst snd] in *. unfold near_strain, true_strain; cbn [tria_strain exx eyy exy kxx kyy kxy].
    repeat split; try (apply PM; assumption); lra.
  Qed.

  Lemma tria_near_Q : forall t, In t (trias_of m) -> near_strain (12 * M * h / kappa) (tria_strain m u t) (true_strain F (Q t)).
  Proof.
    intros t Ht. destruct (proj2 FI t Ht) as [O [N _]]. assert (X := tria_near_at t (Q t) h Ht O N).
    replace (12 * M * h / kappa) with (12 * M * (h * h * h) / (kappa * (h * h))) by (field; lra). exact X.
  Qed.

  Lemma tria_near_vertex : forall t n, In t (trias_of m) -> vertex t n -> near_strain (96 * M * h / kappa) (tria_strain m u t) (true_strain F (vx (pos m n), vy (pos m n))).
  Proof.
    intros t n Ht Vn. destruct FI as [FN FT]. destruct (FT t Ht) as [_ [N _]].
    replace (96 * M * h / kappa) with (12 * M * (2 * h * (2 * h) * (2 * h)) / (kappa * (h * h))) by (field; lra).
    apply tria_near_at; [exact Ht|apply FN, (wf_vertices m W t n Ht Vn)|].
    intros a Va. destruct (N a Va) as [A1 A2]. destruct (N n Vn) as [B1 B2]. rewrite rb in A1, A2, B1, B2. unfold near; cbn [fst snd]. split; rewrite rb; lra.
  Qed.

  Lemma mean_near : forall k e d, In k (edge_keys m) -> (forall t, In t (tris_on m k) -> near_strain d (tria_strain m u t) e) -> near_strain d (smoothed_strain m u k) e.
  Proof.
    intros k e d Hin N. assert (A := tris_area_pos m W PL k Hin).
    assert (ML : forall g x, (forall t, In t (tris_on m k) -> Rabs (g t - x) <= d) -> Rabs (Sum (fun t => tarea m t * g t) (tris_on m k) / Sum (tarea m) (tris_on m k) - x) <= d).
    { intros g x H. apply mean_bound; [intros t _; apply area_nn|exact A|exact H]. }
    unfold near_strain. cbn [smoothed_strain exx eyy exy kxx kyy kxy]. unfold sgx, sgy.
    assert (PS : forall f g, Sum (fun t => tarea m t * f t) (tris_on m k) / Sum (tarea m) (tris_on m k) + Sum (fun t => tarea m t * g t) (tris_on m k) / Sum (tarea m) (tris_on m k)
      = Sum (fun t => tarea m t * (f t + g t)) (tris_on m k) / Sum (tarea m) (tris_on m k)).
    { intros f g. rewrite (Sum_ext _ (fun t => tarea m t * (f t + g t)) (fun t => tarea m t * f t + tarea m t * g t)) by (intros; ring). rewrite Sum_plus. field. lra. }
    rewrite !PS. repeat split; apply ML; intros t Ht; apply (N t Ht).
  Qed.

  Lemma smoothed_near : forall k t, In k (edge_keys m) -> In t (tris_on m k) -> near_strain (204 * M * h / kappa) (smoothed_strain m u k) (true_strain F (Q t)).
  Proof.
    intros k t Hin Ht. assert (X := proj1 (tris_on_in m k t) Ht). destruct X as [Tt [V1 V2]].
    apply mean_near; [exact Hin|]. intros t' Ht'. assert (X := proj1 (tris_on_in m k t') Ht'). destruct X as [Tt' [V1' V2']].
    replace (204 * M * h / kappa) with (96 * M * h / kappa + (96 * M * h / kappa + 12 * M * h / kappa)) by (field; lra).
    eapply near_trans; [apply (tria_near_vertex t' (fst k) Tt' V1')|]. eapply near_trans; [apply near_sym, (tria_near_vertex t (fst k) Tt V1)|apply (tria_near_Q t Tt)].
  Qed.

  Lemma k0_split : forall v, k0_energy m pfn u v =
    Sum (fun k => Sum (fun t => tarea m t / 3 * dens (pA p) (pB p) (pD p) (smoothed_strain m u k) (tria_strain m v t)) (tris_on m k)) (edge_keys m).
  Proof.
    intros v. unfold k0_energy. apply Sum_ext_in. intros k Hin. rewrite !(stiffness_one m pfn p k _ W PL (va_props _ _ V) OP Hin).
    assert (A := tris_area_pos m W PL k Hin). assert (X := dens_mean_r m k v (pA p) (pB p) (pD p) (smoothed_strain m u k) A).
    rewrite (Sum_ext _ _ (fun t => / 3 * (tarea m t * dens (pA p) (pB p) (pD p) (smoothed_strain m u k) (tria_strain m v t)))) by (intros; field).
    rewrite Sum_scal, <- X. unfold dom_area. field.
  Qed.

  Definition sol_eta (delta : R) : R := delta + 204 * M * h / kappa.
  Definition sol_L : R := 2592 / (lam * kappa ^ 4).

  Variables (delta : R) (st : tria R -> strain).
  Hypothesis ST : forall t, In t (trias_of m) -> strain_near delta (st t) (true_strain F (Q t)).

  Lemma consistency : forall v th, 0 < th ->
    Rabs (Sum (fun t => tarea m t * dens (pA p) (pB p) (pD p) (st t) (tria_strain m v t)) (trias_of m) - k0_energy m pfn u v) <=
    36 * c * sol_eta delta * (36 * c * sol_eta delta) / (4 * th) * total_area m + th * strains_sq m v.
  Proof.
    intros v th T. set (eta := sol_eta delta). rewrite k0_split.
    set (f := fun t => tarea m t * dens (pA p) (pB p) (pD p) (st t) (tria_strain m v t)).
    assert (DC := double_count m W f).
    replace (Sum f (trias_of m)) with (Sum (fun k => Sum (fun t => f t / 3) (tris_on m k)) (edge_keys m)).
    2:{ rewrite (Sum_ext _ _ (fun k => / 3 * Sum f (tris_on m k))); [rewrite Sum_scal, DC; field|]. intros k. rewrite <- Sum_scal. apply Sum_ext. intros t. field. }
    set (B := 36 * c * eta * (36 * c * eta) / (4 * th)).
    set (g := fun t => tarea m t * (B + th * strain_sq (tria_strain m v t))).
    assert (DG := double_count m W g).
    replace (B * total_area m + th * strains_sq m v) with (Sum (fun k => Sum (fun t => g t / 3) (tris_on m k)) (edge_keys m)).
    2:{ rewrite (Sum_ext _ _ (fun k => / 3 * Sum g (tris_on m k))).
        - rewrite Sum_scal, DG. unfold total_area, strains_sq. rewrite <- !Sum_scal, <- Sum_plus. apply Sum_ext. intros t. unfold g. field.
        - intros k. rewrite <- Sum_scal. apply Sum_ext. intros t. field. }
    match goal with |- Rabs (?x - ?y) <= _ => replace (x - y) with
      (Sum (fun k => Sum (fun t => tarea m t / 3 * dens (pA p) (pB p) (pD p) (sub_strain (st t) (smoothed_strain m u k)) (tria_strain m v t)) (tris_on m k)) (edge_keys m)) end.
    - apply Sum_abs. intros k Hin. apply Sum_abs. intros t Ht. assert (A := area_nn m t).
      rewrite Rabs_mult, (Rabs_right (tarea m t / 3)) by lra.
      replace (g t / 3) with (tarea m t / 3 * (B + th * strain_sq (tria_strain m v t))) by (unfold g; field).
      apply Rmult_le_compat_l; [lra|]. apply dens_young; try assumption. apply near_sub.
      unfold eta, sol_eta. eapply near_trans; [apply ST; apply tris_on_in in Ht; tauto|]. apply near_sym, smoothed_near; assumption.
    - unfold Rminus. rewrite <- (Rmult_1_l (- Sum _ _)), <- Ropp_mult_distr_r, Ropp_mult_distr_l, <- Sum_scal, <- Sum_plus.
      apply Sum_ext. intros k. rewrite <- Sum_scal, <- Sum_plus. apply Sum_ext. intros t. rewrite <- dens_sub_l. unfold f. field.
  Qed.

  Variables (K : matrix R) (S : nat -> bool) (load d : nat -> R).
  Hypothesis DK : mdim K = (List.length (nodes m) * 5)%nat.
  Hypothesis FK : forall a b, form K a b = k0_energy m pfn a b.
  Hypothesis LD : forall v, admissible (List.length (nodes m) * 5) S v ->
      load_work (List.length (nodes m) * 5) load v = Sum (fun t => tarea m t * dens (pA p) (pB p) (pD p) (st t) (tria_strain m v t)) (trias_of m).
  Hypothesis AU : admissible (List.length (nodes m) * 5) S u.
  Hypothesis SO : solves K S load d.
  Let v := fun i => 1 * d i + -1 * u i.

  Lemma L_pos : 0 < sol_L.
  Proof. unfold sol_L. apply Rdiv_lt_0_compat; [lra|]. apply Rmult_lt_0_compat; [exact Hl|apply pow_lt, Hk]. Qed.

  Lemma error_strains : strains_sq m v <= sol_L * form K v v.
  Proof.
    assert (P : all_props m (stiffness_ge lam)) by (destruct OP as [O1 O2]; split; [intros n q E; rewrite (O1 n q E); exact SG|intros t q Ht E; rewrite (O2 t q Ht E); exact SG]).
    assert (X := energy_stable m pfn V lam (kappa / 4) v ltac:(lra) Hl fine_shapely P). rewrite FK.
    assert (K4 : 0 < kappa ^ 4) by (apply pow_lt, Hk). assert (Z : 0 < lam * kappa ^ 4) by (apply Rmult_lt_0_compat; assumption).
    apply Rmult_le_reg_l with (lam * kappa ^ 4); [exact Z|].
    replace (lam * kappa ^ 4 * (sol_L * k0_energy m pfn v v)) with (2592 * k0_energy m pfn v v) by (unfold sol_L; field; split; lra).
    replace ((kappa / 4) ^ 4) with (kappa ^ 4 / 256) in X by field. lra.
  Qed.

  Lemma error_energy : form K v v <= 36 * c * sol_eta delta * (36 * c * sol_eta delta) * sol_L * total_area m.
  Proof.
    assert (LP := L_pos). assert (AD : admissible (List.length (nodes m) * 5) S d) by (rewrite <- DK; apply (solves_admissible K S load d SO)).
    assert (AV : admissible (List.length (nodes m) * 5) S v) by (intros i Hi Si; unfold v; rewrite (AD i Hi Si), (AU i Hi Si); ring).
    assert (SW := solves_work K S load d v SO). rewrite DK in SW. specialize (SW AV). rewrite (LD v AV) in SW.
    assert (E : form K v v = form K v d - k0_energy m pfn u v).
    { assert (X := form_lin_r K 1 (-1) d u v). fold v in X. rewrite X. rewrite (FK v u).
      assert (SY : k0_energy m pfn v u = k0_energy m pfn u v) by (unfold k0_energy; apply Sum_ext; intros k; rewrite dens_sym; reflexivity). rewrite SY. ring. }
    rewrite SW in E. assert (C := consistency v (/ (2 * sol_L)) ltac:(apply Rinv_0_lt_compat; lra)). rewrite <- E in C.
    assert (N := error_strains). set (X := form K v v) in *. set (B := 36 * c * sol_eta delta * (36 * c * sol_eta delta)) in *.
    replace (B / (4 * / (2 * sol_L))) with (B * sol_L / 2) in C by (field; lra).
    assert (C1 : X <= B * sol_L / 2 * total_area m + / (2 * sol_L) * strains_sq m v) by (eapply Rle_trans; [apply Rle_abs|exact C]).
    apply (Rmult_le_compat_l (/ (2 * sol_L))) in N; [|left; apply Rinv_0_lt_compat; lra].
    replace (/ (2 * sol_L) * (sol_L * X)) with (X / 2) in N by (field; lra). lra.
  Qed.

  Lemma error_sq : strains_sq m v <= (36 * c * sol_L * sol_eta delta) ^ 2 * total_area m.
  Proof.
    assert (LP := L_pos). assert (N := error_strains). assert (E := error_energy). apply (Rmult_le_compat_l sol_L) in E; [|lra].
    eapply Rle_trans; [exact N|]. eapply Rle_trans; [exact E|]. right. ring.
  Qed.

  Lemma sq_sum : forall a b, strain_sq (sadd_s a b) <= 2 * strain_sq a + 2 * strain_sq b.
  Proof.
    intros a b. unfold strain_sq, sadd_s; cbn [exx eyy exy kxx kyy kxy].
    assert (P : forall x y, (x + y) * (x + y) <= 2 * (x * x) + 2 * (y * y)) by (intros x y; assert (Z := sq_nn (x - y)); lra).
    assert (A1 := P (exx a) (exx b)). assert (A2 := P (eyy a) (eyy b)). assert (A3 := P (exy a) (exy b)). assert (A4 := P (kxx a) (kxx b)). assert (A5 := P (kyy a) (kyy b)). assert (A6 := P (kxy a) (kxy b)). lra.
  Qed.
  Lemma sq_small : forall e b, strain_le b e -> strain_sq e <= 6 * (b * b).
  Proof.
    intros e b [E1 [E2 [E3 [E4 [E5 E6]]]]]. unfold strain_sq. apply sq_le in E1. apply sq_le in E2. apply sq_le in E3. apply sq_le in E4. apply sq_le in E5. apply sq_le in E6. lra.
  Qed.

  Lemma delta_nn : trias_of m <> [] -> 0 <= delta.
  Proof. destruct (trias_of m) as [|t l] eqn:E; [congruence|]. intros _. destruct (ST t) as [X _]; [left; reflexivity|]. apply (rb_nonneg _ _ X). Qed.

  Lemma error_total : strain_error m Q F d <= (2 * (36 * c * sol_L * sol_eta delta) ^ 2 + 12 * sol_eta delta ^ 2) * total_area m.
  Proof.
    assert (E := error_sq). unfold strain_error.
    apply Rle_trans with (2 * strains_sq m v + 12 * sol_eta delta ^ 2 * total_area m); [|lra].
    unfold strains_sq, total_area. rewrite <- !Sum_scal, <- Sum_plus. apply Sum_le. intros t Ht. assert (A := area_nn m t).
    assert (DN : 0 <= delta) by (apply delta_nn; intros Z; rewrite Z in Ht; destruct Ht).
    replace (strain_minus (tria_strain m d t) (true_strain F (Q t))) with (sadd_s (tria_strain m v t) (sub_strain (tria_strain m u t) (true_strain F (Q t)))).
    - assert (X := sq_sum (tria_strain m v t) (sub_strain (tria_strain m u t) (true_strain F (Q t)))).
      assert (Y : strain_sq (sub_strain (tria_strain m u t) (true_strain F (Q t))) <= 6 * (sol_eta delta * sol_eta delta)).
      { apply sq_small, near_sub. eapply near_weak; [apply tria_near_Q, Ht|]. unfold sol_eta.
        assert (Z : 0 <= M * h / kappa) by (apply Rmult_le_pos; [apply Rmult_le_pos; lra|left; apply Rinv_0_lt_compat, Hk]).
        replace (12 * M * h / kappa) with (12 * (M * h / kappa)) by (field; lra). replace (204 * M * h / kappa) with (204 * (M * h / kappa)) by (field; lra). lra. }
      assert (Z : strain_sq (sadd_s (tria_strain m v t) (sub_strain (tria_strain m u t) (true_strain F (Q t)))) <= 2 * strain_sq (tria_strain m v t) + 12 * sol_eta delta ^ 2) by lra.
      apply (Rmult_le_compat_l _ _ _ A) in Z. lra.
    - unfold v. rewrite tria_strain_lin. unfold sadd_s, sscale, sub_strain, strain_minus; cbn [exx eyy exy kxx kyy kxy]. f_equal; ring.
  Qed.

  (** ** Work of the membrane forces of the solution *)

  Lemma energy_smoothed : Sum (fun k => dom_area m k * strain_sq (smoothed_strain m v k)) (edge_keys m) <= form K v v / lam.
  Proof.
    assert (P : all_props m (stiffness_ge lam)) by (destruct OP as [O1 O2]; split; [intros n q E; rewrite (O1 n q E); exact SG|intros t q Ht E; rewrite (O2 t q Ht E); exact SG]).
    assert (X := smoothed_energy m pfn V lam v P). rewrite <- FK in X. apply Rmult_le_reg_l with lam; [exact Hl|]. eapply Rle_trans; [exact X|]. right. field. lra.
  Qed.

  Lemma work_error : forall P G w, fine Om m h kappa P -> motion_smooth Om M s G -> samples m G w -> 0 < sol_eta delta ->
    let r := s + 12 * M * h / kappa in
    Rabs (kG_energy m pfn d w w - kG_energy m pfn u w w) <= 12 * c * (r * r) * sol_eta delta * (1 + 36 * c * (36 * c) * sol_L / lam) * total_area m.
  Proof.
    intros P G w FE SMG SAG HE r. set (eta := sol_eta delta) in *. assert (EE := error_energy). fold eta in EE. assert (ES := energy_smoothed).
    apply Rle_trans with (24 * c * (r * r) * (eta / 2 * total_area m + / (2 * eta) * Sum (fun k => dom_area m k * strain_sq (smoothed_strain m v k)) (edge_keys m))).
    - unfold kG_energy. rewrite <- (Sum_dom_area m W).
      rewrite <- !Sum_scal, <- Sum_plus, <- Sum_scal.
      replace (Sum (edge_work m pfn d w w) (edge_keys m) - Sum (edge_work m pfn u w w) (edge_keys m))
        with (Sum (fun k => edge_work m pfn d w w k + -1 * edge_work m pfn u w w k) (edge_keys m)) by (rewrite Sum_plus, Sum_scal; ring).
      apply Sum_abs. intros k Hin. assert (A := dom_nonneg m k).
      destruct (motion_near Om m h kappa P W PL FE Hh Hk G w M s k HM SMG SAG Hin) as [_ [_ [GX GY]]].
      assert (OPk : Om (P k)) by (apply (proj1 (proj2 FE)), Hin).
      destruct SMG as [_ [_ [[_ SW] _]]]. specialize (SW (fst (P k)) (snd (P k))). destruct SW as [SW1 SW2]; [destruct (P k); exact OPk|].
      assert (RX : Rabs (sgx m k (comp m w 2)) <= r).
      { replace (sgx m k (comp m w 2)) with (fdx (fw G) (fst (P k)) (snd (P k)) + (sgx m k (comp m w 2) - fdx (fw G) (fst (P k)) (snd (P k)))) by ring. apply rb_plus; assumption. }
      assert (RY : Rabs (sgy m k (comp m w 2)) <= r).
      { replace (sgy m k (comp m w 2)) with (fdy (fw G) (fst (P k)) (snd (P k)) + (sgy m k (comp m w 2) - fdy (fw G) (fst (P k)) (snd (P k)))) by ring. apply rb_plus; assumption. }
      unfold edge_work. rewrite !(stiffness_one m pfn p k _ W PL (va_props _ _ V) OP Hin).
      destruct (membrane_sub (pA p) (pB p) (smoothed_strain m d k) (smoothed_strain m u k)) as [Z1 [Z2 Z3]].
      replace (sub_strain (smoothed_strain m d k) (smoothed_strain m u k)) with (smoothed_strain m v k) in Z1, Z2, Z3.
      2:{ unfold v. rewrite smoothed_lin. unfold sadd_s, sscale, sub_strain; cbn [exx eyy exy kxx kyy kxy]. f_equal; ring. }
      destruct (membrane_bound c (pA p) (pB p) (smoothed_strain m v k) _ BA BB (strain_le_sqrt _)) as [N1 [N2 N3]].
      rewrite <- Z1 in N1. rewrite <- Z2 in N2. rewrite <- Z3 in N3. clear Z1 Z2 Z3.
      set (Nd := membrane (pA p) (pB p) (smoothed_strain m d k)) in *. set (Nu := membrane (pA p) (pB p) (smoothed_strain m u k)) in *.
      set (x := sqrt (strain_sq (smoothed_strain m v k))) in *. set (gx := sgx m k (comp m w 2)) in *. set (gy := sgy m k (comp m w 2)) in *.
      match goal with |- Rabs ?a <= _ => replace a with (dom_area m k * (gx * ((vx Nd - vx Nu) * gx + (vz Nd - vz Nu) * gy) + gy * ((vz Nd - vz Nu) * gx + (vy Nd - vy Nu) * gy))) by (unfold work; ring) end.
      rewrite Rabs_mult, (Rabs_right (dom_area m k)) by lra.
      assert (Y := young 1 x (/ (2 * eta)) ltac:(apply Rinv_0_lt_compat; lra)).
      assert (XX : x * x = strain_sq (smoothed_strain m v k)) by (apply sqrt_sqrt, strain_sq_nonneg). rewrite XX in Y.
      assert (R0 : 0 <= 24 * c * (r * r)) by (assert (RR := sq_nn r); apply Rmult_le_pos; lra).
      replace (1 * 1 / (4 * / (2 * eta))) with (eta / 2) in Y by (field; lra). rewrite Rmult_1_l in Y.
      apply Rle_trans with (dom_area m k * (24 * c * (r * r) * x)).
      + apply Rmult_le_compat_l; [exact A|].
        replace (24 * c * (r * r) * x) with (r * (6 * c * x * r + 6 * c * x * r) + r * (6 * c * x * r + 6 * c * x * r)) by ring.
        apply rb_plus; (apply rb_mult; [assumption|]; apply rb_plus; apply rb_mult; assumption).
      + assert (Y2 := Rmult_le_compat_l _ _ _ R0 Y). apply (Rmult_le_compat_l _ _ _ A) in Y2. lra.
    - assert (T0 : 0 <= total_area m) by (unfold total_area; apply Sum_nonneg; intros t _; apply area_nn).
      assert (R0 : 0 <= 24 * c * (r * r)) by (assert (RR := sq_nn r); apply Rmult_le_pos; lra).
      assert (E2 : 0 < / (2 * eta)) by (apply Rinv_0_lt_compat; lra).
      apply Rle_trans with (24 * c * (r * r) * (eta / 2 * total_area m + / (2 * eta) * (36 * c * eta * (36 * c * eta) * sol_L * total_area m / lam))).
      + apply Rmult_le_compat_l; [exact R0|]. apply Rplus_le_compat_l. apply Rmult_le_compat_l; [lra|]. eapply Rle_trans; [exact ES|].
        unfold Rdiv. apply Rmult_le_compat_r; [left; apply Rinv_0_lt_compat, Hl|exact EE].
      + right. field. lra.
  Qed.
End Sol.
