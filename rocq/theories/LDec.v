(** Lemmas behind the property on the decimals of the edge-based shear stiffness (C80). *)
(* P: Num Py Mesh Utils CalcK0 AddK0s Spec SpecK0 SpecKG SpecK0s SpecEdge Ex ExK0 ExK0s *)
From Coq Require Import ZArith Reals List Bool Arith Lra Lia String.
From Verif Require Import Num Py Mesh Utils CalcK0 GenEdgeI AddK0s Spec SpecK0 SpecKG SpecK0s SpecEdge FSum FMat FDict FGeom FWf FSetup FAsm
  FTensor FSmooth FRenum FKG FK0s FK0e FK0t FMove FK0u FK0r FStab2 FEdge FEdge2 LK0 LK0s LEdge Ex ExK0 ExK0s.
Import ListNotations.
Local Open Scope R_scope.
Implicit Types (m : mesh R).

Lemma Sum_near : forall (A : Type) (f g : A -> R) b l, (forall x, In x l -> Rabs (f x - g x) <= b) ->
  Rabs (Sum f l - Sum g l) <= b * INR (List.length l).
Proof.
  intros A f g b l. induction l as [|x l IH]; intros H.
  - unfold Sum; cbn. rewrite Rminus_0_r, Rabs_R0. lra.
  - rewrite !Sum_cons. cbn [List.length]. rewrite S_INR. assert (IH' := IH (fun y Hy => H y (or_intror Hy))). assert (Hx := H x (or_introl eq_refl)).
    replace (f x + Sum f l - (g x + Sum g l)) with ((f x - g x) + (Sum f l - Sum g l)) by ring.
    assert (T := Rabs_triang (f x - g x) (Sum f l - Sum g l)). lra.
Qed.

(** ** C80 *)

(** The effect of the decimals: what the code adds differs from what it would add with exact fractions by at most
    [decimals_error], for fields of any size, in every method call. *)
Lemma c80_decimals : forall m m' pfn alpha mfa k h rho c e, call_ok m m' pfn alpha k -> edge_scale m h rho c e ->
  exists ks kf, add_k0s lits_src k m' pfn "edge-based" alpha mfa = (ks, Ok tt) /\
    add_k0s lits_frac k m' pfn "edge-based" alpha mfa = (kf, Ok tt) /\
    forall U V u v, field_scale m h U u -> field_scale m h V v -> Rabs (form ks u v - form kf u v) <= decimals_error m rho c e U V.
Proof.
  intros m m' pfn alpha mfa k h rho c e C ES. destruct (call_spec _ _ _ _ _ C) as [W PL].
  destruct (edge_method_add lits_src m m' pfn alpha mfa k C) as [ks [Es [_ As]]].
  destruct (edge_method_add lits_frac m m' pfn alpha mfa k C) as [kf [Ef [_ Af]]]. exists ks, kf. do 2 (split; [assumption|]).
  intros U V u v FU FV. rewrite As, Af. unfold decimals_error.
  match goal with |- Rabs (?a + ?b - (?a + ?d)) <= _ => replace (a + b - (a + d)) with (b - d) by ring end.
  apply Sum_near. intros x Hx.
  assert (CR := corr_range alpha _ (edge_size m mfa x) (co_alpha _ _ _ _ _ C) (edge_thick m pfn x W PL (co_props _ _ _ _ _ C) (co_thick _ _ _ _ _ C) Hx)).
  rewrite <- Rmult_minus_distr_l, Rabs_mult, (Rabs_right (corr _ _ _)) by lra.
  assert (Q := edge_Q_near m W PL pfn h rho c e ES U V u v x Hx FU FV).
  assert (P := Rabs_pos (edge_Q lits_src m pfn x u v - edge_Q lits_frac m pfn x u v)).
  eapply Rle_trans; [|exact Q]. rewrite <- Rmult_1_l. apply Rmult_le_compat_r; lra.
Qed.
Lemma two_scale : edge_scale (move 0 (-1) (two (shear_prop 1 1 1 1))) 1 6 1 1.
Proof.
  set (p := shear_prop 1 1 1 1). assert (W := two_wf' p). destruct two_pos as [P1 [P2 [P3 P4]]].
  assert (PM : forall n, In n [1; 2; 3; 4]%nat -> pos (move 0 (-1) (two p)) n = V3 (vx (pos two_read n) + 0) (vy (pos two_read n) + -1) (vz (pos two_read n))).
  { intros n Hn. rewrite (mv_pos 0 (-1) (two p)) by exact Hn. unfold two, all_same. rewrite wp_pos. reflexivity. }
  assert (VT : forall t n, In t (trias_of (move 0 (-1) (two p))) -> vertex t n -> In n [1; 2; 3; 4]%nat).
  { intros t n Ht Hv. change (trias_of (move 0 (-1) (two p))) with [two_t1 p; two_t2 p] in Ht.
    destruct Ht as [<-|[<-|[]]]; unfold vertex in Hv; cbn in Hv |- *; intuition (subst; auto). }
  assert (RG : forall n, In n [1; 2; 3; 4]%nat -> 0 <= vx (pos (move 0 (-1) (two p)) n) <= 1 /\ -1 <= vy (pos (move 0 (-1) (two p)) n) <= 0 /\ vz (pos (move 0 (-1) (two p)) n) = 0).
  { intros n Hn. rewrite (PM n Hn). destruct Hn as [<-|[<-|[<-|[<-|[]]]]]; rewrite ?P1, ?P2, ?P3, ?P4; cbn; lra. }
  constructor.
  - lra.
  - lra.
  - lra.
  - lra.
  - intros t a b Ht Ha Hb. assert (A := RG a (VT t a Ht Ha)). assert (B := RG b (VT t b Ht Hb)).
    repeat split; apply Rabs_le; lra.
  - intros t Ht. change (trias_of (move 0 (-1) (two p))) with [two_t1 p; two_t2 p] in Ht.
    unfold tarea, tdet, det2. destruct Ht as [<-|[<-|[]]].
    + change (tn1 (two_t1 p)) with 1%nat; change (tn2 (two_t1 p)) with 2%nat; change (tn3 (two_t1 p)) with 3%nat.
      rewrite !PM by (cbn; tauto); rewrite ?P1, ?P2, ?P3, ?P4; cbn [vx vy vz]. unfold Rabs; destruct Rcase_abs; lra.
    + change (tn1 (two_t2 p)) with 1%nat; change (tn2 (two_t2 p)) with 3%nat; change (tn3 (two_t2 p)) with 4%nat.
      rewrite !PM by (cbn; tauto); rewrite ?P1, ?P2, ?P3, ?P4; cbn [vx vy vz]. unfold Rabs; destruct Rcase_abs; lra.
  - apply mv_all_props. apply with_one; [exact two_wf|]. cbn. rewrite Rabs_R1. lra.
  - apply mv_all_props. apply with_one; [exact two_wf|]. cbn. rewrite Rabs_R1, Rabs_R0. lra.
Qed.
Lemma two_field : forall p, field_scale (move 0 (-1) (two p)) 1 1 two_rot.
Proof.
  intros p n Hn. change (node_keys (move 0 (-1) (two p))) with [1; 2; 3; 4]%nat in Hn. unfold comp, rank.
  change (node_keys (move 0 (-1) (two p))) with [1; 2; 3; 4]%nat.
  destruct Hn as [<-|[<-|[<-|[<-|[]]]]]; cbn; rewrite ?Rabs_R0, ?Rabs_R1, ?Rabs_Ropp, ?Rabs_R1; try (change (-1) with (-(1))); rewrite ?Rabs_Ropp, ?Rabs_R1; lra.
Qed.
(** on a unit square the error is at most 2 * 10^-9 for unit fields, stiffness and factors *)
Lemma c80_decimals_ex : forall pfn, let m := move 0 (-1) (two (shear_prop 1 1 1 1)) in
  (exists m', call_ok m m' pfn 2 (zeros 20)) /\ edge_scale m 1 6 1 1 /\ (exists u, field_scale m 1 1 u /\ comp m u 2 3 = 1) /\
  decimals_error m 6 1 1 1 1 <= 2 / 1000000000.
Proof.
  intros pfn m. split; [apply two_call; lra|]. split; [apply two_scale|]. split.
  - exists two_rot. split; [apply two_field|]. unfold comp, rank, m. change (node_keys (move 0 (-1) (two (shear_prop 1 1 1 1)))) with [1; 2; 3; 4]%nat. reflexivity.
  - unfold decimals_error. assert (E : List.length (edge_keys m) = 5%nat) by reflexivity. rewrite E. cbn [INR]. lra.
Qed.

(** The code, up to that error: for a mesh as in C79 the call adds the energy of the discrete shear strains. *)
Lemma c80_energy : forall m m' pfn alpha mfa k h rho c e, call_ok m m' pfn alpha k -> edge_scale m h rho c e -> starts_level m ->
  exists k', add_k0s lits_src k m' pfn "edge-based" alpha mfa = (k', Ok tt) /\
    forall U V u v, field_scale m h U u -> field_scale m h V v ->
      Rabs (form k' u v - (form k u v + edge_energy m pfn alpha mfa (strain_edge m u) (strain_edge m v))) <= decimals_error m rho c e U V.
Proof.
  intros m m' pfn alpha mfa k h rho c e C ES SL. destruct (c80_decimals m m' pfn alpha mfa k h rho c e C ES) as [ks [kf [Es [Ef D]]]].
  destruct (c79_energy_partial m m' pfn alpha mfa k C SL) as [k' [E [_ A]]]. rewrite Ef in E. injection E as <-.
  exists ks. split; [exact Es|]. intros U V u v FU FV. rewrite <- A. apply D; assumption.
Qed.
Lemma c80_energy_ex : forall pfn, let m := move 0 (-1) (two (shear_prop 1 1 1 1)) in
  (exists m', call_ok m m' pfn 2 (zeros 20)) /\ edge_scale m 1 6 1 1 /\ starts_level m /\ exists u, field_scale m 1 1 u /\ comp m u 2 3 = 1.
Proof. intros pfn m. split; [apply two_call; lra|]. split; [apply two_scale|]. split; [apply two_level|]. apply (c80_decimals_ex pfn). Qed.

(** The code, up to that error: rigid rotations and constant shear strains, on a mesh as in C79. *)
Lemma c80_constant : forall m m' pfn alpha mfa k h rho c e u wx wy px py, call_ok m m' pfn alpha k -> edge_scale m h rho c e ->
  starts_level m -> constant_shear m u wx wy px py ->
  exists k', add_k0s lits_src k m' pfn "edge-based" alpha mfa = (k', Ok tt) /\
    forall U V v, field_scale m h U u -> field_scale m h V v ->
      Rabs (form k' u v - (form k u v + edge_energy m pfn alpha mfa (fun _ => (wx + px, wy + py)) (strain_edge m v))) <= decimals_error m rho c e U V.
Proof.
  intros m m' pfn alpha mfa k h rho c e u wx wy px py C ES SL CS. destruct (c80_decimals m m' pfn alpha mfa k h rho c e C ES) as [ks [kf [Es [Ef D]]]].
  destruct (c79_constant_partial m m' pfn alpha mfa k u wx wy px py C SL CS) as [k' [E A]]. rewrite Ef in E. injection E as <-.
  exists ks. split; [exact Es|]. intros U V v FU FV. rewrite <- A. apply D; assumption.
Qed.
Lemma c80_constant_ex : forall pfn, let m := move 0 (-1) (two (shear_prop 1 1 1 1)) in
  (exists m', call_ok m m' pfn 2 (zeros 20)) /\ edge_scale m 1 6 1 1 /\ starts_level m /\
  exists u, constant_shear m u 0 1 0 (-1) /\ field_scale m 1 1 u.
Proof.
  intros pfn m. split; [apply two_call; lra|]. split; [apply two_scale|]. split; [apply two_level|]. exists two_rot.
  split; [apply two_rotation|apply two_field].
Qed.

(** The code, up to that error, on any plate: the added form is symmetric and translations in w give no force (C39). *)
Lemma c80_symmetry : forall m m' pfn alpha mfa k h rho c e, call_ok m m' pfn alpha k -> edge_scale m h rho c e ->
  exists k', add_k0s lits_src k m' pfn "edge-based" alpha mfa = (k', Ok tt) /\
    forall U V u v, field_scale m h U u -> field_scale m h V v ->
      Rabs ((form k' u v - form k u v) - (form k' v u - form k v u)) <= 2 * decimals_error m rho c e U V /\
      (w_translation m u -> Rabs (form k' v u - form k v u) <= decimals_error m rho c e U V).
Proof.
  intros m m' pfn alpha mfa k h rho c e C ES. destruct (call_spec _ _ _ _ _ C) as [W PL].
  destruct (c80_decimals m m' pfn alpha mfa k h rho c e C ES) as [ks [kf [Es [Ef D]]]].
  destruct (edge_method_add lits_frac m m' pfn alpha mfa k C) as [k' [E [_ A]]]. rewrite Ef in E. injection E as <-.
  exists ks. split; [exact Es|]. intros U V u v FU FV. assert (D1 := D U V u v FU FV). assert (D2 := D V U v u FV FU).
  assert (DE : decimals_error m rho c e V U = decimals_error m rho c e U V) by (unfold decimals_error; ring). rewrite DE in D2.
  assert (X : form kf u v - form k u v = form kf v u - form k v u).
  { rewrite !A. assert (X : forall a b c d : R, b = d -> a + b - a = c + d - c) by (intros; lra). apply X. apply Sum_ext_in. intros x Hx.
    rewrite !edge_Q_frac by assumption. rewrite quad2_sym. reflexivity. }
  split.
  - replace (form ks u v - form k u v - (form ks v u - form k v u)) with ((form ks u v - form kf u v) + - (form ks v u - form kf v u)) by lra.
    assert (T := Rabs_triang (form ks u v - form kf u v) (- (form ks v u - form kf v u))). rewrite Rabs_Ropp in T. lra.
  - intros T. replace (form k v u) with (form kf v u); [exact D2|]. rewrite A, Sum_zero; [ring|]. intros x Hx.
    rewrite edge_Q_frac, (edge_strain_lift m W x Hx u T) by assumption. unfold quad2; cbn [fst snd]. ring.
Qed.
Definition two_lift : nat -> R := fun i => nth i [0;0;1;0;0; 0;0;1;0;0; 0;0;1;0;0; 0;0;1;0;0] 0.
Lemma c80_symmetry_ex : forall pfn, let m := move 0 (-1) (two (shear_prop 1 1 1 1)) in
  (exists m', call_ok m m' pfn 2 (zeros 20)) /\ edge_scale m 1 6 1 1 /\ exists u, field_scale m 1 1 u /\ w_translation m u /\ comp m u 2 3 = 1.
Proof.
  intros pfn m. split; [apply two_call; lra|]. split; [apply two_scale|]. exists two_lift.
  assert (NK : node_keys m = [1; 2; 3; 4]%nat) by reflexivity. split; [|split].
  - intros n Hn. rewrite NK in Hn. unfold comp, rank. rewrite NK. destruct Hn as [<-|[<-|[<-|[<-|[]]]]]; cbn; rewrite ?Rabs_R0, ?Rabs_R1; lra.
  - exists 1. intros n Hn. rewrite NK in Hn. unfold comp, rank, affine. rewrite NK. destruct Hn as [<-|[<-|[<-|[<-|[]]]]]; cbn; repeat split; lra.
  - unfold comp, rank. rewrite NK. reflexivity.
Qed.

(** The code, up to that error, on any plate: the added energy is not negative and does not increase with alpha (C36). *)
Lemma c80_monotone : forall m m' pfn mfa k a b h rho c e, call_ok m m' pfn a k -> a <= b -> stiff_full m -> edge_scale m h rho c e ->
  exists ka kb, add_k0s lits_src k m' pfn "edge-based" a mfa = (ka, Ok tt) /\ add_k0s lits_src k m' pfn "edge-based" b mfa = (kb, Ok tt) /\
    forall U u, field_scale m h U u ->
      form k u u - decimals_error m rho c e U U <= form kb u u <= form ka u u + 2 * decimals_error m rho c e U U.
Proof.
  intros m m' pfn mfa k a b h rho c e C LE ST ES.
  assert (Cb : call_ok m m' pfn b k) by (constructor; try apply C; assert (A0 := co_alpha _ _ _ _ _ C); lra).
  destruct (c36_edge_partial m m' pfn mfa k a b C LE ST) as [fa [fb [Fa [Fb M]]]].
  destruct (c80_decimals m m' pfn a mfa k h rho c e C ES) as [ka [xa [Ea [Xa Da]]]]. rewrite Fa in Xa. injection Xa as <-.
  destruct (c80_decimals m m' pfn b mfa k h rho c e Cb ES) as [kb [xb [Eb [Xb Db]]]]. rewrite Fb in Xb. injection Xb as <-.
  exists ka, kb. do 2 (split; [assumption|]). intros U u FU. specialize (M u). specialize (Da U U u u FU FU). specialize (Db U U u u FU FU).
  revert Da Db. unfold Rabs. destruct Rcase_abs; destruct Rcase_abs; lra.
Qed.
Lemma two_stiff_full : stiff_full (move 0 (-1) (two (shear_prop 1 1 1 1))).
Proof.
  apply mv_all_props. apply with_one; [exact two_wf|]. cbn. split; [lra|]. split; [lra|]. intros x y.
  assert (X := Rle_0_sqr x). assert (Y := Rle_0_sqr y). unfold Rsqr in *. lra.
Qed.
Lemma c80_monotone_ex : forall pfn, let m := move 0 (-1) (two (shear_prop 1 1 1 1)) in
  (exists m', call_ok m m' pfn 1 (zeros 20)) /\ stiff_full m /\ edge_scale m 1 6 1 1 /\ exists u, field_scale m 1 1 u /\ comp m u 2 3 = 1.
Proof. intros pfn m. split; [apply two_call; lra|]. split; [apply two_stiff_full|]. split; [apply two_scale|]. apply (c80_decimals_ex pfn). Qed.
