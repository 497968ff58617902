(** Facts about smooth fields on fine meshes. *)
From Coq Require Import ZArith Reals List Bool Arith Lra Lia Psatz.
From Verif Require Import Num Py Mesh Utils CalcK0 Spec SpecK0 SpecKG SpecConv FSum FWf FSmooth.
Import ListNotations.
Local Open Scope R_scope.
Implicit Types (m : mesh R).

Lemma rb : forall x b, Rabs x <= b <-> - b <= x <= b.
Proof. intros x b; split; [intros H; unfold Rabs in H; destruct (Rcase_abs x); lra|intros H; apply Rabs_le; exact H]. Qed.
Lemma rb_plus : forall x y a b, Rabs x <= a -> Rabs y <= b -> Rabs (x + y) <= a + b.
Proof. intros x y a b H1 H2. rewrite rb in *. lra. Qed.
Lemma rb_minus : forall x y a b, Rabs x <= a -> Rabs y <= b -> Rabs (x - y) <= a + b.
Proof. intros x y a b H1 H2. rewrite rb in *. lra. Qed.
Lemma rb_mult : forall x y a b, Rabs x <= a -> Rabs y <= b -> Rabs (x * y) <= a * b.
Proof. intros x y a b H1 H2. rewrite Rabs_mult. apply Rmult_le_compat; auto using Rabs_pos. Qed.
Lemma rb_le : forall x a b, Rabs x <= a -> a <= b -> Rabs x <= b.
Proof. intros; lra. Qed.
Lemma rb_nonneg : forall x a, Rabs x <= a -> 0 <= a.
Proof. intros x a H. assert (Z := Rabs_pos x). lra. Qed.

Lemma lin3 : forall r1 r2 r3 a1 a2 a3 c rho h,
  Rabs r1 <= rho -> Rabs r2 <= rho -> Rabs r3 <= rho -> Rabs (a1 - c) <= h -> Rabs (a2 - c) <= h -> Rabs (a3 - c) <= h ->
  Rabs ((r2 - r1) * (a3 - a1) - (r3 - r1) * (a2 - a1)) <= 6 * rho * h.
Proof.
  intros r1 r2 r3 a1 a2 a3 c rho h H1 H2 H3 A1 A2 A3.
  replace ((r2 - r1) * (a3 - a1) - (r3 - r1) * (a2 - a1))
    with (r1 * ((a2 - c) - (a3 - c)) + r2 * ((a3 - c) - (a1 - c)) + r3 * ((a1 - c) - (a2 - c))) by ring.
  replace (6 * rho * h) with (rho * (h + h) + rho * (h + h) + rho * (h + h)) by ring.
  repeat apply rb_plus; apply rb_mult; auto using rb_minus.
Qed.

Lemma div_bound : forall N D b a, Rabs N <= b -> 0 < a -> 2 * a <= Rabs D -> Rabs (N / D) <= b / (2 * a).
Proof.
  intros N D b a H A HD. unfold Rdiv. rewrite Rabs_mult, Rabs_inv. apply Rmult_le_compat.
  - apply Rabs_pos. - left; apply Rinv_0_lt_compat; lra. - exact H. - apply Rinv_le_contravar; lra.
Qed.

Section Tria.
  Variables (Om : R * R -> Prop) (m : mesh R) (t : tria R) (f : scalar) (M s h a : R) (p : R * R) (q : nat -> R).
  Hypothesis SM : smooth Om M s f.
  Hypothesis OP : Om p.
  Hypothesis ON : forall n, vertex t n -> Om (vx (pos m n), vy (pos m n)).
  Hypothesis NR : forall n, vertex t n -> near m h p n.
  Hypothesis Q : forall n, vertex t n -> q n = fval f (vx (pos m n)) (vy (pos m n)).
  Hypothesis Apos : 0 < a.
  Hypothesis Area : a <= tarea m t.

  Definition rem (n : nat) : R :=
    q n - (fval f (fst p) (snd p) + fdx f (fst p) (snd p) * (vx (pos m n) - fst p) + fdy f (fst p) (snd p) * (vy (pos m n) - snd p)).

  Lemma h_nonneg : 0 <= h.
  Proof. destruct (NR (tn1 t)) as [H _]; [left; reflexivity|]. apply (rb_nonneg _ _ H). Qed.

  Hypothesis M_nonneg : 0 <= M.

  Lemma rem_bound : forall n, vertex t n -> Rabs (rem n) <= 2 * M * (h * h).
  Proof.
    intros n V. unfold rem. rewrite (Q n V). destruct (NR n V) as [N1 N2]. eapply rb_le; [apply (proj1 SM); [destruct p; exact OP|apply ON; exact V]|].
    set (dx := vx (pos m n) - fst p) in *. set (dy := vy (pos m n) - snd p) in *.
    assert (X : dx * dx <= h * h) by (assert (Z := rb_mult _ _ _ _ N1 N1); rewrite rb in Z; lra).
    assert (Y : dy * dy <= h * h) by (assert (Z := rb_mult _ _ _ _ N2 N2); rewrite rb in Z; lra).
    assert (Z : M * (dx * dx + dy * dy) <= M * (2 * (h * h))) by (apply Rmult_le_compat_l; lra). lra.
  Qed.

  Lemma det_big : 2 * a <= Rabs (tdet m t) /\ tdet m t <> 0.
  Proof.
    unfold tarea in Area. split; [lra|]. intros E. rewrite E, Rabs_R0 in Area. lra.
  Qed.

  Lemma tgx_rem : tgx m t q - fdx f (fst p) (snd p) =
    ((rem (tn2 t) - rem (tn1 t)) * (vy (pos m (tn3 t)) - vy (pos m (tn1 t)))
     - (rem (tn3 t) - rem (tn1 t)) * (vy (pos m (tn2 t)) - vy (pos m (tn1 t)))) / tdet m t.
  Proof. unfold tgx, rem. assert (Z := proj2 det_big). unfold tdet, det2 in *. field. exact Z. Qed.
  Lemma tgy_rem : tgy m t q - fdy f (fst p) (snd p) =
    - ((rem (tn2 t) - rem (tn1 t)) * (vx (pos m (tn3 t)) - vx (pos m (tn1 t)))
     - (rem (tn3 t) - rem (tn1 t)) * (vx (pos m (tn2 t)) - vx (pos m (tn1 t)))) / tdet m t.
  Proof. unfold tgy, rem. assert (Z := proj2 det_big). unfold tdet, det2 in *. field. exact Z. Qed.

  Lemma tria_grad : Rabs (tgx m t q - fdx f (fst p) (snd p)) <= 6 * M * (h * h * h) / a /\
                    Rabs (tgy m t q - fdy f (fst p) (snd p)) <= 6 * M * (h * h * h) / a.
  Proof.
    assert (V1 : vertex t (tn1 t)) by (left; reflexivity).
    assert (V2 : vertex t (tn2 t)) by (right; left; reflexivity).
    assert (V3 : vertex t (tn3 t)) by (right; right; reflexivity).
    replace (6 * M * (h * h * h) / a) with (6 * (2 * M * (h * h)) * h / (2 * a)) by (field; lra).
    rewrite tgx_rem, tgy_rem. split; apply div_bound; try exact Apos; try apply det_big.
    - apply (lin3 _ _ _ _ _ _ (snd p)); try (apply rem_bound; assumption); apply NR; assumption.
    - rewrite Rabs_Ropp. apply (lin3 _ _ _ _ _ _ (fst p)); try (apply rem_bound; assumption); apply NR; assumption.
  Qed.
End Tria.

Lemma Sum_abs : forall A (f g : A -> R) l, (forall x, In x l -> Rabs (f x) <= g x) -> Rabs (Sum f l) <= Sum g l.
Proof.
  intros A f g l; induction l as [|x l IH]; intros H.
  - rewrite !Sum_nil, Rabs_R0; lra.
  - rewrite !Sum_cons. apply rb_plus; [apply H; left; reflexivity|apply IH; intros y Hy; apply H; right; exact Hy].
Qed.

Lemma mean_bound : forall A (w g : A -> R) l c d, (forall x, In x l -> 0 <= w x) -> 0 < Sum w l ->
  (forall x, In x l -> Rabs (g x - c) <= d) -> Rabs (Sum (fun x => w x * g x) l / Sum w l - c) <= d.
Proof.
  intros A w g l c d W P H.
  replace (Sum (fun x => w x * g x) l / Sum w l - c) with (Sum (fun x => w x * (g x - c)) l / Sum w l).
  - unfold Rdiv. rewrite Rabs_mult, Rabs_inv, (Rabs_right (Sum w l)) by lra.
    apply Rmult_le_reg_r with (Sum w l); [exact P|]. rewrite Rmult_assoc, Rinv_l, Rmult_1_r by lra.
    rewrite <- Sum_scal. apply Sum_abs. intros x Hx. rewrite Rabs_mult, (Rabs_right (w x)) by (apply Rle_ge, W, Hx).
    rewrite (Rmult_comm d). apply Rmult_le_compat_l; [apply W, Hx|apply H, Hx].
  - rewrite (Sum_ext _ _ (fun x => w x * g x + (- c) * w x)) by (intros; ring). rewrite Sum_plus, Sum_scal. field. lra.
Qed.

Section Domain.
  Variables (Om : R * R -> Prop) (m : mesh R) (h kappa : R) (P : nat * nat -> R * R).
  Hypothesis W : wf_mesh m.
  Hypothesis PL : plate m.
  Hypothesis F : fine Om m h kappa P.
  Hypothesis Hh : 0 < h.
  Hypothesis Hk : 0 < kappa.

  Lemma fine_grad : forall k f M s q, In k (edge_keys m) -> 0 <= M -> smooth Om M s f ->
    (forall n, In n (node_keys m) -> q n = fval f (vx (pos m n)) (vy (pos m n))) ->
    Rabs (sgx m k q - fdx f (fst (P k)) (snd (P k))) <= 6 * M * h / kappa /\
    Rabs (sgy m k q - fdy f (fst (P k)) (snd (P k))) <= 6 * M * h / kappa.
  Proof.
    intros k f M s q Hin MN SM Q.
    assert (X : forall t, In t (tris_on m k) ->
      Rabs (tgx m t q - fdx f (fst (P k)) (snd (P k))) <= 6 * M * h / kappa /\
      Rabs (tgy m t q - fdy f (fst (P k)) (snd (P k))) <= 6 * M * h / kappa).
    { intros t Ht. assert (HT : In t (trias_of m)) by (apply tris_on_in in Ht; tauto).
      assert (Z : 0 < kappa * (h * h)) by (apply Rmult_lt_0_compat; [exact Hk|apply Rmult_lt_0_compat; exact Hh]).
      replace (6 * M * h / kappa) with (6 * M * (h * h * h) / (kappa * (h * h))) by (field; lra).
      destruct F as [F1 [F2 [F3 F4]]].
      apply (tria_grad Om m t f M s h (kappa * (h * h)) (P k) q SM); [apply F2; exact Hin| | | |exact Z|apply (F4 t HT)|exact MN].
      - intros n V. apply F1. apply (wf_vertices m W t n HT V).
      - intros n V. apply (F3 k n Hin). exists t; auto.
      - intros n V. apply Q. apply (wf_vertices m W t n HT V). }
    assert (A := tris_area_pos m W PL k Hin).
    split; unfold sgx, sgy; apply mean_bound; try exact A; try (intros t Ht; apply X; exact Ht);
      intros t _; unfold tarea; assert (Y := Rabs_pos (tdet m t)); lra.
  Qed.
End Domain.

(** ** Strains *)

Definition near_strain (d : R) (e f : strain) : Prop :=
  Rabs (exx e - exx f) <= d /\ Rabs (eyy e - eyy f) <= d /\ Rabs (exy e - exy f) <= d /\
  Rabs (kxx e - kxx f) <= d /\ Rabs (kyy e - kyy f) <= d /\ Rabs (kxy e - kxy f) <= d.
Definition strain_le (b : R) (e : strain) : Prop :=
  Rabs (exx e) <= b /\ Rabs (eyy e) <= b /\ Rabs (exy e) <= b /\ Rabs (kxx e) <= b /\ Rabs (kyy e) <= b /\ Rabs (kxy e) <= b.
Definition sub_strain (e f : strain) : strain :=
  Strain (exx e - exx f) (eyy e - eyy f) (exy e - exy f) (kxx e - kxx f) (kyy e - kyy f) (kxy e - kxy f).

Lemma near_sub : forall d e f, near_strain d e f -> strain_le d (sub_strain e f).
Proof. intros d e f H; exact H. Qed.

Lemma quad3_bound : forall c M x1 x2 x3 y1 y2 y3 a b, mat3_bounded c M ->
  Rabs x1 <= a -> Rabs x2 <= a -> Rabs x3 <= a -> Rabs y1 <= b -> Rabs y2 <= b -> Rabs y3 <= b ->
  Rabs (quad3 M x1 x2 x3 y1 y2 y3) <= 9 * c * a * b.
Proof.
  intros c M x1 x2 x3 y1 y2 y3 a b [H00 [H01 [H02 [_ [H11 [H12 [_ [_ H22]]]]]]]] X1 X2 X3 Y1 Y2 Y3. unfold quad3.
  replace (9 * c * a * b) with (c * a * b + c * a * b + c * a * b + c * (a * b + a * b) + c * (a * b + a * b) + c * (a * b + a * b)) by ring.
  repeat apply rb_plus; repeat (apply rb_mult || apply rb_plus); assumption.
Qed.

Lemma dens_bound : forall c A B D e f a b, mat3_bounded c A -> mat3_bounded c B -> mat3_bounded c D ->
  strain_le a e -> strain_le b f -> Rabs (dens A B D e f) <= 36 * c * a * b.
Proof.
  intros c A B D e f a b HA HB HD [E1 [E2 [E3 [E4 [E5 E6]]]]] [F1 [F2 [F3 [F4 [F5 F6]]]]]. unfold dens.
  replace (36 * c * a * b) with (9 * c * a * b + 9 * c * a * b + 9 * c * a * b + 9 * c * a * b) by ring.
  repeat apply rb_plus; apply quad3_bound; assumption.
Qed.

Lemma dens_diff : forall A B D e f, dens A B D e e - dens A B D f f = dens A B D (sub_strain e f) e + dens A B D f (sub_strain e f).
Proof. intros A B D [e1 e2 e3 e4 e5 e6] [f1 f2 f3 f4 f5 f6]; unfold dens, sub_strain, quad3; cbn [exx eyy exy kxx kyy kxy]. ring. Qed.

Lemma strain_near_le : forall d b e f, near_strain d e f -> strain_le b f -> strain_le (b + d) e.
Proof.
  intros d b e f [E1 [E2 [E3 [E4 [E5 E6]]]]] [F1 [F2 [F3 [F4 [F5 F6]]]]].
  repeat split; match goal with |- Rabs (?g e) <= _ => replace (g e) with (g f + (g e - g f)) by ring end; apply rb_plus; assumption.
Qed.

Lemma dens_near : forall c A B D e f d b, mat3_bounded c A -> mat3_bounded c B -> mat3_bounded c D ->
  near_strain d e f -> strain_le b f -> Rabs (dens A B D e e - dens A B D f f) <= 36 * c * d * (2 * b + d).
Proof.
  intros c A B D e f d b HA HB HD N B'. rewrite dens_diff.
  replace (36 * c * d * (2 * b + d)) with (36 * c * d * (b + d) + 36 * c * b * d) by ring.
  apply rb_plus; apply dens_bound; auto using near_sub. apply (strain_near_le d b e f N B').
Qed.

(** ** Stiffness of an edge *)

Lemma wsum3_bounded : forall A (w : A -> R) (M : A -> mat3 R) l c, (forall x, In x l -> 0 <= w x) -> 0 < Sum w l ->
  (forall x, In x l -> mat3_bounded c (M x)) -> mat3_bounded c (wsum3 w M l).
Proof.
  intros A w M l c W P H. unfold wsum3, mat3_bounded; cbn [m00 m01 m02 m10 m11 m12 m20 m21 m22].
  assert (X : forall g : mat3 R -> R, (forall x, In x l -> Rabs (g (M x)) <= c) -> Rabs (Sum (fun a => w a * g (M a)) l / Sum w l) <= c).
  { intros g Hg. assert (Z := mean_bound A w (fun x => g (M x)) l 0 c W P). rewrite Rminus_0_r in Z. apply Z.
    intros x Hx. rewrite Rminus_0_r. apply Hg, Hx. }
  repeat split; apply X; intros x Hx; apply (H x Hx).
Qed.

Lemma getp_bounded : forall c (sel : prop R -> mat3 R) o, 0 <= c -> (forall p, o = Some p -> mat3_bounded c (sel p)) -> mat3_bounded c (getp sel o).
Proof.
  intros c sel [p|] C H; cbn [getp]; [apply H; reflexivity|]. unfold mat3_bounded, zero3; cbn [m00 m01 m02 m10 m11 m12 m20 m21 m22].
  rewrite Rabs_R0. tauto.
Qed.

Lemma edge_bounded : forall m pfn sel c k, wf_mesh m -> plate m -> 0 <= c -> all_props m (fun p => mat3_bounded c (sel p)) ->
  In k (edge_keys m) -> mat3_bounded c (edge_stiffness m pfn sel k).
Proof.
  intros m pfn sel c k W PL C [HN HT] Hk. unfold edge_stiffness. destruct pfn.
  - assert (N : forall n, mat3_bounded c (getp sel (nodeprop m n))) by (intros n; apply getp_bounded; [exact C|intros p E; apply (HN n p E)]).
    assert (ONE : forall A (l : list A), l <> [] -> 0 < Sum (fun _ => 1) l).
    { intros A [|x l] NE; [congruence|]. rewrite Sum_cons. assert (Z : 0 <= Sum (fun _ : A => 1) l) by (apply Sum_nonneg; intros; lra). lra. }
    unfold node_stiffness. apply wsum3_bounded; [intros; lra|apply ONE; discriminate|].
    intros x [<-|[<-|Hx]]; [apply N|apply N|]. apply in_map_iff in Hx. destruct Hx as [t [<- _]].
    apply wsum3_bounded; [intros; lra|apply ONE; discriminate|intros; apply N].
  - unfold tria_stiffness. apply wsum3_bounded.
    + intros t _. unfold tarea. assert (Y := Rabs_pos (tdet m t)); lra.
    + apply tris_area_pos; assumption.
    + intros t Ht. apply getp_bounded; [exact C|]. intros p E. apply (HT t p); [apply tris_on_in in Ht; tauto|exact E].
Qed.

(** ** Energy and work *)

Section Motion.
  Variables (Om : R * R -> Prop) (m : mesh R) (h kappa : R) (P : nat * nat -> R * R).
  Hypothesis W : wf_mesh m.
  Hypothesis PL : plate m.
  Hypothesis F : fine Om m h kappa P.
  Hypothesis Hh : 0 < h.
  Hypothesis Hk : 0 < kappa.

  Lemma motion_near : forall G u M s k, 0 <= M -> motion_smooth Om M s G -> samples m G u -> In k (edge_keys m) ->
    near_strain (12 * M * h / kappa) (smoothed_strain m u k) (true_strain G (P k)) /\ strain_le (2 * s) (true_strain G (P k)) /\
    Rabs (sgx m k (comp m u 2) - fdx (fw G) (fst (P k)) (snd (P k))) <= 12 * M * h / kappa /\
    Rabs (sgy m k (comp m u 2) - fdy (fw G) (fst (P k)) (snd (P k))) <= 12 * M * h / kappa.
  Proof.
    intros G u M s k MN [SU [SV [SW [SX SY]]]] SA Hin.
    destruct (fine_grad Om m h kappa P W PL F Hh Hk k (fu G) M s (comp m u 0) Hin MN SU) as [U1 U2]; [intros n Hn; apply (SA n Hn)|].
    destruct (fine_grad Om m h kappa P W PL F Hh Hk k (fv G) M s (comp m u 1) Hin MN SV) as [V1 V2]; [intros n Hn; apply (SA n Hn)|].
    destruct (fine_grad Om m h kappa P W PL F Hh Hk k (fw G) M s (comp m u 2) Hin MN SW) as [W1 W2]; [intros n Hn; apply (SA n Hn)|].
    destruct (fine_grad Om m h kappa P W PL F Hh Hk k (ffx G) M s (comp m u 3) Hin MN SX) as [X1 X2]; [intros n Hn; apply (SA n Hn)|].
    destruct (fine_grad Om m h kappa P W PL F Hh Hk k (ffy G) M s (comp m u 4) Hin MN SY) as [Y1 Y2]; [intros n Hn; apply (SA n Hn)|].
    assert (OP : Om (P k)) by (apply (proj1 (proj2 F)), Hin).
    destruct (P k) as [x y]; cbn [fst snd] in *.
    assert (D : 12 * M * h / kappa = 6 * M * h / kappa + 6 * M * h / kappa) by (field; lra).
    assert (D0 := rb_nonneg _ _ U1).
    assert (SUx := proj2 SU x y OP). assert (SVx := proj2 SV x y OP). assert (SXx := proj2 SX x y OP). assert (SYx := proj2 SY x y OP).
    assert (S0 := rb_nonneg _ _ (proj1 SUx)).
    assert (SS : 2 * s = s + s) by ring.
    assert (PM : forall a b c d r, Rabs (a - c) <= r -> Rabs (b - d) <= r -> Rabs (a + b - (c + d)) <= r + r).
    { intros a b c d r H1 H2. replace (a + b - (c + d)) with ((a - c) + (b - d)) by ring. apply rb_plus; assumption. }
    rewrite D. split; [|split; [|split; lra]].
    - unfold near_strain, true_strain; cbn [smoothed_strain exx eyy exy kxx kyy kxy].
      repeat split; try (apply PM; assumption); lra.
    - unfold strain_le, true_strain; cbn [exx eyy exy kxx kyy kxy]. rewrite SS.
      repeat split; try (apply rb_plus; tauto); lra.
  Qed.

  Definition err (M : R) : R := 12 * M * h / kappa.

  Lemma dom_nonneg : forall k, 0 <= dom_area m k.
  Proof.
    intros k. unfold dom_area. assert (Z : 0 <= Sum (tarea m) (tris_on m k)); [|lra].
    apply Sum_nonneg. intros t _. unfold tarea. assert (Y := Rabs_pos (tdet m t)); lra.
  Qed.

  (** a sum over the domains, term by term *)
  Lemma dom_sum : forall (f g : nat * nat -> R) b, (forall k, In k (edge_keys m) -> Rabs (f k - g k) <= b) ->
    Rabs (Sum (fun k => dom_area m k * f k) (edge_keys m) - Sum (fun k => dom_area m k * g k) (edge_keys m)) <= b * total_area m.
  Proof.
    intros f g b H. rewrite <- (Sum_dom_area m W).
    replace (Sum (fun k => dom_area m k * f k) (edge_keys m) - Sum (fun k => dom_area m k * g k) (edge_keys m))
      with (Sum (fun k => dom_area m k * (f k - g k)) (edge_keys m)).
    - rewrite <- Sum_scal. apply Sum_abs. intros k Hin. rewrite Rabs_mult, (Rabs_right (dom_area m k)) by (apply Rle_ge, dom_nonneg).
      rewrite (Rmult_comm b). apply Rmult_le_compat_l; [apply dom_nonneg|apply H, Hin].
    - rewrite (Sum_ext _ _ (fun k => dom_area m k * f k + (-1) * (dom_area m k * g k))) by (intros; ring).
      rewrite Sum_plus, Sum_scal. ring.
  Qed.

  Lemma energy_near : forall pfn c G u M s, 0 <= c -> bounded c m -> 0 <= M -> motion_smooth Om M s G -> samples m G u ->
    Rabs (k0_energy m pfn u u - riemann_energy m pfn P G) <= 36 * c * err M * (4 * s + err M) * total_area m.
  Proof.
    intros pfn c G u M s C [BN BT] MN SM SA. unfold k0_energy, riemann_energy. apply dom_sum. intros k Hin.
    destruct (motion_near G u M s k MN SM SA Hin) as [N [L _]]. fold (err M) in N.
    replace (4 * s) with (2 * (2 * s)) by ring.
    apply dens_near; try assumption; apply edge_bounded; try assumption;
      (split; [intros n p E; apply (BN n p E)|intros t p Ht E; apply (BT t p Ht E)]).
  Qed.

  Lemma membrane_bound : forall c A B e b, mat3_bounded c A -> mat3_bounded c B -> strain_le b e ->
    Rabs (vx (membrane A B e)) <= 6 * c * b /\ Rabs (vy (membrane A B e)) <= 6 * c * b /\ Rabs (vz (membrane A B e)) <= 6 * c * b.
  Proof.
    intros c A B e b [A0 [A1 [A2 [A3 [A4 [A5 [A6 [A7 A8]]]]]]]] [B0 [B1 [B2 [B3 [B4 [B5 [B6 [B7 B8]]]]]]]] [E1 [E2 [E3 [E4 [E5 E6]]]]].
    replace (6 * c * b) with (c * b + c * b + c * b + (c * b + c * b + c * b)) by ring.
    unfold membrane; cbn [vx vy vz]. repeat split; repeat apply rb_plus; apply rb_mult; assumption.
  Qed.

  Lemma membrane_sub : forall A B e f, let d := membrane A B (sub_strain e f) in let x := membrane A B e in let y := membrane A B f in
    vx x - vx y = vx d /\ vy x - vy y = vy d /\ vz x - vz y = vz d.
  Proof.
    intros A B [e1 e2 e3 e4 e5 e6] [f1 f2 f3 f4 f5 f6]; cbv zeta. unfold membrane, sub_strain;
      cbn [exx eyy exy kxx kyy kxy vx vy vz]. repeat split; ring.
  Qed.

  Lemma prod3 : forall n n' a a' b b' dn d s nb, Rabs (n - n') <= dn -> Rabs (a - a') <= d -> Rabs (b - b') <= d ->
    Rabs a' <= s -> Rabs b' <= s -> Rabs n' <= nb ->
    Rabs (a * (n * b) - a' * (n' * b')) <= dn * ((s + d) * (s + d)) + nb * (d * (2 * s + d)).
  Proof.
    intros n n' a a' b b' dn d s nb H1 H2 H3 H4 H5 H6.
    assert (A : Rabs a <= s + d) by (replace a with (a' + (a - a')) by ring; apply rb_plus; assumption).
    assert (B : Rabs b <= s + d) by (replace b with (b' + (b - b')) by ring; apply rb_plus; assumption).
    replace (a * (n * b) - a' * (n' * b')) with ((n - n') * (a * b) + n' * ((a - a') * b + a' * (b - b'))) by ring.
    replace (nb * (d * (2 * s + d))) with (nb * (d * (s + d) + s * d)) by ring.
    apply rb_plus; apply rb_mult; try assumption; [apply rb_mult; assumption|apply rb_plus; apply rb_mult; assumption].
  Qed.

  Lemma work_near : forall pfn c G H u w M s, 0 <= c -> bounded c m -> 0 <= M -> motion_smooth Om M s G -> samples m G u ->
    motion_smooth Om M s H -> samples m H w ->
    Rabs (kG_energy m pfn u w w - riemann_work m pfn P G H) <=
      4 * (6 * c * err M * ((s + err M) * (s + err M)) + 12 * c * s * (err M * (2 * s + err M))) * total_area m.
  Proof.
    intros pfn c G H u w M s C [BN BT] MN SM SA SM2 SA2. unfold kG_energy, edge_work, riemann_work.
    rewrite (Sum_ext _ (fun k => let (x, y) := P k in _) (fun k => dom_area m k *
         work (membrane (edge_stiffness m pfn pA k) (edge_stiffness m pfn pB k) (true_strain G (P k)))
              (fdx (fw H) (fst (P k)) (snd (P k))) (fdy (fw H) (fst (P k)) (snd (P k))) (fdx (fw H) (fst (P k)) (snd (P k))) (fdy (fw H) (fst (P k)) (snd (P k)))))
      by (intros k; destruct (P k); reflexivity).
    apply dom_sum. intros k Hin.
    destruct (motion_near G u M s k MN SM SA Hin) as [N [L _]]. fold (err M) in N.
    destruct (motion_near H w M s k MN SM2 SA2 Hin) as [_ [_ [X Y]]]. fold (err M) in X, Y.
    assert (BA : mat3_bounded c (edge_stiffness m pfn pA k)).
    { apply edge_bounded; try assumption; (split; [intros n p E; apply (BN n p E)|intros t p Ht E; apply (BT t p Ht E)]). }
    assert (BB : mat3_bounded c (edge_stiffness m pfn pB k)).
    { apply edge_bounded; try assumption; (split; [intros n p E; apply (BN n p E)|intros t p Ht E; apply (BT t p Ht E)]). }
    assert (OP : Om (P k)) by (apply (proj1 (proj2 F)), Hin).
    destruct SM2 as [_ [_ [[_ SW] _]]]. specialize (SW (fst (P k)) (snd (P k))).
    destruct SW as [SW1 SW2]; [destruct (P k); exact OP|].
    destruct (membrane_bound c _ _ _ _ BA BB L) as [M1 [M2 M3]].
    destruct (membrane_bound c _ _ _ _ BA BB (near_sub _ _ _ N)) as [D1 [D2 D3]].
    destruct (membrane_sub (edge_stiffness m pfn pA k) (edge_stiffness m pfn pB k) (smoothed_strain m u k) (true_strain G (P k))) as [Z1 [Z2 Z3]].
    rewrite <- Z1 in D1. rewrite <- Z2 in D2. rewrite <- Z3 in D3.
    replace (6 * c * (2 * s)) with (12 * c * s) in M1, M2, M3 by ring.
    unfold work.
    set (n := membrane _ _ (smoothed_strain m u k)) in *. set (n' := membrane _ _ (true_strain G (P k))) in *.
    set (gx := sgx m k (comp m w 2)) in *. set (gy := sgy m k (comp m w 2)) in *.
    set (hx := fdx (fw H) (fst (P k)) (snd (P k))) in *. set (hy := fdy (fw H) (fst (P k)) (snd (P k))) in *.
    set (e := 6 * c * err M * ((s + err M) * (s + err M)) + 12 * c * s * (err M * (2 * s + err M))).
    assert (Q : forall v v' a a' b b', Rabs (v - v') <= 6 * c * err M -> Rabs v' <= 12 * c * s -> Rabs (a - a') <= err M -> Rabs a' <= s ->
      Rabs (b - b') <= err M -> Rabs b' <= s -> Rabs (a * (v * b) - a' * (v' * b')) <= e).
    { intros. apply prod3; assumption. }
    replace (4 * e) with (e + e + (e + e)) by ring.
    match goal with |- Rabs ?x <= _ => replace x with
      ((gx * (vx n * gx) - hx * (vx n' * hx)) + (gx * (vz n * gy) - hx * (vz n' * hy))
       + ((gy * (vz n * gx) - hy * (vz n' * hx)) + (gy * (vy n * gy) - hy * (vy n' * hy)))) by ring end.
    apply rb_plus; apply rb_plus; apply Q; assumption.
  Qed.
End Motion.

(** a polynomial bound of the mesh size without constant term becomes small *)
Lemma small_h : forall C D eps, 0 <= C -> 0 <= D -> 0 < eps -> exists h0, 0 < h0 /\ forall h, 0 < h <= h0 -> h <= 1 /\ C * h * (1 + D * h) <= eps.
Proof.
  intros C D eps HC HD HE. exists (Rmin 1 (eps / ((C + 1) * (1 + D)))).
  assert (P : 0 < (C + 1) * (1 + D)) by (apply Rmult_lt_0_compat; lra).
  assert (Q : 0 < eps / ((C + 1) * (1 + D))) by (apply Rdiv_lt_0_compat; lra).
  split; [apply Rmin_pos; lra|]. intros h [H1 H2].
  assert (H3 : h <= 1) by (eapply Rle_trans; [exact H2|apply Rmin_l]).
  assert (H4 : h <= eps / ((C + 1) * (1 + D))) by (eapply Rle_trans; [exact H2|apply Rmin_r]).
  split; [exact H3|].
  apply Rle_trans with ((C + 1) * (1 + D) * h).
  - assert (X : 0 <= C * h) by (apply Rmult_le_pos; lra).
    assert (Y : 0 <= D * h) by (apply Rmult_le_pos; lra). assert (Z : D * h <= D) by (rewrite <- (Rmult_1_r D) at 2; apply Rmult_le_compat_l; lra).
    apply Rle_trans with (C * h * (1 + D)); [apply Rmult_le_compat_l; lra|].
    assert (T : 0 <= h * (1 + D)) by (apply Rmult_le_pos; lra). lra.
  - apply Rmult_le_compat_l with (r := (C + 1) * (1 + D)) in H4; [|lra].
    replace ((C + 1) * (1 + D) * (eps / ((C + 1) * (1 + D)))) with eps in H4 by (field; lra). exact H4.
Qed.
