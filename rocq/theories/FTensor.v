(** Lists of matrix updates that are a bilinear form of unit strains. *)
From Coq Require Import ZArith Reals List Bool Arith Lra Lia.
From Verif Require Import Num Py Mesh Utils Spec FSum FMat.
Import ListNotations.
Local Open Scope R_scope.
Implicit Types (m : mesh R).

Definition strain0 : strain := Strain 0 0 0 0 0 0.
Definition sadd_s (a b : strain) : strain :=
  Strain (exx a + exx b) (eyy a + eyy b) (exy a + exy b)
         (kxx a + kxx b) (kyy a + kyy b) (kxy a + kxy b).
Definition sscale (c : R) (a : strain) : strain :=
  Strain (c * exx a) (c * eyy a) (c * exy a) (c * kxx a) (c * kyy a) (c * kxy a).

Lemma dens_add_l : forall A B D e1 e2 f,
  dens A B D (sadd_s e1 e2) f = dens A B D e1 f + dens A B D e2 f.
Proof. intros; unfold dens, quad3, sadd_s; cbn; ring. Qed.
Lemma dens_add_r : forall A B D e f1 f2,
  dens A B D e (sadd_s f1 f2) = dens A B D e f1 + dens A B D e f2.
Proof. intros; unfold dens, quad3, sadd_s; cbn; ring. Qed.
Lemma dens_scale_l : forall A B D c e f, dens A B D (sscale c e) f = c * dens A B D e f.
Proof. intros; unfold dens, quad3, sscale; cbn; ring. Qed.
Lemma dens_scale_r : forall A B D c e f, dens A B D e (sscale c f) = c * dens A B D e f.
Proof. intros; unfold dens, quad3, sscale; cbn; ring. Qed.
Lemma dens_sym : forall A B D e f, dens A B D e f = dens A B D f e.
Proof. intros; unfold dens, quad3; ring. Qed.
Lemma dens_zero_l : forall A B D f, dens A B D strain0 f = 0.
Proof. intros; unfold dens, quad3, strain0; cbn; ring. Qed.
Lemma dens_zero_r : forall A B D f, dens A B D f strain0 = 0.
Proof. intros; unfold dens, quad3, strain0; cbn; ring. Qed.

(** strain of a unit displacement of the four degrees of freedom of a node whose
    smoothed shape function derivatives are [sx / Ac], [sy / Ac] *)
Definition unit_strains (Ac : R) (i : Z) (sx sy : R) : list (Z * strain) :=
  [((i * 5 + 0)%Z, Strain (sx/Ac) 0 (sy/Ac) 0 0 0);
   ((i * 5 + 1)%Z, Strain 0 (sy/Ac) (sx/Ac) 0 0 0);
   ((i * 5 + 3)%Z, Strain 0 0 0 (sx/Ac) 0 (sy/Ac));
   ((i * 5 + 4)%Z, Strain 0 0 0 0 (sy/Ac) (sx/Ac))].

Definition tensor {S} (d : S -> S -> R) (ps : list (Z * S)) : list (Z * Z * R) :=
  flat_map (fun p => map (fun q => (fst p, fst q, d (snd p) (snd q))) ps) ps.

Lemma cons_eq3 : forall (r c : Z) (v v' : R) l l', v = v' -> l = l' ->
  (r, c, v) :: l = (r, c, v') :: l'.
Proof. intros; subst; reflexivity. Qed.


Section Tensor.
  Variable S : Type.
  Variable z : S.
  Variable add : S -> S -> S.
  Variable scale : R -> S -> S.
  Variable d : S -> S -> R.
  Hypothesis d_add_l : forall a b c, d (add a b) c = d a c + d b c.
  Hypothesis d_add_r : forall a b c, d a (add b c) = d a b + d a c.
  Hypothesis d_scale_l : forall k a b, d (scale k a) b = k * d a b.
  Hypothesis d_scale_r : forall k a b, d a (scale k b) = k * d a b.
  Hypothesis d_zero_l : forall a, d z a = 0.
  Hypothesis d_zero_r : forall a, d a z = 0.

  Definition comb (u : Z -> R) (ps : list (Z * S)) : S :=
    fold_right (fun p acc => add (scale (u (fst p)) (snd p)) acc) z ps.

  Lemma d_comb_r : forall v a ps, d a (comb v ps) = Sum (fun q => d a (snd q) * v (fst q)) ps.
  Proof.
    intros v a ps; induction ps as [|q ps IH].
    - apply d_zero_r.
    - cbn [comb fold_right]; rewrite d_add_r, d_scale_r, Sum_cons. fold (comb v ps). rewrite IH; ring.
  Qed.

  Lemma d_comb_l : forall u b ps, d (comb u ps) b = Sum (fun p => u (fst p) * d (snd p) b) ps.
  Proof.
    intros u b ps; induction ps as [|q ps IH].
    - apply d_zero_l.
    - cbn [comb fold_right]; rewrite d_add_l, d_scale_l, Sum_cons. fold (comb u ps). rewrite IH; ring.
  Qed.

  Lemma tensor_form : forall n ps u v,
    upd_form n (tensor d ps) u v
    = d (comb (fun r => u (nidx n r)) ps) (comb (fun r => v (nidx n r)) ps).
  Proof.
    intros n ps u v. unfold upd_form, tensor. rewrite Sum_flat_map, d_comb_l.
    apply Sum_ext; intros p. rewrite Sum_map; cbn [fst snd]. rewrite d_comb_r, <- Sum_scal.
    apply Sum_ext; intros q; ring.
  Qed.
End Tensor.

Lemma tensor_in : forall S (d : S -> S -> R) ps x, In x (tensor d ps) ->
  exists p q, In p ps /\ In q ps /\ x = (fst p, fst q, d (snd p) (snd q)).
Proof.
  intros S d ps x H; unfold tensor in H; apply in_flat_map in H.
  destruct H as [p [Hp H]]; apply in_map_iff in H; destruct H as [q [E Hq]].
  exists p, q; auto.
Qed.

Lemma dens_form : forall c A B D n ps u v,
  upd_form n (tensor (fun e f => c * dens A B D e f) ps) u v
  = c * dens A B D (comb _ strain0 sadd_s sscale (fun r => u (nidx n r)) ps)
                   (comb _ strain0 sadd_s sscale (fun r => v (nidx n r)) ps).
Proof.
  intros. apply (tensor_form strain strain0 sadd_s sscale (fun e f => c * dens A B D e f));
  intros; rewrite ?dens_add_l, ?dens_add_r, ?dens_scale_l, ?dens_scale_r, ?dens_zero_l, ?dens_zero_r; ring.
Qed.

(** ** Pairs: gradients of w, shear strains *)

Definition pair0 : R * R := (0, 0).
Definition padd (a b : R * R) : R * R := (fst a + fst b, snd a + snd b).
Definition pscale (c : R) (a : R * R) : R * R := (c * fst a, c * snd a).

(** [x^T [[E44, E45], [E45, E55]] y] *)
Definition quad2 (E44 E45 E55 : R) (x y : R * R) : R :=
  E44 * fst x * fst y + E45 * (fst x * snd y + snd x * fst y) + E55 * snd x * snd y.

Lemma quad2_form : forall c E44 E45 E55 n ps u v,
  upd_form n (tensor (fun x y => c * quad2 E44 E45 E55 x y) ps) u v
  = c * quad2 E44 E45 E55 (comb _ pair0 padd pscale (fun r => u (nidx n r)) ps)
                          (comb _ pair0 padd pscale (fun r => v (nidx n r)) ps).
Proof.
  intros. apply (tensor_form (R * R) pair0 padd pscale (fun x y => c * quad2 E44 E45 E55 x y));
  intros; unfold quad2, padd, pscale, pair0; cbn [fst snd]; ring.
Qed.

Lemma quad2_sym : forall E44 E45 E55 x y, quad2 E44 E45 E55 x y = quad2 E44 E45 E55 y x.
Proof. intros; unfold quad2; ring. Qed.

(** the strains of a unit w, phi_x, phi_y of a node *)
Definition unit_shears (i : Z) (w px py : R * R) : list (Z * (R * R)) :=
  [((i * 5 + 2)%Z, w); ((i * 5 + 3)%Z, px); ((i * 5 + 4)%Z, py)].
