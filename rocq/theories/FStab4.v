(** The smoothed energy is at most that of the linear triangles. *)
From Coq Require Import ZArith Reals List Bool Arith Lra Lia.
From Verif Require Import Num Py Mesh Utils Spec SpecK0 SpecK0s SpecStab FSum FMat FDict FGeom FWf FAsm FTensor FSmooth FStab FStab2 LKG.
Import ListNotations.
Local Open Scope R_scope.
Implicit Types (m : mesh R).

Lemma dens_mean : forall A B D e f a b, 0 < a -> 0 < b ->
  a * dens A B D e e + b * dens A B D f f =
  (a + b) * dens A B D (sscale (/ (a + b)) (sadd_s (sscale a e) (sscale b f))) (sscale (/ (a + b)) (sadd_s (sscale a e) (sscale b f)))
  + a * b / (a + b) * dens A B D (sadd_s e (sscale (-1) f)) (sadd_s e (sscale (-1) f)).
Proof.
  intros A B D e f a b Ha Hb.
  repeat (rewrite ?dens_scale_l, ?dens_scale_r, ?dens_add_l, ?dens_add_r). rewrite (dens_sym A B D f e). field. lra.
Qed.

Lemma softer : forall m pfn p u, valid m pfn -> all_props m (fun q => q = p) -> psd p -> k0_energy m pfn u u <= linear_energy m p u.
Proof.
  intros m pfn p u V AP PS. assert (W := va_wf _ _ V). assert (PL := va_plate _ _ V).
  unfold k0_energy, linear_energy.
  set (h := fun t => tarea m t * dens (pA p) (pB p) (pD p) (tria_strain m u t) (tria_strain m u t)).
  assert (DC := double_count m W h).
  apply Rle_trans with (Sum (fun k => / 3 * Sum h (tris_on m k)) (edge_keys m)); [|rewrite Sum_scal, DC; lra].
  apply Sum_le. intros k Hk. rewrite !(stiffness_one m pfn p k _ W PL (va_props _ _ V) AP Hk).
  assert (TP := tris_area_pos m W PL k Hk). assert (L2 := pl_two m PL k Hk).
  assert (AR : forall t, In t (tris_on m k) -> 0 < tarea m t) by (intros t Ht; apply (area_pos m PL); apply tris_on_in in Ht; tauto).
  unfold dom_area, smoothed_strain, sgx, sgy. destruct (tris_on m k) as [|t [|t' [|t'' l]]] eqn:E.
  - rewrite Sum_nil in TP. lra.
  - rewrite !Sum_cons, !Sum_nil in *. assert (A := AR t ltac:(left; reflexivity)).
    match goal with |- _ * dens _ _ _ ?e _ <= _ => replace e with (tria_strain m u t) end.
    + unfold h. lra.
    + unfold tria_strain. f_equal; field; lra.
  - rewrite !Sum_cons, !Sum_nil in *. assert (A := AR t ltac:(left; reflexivity)). assert (A' := AR t' ltac:(right; left; reflexivity)).
    match goal with |- _ * dens _ _ _ ?e _ <= _ => replace e with
      (sscale (/ (tarea m t + tarea m t')) (sadd_s (sscale (tarea m t) (tria_strain m u t)) (sscale (tarea m t') (tria_strain m u t')))) end.
    + unfold h. rewrite !Rplus_0_r. rewrite (dens_mean _ _ _ (tria_strain m u t) (tria_strain m u t') _ _ A A').
      assert (Q := PS (sadd_s (tria_strain m u t) (sscale (-1) (tria_strain m u t')))).
      assert (R : 0 <= tarea m t * tarea m t' / (tarea m t + tarea m t')) by (left; apply Rdiv_lt_0_compat; [apply Rmult_lt_0_compat; assumption|lra]).
      assert (X := Rmult_le_pos _ _ R Q). lra.
    + unfold tria_strain, sscale, sadd_s; cbn [exx eyy exy kxx kyy kxy]. f_equal; field; lra.
  - cbn [length] in L2. lia.
Qed.
