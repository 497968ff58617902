(** Displacements for which the energy of calc_k0 and add_k0s vanishes. *)
From Coq Require Import ZArith Reals List Bool Arith Lra Lia String.
From Verif Require Import Num Py Mesh Utils CalcK0 AddK0s Spec SpecK0 SpecKG SpecK0s SpecStab FSum FMat FDict FGeom FWf FAsm FTensor FSmooth
  FK0s FK0u FStab FStab2.
Import ListNotations.
Local Open Scope R_scope.
Implicit Types (m : mesh R).

Notation anchor := gap_node.

Section Shear.
  Variable m : mesh R.
  Hypothesis W : wf_mesh m.
  Hypothesis PL : plate m.
  Variable u : nat -> R.
  Notation w := (comp m u 2).

  Lemma cell_skew : forall th t px py ps, In t (trias_of m) ->
    (forall n, vertex t n -> comp m u 3 n = px - ps * vy (pos m n) /\ comp m u 4 n = py + ps * vx (pos m n)) ->
    strain_cell th m u t = (tgx m t w + (1/2 + 3/2 * th) * (px - ps * vy (centroid m t)),
                            tgy m t w + (1/2 + 3/2 * th) * (py + ps * vx (centroid m t))).
  Proof.
    intros th t px py ps Ht H. assert (D := pl_nondeg m PL t Ht).
    destruct (H (tn1 t)) as [A1 B1]; [unfold vertex; auto|]. destruct (H (tn2 t)) as [A2 B2]; [unfold vertex; auto|].
    destruct (H (tn3 t)) as [A3 B3]; [unfold vertex; auto|].
    unfold strain_cell. rewrite cell_shear_eq by exact D. cbv zeta.
    unfold nx, ny, gap, center, at_node, tgx, tgy, centroid; cbn [ptx pty ptw ptfx ptfy vx vy]. rewrite A1, A2, A3, B1, B2, B3.
    unfold tdet, det2, pdet in *; cbn [ptx pty] in *. f_equal; field; exact D.
  Qed.

  Lemma dsg_skew : forall a b c px py ps,
    det2 (pos m a) (pos m b) (pos m c) <> 0 ->
    (forall n, n = a \/ n = b \/ n = c -> comp m u 3 n = px - ps * vy (pos m n) /\ comp m u 4 n = py + ps * vx (pos m n)) ->
    dsg (at_node m u a) (at_node m u b) (at_node m u c) =
      (numx (pos m a) (pos m b) (pos m c) (w a) (w b) (w c) / det2 (pos m a) (pos m b) (pos m c) + (px - ps * vy (pos m a)),
       numy (pos m a) (pos m b) (pos m c) (w a) (w b) (w c) / det2 (pos m a) (pos m b) (pos m c) + (py + ps * vx (pos m a))).
  Proof.
    intros a b c px py ps D H.
    destruct (H a) as [A1 B1]; [auto|]. destruct (H b) as [A2 B2]; [auto|]. destruct (H c) as [A3 B3]; [auto|].
    unfold dsg, gap, pdet, at_node, numx, numy; cbn [ptx pty ptw ptfx ptfy]. rewrite A1, A2, A3, B1, B2, B3.
    unfold det2 in *. f_equal; field; exact D.
  Qed.

  Lemma ns_skew : forall t px py ps, In t (trias_of m) ->
    (forall n, vertex t n -> comp m u 3 n = px - ps * vy (pos m n) /\ comp m u 4 n = py + ps * vx (pos m n)) ->
    strain_ns m u t = (tgx m t w + 1 * (px - ps * vy (pos m (anchor m t))), tgy m t w + 1 * (py + ps * vx (pos m (anchor m t)))).
  Proof.
    intros t px py ps Ht H. assert (D := pl_nondeg m PL t Ht). unfold strain_ns, gap_node. cbv zeta. rewrite !Rmult_1_l.
    destruct (Rlt_dec (tdet m t) 0) as [N|N].
    - assert (P : perm3 t (tn2 t) (tn1 t) (tn3 t)) by (unfold perm3; auto).
      rewrite (dsg_skew _ _ _ px py ps).
      + rewrite (tgx_perm m t _ _ _ P w D), (tgy_perm m t _ _ _ P w D). reflexivity.
      + rewrite det2_swap12. unfold tdet in D. lra.
      + intros n Hn. apply H. unfold vertex. intuition.
    - assert (P : perm3 t (tn1 t) (tn2 t) (tn3 t)) by (unfold perm3; auto).
      rewrite (dsg_skew _ _ _ px py ps).
      + rewrite (tgx_perm m t _ _ _ P w D), (tgy_perm m t _ _ _ P w D). reflexivity.
      + exact D.
      + intros n Hn. apply H. unfold vertex. intuition.
  Qed.

  (** ** Deflection from its gradients *)

  Section Part.
    Variables (t0 : tria R) (f px py ps : R) (q : tria R -> R * R).
    Hypothesis H0 : In t0 (trias_of m).
    Hypothesis F : f <> 0.
    Hypothesis G : forall t, linked m t0 t ->
      tgx m t w + f * (px - ps * snd (q t)) = 0 /\ tgy m t w + f * (py + ps * fst (q t)) = 0.

    Lemma no_twist : forall t1 t2 k, linked m t0 t1 -> In k (edge_keys m) -> In t1 (tris_on m k) -> In t2 (tris_on m k) ->
      (snd (q t1) - snd (q t2)) * (vx (pos m (snd k)) - vx (pos m (fst k))) <> (fst (q t1) - fst (q t2)) * (vy (pos m (snd k)) - vy (pos m (fst k))) ->
      ps = 0.
    Proof.
      intros t1 t2 k Lk Hk H1 H2 N. assert (L2 : linked m t0 t2) by (eapply linked_next; eassumption).
      destruct (side_apart m W PL t1 k Hk H1) as [U1 [U2 _]]. destruct (side_apart m W PL t2 k Hk H2) as [V1 [V2 _]].
      assert (E1 := grad_diff m PL t1 w _ _ (linked_in m t0 t1 H0 Lk) U1 U2).
      assert (E2 := grad_diff m PL t2 w _ _ (linked_in m t0 t2 H0 L2) V1 V2).
      destruct (G t1 Lk) as [X1 Y1]. destruct (G t2 L2) as [X2 Y2].
      set (dx := vx (pos m (snd k)) - vx (pos m (fst k))) in *. set (dy := vy (pos m (snd k)) - vy (pos m (fst k))) in *.
      assert (Z : (f * ps) * ((snd (q t1) - snd (q t2)) * dx - (fst (q t1) - fst (q t2)) * dy) = 0).
      { assert (X1' : tgx m t1 w = - f * (px - ps * snd (q t1))) by lra. assert (X2' : tgx m t2 w = - f * (px - ps * snd (q t2))) by lra.
        assert (Y1' : tgy m t1 w = - f * (py + ps * fst (q t1))) by lra. assert (Y2' : tgy m t2 w = - f * (py + ps * fst (q t2))) by lra.
        rewrite X1', Y1' in E1. rewrite X2', Y2' in E2. rewrite E1 in E2. nra. }
      apply Rmult_integral in Z. destruct Z as [Z|Z]; [|exfalso; apply N; lra].
      apply Rmult_integral in Z. destruct Z as [Z|Z]; [contradiction|exact Z].
    Qed.

    Lemma straight : ps = 0 -> forall n, in_part m t0 n ->
      w n = w (tn1 t0) + f * (px * vx (pos m (tn1 t0)) + py * vy (pos m (tn1 t0))) - f * (px * vx (pos m n) + py * vy (pos m n)).
    Proof.
      intros Z. assert (G' : forall t, linked m t0 t -> tgx m t w = - f * px /\ tgy m t w = - f * py).
      { intros t Lk. destruct (G t Lk) as [A B]. rewrite Z in A, B. split; lra. }
      assert (X : forall t, linked m t0 t -> forall n, vertex t n ->
        w n = w (tn1 t0) + f * (px * vx (pos m (tn1 t0)) + py * vy (pos m (tn1 t0))) - f * (px * vx (pos m n) + py * vy (pos m n))).
      { intros t Lk. induction Lk as [|t1 t2 k Lk IH Hk H1 H2]; intros n V.
        - assert (E := grad_diff m PL t0 w (tn1 t0) n H0 (or_introl eq_refl) V). destruct (G' t0 (linked_self m t0)) as [A B]. rewrite A, B in E. lra.
        - assert (L2 : linked m t0 t2) by (eapply linked_next; eassumption).
          destruct (side_apart m W PL t1 k Hk H1) as [U1 _]. destruct (side_apart m W PL t2 k Hk H2) as [V1 _].
          assert (E := grad_diff m PL t2 w (fst k) n (linked_in m t0 t2 H0 L2) V1 V). destruct (G' t2 L2) as [A B]. rewrite A, B in E.
          rewrite (IH (fst k) U1) in E. lra. }
      intros n [t [Lk V]]. apply (X t Lk n V).
    Qed.
  End Part.

  (** centroids of neighbours lie on different sides *)
  Lemma centroids_apart : forall k t1 t2, In k (edge_keys m) -> In t1 (tris_on m k) -> In t2 (tris_on m k) -> t1 <> t2 ->
    (vy (centroid m t1) - vy (centroid m t2)) * (vx (pos m (snd k)) - vx (pos m (fst k)))
    <> (vx (centroid m t1) - vx (centroid m t2)) * (vy (pos m (snd k)) - vy (pos m (fst k))).
  Proof.
    intros k t1 t2 Hk H1 H2 N.
    assert (CC : forall t, In t (tris_on m k) -> (vy (centroid m t) - vy (pos m (fst k))) * (vx (pos m (snd k)) - vx (pos m (fst k)))
       - (vx (centroid m t) - vx (pos m (fst k))) * (vy (pos m (snd k)) - vy (pos m (fst k))) = det2 (pos m (fst k)) (pos m (snd k)) (pos m (third t k)) / 3).
    { intros t Ht. destruct (edge_tria m W k t Hk Ht) as [P _]. unfold centroid; cbn [vx vy].
      destruct P as [P|[P|[P|[P|[P|P]]]]]; destruct P as [-> [-> ->]]; unfold det2; field. }
    assert (PS : det2 (pos m (fst k)) (pos m (snd k)) (pos m (third t1 k)) * det2 (pos m (fst k)) (pos m (snd k)) (pos m (third t2 k)) < 0).
    { assert (L2 := pl_two m PL k Hk). assert (X := pl_sides m PL k).
      destruct (tris_on m k) as [|a [|b [|c l]]] eqn:E; [destruct H1| | |cbn in L2; lia].
      - destruct H1 as [<-|[]], H2 as [<-|[]]. congruence.
      - specialize (X a b Hk eq_refl). destruct H1 as [<-|[<-|[]]], H2 as [<-|[<-|[]]]; try congruence. rewrite Rmult_comm; exact X. }
    intros E. assert (C1 := CC t1 H1). assert (C2 := CC t2 H2).
    assert (Q : det2 (pos m (fst k)) (pos m (snd k)) (pos m (third t1 k)) = det2 (pos m (fst k)) (pos m (snd k)) (pos m (third t2 k))) by lra.
    rewrite Q in PS. assert (Y := Rle_0_sqr (det2 (pos m (fst k)) (pos m (snd k)) (pos m (third t2 k)))). unfold Rsqr in Y. lra.
  Qed.

  (** the gap nodes of neighbours, one of them off the common side *)
  Lemma anchors_apart : forall k t1 t2, In k (edge_keys m) -> In t1 (tris_on m k) -> In t2 (tris_on m k) -> t2 <> t1 ->
    anchor m t1 <> fst k -> anchor m t1 <> snd k ->
    (vy (pos m (anchor m t1)) - vy (pos m (anchor m t2))) * (vx (pos m (snd k)) - vx (pos m (fst k)))
    <> (vx (pos m (anchor m t1)) - vx (pos m (anchor m t2))) * (vy (pos m (snd k)) - vy (pos m (fst k))).
  Proof.
    intros k t1 t2 Hk H1 H2 N A1 A2.
    assert (AV : forall t, vertex t (anchor m t)) by (intros t; unfold gap_node, vertex; destruct (Rlt_dec (tdet m t) 0); auto).
    assert (T : forall t, In t (tris_on m k) -> anchor m t = fst k \/ anchor m t = snd k \/ anchor m t = third t k).
    { intros t Ht. destruct (edge_tria m W k t Hk Ht) as [P _]. specialize (AV t). unfold vertex in AV. unfold perm3 in P. intuition congruence. }
    assert (E1 : anchor m t1 = third t1 k) by (destruct (T t1 H1) as [X|[X|X]]; tauto).
    assert (PS : det2 (pos m (fst k)) (pos m (snd k)) (pos m (third t1 k)) * det2 (pos m (fst k)) (pos m (snd k)) (pos m (third t2 k)) < 0).
    { assert (L2 := pl_two m PL k Hk). assert (X := pl_sides m PL k).
      destruct (tris_on m k) as [|a [|b [|c l]]] eqn:E; [destruct H1| | |cbn in L2; lia].
      - destruct H1 as [<-|[]], H2 as [<-|[]]. congruence.
      - specialize (X a b Hk eq_refl). destruct H1 as [<-|[<-|[]]], H2 as [<-|[<-|[]]]; try congruence. rewrite Rmult_comm; exact X. }
    intros E. rewrite E1 in E.
    assert (Q : exists x, det2 (pos m (fst k)) (pos m (snd k)) (pos m (third t1 k)) = x /\
       (x = 0 \/ x = det2 (pos m (fst k)) (pos m (snd k)) (pos m (third t2 k)))).
    { eexists; split; [reflexivity|]. destruct (T t2 H2) as [X|[X|X]]; rewrite X in E; [left|left|right]; unfold det2; nra. }
    destruct Q as [x [Qx [Q|Q]]]; rewrite Qx in PS; rewrite Q in PS.
    - lra.
    - assert (Y := Rle_0_sqr (det2 (pos m (fst k)) (pos m (snd k)) (pos m (third t2 k)))). unfold Rsqr in Y. lra.
  Qed.
End Shear.

(** ** Vanishing shear energy *)

Section Total.
  Variable m : mesh R.
  Variable pfn : bool.
  Hypothesis V : valid m pfn.
  Hypothesis PP : all_props m pos_def.
  Hypothesis SP : all_props m shear_pos.
  Variable alpha : R.
  Hypothesis A : 0 <= alpha.
  Variable mfa : bool.
  Let W := va_wf _ _ V.
  Let PL := va_plate _ _ V.

  Lemma tria_val_pos : forall f t, all_props m (fun p => 0 < f p) -> In t (trias_of m) -> 0 < tria_val m pfn f t.
  Proof.
    intros f t [H1 H2] Ht. assert (VP := vertex_prop m pfn V). assert (PC := va_props _ _ V). clear W PL. unfold tria_val. destruct pfn.
    - assert (X : forall n, vertex t n -> 0 < pval f (nodeprop m n)).
      { intros n Vn. specialize (VP eq_refl t n Ht Vn). destruct (nodeprop m n) as [p|] eqn:E; [cbn; apply (H1 n p E)|congruence]. }
      assert (X1 := X (tn1 t)). assert (X2 := X (tn2 t)). assert (X3 := X (tn3 t)). unfold vertex in *.
      specialize (X1 ltac:(auto)). specialize (X2 ltac:(auto)). specialize (X3 ltac:(auto)). lra.
    - specialize (PC t Ht). destruct (tprop t) as [p|] eqn:E; [cbn; apply (H2 t p Ht E)|congruence].
  Qed.

  Lemma shear_zero : forall g u, shear_energy g m pfn alpha mfa u u = 0 <-> forall t, In t (trias_of m) -> g u t = (0, 0).
  Proof.
    intros g u. unfold shear_energy.
    assert (T : forall t, In t (trias_of m) -> 0 < tarea m t * corr alpha (tria_val m pfn ph t) (tria_size m mfa t)).
    { intros t Ht. apply Rmult_lt_0_compat; [apply (area_pos m PL t Ht)|]. apply corr_range; [exact A|].
      apply tria_val_pos; [|exact Ht]. apply (all_imp m shear_pos); [|exact SP]. intros p P; apply P. }
    assert (G4 : forall t, In t (trias_of m) -> 0 < tria_G44 m pfn t).
    { intros t Ht. apply Rmult_lt_0_compat; apply tria_val_pos; try exact Ht; apply (all_imp m shear_pos); try exact SP; intros p P; apply P. }
    assert (G5 : forall t, In t (trias_of m) -> 0 < tria_G55 m pfn t).
    { intros t Ht. apply Rmult_lt_0_compat; apply tria_val_pos; try exact Ht; apply (all_imp m shear_pos); try exact SP; intros p P; apply P. }
    assert (SQ : forall c x, 0 < c -> 0 <= c * x * x) by (intros c x Hc; assert (X := Rle_0_sqr x); unfold Rsqr in X; nra).
    split.
    - intros H t Ht.
      assert (Q : forall t, In t (trias_of m) -> 0 <= tarea m t * corr alpha (tria_val m pfn ph t) (tria_size m mfa t) *
         (tria_G44 m pfn t * fst (g u t) * fst (g u t) + tria_G55 m pfn t * snd (g u t) * snd (g u t))).
      { intros a Ha. apply Rmult_le_pos; [left; apply T, Ha|]. assert (X := SQ _ (fst (g u a)) (G4 a Ha)). assert (Y := SQ _ (snd (g u a)) (G5 a Ha)). lra. }
      assert (Z := Sum_zero_each _ _ _ Q H t Ht). cbv beta in Z. assert (T' := T t Ht).
      apply Rmult_integral in Z. destruct Z as [Z|Z]; [lra|].
      assert (X := SQ _ (fst (g u t)) (G4 t Ht)). assert (Y := SQ _ (snd (g u t)) (G5 t Ht)).
      assert (X0 : tria_G44 m pfn t * fst (g u t) * fst (g u t) = 0) by lra. assert (Y0 : tria_G55 m pfn t * snd (g u t) * snd (g u t) = 0) by lra.
      assert (P4 := G4 t Ht). assert (P5 := G5 t Ht).
      assert (X1 : fst (g u t) = 0) by (apply Rmult_integral in X0; destruct X0 as [X0|X0]; [apply Rmult_integral in X0; destruct X0; lra|exact X0]).
      assert (Y1 : snd (g u t) = 0) by (apply Rmult_integral in Y0; destruct Y0 as [Y0|Y0]; [apply Rmult_integral in Y0; destruct Y0; lra|exact Y0]).
      destruct (g u t) as [x y]; cbn in *. congruence.
    - intros H. apply Sum_zero. intros t Ht. rewrite (H t Ht). cbn. ring.
  Qed.

  (** [g] is a shear strain with the factor [f] and the points [q] *)
  Variables (g : (nat -> R) -> tria R -> R * R) (f : R) (q : tria R -> R * R).
  Hypothesis F : f <> 0.
  Hypothesis GS : forall u t px py ps, In t (trias_of m) ->
    (forall n, vertex t n -> comp m u 3 n = px - ps * vy (pos m n) /\ comp m u 4 n = py + ps * vx (pos m n)) ->
    g u t = (tgx m t (comp m u 2) + f * (px - ps * snd (q t)), tgy m t (comp m u 2) + f * (py + ps * fst (q t))).
  (** in every part there are two neighbours whose points differ in their distance from the common side *)
  Hypothesis AP : forall t, In t (trias_of m) -> exists t1 t2 k, linked m t t1 /\ In k (edge_keys m) /\ In t1 (tris_on m k) /\ In t2 (tris_on m k) /\
    (snd (q t1) - snd (q t2)) * (vx (pos m (snd k)) - vx (pos m (fst k))) <> (fst (q t1) - fst (q t2)) * (vy (pos m (snd k)) - vy (pos m (fst k))).

  Lemma k0_nonneg : forall u, 0 <= k0_energy m pfn u u.
  Proof.
    intros u. unfold k0_energy. apply Sum_nonneg. intros k Hk. apply Rmult_le_pos; [left; apply (dom_area_pos m W PL k Hk)|].
    destruct (strain_dec (smoothed_strain m u k)) as [E|E]; [rewrite E; fold strain0; rewrite dens_zero_l; lra|left; apply (stiffness_pos m pfn V PP k _ Hk E)].
  Qed.
  Lemma shear_nonneg : forall u, 0 <= shear_energy g m pfn alpha mfa u u.
  Proof.
    intros u. apply energy_nonneg; [exact W|exact (va_props _ _ V)| | |exact A].
    - apply (all_imp m shear_pos); [|exact SP]. intros p P; apply P.
    - apply (all_imp m shear_pos); [|exact SP]. intros p P; unfold shear_pos in P; lra.
  Qed.

  Lemma total_modes : forall u, k0_energy m pfn u u + shear_energy g m pfn alpha mfa u u = 0 <-> rigid_parts f m u.
  Proof.
    intros u. assert (N1 := k0_nonneg u). assert (N2 := shear_nonneg u). split.
    - intros H. assert (E1 : k0_energy m pfn u u = 0) by lra. assert (E2 : shear_energy g m pfn alpha mfa u u = 0) by lra.
      assert (E1' := proj1 (modes m pfn V PP u) E1). clear E1; rename E1' into E1. assert (S := proj1 (shear_zero g u) E2). intros t Ht. destruct (E1 t Ht) as [M1 M2]. split; [exact M1|].
      destruct M2 as [px [py [ps M2]]].
      assert (G : forall t', linked m t t' -> tgx m t' (comp m u 2) + f * (px - ps * snd (q t')) = 0 /\ tgy m t' (comp m u 2) + f * (py + ps * fst (q t')) = 0).
      { intros t' Lk. assert (T' := linked_in m t t' Ht Lk). assert (X := S t' T').
        rewrite (GS u t' px py ps T') in X; [injection X; auto|]. intros n Vn. apply M2. exists t'. auto. }
      destruct (AP t Ht) as [t1 [t2 [k [Lk [Hk [H1 [H2 N]]]]]]].
      assert (Z := no_twist m W PL u t f px py ps q Ht F G t1 t2 k Lk Hk H1 H2 N).
      exists (comp m u 2 (tn1 t) + f * (px * vx (pos m (tn1 t)) + py * vy (pos m (tn1 t)))), px, py.
      intros n Hn. split; [apply (straight m W PL u t f px py ps q Ht G Z n Hn)|]. destruct (M2 n Hn) as [B1 B2]. rewrite B1, B2, Z. split; ring.
    - intros H. rewrite (proj2 (modes m pfn V PP u)).
      + rewrite (proj2 (shear_zero g u)); [ring|]. intros t Ht. destruct (H t Ht) as [_ [c [px [py T]]]].
        assert (T' : forall n, vertex t n -> comp m u 2 n = c - f * (px * vx (pos m n) + py * vy (pos m n)) /\ comp m u 3 n = px /\ comp m u 4 n = py)
          by (intros n Vn; apply T; exists t; split; [constructor|exact Vn]).
        rewrite (GS u t px py 0 Ht) by (intros n Vn; destruct (T' n Vn) as [_ [-> ->]]; split; ring).
        destruct (grad_is m PL t (comp m u 2) c (- f * px) (- f * py) Ht) as [-> ->]; [intros n Vn; rewrite (proj1 (T' n Vn)); ring|].
        f_equal; ring.
      + intros t Ht. destruct (H t Ht) as [M1 [c [px [py T]]]]. split; [exact M1|]. exists px, py, 0. intros n Hn. destruct (T n Hn) as [_ [-> ->]]. split; ring.
  Qed.
End Total.
