(** Displacements for which the energy of calc_k0 vanishes. *)
From Coq Require Import ZArith Reals List Bool Arith Lra Lia.
From Verif Require Import Num Py Mesh Utils Spec SpecK0 SpecK0s SpecStab FSum FMat FDict FGeom FWf FAsm FTensor FSmooth FStab.
Import ListNotations.
Local Open Scope R_scope.
Implicit Types (m : mesh R).

Lemma Sum_pos : forall A (f : A -> R) l, l <> [] -> (forall a, In a l -> 0 < f a) -> 0 < Sum f l.
Proof.
  intros A f [|a l] N H; [congruence|]. rewrite Sum_cons. assert (X := H a (or_introl eq_refl)).
  assert (Y : 0 <= Sum f l) by (apply Sum_nonneg; intros b Hb; left; apply H; right; exact Hb). lra.
Qed.
Lemma Sum_zero_each : forall A (f : A -> R) l, (forall a, In a l -> 0 <= f a) -> Sum f l = 0 -> forall a, In a l -> f a = 0.
Proof.
  intros A f; induction l as [|b l IH]; intros H E a Ha; [destruct Ha|]. rewrite Sum_cons in E.
  assert (X := H b (or_introl eq_refl)). assert (Y : 0 <= Sum f l) by (apply Sum_nonneg; intros c Hc; apply H; right; exact Hc).
  destruct Ha as [<-|Ha]; [lra|]. apply IH; [intros c Hc; apply H; right; exact Hc|lra|exact Ha].
Qed.

Lemma wsum3_pos : forall A (w : A -> R) (MA MB MD : A -> mat3 R) l e, l <> [] ->
  (forall a, In a l -> 0 < w a) -> (forall a, In a l -> 0 < dens (MA a) (MB a) (MD a) e e) ->
  0 < dens (wsum3 w MA l) (wsum3 w MB l) (wsum3 w MD l) e e.
Proof.
  intros A w MA MB MD l e N Hw Hd. rewrite dens_wsum3. apply Rdiv_lt_0_compat.
  - apply Sum_pos; [exact N|]. intros a Ha. apply Rmult_lt_0_compat; auto.
  - apply Sum_pos; assumption.
Qed.

Lemma strain_dec : forall e : strain, e = Strain 0 0 0 0 0 0 \/ e <> Strain 0 0 0 0 0 0.
Proof.
  intros [a b c x y z].
  destruct (Req_dec a 0) as [->|N]; [|right; intros H; injection H; congruence].
  destruct (Req_dec b 0) as [->|N]; [|right; intros H; injection H; congruence].
  destruct (Req_dec c 0) as [->|N]; [|right; intros H; injection H; congruence].
  destruct (Req_dec x 0) as [->|N]; [|right; intros H; injection H; congruence].
  destruct (Req_dec y 0) as [->|N]; [|right; intros H; injection H; congruence].
  destruct (Req_dec z 0) as [->|N]; [left; reflexivity|right; intros H; injection H; congruence].
Qed.

Section Energy.
  Variable m : mesh R.
  Variable pfn : bool.
  Hypothesis V : valid m pfn.
  Hypothesis PP : all_props m pos_def.
  Let W := va_wf _ _ V.
  Let PL := va_plate _ _ V.

  Lemma tris_nonempty : forall k, In k (edge_keys m) -> tris_on m k <> [].
  Proof.
    intros k Hk E. apply (wf_edge_keys m W) in Hk. destruct Hk as [t [Ht Hs]]. apply sides_vertices in Hs.
    assert (X : In t (tris_on m k)) by (apply tris_on_in; tauto). rewrite E in X; destruct X.
  Qed.

  Lemma vertex_prop : pfn = true -> forall t n, In t (trias_of m) -> vertex t n -> nodeprop m n <> None.
  Proof.
    intros E t n Ht Hn. assert (PC := va_props _ _ V). unfold props_complete in PC. rewrite E in PC.
    destruct (wf_distinct m W t Ht) as [D1 [D2 D3]].
    assert (X : exists n', vertex t n' /\ n' <> n) by (unfold vertex in *; destruct (Nat.eq_dec (tn1 t) n); [exists (tn2 t); intuition congruence|exists (tn1 t); intuition]).
    destruct X as [n' [V' N']]. destruct (side_key m W t n n' Ht Hn V' (not_eq_sym N')) as [K1 [K2 K3]].
    destruct (PC _ K1) as [P1 P2]. destruct K3 as [Q|Q]; rewrite <- Q in P1, P2; assumption.
  Qed.

  Lemma stiffness_pos : forall k e, In k (edge_keys m) -> e <> Strain 0 0 0 0 0 0 ->
    0 < dens (edge_stiffness m pfn pA k) (edge_stiffness m pfn pB k) (edge_stiffness m pfn pD k) e e.
  Proof.
    intros k e Hk Ne. destruct PP as [PN PT].
    assert (Z : forall o : option (prop R), o <> None -> (forall p, o = Some p -> pos_def p) -> 0 < dens (getp pA o) (getp pB o) (getp pD o) e e).
    { intros [p|] N H; cbn [getp]; [apply (H p eq_refl e Ne)|congruence]. }
    assert (PC0 := va_props _ _ V). assert (VP := vertex_prop). assert (TN := tris_nonempty k Hk). assert (AP := area_pos m PL). clear W PL.
    unfold edge_stiffness. destruct pfn.
    - unfold node_stiffness. set (l := tris_on m k).
      assert (EV : forall sel, wsum3 (fun _ : mat3 R => 1) (fun X => X)
          (getp sel (nodeprop m (fst k)) :: getp sel (nodeprop m (snd k)) ::
           map (fun t => wsum3 (fun _ => 1) (fun n => getp sel (nodeprop m n)) [tn1 t; tn2 t; tn3 t]) l)
        = wsum3 (fun _ : (prop R -> mat3 R) -> mat3 R => 1) (fun f => f sel)
          ((fun sel => getp sel (nodeprop m (fst k))) :: (fun sel => getp sel (nodeprop m (snd k))) ::
           map (fun t sel => wsum3 (fun _ => 1) (fun n => getp sel (nodeprop m n)) [tn1 t; tn2 t; tn3 t]) l)).
      { intros sel. unfold wsum3. rewrite !Sum_cons, !Sum_map. reflexivity. }
      rewrite !EV. assert (PC := PC0 k Hk). apply wsum3_pos; [discriminate|intros; lra|].
      intros f Hf. cbn [In] in Hf. destruct Hf as [<-|[<-|Hf]].
      + apply Z; [apply PC|intros p; apply PN].
      + apply Z; [apply PC|intros p; apply PN].
      + apply in_map_iff in Hf. destruct Hf as [t [<- Ht]]. unfold l in Ht. apply tris_on_in in Ht. destruct Ht as [Ht _].
        apply wsum3_pos; [discriminate|intros; lra|].
        intros n Hn. apply Z; [|intros p; apply PN]. apply (VP eq_refl t n Ht). cbn [In] in Hn. unfold vertex. intuition.
    - unfold tria_stiffness. apply wsum3_pos.
      + exact TN.
      + intros t Ht. apply AP. apply tris_on_in in Ht; tauto.
      + intros t Ht. apply tris_on_in in Ht. destruct Ht as [Ht _]. apply Z; [apply (PC0 t Ht)|]. intros p Hp. apply (PT t p Ht Hp).
  Qed.

  Lemma energy_zero_strain : forall u, k0_energy m pfn u u = 0 <-> forall k, In k (edge_keys m) -> smoothed_strain m u k = Strain 0 0 0 0 0 0.
  Proof.
    intros u. unfold k0_energy. split.
    - intros H k Hk. destruct (strain_dec (smoothed_strain m u k)) as [E|E]; [exact E|exfalso].
      assert (X := stiffness_pos k _ Hk E). assert (Y := dom_area_pos m W PL k Hk).
      assert (Q : forall a, In a (edge_keys m) -> 0 <= dom_area m a * dens (edge_stiffness m pfn pA a) (edge_stiffness m pfn pB a) (edge_stiffness m pfn pD a) (smoothed_strain m u a) (smoothed_strain m u a)).
      { intros a Ha. apply Rmult_le_pos; [left; apply dom_area_pos; assumption|].
        destruct (strain_dec (smoothed_strain m u a)) as [F|F]; [rewrite F; fold strain0; rewrite dens_zero_l; lra|left; apply stiffness_pos; assumption]. }
      assert (Z := Sum_zero_each _ _ _ Q H k Hk). cbv beta in Z.
      assert (P := Rmult_lt_0_compat _ _ Y X). lra.
    - intros H. apply Sum_zero. intros k Hk. rewrite (H k Hk). fold strain0. rewrite dens_zero_l. ring.
  Qed.

  Lemma smooth_flat : forall u, (forall k, In k (edge_keys m) -> smoothed_strain m u k = Strain 0 0 0 0 0 0) <->
    forall t, In t (trias_of m) -> flat_pair m t (comp m u 0) (comp m u 1) /\ flat_pair m t (comp m u 3) (comp m u 4).
  Proof.
    intros u. split.
    - intros H.
      assert (D : forall (f : tria R -> R), (forall k, In k (edge_keys m) -> Sum (fun t => tarea m t * f t) (tris_on m k) / Sum (tarea m) (tris_on m k) = 0) ->
        forall t, In t (trias_of m) -> f t = 0).
      { intros f Hf. apply (means_zero m W PL). intros k Hk. specialize (Hf k Hk).
        assert (A := tris_area_pos m W PL k Hk). apply Rmult_integral in Hf. destruct Hf as [Hf|Hf]; [exact Hf|].
        exfalso. assert (Q := Rinv_neq_0_compat (Sum (tarea m) (tris_on m k))). apply Q; [lra|exact Hf]. }
      assert (P : forall k q q', Sum (fun t => tarea m t * (tgy m t q + tgx m t q')) (tris_on m k) / Sum (tarea m) (tris_on m k) = sgy m k q + sgx m k q').
      { intros k q q'. unfold sgy, sgx. rewrite (Sum_ext _ _ (fun t => tarea m t * tgy m t q + tarea m t * tgx m t q')) by (intros; ring).
        rewrite Sum_plus. unfold Rdiv. ring. }
      intros t Ht. unfold flat_pair. repeat split.
      + apply (D (fun t => tgx m t (comp m u 0))); [|exact Ht]. intros k Hk. assert (X := f_equal exx (H k Hk)). exact X.
      + apply (D (fun t => tgy m t (comp m u 1))); [|exact Ht]. intros k Hk. assert (X := f_equal eyy (H k Hk)). exact X.
      + apply (D (fun t => tgy m t (comp m u 0) + tgx m t (comp m u 1))); [|exact Ht]. intros k Hk. rewrite P. exact (f_equal exy (H k Hk)).
      + apply (D (fun t => tgx m t (comp m u 3))); [|exact Ht]. intros k Hk. exact (f_equal kxx (H k Hk)).
      + apply (D (fun t => tgy m t (comp m u 4))); [|exact Ht]. intros k Hk. exact (f_equal kyy (H k Hk)).
      + apply (D (fun t => tgy m t (comp m u 3) + tgx m t (comp m u 4))); [|exact Ht]. intros k Hk. rewrite P. exact (f_equal kxy (H k Hk)).
    - intros H k Hk. unfold smoothed_strain.
      assert (Z : forall f : tria R -> R, (forall t, In t (tris_on m k) -> f t = 0) -> Sum (fun t => tarea m t * f t) (tris_on m k) / Sum (tarea m) (tris_on m k) = 0).
      { intros f Hf. rewrite (Sum_zero _ _ (tris_on m k)); [unfold Rdiv; ring|]. intros t Ht. rewrite (Hf t Ht). ring. }
      assert (H' : forall t, In t (tris_on m k) -> flat_pair m t (comp m u 0) (comp m u 1) /\ flat_pair m t (comp m u 3) (comp m u 4))
        by (intros t Ht; apply H; apply tris_on_in in Ht; tauto).
      assert (P : forall q q', sgy m k q + sgx m k q' = Sum (fun t => tarea m t * (tgy m t q + tgx m t q')) (tris_on m k) / Sum (tarea m) (tris_on m k)).
      { intros q q'. unfold sgy, sgx. rewrite (Sum_ext _ (fun t => tarea m t * (tgy m t q + tgx m t q')) (fun t => tarea m t * tgy m t q + tarea m t * tgx m t q')) by (intros; ring).
        rewrite Sum_plus. unfold Rdiv. ring. }
      rewrite !P. unfold sgx, sgy.
      rewrite (Z (fun t => tgx m t (comp m u 0))), (Z (fun t => tgy m t (comp m u 1))), (Z (fun t => tgy m t (comp m u 0) + tgx m t (comp m u 1))),
        (Z (fun t => tgx m t (comp m u 3))), (Z (fun t => tgy m t (comp m u 4))), (Z (fun t => tgy m t (comp m u 3) + tgx m t (comp m u 4)));
        [reflexivity|..]; intros t Ht; destruct (H' t Ht) as [[? [? ?]] [? [? ?]]]; assumption.
  Qed.

  Lemma flat_parts : forall a b, (forall t, In t (trias_of m) -> flat_pair m t a b) <->
    forall t, In t (trias_of m) -> plane_motion m (in_part m t) a b.
  Proof.
    intros a b. split.
    - intros H t Ht. apply (flat_motion m W PL); [exact Ht|]. intros t' Lk. apply H. apply (linked_in m t t' Ht Lk).
    - intros H t Ht. apply (motion_flat m PL a b (in_part m t) t Ht); [|apply H, Ht].
      intros n Vn. exists t. split; [constructor|exact Vn].
  Qed.

  Lemma modes : forall u, k0_energy m pfn u u = 0 <->
    forall t, In t (trias_of m) -> plane_motion m (in_part m t) (comp m u 0) (comp m u 1) /\ plane_motion m (in_part m t) (comp m u 3) (comp m u 4).
  Proof.
    intros u. rewrite energy_zero_strain, smooth_flat. split.
    - intros H t Ht. split; apply flat_parts; auto; intros t' Ht'; apply H, Ht'.
    - intros H t Ht. split; [apply (proj2 (flat_parts _ _))|apply (proj2 (flat_parts _ _))]; auto; intros t' Ht'; apply H, Ht'.
  Qed.
End Energy.
