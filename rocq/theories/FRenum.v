(** The energy does not depend on the order of the elements or of their vertices, and is
    linear in the properties. *)
From Coq Require Import ZArith Reals List Bool Arith Lra Lia Permutation FunctionalExtensionality.
From Verif Require Import Num Py Mesh Utils Spec SpecK0 FSum FMat FDict FGeom FWf FSetup FAsm FK0 FSmooth FDom FConn CalcK0.
Import ListNotations.
Local Open Scope R_scope.
Implicit Types (m : mesh R).

Lemma Sum_Forall2 : forall A B (P : A -> B -> Prop) (f : A -> R) (g : B -> R) l l',
  Forall2 P l l' -> (forall a b, In a l -> P a b -> f a = g b) -> Sum f l = Sum g l'.
Proof.
  intros A B P f g l l' F; induction F as [|a b l l' H F IH]; intros E; [reflexivity|].
  rewrite !Sum_cons, (E a b), IH; auto. intros; apply E; auto. right; assumption. left; reflexivity.
Qed.

Lemma filter_Forall2 : forall A B (P : A -> B -> Prop) (f : A -> bool) (g : B -> bool) l l',
  (forall a b, P a b -> f a = g b) -> Forall2 P l l' -> Forall2 P (filter f l) (filter g l').
Proof.
  intros A B P f g l l' E F; induction F as [|a b l l' H F IH]; [constructor|].
  cbn [filter]. rewrite (E a b H). destruct (g b); [constructor|]; assumption.
Qed.

Lemma filter_perm : forall A (f : A -> bool) l l', Permutation l l' -> Permutation (filter f l) (filter f l').
Proof.
  intros A f l l' H; induction H; cbn [filter].
  - constructor.
  - destruct (f x); [constructor|]; assumption.
  - destruct (f x), (f y); try apply Permutation_refl. apply perm_swap.
  - eapply Permutation_trans; eassumption.
Qed.

Lemma map_Forall2 : forall A B C (P : A -> B -> Prop) (f : A -> C) (g : B -> C) l l',
  Forall2 P l l' -> (forall a b, In a l -> P a b -> f a = g b) -> map f l = map g l'.
Proof.
  intros A B C P f g l l' F; induction F as [|a b l l' H F IH]; intros E; [reflexivity|].
  cbn [map]. rewrite (E a b), IH; auto. intros; apply E; auto. right; assumption. left; reflexivity.
Qed.

Lemma same_perm3 : forall t t' : tria R, same_tria t t' -> perm3 t (tn1 t') (tn2 t') (tn3 t').
Proof. intros t t' [H _]. apply perm_perm3; exact H. Qed.

Lemma same_vertex : forall t t' n, same_tria t t' -> (vertex t n <-> vertex t' n).
Proof.
  intros t t' n H. apply same_perm3 in H. unfold vertex.
  destruct H as [H|[H|[H|[H|[H|H]]]]]; destruct H as [-> [-> ->]]; tauto.
Qed.

Lemma same_is_vertex : forall t t' n, same_tria t t' -> is_vertex n t = is_vertex n t'.
Proof. intros t t' n H. apply eq_true_iff_eq. rewrite !is_vertex_iff. apply same_vertex; exact H. Qed.

Lemma same_sides : forall t t' k, same_tria t t' -> In k (sides t) -> In k (sides t').
Proof.
  intros t t' k H. apply same_perm3 in H. unfold sides.
  destruct H as [H|[H|[H|[H|[H|H]]]]]; destruct H as [-> [-> ->]]; cbn [In];
  rewrite ?(Nat.min_comm (tn2 t') (tn1 t')), ?(Nat.max_comm (tn2 t') (tn1 t')),
          ?(Nat.min_comm (tn3 t') (tn1 t')), ?(Nat.max_comm (tn3 t') (tn1 t')),
          ?(Nat.min_comm (tn3 t') (tn2 t')), ?(Nat.max_comm (tn3 t') (tn2 t')); tauto.
Qed.

Lemma wsum3_perm : forall A (w : A -> R) (M : A -> mat3 R) l l', Permutation l l' -> wsum3 w M l = wsum3 w M l'.
Proof. intros A w M l l' P. unfold wsum3. rewrite !(Sum_perm _ _ _ _ P). reflexivity. Qed.

Section Renum.
  Variables m m' : mesh R.
  Hypothesis W : wf_mesh m.
  Hypothesis W' : wf_mesh m'.
  Hypothesis PL : plate m.
  Hypothesis SP : same_plate_as m m'.

  Lemma rn_pos : pos m' = pos m.
  Proof. extensionality n; apply (sp_pos _ _ SP). Qed.
  Lemma rn_prop : nodeprop m' = nodeprop m.
  Proof. extensionality n; apply (sp_prop _ _ SP). Qed.
  Lemma rn_comp : comp m' = comp m.
  Proof. unfold comp, rank. rewrite (sp_keys _ _ SP). reflexivity. Qed.

  Lemma rn_tris : forall k, exists l, Permutation (tris_on m k) l /\ Forall2 same_tria l (tris_on m' k).
  Proof.
    intros k. destruct (sp_trias _ _ SP) as [ts [P F]]. unfold tris_on.
    exists (filter (fun t => is_vertex (fst k) t && is_vertex (snd k) t) ts). split.
    - apply filter_perm; exact P.
    - apply filter_Forall2; [|exact F]. intros a b H. rewrite !(same_is_vertex a b _ H). reflexivity.
  Qed.

  Lemma rn_Sum : forall k (f g : tria R -> R),
    (forall t t', In t (tris_on m k) -> same_tria t t' -> f t = g t') ->
    Sum f (tris_on m k) = Sum g (tris_on m' k).
  Proof.
    intros k f g H. destruct (rn_tris k) as [l [P F]]. rewrite (Sum_perm _ _ _ _ P).
    apply (Sum_Forall2 _ _ _ _ _ _ _ F). intros a b Ha. apply H. apply (Permutation_in _ (Permutation_sym P)); exact Ha.
  Qed.

  Lemma rn_tarea : forall t t', same_tria t t' -> tarea m t = tarea m' t'.
  Proof.
    intros t t' H. rewrite (tarea_perm m t _ _ _ (same_perm3 t t' H)). unfold tarea, tdet. rewrite rn_pos. reflexivity.
  Qed.

  Lemma rn_tg : forall t t' q, In t (trias_of m) -> same_tria t t' -> tgx m t q = tgx m' t' q /\ tgy m t q = tgy m' t' q.
  Proof.
    intros t t' q Ht H. assert (D := pl_nondeg m PL t Ht).
    rewrite (tgx_perm m t _ _ _ (same_perm3 t t' H) q D), (tgy_perm m t _ _ _ (same_perm3 t t' H) q D).
    unfold tgx, tgy, tdet, numx, numy. rewrite rn_pos. split; reflexivity.
  Qed.

  Lemma rn_sg : forall k q, sgx m' k q = sgx m k q /\ sgy m' k q = sgy m k q.
  Proof.
    intros k q. unfold sgx, sgy.
    rewrite <- (rn_Sum k (tarea m) (tarea m')) by (intros; apply rn_tarea; assumption).
    rewrite <- (rn_Sum k (fun t => tarea m t * tgx m t q) (fun t => tarea m' t * tgx m' t q)).
    rewrite <- (rn_Sum k (fun t => tarea m t * tgy m t q) (fun t => tarea m' t * tgy m' t q)).
    - auto.
    - intros t t' Ht H. apply tris_on_in in Ht. rewrite (rn_tarea t t' H). f_equal. apply rn_tg; tauto.
    - intros t t' Ht H. apply tris_on_in in Ht. rewrite (rn_tarea t t' H). f_equal. apply rn_tg; tauto.
  Qed.

  Lemma rn_dom : forall k, dom_area m' k = dom_area m k.
  Proof. intros k. unfold dom_area. rewrite <- (rn_Sum k (tarea m) (tarea m')); auto. intros; apply rn_tarea; assumption. Qed.

  Lemma rn_strain : forall u k, smoothed_strain m' u k = smoothed_strain m u k.
  Proof.
    intros u k. unfold smoothed_strain. rewrite rn_comp.
    rewrite !(fun q => proj1 (rn_sg k q)), !(fun q => proj2 (rn_sg k q)). reflexivity.
  Qed.

  Lemma rn_stiffness : forall pfn sel k, edge_stiffness m' pfn sel k = edge_stiffness m pfn sel k.
  Proof.
    intros pfn sel k. destruct (rn_tris k) as [l [P F]].
    unfold edge_stiffness. destruct pfn.
    - unfold node_stiffness. rewrite rn_prop.
      rewrite <- (map_Forall2 _ _ _ _
        (fun t => wsum3 (fun _ => 1) (fun n => getp sel (nodeprop m n)) [tn1 t; tn2 t; tn3 t])
        (fun t => wsum3 (fun _ => 1) (fun n => getp sel (nodeprop m n)) [tn1 t; tn2 t; tn3 t]) _ _ F).
      + symmetry. apply wsum3_perm. do 2 apply perm_skip. apply Permutation_map; exact P.
      + intros a b _ H. apply wsum3_perm. apply H.
    - unfold tria_stiffness. rewrite (wsum3_perm _ (tarea m) _ _ _ P).
      unfold wsum3. assert (X : forall g : mat3 R -> R,
        Sum (fun a => tarea m' a * g (getp sel (tprop a))) (tris_on m' k)
        = Sum (fun a => tarea m a * g (getp sel (tprop a))) l).
      { intros g. symmetry. apply (Sum_Forall2 _ _ _ _ _ _ _ F). intros a b _ H.
        rewrite (rn_tarea a b H). destruct H as [_ ->]. reflexivity. }
      rewrite !X. replace (Sum (tarea m') (tris_on m' k)) with (Sum (tarea m) l); [reflexivity|].
      apply (Sum_Forall2 _ _ _ _ _ _ _ F). intros a b _ H. apply rn_tarea; exact H.
  Qed.

  Lemma rn_edges : Permutation (edge_keys m') (edge_keys m).
  Proof.
    destruct (sp_trias _ _ SP) as [ts [P F]].
    apply NoDup_Permutation; [apply (wf_edges m' W')|apply (wf_edges m W)|].
    intros k. rewrite (wf_edge_keys m W), (wf_edge_keys m' W').
    split; intros [t [Ht Hk]].
    - assert (X : exists t0, In t0 ts /\ same_tria t0 t).
      { clear P. induction F as [|a b l l' H F IH]; [destruct Ht|]. destruct Ht as [<-|Ht].
        - exists a; split; [left; reflexivity|exact H].
        - destruct (IH Ht) as [x [X1 X2]]. exists x; split; [right|]; assumption. }
      destruct X as [t0 [Ht0 S]]. exists t0. split.
      + apply (Permutation_in _ (Permutation_sym P)); exact Ht0.
      + apply (same_sides t t0); [|exact Hk]. destruct S as [S1 S2]. split; [apply Permutation_sym|symmetry]; assumption.
    - apply (Permutation_in _ P) in Ht.
      assert (X : exists t0, In t0 (trias_of m') /\ same_tria t t0).
      { clear P. induction F as [|a b l l' H F IH]; [destruct Ht|]. destruct Ht as [<-|Ht].
        - exists b; split; [left; reflexivity|exact H].
        - destruct (IH Ht) as [x [X1 X2]]. exists x; split; [right|]; assumption. }
      destruct X as [t0 [Ht0 S]]. exists t0. split; [exact Ht0|]. apply (same_sides t t0); assumption.
  Qed.

  Lemma rn_energy : forall pfn u v, k0_energy m' pfn u v = k0_energy m pfn u v.
  Proof.
    intros pfn u v. unfold k0_energy. rewrite (Sum_perm _ _ _ _ rn_edges).
    apply Sum_ext; intros k. rewrite rn_dom, !rn_stiffness, !rn_strain. reflexivity.
  Qed.

  Lemma rn_tria_in : forall t', In t' (trias_of m') -> exists t, In t (trias_of m) /\ same_tria t t'.
  Proof.
    intros t' Ht. destruct (sp_trias _ _ SP) as [ts [P F]].
    assert (X : exists t0, In t0 ts /\ same_tria t0 t').
    { clear P. induction F as [|a b l l' H F IH]; [destruct Ht|]. destruct Ht as [<-|Ht].
      - exists a; split; [left; reflexivity|exact H].
      - destruct (IH Ht) as [x [X1 X2]]. exists x; split; [right|]; assumption. }
    destruct X as [t0 [Ht0 S]]. exists t0; split; [|exact S]. apply (Permutation_in _ (Permutation_sym P)); exact Ht0.
  Qed.

  Lemma rn_third : forall k t t', In k (edge_keys m) -> In t (tris_on m k) -> same_tria t t' -> third t' k = third t k.
  Proof.
    intros [a b] t t' Hk Ht H.
    destruct (edge_tria m W (a, b) t Hk Ht) as [P [D [D1 [D2 _]]]]; cbn [fst snd] in *.
    apply perm3_third; auto. destruct H as [H _].
    apply perm_perm3. apply perm3_perm in P. rewrite P. symmetry; exact H.
  Qed.

  Lemma rn_plate : plate m'.
  Proof.
    constructor.
    - destruct (pl_flat m PL) as [z H]. exists z. intros n Hn. rewrite rn_pos. apply H. rewrite <- (sp_keys _ _ SP); exact Hn.
    - intros t' Ht'. destruct (rn_tria_in t' Ht') as [t [Ht H]]. assert (D := pl_nondeg m PL t Ht).
      destruct (tdet_perm m t _ _ _ (same_perm3 t t' H)) as [E|E]; rewrite E in D; unfold tdet; rewrite rn_pos; lra.
    - intros k Hk. destruct (rn_tris k) as [l [P F]]. apply Permutation_length in P. apply FRead2.Forall2_length in F.
      rewrite <- F, <- P. apply (pl_two m PL). apply (Permutation_in _ rn_edges); exact Hk.
    - intros k t1 t2 Hk E. apply (Permutation_in _ rn_edges) in Hk.
      destruct (rn_tris k) as [l [P F]]. rewrite E in F.
      inversion F as [|a1 b1 la lb S1 F1]; subst. inversion F1 as [|a2 b2 la' lb' S2 F2]; subst. inversion F2; subst.
      assert (I1 : In a1 (tris_on m k)) by (apply (Permutation_in _ (Permutation_sym P)); left; reflexivity).
      assert (I2 : In a2 (tris_on m k)) by (apply (Permutation_in _ (Permutation_sym P)); right; left; reflexivity).
      rewrite rn_pos, (rn_third k a1 t1 Hk I1 S1), (rn_third k a2 t2 Hk I2 S2).
      apply Permutation_sym, Permutation_length_2_inv in P. destruct P as [P|P].
      + apply (pl_sides m PL k a1 a2 Hk P).
      + rewrite Rmult_comm. apply (pl_sides m PL k a2 a1 Hk P).
  Qed.

  Lemma rn_props : forall pfn, props_complete m pfn -> props_complete m' pfn.
  Proof.
    intros [|]; unfold props_complete; intros H.
    - intros k Hk. rewrite rn_prop. apply H. apply (Permutation_in _ rn_edges); exact Hk.
    - intros t' Ht'. destruct (rn_tria_in t' Ht') as [t [Ht [_ E]]]. rewrite <- E. apply H; exact Ht.
  Qed.
End Renum.

(** ** Properties *)

Section Props.
  Variable m : mesh R.
  Hypothesis W : wf_mesh m.

  Lemma wp_conn : forall np tp, conn m (with_props np tp m).
  Proof.
    intros np tp; constructor; cbn [with_props nodes elements edges]; rewrite ?map_map; try reflexivity;
    apply map_ext; intros [k x]; reflexivity.
  Qed.
  Lemma wp_wf : forall np tp, wf_mesh (with_props np tp m).
  Proof. intros np tp; apply (conn_wf m _ (wp_conn np tp) W). Qed.
  Lemma wp_keys : forall np tp, node_keys (with_props np tp m) = node_keys m.
  Proof. intros np tp. symmetry; apply conn_node_keys, wp_conn. Qed.
  Lemma wp_dget : forall np tp n, dget Nat.eqb n (nodes (with_props np tp m)) =
    option_map (fun nd => {| nid := nid nd; nxyz := nxyz nd; nprop := np n; nindex := nindex nd; nedges := nedges nd; ntrias := ntrias nd |})
      (dget Nat.eqb n (nodes m)).
  Proof.
    intros np tp n. cbn [with_props nodes]. induction (nodes m) as [|[k nd] l IH]; [reflexivity|].
    cbn [map dget fst snd]. destruct (Nat.eqb_spec n k) as [->|_]; [reflexivity|exact IH].
  Qed.
  Lemma wp_pos : forall np tp, pos (with_props np tp m) = pos m.
  Proof. intros np tp. extensionality n. unfold pos. rewrite wp_dget. destruct (dget Nat.eqb n (nodes m)); reflexivity. Qed.
  Lemma wp_prop : forall np tp n, In n (node_keys m) -> nodeprop (with_props np tp m) n = np n.
  Proof.
    intros np tp n H. unfold nodeprop. rewrite wp_dget.
    destruct (dget_some Nat.eqb nat_eqb_spec n (nodes m) H) as [nd ->]. reflexivity.
  Qed.

  Definition wp_tria (tp : nat -> option (prop R)) (t : tria R) : tria R :=
    {| eid := eid t; tn1 := tn1 t; tn2 := tn2 t; tn3 := tn3 t; tprop := tp (eid t); tedges := tedges t |}.
  Lemma wp_trias : forall np tp, trias_of (with_props np tp m) = map (wp_tria tp) (trias_of m).
  Proof.
    intros np tp. unfold trias_of. cbn [with_props elements]. rewrite !map_map. apply map_ext_in.
    intros [k t] H. cbn [fst snd]. unfold wp_tria. rewrite (wf_eid m W k t H). reflexivity.
  Qed.
  Lemma wp_tris_on : forall np tp k, tris_on (with_props np tp m) k = map (wp_tria tp) (tris_on m k).
  Proof.
    intros np tp k. unfold tris_on. rewrite wp_trias. induction (trias_of m) as [|t l IH]; [reflexivity|].
    cbn [map filter]. change (is_vertex (fst k) (wp_tria tp t)) with (is_vertex (fst k) t).
    change (is_vertex (snd k) (wp_tria tp t)) with (is_vertex (snd k) t).
    destruct (_ && _); cbn [map]; rewrite IH; reflexivity.
  Qed.
  Lemma wp_edges : forall np tp, edge_keys (with_props np tp m) = edge_keys m.
  Proof. reflexivity. Qed.
  Lemma wp_dom : forall np tp k, dom_area (with_props np tp m) k = dom_area m k.
  Proof.
    intros np tp k. unfold dom_area. rewrite wp_tris_on, Sum_map. f_equal. apply Sum_ext; intros t.
    unfold tarea, tdet. rewrite wp_pos. reflexivity.
  Qed.
  Lemma wp_strain : forall np tp u k, smoothed_strain (with_props np tp m) u k = smoothed_strain m u k.
  Proof.
    intros np tp u k.
    assert (X : forall q, sgx (with_props np tp m) k q = sgx m k q /\ sgy (with_props np tp m) k q = sgy m k q).
    { intros q. unfold sgx, sgy. rewrite wp_tris_on, !Sum_map.
      split; f_equal; apply Sum_ext; intros t; unfold tarea, tgx, tgy, tdet; rewrite ?wp_pos; reflexivity. }
    assert (C : comp (with_props np tp m) = comp m) by (unfold comp, rank; rewrite wp_keys; reflexivity).
    unfold smoothed_strain. rewrite C, !(fun q => proj1 (X q)), !(fun q => proj2 (X q)). reflexivity.
  Qed.

  Lemma wp_plate : forall np tp, plate m -> plate (with_props np tp m).
  Proof.
    intros np tp PL. constructor.
    - destruct (pl_flat m PL) as [z H]. exists z. intros n. rewrite wp_keys, wp_pos. apply H.
    - intros t. rewrite wp_trias. intros Ht. apply in_map_iff in Ht. destruct Ht as [t0 [<- Ht0]].
      unfold tdet. rewrite wp_pos. apply (pl_nondeg m PL t0 Ht0).
    - intros k Hk. rewrite wp_tris_on, map_length. apply (pl_two m PL k Hk).
    - intros k t1 t2 Hk. rewrite wp_tris_on, wp_pos. intros E.
      destruct (tris_on m k) as [|s1 [|s2 [|s3 l]]] eqn:T; try discriminate. cbn [map] in E. injection E as <- <-.
      apply (pl_sides m PL k s1 s2 Hk T).
  Qed.

  Section Lin.
    Variables (np tp np1 tp1 np2 tp2 : nat -> option (prop R)) (c c' : R).
    Hypothesis HN : forall n, lin_opt c c' (np n) (np1 n) (np2 n).
    Hypothesis HT : forall e, lin_opt c c' (tp e) (tp1 e) (tp2 e).

    Lemma wp_getp : forall sel, (sel = pA \/ sel = pB \/ sel = pD) -> forall o o1 o2, lin_opt c c' o o1 o2 ->
      getp sel o = lin3 c c' (getp sel o1) (getp sel o2).
    Proof.
      intros sel Hs [p|] [p1|] [p2|]; cbn [lin_opt]; try tauto.
      - intros [H1 [H2 H3]]. cbn [getp]. destruct Hs as [->|[->| ->]]; assumption.
      - intros _. cbn [getp]. unfold lin3, zero3; cbn. f_equal; ring.
    Qed.

    Lemma wsum3_lin : forall A (w : A -> R) (M M1 M2 : A -> mat3 R) l, (forall a, In a l -> M a = lin3 c c' (M1 a) (M2 a)) ->
      wsum3 w M l = lin3 c c' (wsum3 w M1 l) (wsum3 w M2 l).
    Proof.
      intros A w M M1 M2 l H. unfold wsum3, lin3; cbn [m00 m01 m02 m10 m11 m12 m20 m21 m22].
      assert (X : forall g : mat3 R -> R, (forall X Y, g (lin3 c c' X Y) = c * g X + c' * g Y) ->
        Sum (fun a => w a * g (M a)) l / Sum w l
        = c * (Sum (fun a => w a * g (M1 a)) l / Sum w l) + c' * (Sum (fun a => w a * g (M2 a)) l / Sum w l)).
      { intros g G. rewrite (Sum_ext_in _ _ (fun a => c * (w a * g (M1 a)) + c' * (w a * g (M2 a)))).
        - rewrite Sum_plus, !Sum_scal. unfold Rdiv; ring.
        - intros a Ha. rewrite (H a Ha), G. ring. }
      rewrite !X by (intros; reflexivity). reflexivity.
    Qed.

    Lemma wp_stiffness : forall pfn sel k, (sel = pA \/ sel = pB \/ sel = pD) -> In k (edge_keys m) ->
      edge_stiffness (with_props np tp m) pfn sel k
      = lin3 c c' (edge_stiffness (with_props np1 tp1 m) pfn sel k) (edge_stiffness (with_props np2 tp2 m) pfn sel k).
    Proof.
      intros pfn sel k Hs Hk. unfold edge_stiffness. destruct pfn.
      - unfold node_stiffness. rewrite !wp_tris_on, !map_map.
        destruct (ready_nodes m k (fst k) (snd k) W Hk) as [Ka [Kb _]]; [left; destruct k; reflexivity|].
        rewrite !wp_prop by assumption.
        set (cent := fun np0 tp0 x => wsum3 (fun _ => 1) (fun n => getp sel (nodeprop (with_props np0 tp0 m) n))
                       [tn1 (wp_tria tp0 x); tn2 (wp_tria tp0 x); tn3 (wp_tria tp0 x)]).
        assert (CE : forall x, In x (tris_on m k) -> cent np tp x = lin3 c c' (cent np1 tp1 x) (cent np2 tp2 x)).
        { intros x Hx. apply tris_on_in in Hx. unfold cent, wp_tria; cbn [tn1 tn2 tn3].
          apply wsum3_lin. intros n Hn. assert (V : vertex x n) by (cbn [In] in Hn; unfold vertex; intuition).
          rewrite !wp_prop by (apply (wf_vertices m W x n); tauto). apply wp_getp; auto. }
        assert (EV : forall np0 tp0 l, wsum3 (fun _ : mat3 R => 1) (fun X => X)
            (getp sel (np0 (fst k)) :: getp sel (np0 (snd k)) :: map (cent np0 tp0) l)
          = wsum3 (fun _ : option (tria R) + unit => 1)
              (fun a => match a with inr _ => getp sel (np0 (fst k)) | inl None => getp sel (np0 (snd k))
                                   | inl (Some x) => cent np0 tp0 x end)
              (inr tt :: inl None :: map (fun x => inl (Some x)) l)).
        { intros np0 tp0 l. unfold wsum3. rewrite !Sum_cons, !Sum_map. reflexivity. }
        transitivity (wsum3 (fun _ : mat3 R => 1) (fun X => X)
            (getp sel (np (fst k)) :: getp sel (np (snd k)) :: map (cent np tp) (tris_on m k))); [reflexivity|].
        transitivity (lin3 c c'
          (wsum3 (fun _ : mat3 R => 1) (fun X => X)
            (getp sel (np1 (fst k)) :: getp sel (np1 (snd k)) :: map (cent np1 tp1) (tris_on m k)))
          (wsum3 (fun _ : mat3 R => 1) (fun X => X)
            (getp sel (np2 (fst k)) :: getp sel (np2 (snd k)) :: map (cent np2 tp2) (tris_on m k)))); [|reflexivity].
        rewrite !EV. apply wsum3_lin. intros a Ha. destruct a as [[x|]|].
        + apply CE. cbn [In] in Ha. destruct Ha as [Ha|[Ha|Ha]]; try discriminate.
          apply in_map_iff in Ha. destruct Ha as [y [E Hy]]. injection E as ->. exact Hy.
        + apply wp_getp; auto.
        + apply wp_getp; auto.
      - unfold tria_stiffness. rewrite !wp_tris_on.
        assert (EV : forall np0 tp0, wsum3 (tarea (with_props np0 tp0 m)) (fun t => getp sel (tprop t)) (map (wp_tria tp0) (tris_on m k))
          = wsum3 (tarea m) (fun t => getp sel (tp0 (eid t))) (tris_on m k)).
        { intros np0 tp0. unfold wsum3. rewrite !Sum_map. unfold wp_tria; cbn [tprop].
          unfold tarea, tdet; cbn [tn1 tn2 tn3]. rewrite wp_pos. reflexivity. }
        rewrite !EV. apply wsum3_lin. intros a Ha. apply wp_getp; auto.
    Qed.

    Lemma wp_energy : forall pfn u v, k0_energy (with_props np tp m) pfn u v
      = c * k0_energy (with_props np1 tp1 m) pfn u v + c' * k0_energy (with_props np2 tp2 m) pfn u v.
    Proof.
      intros pfn u v. unfold k0_energy. rewrite !wp_edges, <- !Sum_scal, <- Sum_plus.
      apply Sum_ext_in; intros k Hk. rewrite !wp_dom, !wp_strain, !(wp_stiffness pfn _ k) by auto. rewrite dens_lin. ring.
    Qed.

    Lemma wp_complete : forall pfn, props_complete (with_props np tp m) pfn ->
      props_complete (with_props np1 tp1 m) pfn /\ props_complete (with_props np2 tp2 m) pfn.
    Proof.
      assert (LO : forall o o1 o2, lin_opt c c' o o1 o2 -> o <> None -> o1 <> None /\ o2 <> None).
      { intros [p|] [p1|] [p2|] H1 H2; cbn in H1; try tauto; split; discriminate. }
      intros [|]; unfold props_complete; intros H.
      - rewrite !wp_edges in *.
        assert (X : forall k, In k (edge_keys m) -> (np1 (fst k) <> None /\ np1 (snd k) <> None) /\ (np2 (fst k) <> None /\ np2 (snd k) <> None)).
        { intros k Hk. destruct (ready_nodes m k (fst k) (snd k) W Hk) as [Ka [Kb _]]; [left; destruct k; reflexivity|].
          destruct (H k Hk) as [H1 H2]. rewrite wp_prop in H1, H2 by assumption.
          destruct (LO _ _ _ (HN (fst k)) H1), (LO _ _ _ (HN (snd k)) H2). auto. }
        split; intros k Hk; destruct (X k Hk) as [X1 X2];
        destruct (ready_nodes m k (fst k) (snd k) W Hk) as [Ka [Kb _]]; try (left; destruct k; reflexivity);
        rewrite !wp_prop by assumption; assumption.
      - assert (X : forall t, In t (trias_of m) -> tp1 (eid t) <> None /\ tp2 (eid t) <> None).
        { intros t Ht. apply (LO (tp (eid t)) _ _ (HT (eid t))).
          assert (Y := H (wp_tria tp t)). rewrite wp_trias in Y. apply (Y (in_map _ _ _ Ht)). }
        split; intros t; rewrite wp_trias; intros Ht; apply in_map_iff in Ht; destruct Ht as [t0 [<- Ht0]];
        cbn [wp_tria tprop]; apply X; exact Ht0.
    Qed.
  End Lin.
End Props.
