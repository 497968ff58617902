(** Comparison of static and buckling problems. *)
From Coq Require Import ZArith Reals List Bool Arith Lra Lia String.
From Verif Require Import Num Py Mesh Utils CalcK0 CalcKG AddK0s Spec SpecK0 SpecKG SpecK0s SpecStab SpecStat SpecMono
  FSum FMat FDict FGeom FWf FConn FDom FAny FAsm FTensor FSmooth FRenum FKG FK0s FK0u FLin FLin2 FLin3 LK0 LKG LK0s LStab LStat.
Import ListNotations.
Local Open Scope R_scope.

Section Compare.
  Variables K1 K2 G1 G2 : matrix R.
  Variables S S' : nat -> bool.
  Hypothesis D2 : mdim K2 = mdim K1.
  Hypothesis DG1 : mdim G1 = mdim K1.
  Hypothesis DG2 : mdim G2 = mdim K1.
  Hypothesis Y1 : forall u v, form K1 u v = form K1 v u.
  Hypothesis Y2 : forall u v, form K2 u v = form K2 v u.
  Hypothesis YG1 : forall u v, form G1 u v = form G1 v u.
  Hypothesis EG : forall u v, form G2 u v = form G1 u v.
  Hypothesis MS : more_supports (mdim K1) S S'.
  Hypothesis PD : forall u, admissible (mdim K1) S u -> 0 <= form K1 u u /\ (form K1 u u = 0 -> forall i, (i < mdim K1)%nat -> u i = 0).
  Hypothesis LE : forall u, form K1 u u <= form K2 u u.

  Lemma adm_less : forall u, admissible (mdim K1) S' u -> admissible (mdim K1) S u.
  Proof. intros u H i Hi Si. apply H; [exact Hi|apply MS; assumption]. Qed.
  Lemma pd2 : forall u, admissible (mdim K2) S' u -> 0 <= form K2 u u /\ (form K2 u u = 0 -> forall i, (i < mdim K2)%nat -> u i = 0).
  Proof.
    rewrite D2. intros u H. destruct (PD u (adm_less u H)) as [P Z]. assert (L := LE u). split; [lra|]. intros Q. apply Z. lra.
  Qed.
  Lemma yg2 : forall u v, form G2 u v = form G2 v u.
  Proof. intros. rewrite !EG. apply YG1. Qed.

  (** the smaller problem has a critical load factor below each load factor of the larger one *)
  Lemma factor_below : forall b x, 0 < b -> buckling_mode K2 G2 S' b 0 x (fun _ => 0) -> nonzero (mdim K2) x -> exists a, critical_factor K1 G1 S a /\ a <= b.
  Proof.
    intros b x Hb M N. destruct (mode_work K2 G2 S' ltac:(congruence) pd2 b x M N) as [Q1 Q2]. rewrite EG in Q2.
    assert (A : admissible (mdim K1) S x) by (apply adm_less; rewrite <- D2; apply M).
    assert (NG : form G1 x x < 0). { apply Rnot_le_lt. intros G. assert (Y := Rmult_le_pos b _ (Rlt_le _ _ Hb) G). lra. }
    destruct (critical K1 G1 S DG1 Y1 YG1 PD) as [a [y [Ha [MY [NY [BE _]]]]]]; [exists x; auto|]. exists a.
    split; [split; [exact Ha|split; [exists y; auto|]]|].
    - intros c z Hc MZ NZ. destruct (mode_work K1 G1 S DG1 PD c z MZ NZ) as [W1 W2]. assert (P := BE c z ltac:(lra) (proj1 MZ) NZ). lra.
    - apply Rnot_lt_le. intros L. rewrite D2 in N. assert (P := BE b x ltac:(lra) A N). assert (Q := LE x). lra.
  Qed.
  Lemma factor_least : forall a, critical_factor K2 G2 S' a -> exists b, critical_factor K1 G1 S b /\ b <= a.
  Proof. intros a [Ha [[x [N M]] _]]. apply (factor_below a x Ha M N). Qed.
  (** with the same supports both have one *)
  Lemma factor_exists : (forall i, (i < mdim K1)%nat -> S' i = S i) -> forall a, critical_factor K1 G1 S a -> exists b, critical_factor K2 G2 S' b.
  Proof.
    intros ES a [Ha [[x [N M]] _]]. destruct (mode_work K1 G1 S DG1 PD a x M N) as [Q1 Q2].
    assert (NG : form G2 x x < 0). { rewrite EG. apply Rnot_le_lt. intros G. assert (Y := Rmult_le_pos a _ (Rlt_le _ _ Ha) G). lra. }
    destruct (critical K2 G2 S' ltac:(congruence) Y2 yg2 pd2) as [b [y [Hb [MY [NY [BE _]]]]]].
    - exists x. split; [|exact NG]. rewrite D2. intros i Hi Si. apply (proj1 M); [exact Hi|]. rewrite <- ES; assumption.
    - exists b. split; [exact Hb|split; [exists y; auto|]]. intros c z Hc MZ NZ. destruct (mode_work K2 G2 S' ltac:(congruence) pd2 c z MZ NZ) as [W1 W2]. assert (P := BE c z ltac:(lra) (proj1 MZ) NZ). lra.
  Qed.
  (** compliance *)
  Lemma compliance_less : forall load d1 d2, solves K1 S load d1 -> solves K2 S' load d2 -> load_work (mdim K1) load d2 <= load_work (mdim K1) load d1.
  Proof.
    intros load d1 d2 H1 H2. assert (A2 : admissible (mdim K1) S d2) by (apply adm_less; rewrite <- D2; apply (solves_admissible K2 S' load), H2).
    assert (X := potential_at K1 S Y1 load d1 d2 H1 A2). rewrite (potential_sol K1 S load d1 H1) in X.
    assert (X2 := potential_sol K2 S' load d2 H2). unfold potential in X, X2. rewrite D2 in X2.
    set (e := fun i => 1 * d2 i + -1 * d1 i) in X.
    assert (AE : admissible (mdim K1) S e).
    { intros i Hi Si. unfold e. rewrite (A2 i Hi Si), (solves_admissible K1 S load d1 H1 i Hi Si). ring. }
    assert (P := proj1 (PD e AE)). assert (L := LE d2). lra.
  Qed.
End Compare.

Lemma wsum3_ext : forall A (w : A -> R) (M M' : A -> mat3 R) l, (forall a, In a l -> M a = M' a) -> wsum3 w M l = wsum3 w M' l.
Proof.
  intros A w M M' l H. assert (X : forall g : mat3 R -> R, Sum (fun a => w a * g (M a)) l = Sum (fun a => w a * g (M' a)) l) by (intros g; apply Sum_ext_in; intros a Ha; rewrite (H a Ha); reflexivity).
  unfold wsum3. rewrite !X. reflexivity.
Qed.
Section Same.
  Variable m : mesh R.
  Hypothesis W : wf_mesh m.
  Variables np1 tp1 np2 tp2 : nat -> option (prop R).
  Notation m1 := (with_props np1 tp1 m).
  Notation m2 := (with_props np2 tp2 m).
  Lemma same_stiffness : forall pfn sel k, (forall n, getp sel (np1 n) = getp sel (np2 n)) -> (forall e, getp sel (tp1 e) = getp sel (tp2 e)) -> In k (edge_keys m) ->
    edge_stiffness m2 pfn sel k = edge_stiffness m1 pfn sel k.
  Proof.
    intros pfn sel k HN HT Hk. unfold edge_stiffness. destruct pfn.
    - unfold node_stiffness. rewrite !(wp_tris_on m W), !map_map.
      destruct (ready_nodes m k (fst k) (snd k) W Hk) as [Ka [Kb _]]; [left; destruct k; reflexivity|].
      rewrite !(wp_prop m) by assumption. rewrite !HN. f_equal. f_equal. f_equal. apply map_ext_in. intros x Hx. apply tris_on_in in Hx. unfold wp_tria; cbn [tn1 tn2 tn3].
      apply wsum3_ext. intros n Hn. assert (V : vertex x n) by (cbn [In] in Hn; unfold vertex; intuition).
      rewrite !(wp_prop m) by (apply (wf_vertices m W x n); tauto). symmetry. apply HN.
    - unfold tria_stiffness. rewrite !(wp_tris_on m W).
      assert (EV : forall np0 tp0, wsum3 (tarea (with_props np0 tp0 m)) (fun t => getp sel (tprop t)) (map (wp_tria tp0) (tris_on m k))
        = wsum3 (tarea m) (fun t => getp sel (tp0 (eid t))) (tris_on m k)).
      { intros np0 tp0. unfold wsum3. rewrite !Sum_map. unfold wp_tria; cbn [tprop]. unfold tarea, tdet; cbn [tn1 tn2 tn3]. rewrite wp_pos. reflexivity. }
      rewrite !EV. apply wsum3_ext. intros a _. symmetry. apply HT.
  Qed.
  Hypothesis HN : forall n, rel_opt stiffer_bending (np1 n) (np2 n).
  Hypothesis HT : forall e, rel_opt stiffer_bending (tp1 e) (tp2 e).
  Lemma rel_stiffer : forall o1 o2, rel_opt stiffer_bending o1 o2 -> rel_opt stiffer o1 o2.
  Proof. intros [p|] [q|]; cbn; auto. intros [H _]. exact H. Qed.
  Lemma rel_same : forall o1 o2, rel_opt stiffer_bending o1 o2 -> getp pA o1 = getp pA o2 /\ getp pB o1 = getp pB o2.
  Proof. intros [p|] [q|]; cbn; try tauto. intros [_ [-> ->]]. auto. Qed.
  Lemma same_kG : forall pfn d u v, kG_energy m2 pfn d u v = kG_energy m1 pfn d u v.
  Proof.
    intros pfn d u v. unfold kG_energy. change (edge_keys m2) with (edge_keys m). change (edge_keys m1) with (edge_keys m). apply Sum_ext_in. intros k Hk. unfold edge_work.
    assert (XX : forall np tp q, sgx (with_props np tp m) k q = sgx m k q /\ sgy (with_props np tp m) k q = sgy m k q).
    { intros np tp q. unfold sgx, sgy. rewrite (wp_tris_on m W), !Sum_map. split; f_equal; apply Sum_ext; intros t; unfold tarea, tgx, tgy, tdet; rewrite ?wp_pos; reflexivity. }
    assert (CC : forall np tp, comp (with_props np tp m) = comp m) by (intros np tp; unfold comp, rank; rewrite wp_keys; reflexivity).
    rewrite !(wp_dom m W), !(wp_strain m W), !CC, !(fun np tp q => proj1 (XX np tp q)), !(fun np tp q => proj2 (XX np tp q)).
    rewrite (same_stiffness pfn pA k), (same_stiffness pfn pB k); try reflexivity; try exact Hk; intros j; apply rel_same; auto.
  Qed.
  Lemma stiffer_all : forall P : prop R -> Prop, (forall p q, stiffer p q -> P p -> P q) -> all_props m1 P -> all_props m2 P.
  Proof.
    intros P HP [T1 T2]. split.
    - intros n p. unfold nodeprop. rewrite (wp_dget m). intros Q. specialize (T1 n). unfold nodeprop in T1. rewrite (wp_dget m) in T1.
      destruct (dget Nat.eqb n (nodes m)) eqn:E; cbn in *; [|discriminate]. assert (H := HN n). rewrite Q in H.
      destruct (np1 n) as [p1|] eqn:E1; cbn in H; [|contradiction]. apply (HP p1); [apply H|]. apply T1. reflexivity.
    - intros t p Ht Q. rewrite (wp_trias m W) in Ht. apply in_map_iff in Ht. destruct Ht as [t0 [<- Ht0]]. cbn in Q.
      assert (H := HT (eid t0)). rewrite Q in H. destruct (tp1 (eid t0)) as [p1|] eqn:E1; cbn in H; [|contradiction]. apply (HP p1); [apply H|].
      apply (T2 (wp_tria tp1 t0) p1); [rewrite (wp_trias m W); apply in_map, Ht0|exact E1].
  Qed.
End Same.
