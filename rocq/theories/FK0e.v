(** Facts about add_k0s: the edge-based method. *)
From Coq Require Import ZArith Reals List Bool Arith Lra Lia String.
From Verif Require Import Num Py Mesh Utils GenCell GenCellNS GenEdgeB GenEdgeI CalcK0 AddK0s Spec SpecK0 SpecKG SpecK0s FSum FMat FTensor
  FGenCell FGenCellNS FGenEdgeB FGenEdgeI FGeom FDict FWf FSetup FAsm FK0 FSmooth FTot FDom FAny FKG FK0s FK0p.
Import ListNotations.
Local Open Scope R_scope.
Implicit Types (m : mesh R).

Lemma norm_vdist : forall p q : vec3 R, norm (vsub p q) = vdist p q.
Proof. reflexivity. Qed.
Lemma vdist_sym : forall p q, vdist p q = vdist q p.
Proof. intros; unfold vdist; f_equal; ring. Qed.

Section Edge.
  Variable m : mesh R.
  Hypothesis W : wf_mesh m.
  Hypothesis PL : plate m.
  Hypothesis I : indexed m.
  Variable pfn : bool.
  Hypothesis PC : props_complete m pfn.
  Hypothesis TH : thick m.
  Variable alpha : R.
  Hypothesis AL : 0 <= alpha.
  Variable mfa : bool.
  Variables (k : nat * nat) (e : edge R).
  Hypothesis Hk : In k (edge_keys m).
  Hypothesis RD : ready m k e.

  Let n := List.length (nodes m).

  (** the domain, with [n1], [n2] anticlockwise in the first triangle *)
  Definition orient (n1 n2 : nat) : Prop := (n1, n2) = k \/ (n2, n1) = k.

  Lemma third_prop : forall t, In t (tris_on m k) -> pfn = true -> exists p, nodeprop m (third t k) = Some p.
  Proof.
    intros t Ht E. subst pfn. destruct (tria_node m k t (fst k) (snd k) W Hk (or_introl (eq_sym (surjective_pairing k))) Ht) as [P [_ [_ [_ T]]]].
    assert (Q := vertex_prop m t _ W PC T (proj2 (proj2 (perm3_vertex _ _ _ _ P)))).
    destruct (nodeprop m (third t k)); [eauto|contradiction].
  Qed.
  Lemma end_prop : pfn = true -> exists p q, nodeprop m (fst k) = Some p /\ nodeprop m (snd k) = Some q.
  Proof.
    intros E. subst pfn. destruct (PC k Hk) as [Pa Pb].
    destruct (nodeprop m (fst k)); [|contradiction]. destruct (nodeprop m (snd k)); [|contradiction]. eauto.
  Qed.
  Lemma tria_prop : forall t, In t (tris_on m k) -> pfn = false -> exists p, tprop t = Some p.
  Proof.
    intros t Ht E. subst pfn. apply tris_on_in in Ht. assert (Q := PC t (proj1 Ht)). destruct (tprop t); [eauto|contradiction].
  Qed.

  Lemma edge_thick : 0 < edge_val m pfn ph k.
  Proof.
    destruct TH as [TN TT]. unfold edge_val.
    assert (TA : forall t, In t (tris_on m k) -> 0 < tarea m t).
    { intros t Ht. apply tris_on_in in Ht. apply (tarea_pos m PL t (proj1 Ht)). }
    assert (T3 : forall t, In t (tris_on m k) -> pfn = true -> 0 < pval ph (nodeprop m (third t k))).
    { intros t Ht E. destruct (third_prop t Ht E) as [p Q]. rewrite Q. apply (TN _ _ Q). }
    assert (TE : pfn = true -> 0 < pval ph (nodeprop m (fst k)) /\ 0 < pval ph (nodeprop m (snd k))).
    { intros E. destruct (end_prop E) as [p [q [Q1 Q2]]]. rewrite Q1, Q2. split; [apply (TN _ _ Q1)|apply (TN _ _ Q2)]. }
    assert (TT' : forall t, In t (tris_on m k) -> pfn = false -> 0 < pval ph (tprop t)).
    { intros t Ht E. destruct (tria_prop t Ht E) as [p Q]. rewrite Q. apply tris_on_in in Ht. apply (TT t p (proj1 Ht) Q). }
    destruct (tris_on_cases m k W PL Hk) as [[t T]|[t [t' T]]]; rewrite T in *.
    - destruct pfn.
      + destruct (TE eq_refl). assert (X := T3 t (or_introl eq_refl) eq_refl). lra.
      + apply TT'; [left|]; reflexivity.
    - assert (A1 := TA t (or_introl eq_refl)). assert (A2 := TA t' (or_intror (or_introl eq_refl))). destruct pfn.
      + destruct (TE eq_refl). assert (X := T3 t (or_introl eq_refl) eq_refl). assert (Y := T3 t' (or_intror (or_introl eq_refl)) eq_refl). lra.
      + assert (X := TT' t (or_introl eq_refl) eq_refl). assert (Y := TT' t' (or_intror (or_introl eq_refl)) eq_refl).
        apply Rdiv_lt_0_compat; [|lra]. apply Rplus_lt_0_compat; apply Rmult_lt_0_compat; assumption.
  Qed.

  (** the node records of the domain in the order of the code *)
  Lemma edge_nodes : forall n1 n2 t rest, orient n1 n2 -> tris_on m k = t :: rest ->
    0 < det2 (pos m n1) (pos m n2) (pos m (third t k)) ->
    exists d1 d2, In (n1, d1) (nodes m) /\ In (n2, d2) (nodes m) /\ nxyz d1 = pos m n1 /\ nxyz d2 = pos m n2 /\
      nprop d1 = nodeprop m n1 /\ nprop d2 = nodeprop m n2 /\
      get_tria m (eid t) = Ok t /\ getMid m t = Ok (centroid m t) /\
      (let! a := get_node m (en1 e) in let! b := get_node m (en2 e) in Ok (orient_edge (centroid m t) a b)) = Ok (d1, d2).
  Proof.
    intros n1 n2 t rest E T D.
    destruct (ready_nodes m k n1 n2 W Hk E) as [K1 [K2 N12]].
    assert (I1 : In t (tris_on m k)) by (rewrite T; left; reflexivity).
    destruct (tria_node m k t n1 n2 W Hk E I1) as [P [O1 [O2 [Ko Ht]]]].
    destruct (node_found m W n1 K1) as [d1 [G1 [_ [X1 [P1 J1]]]]]. destruct (node_found m W n2 K2) as [d2 [G2 [_ [X2 [P2 J2]]]]].
    exists d1, d2. repeat split; auto.
    - apply tria_found; assumption.
    - rewrite (centroid_mid m t _ _ _ P). apply (getMid_perm m W t _ _ _ Ht P).
    - rewrite (centroid_mid m t _ _ _ P). unfold the_mid. assert (En := rd_ends m k e RD).
      destruct E as [E|E]; rewrite <- E in En; injection En as -> ->; rewrite G1, G2; cbn [bind]; f_equal; unfold orient_edge;
        rewrite X1, X2.
      + replace (dot _ _) with (det2 (pos m n1) (pos m n2) (pos m (third t k)) / 3)
          by (unfold dot, cross, vsub, mid3, vdivs, vadd, ZGLOBAL, det2; cbn [vx vy vz]; rnum; field).
        rnum. destruct Rlt_dec; [lra|reflexivity].
      + replace (dot _ _) with (- (det2 (pos m n1) (pos m n2) (pos m (third t k)) / 3))
          by (unfold dot, cross, vsub, mid3, vdivs, vadd, ZGLOBAL, det2; cbn [vx vy vz]; rnum; field).
        rnum. destruct Rlt_dec; [reflexivity|lra].
  Qed.

  Lemma other_ok : forall t, In t (tris_on m k) -> exists d, In (third t k, d) (nodes m) /\
    other_node m (Some (third t k)) = Ok d /\ nxyz d = pos m (third t k) /\ nprop d = nodeprop m (third t k).
  Proof.
    intros t Ht. destruct (tria_node m k t _ _ W Hk (or_introl (eq_sym (surjective_pairing k))) Ht) as [_ [_ [_ [Ko _]]]].
    destruct (node_found m W _ Ko) as [d [G [_ [X [P J]]]]]. exists d. unfold other_node; cbn [get_or bind]. auto.
  Qed.

  Let f := corr alpha (edge_val m pfn ph k) (edge_size m mfa k).
  Let G := edge_G m pfn k.

  Lemma edge_boundary : forall L n1 n2 t, orient n1 n2 -> ready1 m k e n1 n2 t ->
    edge_shear L m pfn alpha mfa e = Ok (edgeb_entries L (zr m n1) (zr m n2) (zr m (third t k)) (dom_area m k)
      (f * fst (fst G)) (snd (fst G)) (f * snd G)
      (vx (pos m n1) - vx (centroid m t)) (vy (pos m n1) - vy (centroid m t))
      (vx (pos m n2) - vx (centroid m t)) (vy (pos m n2) - vy (centroid m t))).
  Proof.
    intros L n1 n2 t E R1. assert (T := r1_tris _ _ _ _ _ _ R1).
    assert (I1 : In t (tris_on m k)) by (rewrite T; left; reflexivity).
    destruct (tria_node m k t n1 n2 W Hk E I1) as [P [O1 [O2 [Ko Ht]]]].
    destruct (edge_nodes n1 n2 t [] E T (r1_det _ _ _ _ _ _ R1)) as (d1 & d2 & J1 & J2 & X1 & X2 & P1 & P2 & GT & GM & OR).
    destruct (other_ok t I1) as [d3 [J3 [G3 [X3 P3]]]].
    unfold edge_shear. destruct (get_node m (en1 e)) as [y1|]; [|discriminate]. destruct (get_node m (en2 e)) as [y2|]; [|discriminate].
    cbn [bind] in OR |- *. injection OR as OR. rewrite (rd_trias m k e RD), T; cbn [map]. rewrite GT; cbn [bind]. rewrite GM; cbn [bind].
    rewrite OR. unfold boundary_edge. rewrite GM; cbn [bind]. rewrite (r1_o1 _ _ _ _ _ _ R1), G3; cbn [bind].
    rewrite (rd_Ac m k e RD); cbn [bind get_or].
    assert (ET := edge_thick).
    assert (SH : exists s, (if pfn then
        let! p1 := get_or AttributeError (nprop d1) in let! p2 := get_or AttributeError (nprop d2) in
        let! po1 := get_or AttributeError (nprop d3) in
        Ok (shear3 (#4/#9)%num (#4/#9)%num (#1/#9)%num p1 p2 po1)
      else let! p := get_or AttributeError (tprop t) in Ok (shear_of p)) = Ok s /\
      sk13 s = edge_val m pfn pk13 k /\ sk23 s = edge_val m pfn pk23 k /\ e00 (sE s) = edge_val m pfn (fun p => e00 (pE p)) k /\
      e11 (sE s) = edge_val m pfn (fun p => e11 (pE p)) k /\ sh s = edge_val m pfn ph k).
    { assert (TP3 := third_prop t I1). assert (TPE := end_prop). assert (TPT := tria_prop t I1).
      unfold edge_val. rewrite T. destruct pfn.
      - destruct (TP3 eq_refl) as [po Qo]. destruct (TPE eq_refl) as [pa [pb [Qa Qb]]].
        rewrite P1, P2, P3, Qo. destruct E as [E|E]; rewrite <- E in *; cbn [fst snd] in *; rewrite Qa, Qb; cbn [get_or bind pval];
          (eexists; split; [reflexivity|]); cbn [shear3 sk13 sk23 sE sh]; unfold m2add, m2scale, AddK0s.lin3; cbn;
          repeat split; rnum; field.
      - destruct (TPT eq_refl) as [p Q]. rewrite Q; cbn [get_or bind pval]. eexists; split; [reflexivity|]. repeat split. }
    destruct SH as [s [SE [S13 [S23 [S00 [S11 Sh]]]]]]. rewrite SE; cbn [bind].
    assert (ML : (if mfa then Ok (nsqrt (dom_area m k)) else pymax (map (@iple R) (eipts e))) = Ok (edge_size m mfa k)).
    { unfold edge_size. destruct mfa; [reflexivity|]. rewrite (r1_ipts _ _ _ _ _ _ R1); cbn [map the_ipt iple pymax nmaxl]. f_equal.
      rewrite !nmax2_Rmax, !norm_vdist, T. cbn [fold_right]. rewrite <- (centroid_mid m t _ _ _ P).
      rewrite (vdist_sym (centroid m t) (pos m n2)).
      destruct E as [E|E]; rewrite <- E; cbn [fst snd]; rewrite ?(vdist_sym (pos m n2) (pos m n1));
        unfold Rmax; repeat destruct Rle_dec; lra. }
    rewrite ML; cbn [bind]. rewrite (stiffness_ok alpha AL) by (rewrite Sh; exact ET).
    rewrite (node_index_ok m I n1 d1 J1), (node_index_ok m I n2 d2 J2), (node_index_ok m I _ d3 J3); cbn [bind].
    rewrite X1, X2, Sh, S23, S00, S13, S11. unfold f, G, edge_G. rewrite T. reflexivity.
  Qed.

  Lemma nmin2_Rmin : forall a b : R, nmin2 a b = Rmin a b.
  Proof.
    intros a b. unfold nmin2. rnum. destruct (Rlt_dec b a) as [H|H].
    - symmetry; apply Rmin_right; lra.
    - symmetry; apply Rmin_left; lra.
  Qed.

  Lemma edge_interior : forall L n1 n2 t t', orient n1 n2 -> ready2 m k e n1 n2 t t' ->
    edge_shear L m pfn alpha mfa e = Ok (edgei_entries L (zr m n1) (zr m n2) (zr m (third t k)) (zr m (third t' k))
      (dom_area m k) (tarea m t / 3) (tarea m t' / 3)
      (f * fst (fst G)) (f * snd (fst G)) (f * snd G)
      (vx (pos m n1) - vx (centroid m t)) (vz (pos m n1) - vy (centroid m t))
      (vx (pos m n2) - vx (centroid m t)) (vy (pos m n2) - vy (centroid m t))
      (vx (centroid m t') - vx (pos m n1)) (vy (centroid m t') - vy (pos m n1))
      (vx (pos m n2) - vx (pos m n1)) (vy (pos m n2) - vy (pos m n1))).
  Proof.
    intros L n1 n2 t t' E R2. assert (T := r2_tris _ _ _ _ _ _ _ R2).
    assert (I1 : In t (tris_on m k)) by (rewrite T; left; reflexivity).
    assert (I2 : In t' (tris_on m k)) by (rewrite T; right; left; reflexivity).
    destruct (tria_node m k t n1 n2 W Hk E I1) as [P [O1 [O2 [Ko Ht]]]].
    destruct (tria_node m k t' n1 n2 W Hk E I2) as [P' [O1' [O2' [Ko' Ht']]]].
    destruct (edge_nodes n1 n2 t [t'] E T (r2_det1 _ _ _ _ _ _ _ R2)) as (d1 & d2 & J1 & J2 & X1 & X2 & P1 & P2 & GT & GM & OR).
    destruct (other_ok t I1) as [d3 [J3 [G3 [X3 P3]]]]. destruct (other_ok t' I2) as [d4 [J4 [G4 [X4 P4]]]].
    assert (GT' : get_tria m (eid t') = Ok t') by (apply tria_found; assumption).
    assert (GM' : getMid m t' = Ok (centroid m t')).
    { rewrite (centroid_mid m t' _ _ _ P'). apply (getMid_perm m W t' _ _ _ Ht' P'). }
    unfold edge_shear. destruct (get_node m (en1 e)) as [y1|]; [|discriminate]. destruct (get_node m (en2 e)) as [y2|]; [|discriminate].
    cbn [bind] in OR |- *. injection OR as OR. rewrite (rd_trias m k e RD), T; cbn [map]. rewrite GT; cbn [bind]. rewrite GM; cbn [bind].
    rewrite OR, GT'; cbn [bind]. unfold interior_edge. rewrite GM, GM'; cbn [bind].
    rewrite (r2_o1 _ _ _ _ _ _ _ R2), (r2_o2 _ _ _ _ _ _ _ R2), G3, G4; cbn [bind].
    rewrite (rd_Ac m k e RD); cbn [bind get_or]. rewrite !area3; cbn [bind]. rewrite X1, X2.
    assert (TA := tarea_pos m PL t Ht). assert (TA' := tarea_pos m PL t' Ht').
    assert (D1 := r2_det1 _ _ _ _ _ _ _ R2). assert (D2 := r2_det2 _ _ _ _ _ _ _ R2).
    assert (A1 : Rabs (det2 (centroid m t) (pos m n1) (pos m n2)) / 2 = tarea m t / 3).
    { rewrite (tarea_perm m t _ _ _ P), (centroid_mid m t _ _ _ P), (Rabs_right (det2 (pos m n1) (pos m n2) (pos m (third t k)))) by lra. unfold the_mid.
      replace (det2 _ (pos m n1) (pos m n2)) with (det2 (pos m n1) (pos m n2) (pos m (third t k)) / 3)
        by (unfold mid3, vdivs, vadd, det2; cbn [vx vy vz]; rnum; field). rewrite Rabs_right by lra. field. }
    assert (A2 : Rabs (det2 (pos m n1) (centroid m t') (pos m n2)) / 2 = tarea m t' / 3).
    { rewrite (tarea_perm m t' _ _ _ P'), (centroid_mid m t' _ _ _ P'), (Rabs_left (det2 (pos m n1) (pos m n2) (pos m (third t' k)))) by lra. unfold the_mid.
      replace (det2 (pos m n1) (mid3 _ _ _) (pos m n2)) with (- (det2 (pos m n1) (pos m n2) (pos m (third t' k)) / 3))
        by (unfold mid3, vdivs, vadd, det2; cbn [vx vy vz]; rnum; field). rewrite Rabs_right by lra. field. }
    rewrite A1, A2.
    assert (ET := edge_thick).
    assert (SH : exists s, (if pfn then
        let! p1 := get_or AttributeError (nprop d1) in let! p2 := get_or AttributeError (nprop d2) in
        let! po1 := get_or AttributeError (nprop d3) in let! po2 := get_or AttributeError (nprop d4) in
        Ok (shear4 (#5/#12)%num (#5/#12)%num (#1/#12)%num (#1/#12)%num p1 p2 po1 po2)
      else let! p1 := get_or AttributeError (tprop t) in let! p2 := get_or AttributeError (tprop t') in
        Ok (shearA (tarea m t / 3) (tarea m t' / 3) (dom_area m k) p1 p2)) = Ok s /\
      sk13 s = edge_val m pfn pk13 k /\ sk23 s = edge_val m pfn pk23 k /\ e00 (sE s) = edge_val m pfn (fun p => e00 (pE p)) k /\
      e01 (sE s) = edge_val m pfn (fun p => e01 (pE p)) k /\ e11 (sE s) = edge_val m pfn (fun p => e11 (pE p)) k /\ sh s = edge_val m pfn ph k).
    { assert (TP3 := third_prop t I1). assert (TP3' := third_prop t' I2). assert (TPE := end_prop).
      assert (TPT := tria_prop t I1). assert (TPT' := tria_prop t' I2).
      unfold edge_val. rewrite T. destruct pfn.
      - destruct (TP3 eq_refl) as [po Qo]. destruct (TP3' eq_refl) as [po' Qo']. destruct (TPE eq_refl) as [pa [pb [Qa Qb]]].
        rewrite P1, P2, P3, P4, Qo, Qo'. destruct E as [E|E]; rewrite <- E in *; cbn [fst snd] in *; rewrite Qa, Qb; cbn [get_or bind pval];
          (eexists; split; [reflexivity|]); cbn [shear4 sk13 sk23 sE sh]; unfold m2add, m2scale, AddK0s.lin4; cbn;
          repeat split; rnum; field.
      - destruct (TPT eq_refl) as [p Q]. destruct (TPT' eq_refl) as [p' Q']. rewrite Q, Q'; cbn [get_or bind pval].
        eexists; split; [reflexivity|]. cbn [shearA sk13 sk23 sE sh]. rewrite (dom_area2 m k t t' T).
        unfold m2divs, m2add, m2scale; cbn; repeat split; rnum; field; lra. }
    destruct SH as [s [SE [S13 [S23 [S00 [S01 [S11 Sh]]]]]]]. rewrite SE; cbn [bind].
    assert (ML : (if mfa then Ok (nsqrt (dom_area m k)) else
        let! lm := pymax (map (@iple R) (eipts e)) in let! le := edge_length m (en1 e, en2 e) in Ok (nmax2 lm le)) = Ok (edge_size m mfa k)).
    { unfold edge_size. destruct mfa; [reflexivity|]. rewrite (r2_ipts _ _ _ _ _ _ _ R2); cbn [map the_ipt iple pymax nmaxl bind].
      rewrite (rd_ends m k e RD). destruct (ready_nodes m k _ _ W Hk (or_introl (eq_sym (surjective_pairing k)))) as [Ka [Kb _]].
      rewrite (edge_length_ok m k W Ka Kb); cbn [bind]. f_equal.
      rewrite !nmax2_Rmax, !norm_vdist, T. cbn [fold_right]. rewrite <- (centroid_mid m t _ _ _ P), <- (centroid_mid m t' _ _ _ P').
      rewrite (vdist_sym (centroid m t) (pos m n2)), (vdist_sym (centroid m t') (pos m n1)).
      change (dist m (fst k) (snd k)) with (vdist (pos m (fst k)) (pos m (snd k))).
      destruct E as [E|E]; rewrite <- E; cbn [fst snd]; rewrite ?(vdist_sym (pos m n2) (pos m n1));
        unfold Rmax; repeat destruct Rle_dec; lra. }
    rewrite ML; cbn [bind]. unfold shear_stiffness_int.
    rewrite (node_index_ok m I n1 d1 J1), (node_index_ok m I n2 d2 J2), (node_index_ok m I _ d3 J3), (node_index_ok m I _ d4 J4); cbn [bind].
    rewrite nmin2_Rmin, Sh, S23, S00, S01, S13, S11. unfold f, G, edge_G. rewrite T. reflexivity.
  Qed.

  (** ** What an edge adds *)

  Definition edge_upds (L : lits R) (n1 n2 : nat) : list (Z * Z * R) :=
    match tris_on m k with
    | [t] => edgeb_entries L (zr m n1) (zr m n2) (zr m (third t k)) (dom_area m k)
      (fst (fst G)) (snd (fst G)) (snd G)
      (vx (pos m n1) - vx (centroid m t)) (vy (pos m n1) - vy (centroid m t))
      (vx (pos m n2) - vx (centroid m t)) (vy (pos m n2) - vy (centroid m t))
    | [t; t'] => edgei_entries L (zr m n1) (zr m n2) (zr m (third t k)) (zr m (third t' k))
      (dom_area m k) (tarea m t / 3) (tarea m t' / 3)
      (fst (fst G)) (snd (fst G)) (snd G)
      (vx (pos m n1) - vx (centroid m t)) (vz (pos m n1) - vy (centroid m t))
      (vx (pos m n2) - vx (centroid m t)) (vy (pos m n2) - vy (centroid m t))
      (vx (centroid m t') - vx (pos m n1)) (vy (centroid m t') - vy (pos m n1))
      (vx (pos m n2) - vx (pos m n1)) (vy (pos m n2) - vy (pos m n1))
    | _ => []
    end.

  Definition first_ccw (n1 n2 : nat) : Prop :=
    orient n1 n2 /\ forall t, hd_error (tris_on m k) = Some t -> 0 < det2 (pos m n1) (pos m n2) (pos m (third t k)).

  Lemma at_dofs_ok : forall (us : list (Z * Z * R)) is, (forall y, In y us -> at_dofs is (fst y)) -> (forall z, In z is -> exists x, In x (node_keys m) /\ z = zr m x) ->
    upds_ok (n * 5) us.
  Proof.
    intros us is H Z y Hy. destruct (H y Hy) as [a [b [c [d [E [Ha [Hb [Hc Hd]]]]]]]]. rewrite E; cbn [fst snd].
    destruct (Z a Ha) as [xa [Ka ->]]. destruct (Z b Hb) as [xb [Kb ->]]. split; apply (zr_range m); (assumption || lia).
  Qed.

  Lemma edge_shear_ready : forall L, exists n1 n2 us, first_ccw n1 n2 /\
    edge_shear L m pfn alpha mfa e = Ok us /\ upds_ok (n * 5) us /\
    forall u v, upd_form (n * 5) us u v = f * upd_form (n * 5) (edge_upds L n1 n2) u v.
  Proof.
    intros L. destruct (rd_dom m k e RD) as [n1 [n2 [E [[t R1]|[t [t' R2]]]]]]; exists n1, n2.
    - eexists. split; [|split; [apply (edge_boundary L n1 n2 t E R1)|]].
      { split; [exact E|]. rewrite (r1_tris _ _ _ _ _ _ R1). intros t0 H; injection H as <-. apply (r1_det _ _ _ _ _ _ R1). }
      destruct (ready_nodes m k n1 n2 W Hk E) as [K1 [K2 _]].
      assert (I1 : In t (tris_on m k)) by (rewrite (r1_tris _ _ _ _ _ _ R1); left; reflexivity).
      destruct (tria_node m k t n1 n2 W Hk E I1) as [_ [_ [_ [Ko _]]]]. split.
      + apply (at_dofs_ok _ [zr m n1; zr m n2; zr m (third t k)]); [apply edgeb_pos|].
        intros z [<-|[<-|[<-|[]]]]; eauto.
      + intros u v. unfold edge_upds, G, edge_G. rewrite (r1_tris _ _ _ _ _ _ R1). cbn [fst snd].
        rewrite <- scale_form, <- edgeb_scale, Rmult_0_r. reflexivity.
    - eexists. split; [|split; [apply (edge_interior L n1 n2 t t' E R2)|]].
      { split; [exact E|]. rewrite (r2_tris _ _ _ _ _ _ _ R2). intros t0 H; injection H as <-. apply (r2_det1 _ _ _ _ _ _ _ R2). }
      destruct (ready_nodes m k n1 n2 W Hk E) as [K1 [K2 _]].
      assert (I1 : In t (tris_on m k)) by (rewrite (r2_tris _ _ _ _ _ _ _ R2); left; reflexivity).
      assert (I2 : In t' (tris_on m k)) by (rewrite (r2_tris _ _ _ _ _ _ _ R2); right; left; reflexivity).
      destruct (tria_node m k t n1 n2 W Hk E I1) as [_ [_ [_ [Ko _]]]]. destruct (tria_node m k t' n1 n2 W Hk E I2) as [_ [_ [_ [Ko' _]]]]. split.
      + apply (at_dofs_ok _ [zr m n1; zr m n2; zr m (third t k); zr m (third t' k)]); [apply edgei_pos|].
        intros z [<-|[<-|[<-|[<-|[]]]]]; eauto.
      + intros u v. unfold edge_upds. rewrite (r2_tris _ _ _ _ _ _ _ R2). rewrite <- scale_form, <- edgei_scale. reflexivity.
  Qed.
End Edge.
