(** A plate of doubles with the height of one of its ordinates, and its scales. *)
From Coq Require Import ZArith Reals List Bool Arith Lra Lia Floats.SpecFloat.
From Verif Require Import Num Float Py Mesh Utils CalcK0 Ops Spec SpecK0 SpecK0s SpecEdge SpecRound SpecRound2 SpecRound4 FDict FWf FOut FRound FRound8 FRound13 FMove FRead FConn ExFloat ExLevel LOut.
Import ListNotations.
Local Open Scope R_scope.

Lemma flevel_run : flevel = run (fops ++ flevel_moves) fread.
Proof. vm_compute. reflexivity. Qed.
Lemma v_pos : pos (mesh_val flevel) 1 = vec_val (V3 (#1 / #7) (#1 / #9) (#10 / #3))%num /\ pos (mesh_val flevel) 2 = vec_val (V3 (#37 / #9) (#1 / #11) (#10 / #3))%num /\
  pos (mesh_val flevel) 3 = vec_val (V3 (#41 / #10) (#10 / #3) (#10 / #3))%num /\ pos (mesh_val flevel) 4 = vec_val (V3 (#3 / #11) (#22 / #7) (#10 / #3))%num.
Proof. repeat split; vm_compute; reflexivity. Qed.

Lemma v_bounds :
  1428 / 10000 <= vx (pos (mesh_val flevel) 1) <= 1429 / 10000 /\ 1111 / 10000 <= vy (pos (mesh_val flevel) 1) <= 1112 / 10000 /\
  41111 / 10000 <= vx (pos (mesh_val flevel) 2) <= 41112 / 10000 /\ 909 / 10000 <= vy (pos (mesh_val flevel) 2) <= 910 / 10000 /\
  40999 / 10000 <= vx (pos (mesh_val flevel) 3) <= 41001 / 10000 /\ 33333 / 10000 <= vy (pos (mesh_val flevel) 3) <= 33334 / 10000 /\
  2727 / 10000 <= vx (pos (mesh_val flevel) 4) <= 2728 / 10000 /\ 31428 / 10000 <= vy (pos (mesh_val flevel) 4) <= 31429 / 10000 /\
  vz (pos (mesh_val flevel) 1) = vy (pos (mesh_val flevel) 3) /\ vz (pos (mesh_val flevel) 2) = vy (pos (mesh_val flevel) 3) /\ vz (pos (mesh_val flevel) 3) = vy (pos (mesh_val flevel) 3) /\ vz (pos (mesh_val flevel) 4) = vy (pos (mesh_val flevel) 3).
Proof.
  destruct v_pos as [-> [-> [-> ->]]]. unfold vec_val; cbn [vx vy vz].
  repeat match goal with |- context [val ?d] => match d with S754_finite _ _ _ => fail 1 | S754_zero _ => fail 1 | _ => dnum d end end.
  dval. repeat split; lra.
Qed.

Lemma v_keys : node_keys flevel = [1; 2; 3; 4]%nat.
Proof. vm_compute. reflexivity. Qed.
Lemma v_edges : edge_keys flevel = [(1, 2); (2, 3); (1, 3); (3, 4); (1, 4)]%nat.
Proof. vm_compute. reflexivity. Qed.
Lemma v_trias : map (fun t => (tn1 t, tn2 t, tn3 t)) (trias_of flevel) = [(1, 2, 3); (1, 3, 4)]%nat.
Proof. vm_compute. reflexivity. Qed.

Lemma v_tria : forall t, In t (trias_of flevel) -> (tn1 t, tn2 t, tn3 t) = (1, 2, 3)%nat \/ (tn1 t, tn2 t, tn3 t) = (1, 3, 4)%nat.
Proof. intros t H. apply (in_map (fun t => (tn1 t, tn2 t, tn3 t))) in H. rewrite v_trias in H. cbn [In] in H. destruct H as [H|[H|[]]]; auto. Qed.

Lemma v_dets : 12 < det2 (pos (mesh_val flevel) 1) (pos (mesh_val flevel) 2) (pos (mesh_val flevel) 3) /\ 11 < det2 (pos (mesh_val flevel) 1) (pos (mesh_val flevel) 3) (pos (mesh_val flevel) 4).
Proof.
  destruct v_bounds as [X1 [Y1 [X2 [Y2 [X3 [Y3 [X4 [Y4 _]]]]]]]]. unfold det2.
  set (x1 := vx (pos (mesh_val flevel) 1)) in *. set (x2 := vx (pos (mesh_val flevel) 2)) in *. set (x3 := vx (pos (mesh_val flevel) 3)) in *. set (x4 := vx (pos (mesh_val flevel) 4)) in *.
  set (y1 := vy (pos (mesh_val flevel) 1)) in *. set (y2 := vy (pos (mesh_val flevel) 2)) in *. set (y3 := vy (pos (mesh_val flevel) 3)) in *. set (y4 := vy (pos (mesh_val flevel) 4)) in *.
  assert (A : 39 / 10 * (32 / 10) <= (x2 - x1) * (y3 - y1)) by (apply Rmult_le_compat; lra).
  assert (B : 39 / 10 * (2 / 100) <= (x3 - x1) * (y1 - y2)) by (apply Rmult_le_compat; lra).
  assert (C : 39 / 10 * 3 <= (x3 - x1) * (y4 - y1)) by (apply Rmult_le_compat; lra).
  assert (D : (x4 - x1) * (y3 - y1) <= 1301 / 10000 * (33 / 10)) by (apply Rmult_le_compat; lra).
  split; lra.
Qed.

Lemma v_wf : wf_mesh (mesh_val flevel).
Proof. apply val_wf. rewrite flevel_run. apply wf_run, fread_wf. Qed.

Lemma v_plate : plate (mesh_val flevel).
Proof.
  assert (LK := lock_val flevel). destruct v_bounds as [_ [_ [_ [_ [_ [_ [_ [_ [Z1 [Z2 [Z3 Z4]]]]]]]]]]]. destruct v_dets as [D1 D2]. constructor.
  - exists (vy (pos (mesh_val flevel) 3)). rewrite (keys_lock _ _ LK), v_keys. intros n H. cbn [In] in H. destruct H as [<-|[<-|[<-|[<-|[]]]]]; assumption.
  - intros t H. rewrite (trias_lock _ _ LK) in H. apply in_map_iff in H. destruct H as [t' [<- H]]. unfold tdet. cbn [tria_val tn1 tn2 tn3].
    destruct (v_tria t' H) as [E|E]; injection E as -> -> ->; lra.
  - intros k H. rewrite edge_keys_val, v_edges in H. rewrite (tris_on_lock _ _ LK), map_length. cbn [In] in H. destruct H as [<-|[<-|[<-|[<-|[<-|[]]]]]]; vm_compute; lia.
  - intros k t1 t2 H E. rewrite edge_keys_val, v_edges in H. rewrite (tris_on_lock _ _ LK) in E.
    assert (L : length (tris_on flevel k) = 2%nat) by (rewrite <- (map_length tria_val), E; reflexivity).
    cbn [In] in H. destruct H as [<-|[<-|[<-|[<-|[<-|[]]]]]]; vm_compute in L; try discriminate. clear L.
    assert (X : map (fun t => third t (1, 3)%nat) (tris_on flevel (1, 3)%nat) = [2; 4]%nat) by (vm_compute; reflexivity).
    assert (Y : map (fun t => third t (1, 3)%nat) (map tria_val (tris_on flevel (1, 3)%nat)) = [2; 4]%nat) by (rewrite map_map; exact X).
    rewrite E in Y. cbn [map] in Y. injection Y as -> ->. cbn [fst snd].
    assert (S : det2 (pos (mesh_val flevel) 1) (pos (mesh_val flevel) 3) (pos (mesh_val flevel) 2) = - det2 (pos (mesh_val flevel) 1) (pos (mesh_val flevel) 2) (pos (mesh_val flevel) 3)) by (unfold det2; ring).
    rewrite S. rewrite Ropp_mult_distr_l_reverse. apply Ropp_lt_gt_0_contravar. apply Rmult_lt_0_compat; lra.
Qed.

Lemma v_props : forall pfn, props_complete (mesh_val flevel) pfn.
Proof.
  assert (LK := lock_val flevel). intros [|]; unfold props_complete.
  - intros k H. rewrite edge_keys_val, v_edges in H. rewrite !(prop_lock _ _ LK). cbn [In] in H. destruct H as [<-|[<-|[<-|[<-|[<-|[]]]]]]; split; vm_compute; discriminate.
  - intros t H. rewrite (trias_lock _ _ LK) in H. apply in_map_iff in H. destruct H as [t' [<- H]]. unfold tria_val; cbn [tprop].
    assert (X : forall t, In t (trias_of flevel) -> tprop t <> None) by (intros t [<-|[<-|[]]]; discriminate).
    assert (Y := X t' H). destruct (tprop t'); [discriminate|contradiction].
Qed.
Lemma v_valid : forall pfn, valid (mesh_val flevel) pfn.
Proof. intros pfn. constructor; [exact v_wf|exact v_plate|apply v_props|discriminate]. Qed.

Lemma v_scale : k0_scale flevel 4 4 2 64.
Proof.
  assert (B := v_bounds). destruct B as [X1 [Y1 [X2 [Y2 [X3 [Y3 [X4 [Y4 [Z1 [Z2 [Z3 Z4]]]]]]]]]]]. destruct v_dets as [D1 D2]. assert (LK := lock_val flevel).
  constructor.
  - assert (G : forall x, In x (flat_map (fun kn : nat * node double => [vx (nxyz (snd kn)); vy (nxyz (snd kn)); vz (nxyz (snd kn))]) (nodes flevel)) -> finite x /\ Rabs (val x) <= 2 * 4).
    { match goal with |- context [In _ ?l] => let v := eval vm_compute in l in change l with v end. intros x H. cbn [In] in H.
      repeat (destruct H as [<-|H]; [split; [reflexivity || exact I|dval; rewrite ?Rabs_R0; try (rewrite Rabs_right by lra); lra]|]). destruct H. }
    intros n nd H x Hx. apply G. apply in_flat_map. exists (n, nd). split; [exact H|exact Hx].
  - intros t a b H VA VB.
    assert (V : forall n, vertex t n -> In n [1; 2; 3; 4]%nat).
    { intros n HV. unfold vertex in HV. destruct (v_tria t H) as [E|E]; injection E as E1 E2 E3; rewrite E1, E2, E3 in HV; cbn [In]; intuition. }
    apply V in VA, VB. cbn [In] in VA, VB.
    destruct VA as [<-|[<-|[<-|[<-|[]]]]], VB as [<-|[<-|[<-|[<-|[]]]]]; split; apply Rabs_le; lra.
  - intros t H. rewrite (trias_lock _ _ LK) in H. apply in_map_iff in H. destruct H as [t' [<- H]]. unfold tarea, tdet. cbn [tria_val tn1 tn2 tn3].
    destruct (v_tria t' H) as [E|E]; injection E as -> -> ->; rewrite Rabs_right by lra; lra.
  - assert (G : forall p, In p [fprop (dz 1); fprop (dz 2); fprop (dz 3)] -> forall x, In x (prop_entries p) -> finite x /\ Rabs (val x) <= 64).
    { intros p Hp x Hx. assert (H : In x (flat_map prop_entries [fprop (dz 1); fprop (dz 2); fprop (dz 3)])) by (apply in_flat_map; exists p; auto). clear Hp Hx p. revert x H.
      match goal with |- context [In _ ?l] => let v := eval vm_compute in l in change l with v end. intros x H. cbn [In] in H.
      repeat (destruct H as [<-|H]; [split; [reflexivity || exact I|dval; rewrite ?Rabs_R0; try (rewrite Rabs_right by lra); lra]|]). destruct H. }
    intros p [[n Hn]|[t [H Hp]]].
    + apply G. assert (K : In n (node_keys flevel)).
      { unfold nodeprop in Hn. destruct (dget Nat.eqb n (nodes flevel)) as [nd|] eqn:Q; [|discriminate]. apply (dget_in Nat.eqb nat_eqb_spec) in Q. apply in_map_iff. exists (n, nd); auto. }
      rewrite v_keys in K. cbn [In] in K. destruct K as [<-|[<-|[<-|[<-|[]]]]]; vm_compute in Hn; injection Hn as <-; [left|right; left|right; right; left|left]; vm_compute; reflexivity.
    + apply G. destruct H as [<-|[<-|[]]]; vm_compute in Hp; injection Hp as <-; [left|right; left]; vm_compute; reflexivity.
  - lra.
  - lra.
  - unfold roundoff. lra.
  - lra.
  - lra.
  - vm_compute. discriminate.
Qed.
Lemma v_shear : shear_scale flevel 64 (dz 2).
Proof.
  constructor.
  - assert (G : forall p, In p [fprop (dz 1); fprop (dz 2); fprop (dz 3)] -> (forall x, In x [pk13 p; pk23 p] -> finite x /\ Rabs (val x) <= 1) /\
      (forall x, In x [e00 (pE p); e11 (pE p)] -> finite x /\ Rabs (val x) <= 64) /\ finite (ph p) /\ / 18446744073709551616 <= val (ph p) <= 18446744073709551616).
    { intros p Hp. split; [|split].
      - intros x Hx. assert (H : In x (flat_map (fun p => [pk13 p; pk23 p]) [fprop (dz 1); fprop (dz 2); fprop (dz 3)])) by (apply in_flat_map; exists p; auto). clear Hp Hx p. revert x H.
        match goal with |- context [In _ ?l] => let v := eval vm_compute in l in change l with v end. intros x H. cbn [In] in H.
        repeat (destruct H as [<-|H]; [split; [reflexivity || exact I|dval; rewrite ?Rabs_R0; try (rewrite Rabs_right by lra); lra]|]). destruct H.
      - intros x Hx. assert (H : In x (flat_map (fun p => [e00 (pE p); e11 (pE p)]) [fprop (dz 1); fprop (dz 2); fprop (dz 3)])) by (apply in_flat_map; exists p; auto). clear Hp Hx p. revert x H.
        match goal with |- context [In _ ?l] => let v := eval vm_compute in l in change l with v end. intros x H. cbn [In] in H.
        repeat (destruct H as [<-|H]; [split; [reflexivity || exact I|dval; rewrite ?Rabs_R0; try (rewrite Rabs_right by lra); lra]|]). destruct H.
      - cbn [In] in Hp. destruct Hp as [<-|[<-|[<-|[]]]]; cbn [ph fprop];
          match goal with |- finite ?l /\ _ => let v := eval vm_compute in l in change l with v end; (split; [reflexivity|dval; lra]). }
    intros p [[n Hn]|[t [H Hp]]].
    + apply G. assert (K : In n (node_keys flevel)).
      { unfold nodeprop in Hn. destruct (dget Nat.eqb n (nodes flevel)) as [nd|] eqn:Q; [|discriminate]. apply (dget_in Nat.eqb nat_eqb_spec) in Q. apply in_map_iff. exists (n, nd); auto. }
      rewrite v_keys in K. cbn [In] in K. destruct K as [<-|[<-|[<-|[<-|[]]]]]; vm_compute in Hn; injection Hn as <-; [left|right; left|right; right; left|left]; vm_compute; reflexivity.
    + apply G. destruct H as [<-|[<-|[]]]; vm_compute in Hp; injection Hp as <-; [left|right; left]; vm_compute; reflexivity.
  - split; [reflexivity|]. right. match goal with |- _ <= val ?l <= _ => let v := eval vm_compute in l in change l with v end. dval; lra.
  - vm_compute. discriminate.
Qed.

Lemma v_prop : forall p, (exists n, nodeprop flevel n = Some p) \/ (exists t, In t (trias_of flevel) /\ tprop t = Some p) -> In p [fprop (dz 1); fprop (dz 2); fprop (dz 3)].
Proof.
  intros p [[n Hn]|[t [H Hp]]].
  - assert (K : In n (node_keys flevel)).
    { unfold nodeprop in Hn. destruct (dget Nat.eqb n (nodes flevel)) as [nd|] eqn:Q; [|discriminate]. apply (dget_in Nat.eqb nat_eqb_spec) in Q. apply in_map_iff. exists (n, nd); auto. }
    rewrite v_keys in K. cbn [In] in K. destruct K as [<-|[<-|[<-|[<-|[]]]]]; vm_compute in Hn; injection Hn as <-; [left|right; left|right; right; left|left]; vm_compute; reflexivity.
  - destruct H as [<-|[<-|[]]]; vm_compute in Hp; injection Hp as <-; [left|right; left]; vm_compute; reflexivity.
Qed.
Lemma v_vertex : forall t n, In t (trias_of flevel) -> vertex t n -> In n [1; 2; 3; 4]%nat.
Proof. intros t n H HV. unfold vertex in HV. destruct (v_tria t H) as [E|E]; injection E as E1 E2 E3; rewrite E1, E2, E3 in HV; cbn [In]; intuition. Qed.

Lemma v_fine : edge_fine flevel 4 4 64.
Proof.
  constructor.
  - intros p Hp. apply v_prop in Hp. destruct Hp as [<-|[<-|[<-|[]]]]; cbn [fprop pE e01]; (split; [exact I|]); match goal with |- Rabs (val ?d) <= _ => change (val d) with 0 end; rewrite Rabs_R0; lra.
  - intros t a b H VA VB. apply (v_vertex t _ H) in VA, VB. destruct v_bounds as [X1 [Y1 [X2 [Y2 [X3 [Y3 [X4 [Y4 [Z1 [Z2 [Z3 Z4]]]]]]]]]]]. cbn [In] in VA, VB.
    destruct VA as [<-|[<-|[<-|[<-|[]]]]], VB as [<-|[<-|[<-|[<-|[]]]]]; apply Rabs_le; lra.
Qed.
Lemma v_level : starts_level (mesh_val flevel).
Proof.
  intros k t t' Hk E. rewrite edge_keys_val, v_edges in Hk. rewrite (tris_on_lock _ _ (lock_val flevel)) in E.
  assert (L : length (tris_on flevel k) = 2%nat) by (rewrite <- (map_length SpecRound.tria_val), E; reflexivity).
  cbn [In] in Hk. destruct Hk as [<-|[<-|[<-|[<-|[<-|[]]]]]]; vm_compute in L; try discriminate. clear L.
  assert (EE : edge_ends (mesh_val flevel) (1, 3)%nat = (3, 1)%nat).
  { unfold edge_ends. rewrite (tris_on_lock _ _ (lock_val flevel)), E.
    assert (X : map (fun t => third t (1, 3)%nat) (map SpecRound.tria_val (tris_on flevel (1, 3)%nat)) = [2; 4]%nat) by (vm_compute; reflexivity).
    rewrite E in X. cbn [map] in X. injection X as -> _. cbn [fst snd].
    replace (det2 (pos (mesh_val flevel) 1) (pos (mesh_val flevel) 3) (pos (mesh_val flevel) 2)) with (- det2 (pos (mesh_val flevel) 1) (pos (mesh_val flevel) 2) (pos (mesh_val flevel) 3)) by (unfold det2; ring).
    destruct v_dets as [D1 _]. destruct (Rlt_dec 0 _); [lra|reflexivity]. }
  rewrite EE. cbn [fst]. destruct v_bounds as [_ [_ [_ [_ [_ [_ [_ [_ [_ [_ [Z3 _]]]]]]]]]]]. rewrite Z3. reflexivity.
Qed.
Lemma v_all : forall P : prop R -> Prop, (forall p, In p [fprop (dz 1); fprop (dz 2); fprop (dz 3)] -> P (prop_val p)) -> all_props (mesh_val flevel) P.
Proof.
  intros P H. assert (LK := lock_val flevel). split.
  - intros n p Hp. rewrite (prop_lock _ _ LK) in Hp. destruct (nodeprop flevel n) as [q|] eqn:E; [|discriminate]. injection Hp as <-. apply H, v_prop. left. exists n. exact E.
  - intros t p Ht Hp. rewrite (trias_lock _ _ LK) in Ht. apply in_map_iff in Ht. destruct Ht as [t' [<- Ht]]. cbn in Hp. destruct (tprop t') as [q|] eqn:E; [|discriminate]. injection Hp as <-.
    apply H, v_prop. right. exists t'. auto.
Qed.
Lemma v_edge : edge_scale (mesh_val flevel) 4 9 1 18.
Proof.
  assert (LK := lock_val flevel). destruct v_bounds as [X1 [Y1 [X2 [Y2 [X3 [Y3 [X4 [Y4 [Z1 [Z2 [Z3 Z4]]]]]]]]]]]. destruct v_dets as [D1 D2]. constructor; try lra.
  - intros t a b H VA VB. rewrite (trias_lock _ _ LK) in H. apply in_map_iff in H. destruct H as [t' [<- H]]. apply (v_vertex t' _ H) in VA, VB. cbn [In] in VA, VB.
    destruct VA as [<-|[<-|[<-|[<-|[]]]]], VB as [<-|[<-|[<-|[<-|[]]]]]; repeat split; apply Rabs_le; lra.
  - intros t H. rewrite (trias_lock _ _ LK) in H. apply in_map_iff in H. destruct H as [t' [<- H]]. unfold tarea, tdet. cbn [SpecRound.tria_val tn1 tn2 tn3].
    destruct (v_tria t' H) as [E|E]; injection E as -> -> ->; rewrite Rabs_right by lra; lra.
  - apply v_all. intros p Hp. destruct Hp as [<-|[<-|[<-|[]]]]; cbn [fprop prop_val pk13 pk23];
      repeat match goal with |- context [val ?d] => match d with S754_finite _ _ _ => fail 1 | S754_zero _ => fail 1 | _ => dnum d end end; dval; split; rewrite Rabs_right; lra.
  - apply v_all. intros p Hp. destruct Hp as [<-|[<-|[<-|[]]]]; cbn [fprop prop_val pE e00 e01 e11 mat2_val];
      repeat match goal with |- context [val ?d] => match d with S754_finite _ _ _ => fail 1 | S754_zero _ => fail 1 | _ => dnum d end end; dval; rewrite ?Rabs_R0; repeat split; try (rewrite Rabs_right); lra.
Qed.
