(** A plate of doubles and its scales. *)
From Coq Require Import ZArith Reals List Bool Arith Lra Lia Floats.SpecFloat.
From Verif Require Import Num Float Py Mesh Utils CalcK0 Ops Spec SpecK0 SpecRound FDict FWf FOut FRound8 FMove FRead FConn ExFloat LOut.
Import ListNotations.
Local Open Scope R_scope.

Lemma val_wf : forall m, wf_mesh m -> wf_mesh (mesh_val m).
Proof.
  intros m [A1 A2 A3 A4 A5 A6 A7 A8 A9 A10 A11 A12]. assert (LK := lock_val m).
  assert (TI : forall t, In t (trias_of (mesh_val m)) -> exists t', In t' (trias_of m) /\ t = tria_val t').
  { intros t H. rewrite (trias_lock _ _ LK) in H. apply in_map_iff in H. destruct H as [t' [<- H]]. exists t'. auto. }
  constructor.
  - rewrite (keys_lock _ _ LK). exact A1.
  - intros k n H. rewrite (lk_nodes _ _ LK) in H. apply in_map_iff in H. destruct H as [[k' n'] [E H]]. injection E as <- <-. exact (A2 k' n' H).
  - rewrite (lk_elements _ _ LK), map_map. exact A3.
  - intros k t H. rewrite (lk_elements _ _ LK) in H. apply in_map_iff in H. destruct H as [[k' t'] [E H]]. injection E as <- <-. exact (A4 k' t' H).
  - intros t H. destruct (TI t H) as [t' [H' ->]]. exact (A5 t' H').
  - intros t n H V. destruct (TI t H) as [t' [H' ->]]. rewrite (keys_lock _ _ LK). exact (A6 t' n H' V).
  - rewrite edge_keys_val. exact A7.
  - intros k e H. unfold mesh_val in H; cbn [edges] in H. apply in_map_iff in H. destruct H as [[k' e'] [E H]]. injection E as <- <-. exact (A8 k' e' H).
  - intros k. rewrite edge_keys_val, A9, (trias_lock _ _ LK). split.
    + intros [t [H S]]. exists (tria_val t). split; [apply in_map, H|exact S].
    + intros [t [H S]]. apply in_map_iff in H. destruct H as [t' [<- H]]. exists t'. split; [exact H|exact S].
  - intros k e H. unfold mesh_val in H; cbn [edges] in H. apply in_map_iff in H. destruct H as [[k' e'] [E H]]. injection E as <- <-.
    rewrite (tris_on_lock _ _ LK), map_map. exact (A10 k' e' H).
  - intros t H. destruct (TI t H) as [t' [H' ->]]. exact (A11 t' H').
  - intros t H. destruct (TI t H) as [t' [H' ->]]. exact (A12 t' H').
Qed.

Lemma val_frac : forall s p q, val (S754_finite s p (Zneg q)) = (if s then -1 else 1) * (IZR (Zpos p) * / IZR (2 ^ Zpos q)).
Proof.
  intros s p q. unfold val. cbn [powerRZ]. rewrite <- (positive_nat_Z q), pow_IZR. reflexivity.
Qed.
Lemma val_zero : forall s, val (S754_zero s) = 0.
Proof. reflexivity. Qed.
Ltac dval := repeat match goal with
  | |- context [val (S754_finite ?s ?p (Zneg ?q))] => rewrite (val_frac s p q); let z := eval vm_compute in (2 ^ Zpos q)%Z in change (2 ^ Zpos q)%Z with z
  | |- context [val (S754_zero ?s)] => rewrite (val_zero s) end.

Lemma w_pos : pos (mesh_val fwarped) 1 = vec_val (V3 (#1 / #7) (#1 / #9) (#0))%num /\ pos (mesh_val fwarped) 2 = vec_val (V3 (#37 / #9) (#1 / #11) (#0))%num /\
  pos (mesh_val fwarped) 3 = vec_val (V3 (#41 / #10) (#10 / #3) (#0))%num /\ pos (mesh_val fwarped) 4 = vec_val (V3 (#3 / #11) (#22 / #7) (#0))%num.
Proof. repeat split; vm_compute; reflexivity. Qed.

Ltac dnum d := let v := eval vm_compute in (d : double) in change d with v.
Lemma w_bounds :
  1428 / 10000 <= vx (pos (mesh_val fwarped) 1) <= 1429 / 10000 /\ 1111 / 10000 <= vy (pos (mesh_val fwarped) 1) <= 1112 / 10000 /\
  41111 / 10000 <= vx (pos (mesh_val fwarped) 2) <= 41112 / 10000 /\ 909 / 10000 <= vy (pos (mesh_val fwarped) 2) <= 910 / 10000 /\
  40999 / 10000 <= vx (pos (mesh_val fwarped) 3) <= 41001 / 10000 /\ 33333 / 10000 <= vy (pos (mesh_val fwarped) 3) <= 33334 / 10000 /\
  2727 / 10000 <= vx (pos (mesh_val fwarped) 4) <= 2728 / 10000 /\ 31428 / 10000 <= vy (pos (mesh_val fwarped) 4) <= 31429 / 10000 /\
  vz (pos (mesh_val fwarped) 1) = 0 /\ vz (pos (mesh_val fwarped) 2) = 0 /\ vz (pos (mesh_val fwarped) 3) = 0 /\ vz (pos (mesh_val fwarped) 4) = 0.
Proof.
  destruct w_pos as [-> [-> [-> ->]]]. unfold vec_val; cbn [vx vy vz].
  repeat match goal with |- context [val ?d] => match d with S754_finite _ _ _ => fail 1 | S754_zero _ => fail 1 | _ => dnum d end end.
  dval. repeat split; lra.
Qed.

Lemma w_keys : node_keys fwarped = [1; 2; 3; 4]%nat.
Proof. vm_compute. reflexivity. Qed.
Lemma w_edges : edge_keys fwarped = [(1, 2); (2, 3); (1, 3); (3, 4); (1, 4)]%nat.
Proof. vm_compute. reflexivity. Qed.
Lemma w_trias : map (fun t => (tn1 t, tn2 t, tn3 t)) (trias_of fwarped) = [(1, 2, 3); (1, 3, 4)]%nat.
Proof. vm_compute. reflexivity. Qed.

Lemma w_tria : forall t, In t (trias_of fwarped) -> (tn1 t, tn2 t, tn3 t) = (1, 2, 3)%nat \/ (tn1 t, tn2 t, tn3 t) = (1, 3, 4)%nat.
Proof. intros t H. apply (in_map (fun t => (tn1 t, tn2 t, tn3 t))) in H. rewrite w_trias in H. cbn [In] in H. destruct H as [H|[H|[]]]; auto. Qed.

Lemma w_dets : 12 < det2 (pos (mesh_val fwarped) 1) (pos (mesh_val fwarped) 2) (pos (mesh_val fwarped) 3) /\ 11 < det2 (pos (mesh_val fwarped) 1) (pos (mesh_val fwarped) 3) (pos (mesh_val fwarped) 4).
Proof.
  destruct w_bounds as [X1 [Y1 [X2 [Y2 [X3 [Y3 [X4 [Y4 _]]]]]]]]. unfold det2.
  set (x1 := vx (pos (mesh_val fwarped) 1)) in *. set (x2 := vx (pos (mesh_val fwarped) 2)) in *. set (x3 := vx (pos (mesh_val fwarped) 3)) in *. set (x4 := vx (pos (mesh_val fwarped) 4)) in *.
  set (y1 := vy (pos (mesh_val fwarped) 1)) in *. set (y2 := vy (pos (mesh_val fwarped) 2)) in *. set (y3 := vy (pos (mesh_val fwarped) 3)) in *. set (y4 := vy (pos (mesh_val fwarped) 4)) in *.
  assert (A : 39 / 10 * (32 / 10) <= (x2 - x1) * (y3 - y1)) by (apply Rmult_le_compat; lra).
  assert (B : 39 / 10 * (2 / 100) <= (x3 - x1) * (y1 - y2)) by (apply Rmult_le_compat; lra).
  assert (C : 39 / 10 * 3 <= (x3 - x1) * (y4 - y1)) by (apply Rmult_le_compat; lra).
  assert (D : (x4 - x1) * (y3 - y1) <= 1301 / 10000 * (33 / 10)) by (apply Rmult_le_compat; lra).
  split; lra.
Qed.

Lemma w_wf : wf_mesh (mesh_val fwarped).
Proof. apply val_wf. rewrite fwarped_run. apply wf_run, fread_wf. Qed.

Lemma w_plate : plate (mesh_val fwarped).
Proof.
  assert (LK := lock_val fwarped). destruct w_bounds as [_ [_ [_ [_ [_ [_ [_ [_ [Z1 [Z2 [Z3 Z4]]]]]]]]]]]. destruct w_dets as [D1 D2]. constructor.
  - exists 0. rewrite (keys_lock _ _ LK), w_keys. intros n H. cbn [In] in H. destruct H as [<-|[<-|[<-|[<-|[]]]]]; assumption.
  - intros t H. rewrite (trias_lock _ _ LK) in H. apply in_map_iff in H. destruct H as [t' [<- H]]. unfold tdet. cbn [tria_val tn1 tn2 tn3].
    destruct (w_tria t' H) as [E|E]; injection E as -> -> ->; lra.
  - intros k H. rewrite edge_keys_val, w_edges in H. rewrite (tris_on_lock _ _ LK), map_length. cbn [In] in H. destruct H as [<-|[<-|[<-|[<-|[<-|[]]]]]]; vm_compute; lia.
  - intros k t1 t2 H E. rewrite edge_keys_val, w_edges in H. rewrite (tris_on_lock _ _ LK) in E.
    assert (L : length (tris_on fwarped k) = 2%nat) by (rewrite <- (map_length tria_val), E; reflexivity).
    cbn [In] in H. destruct H as [<-|[<-|[<-|[<-|[<-|[]]]]]]; vm_compute in L; try discriminate. clear L.
    assert (X : map (fun t => third t (1, 3)%nat) (tris_on fwarped (1, 3)%nat) = [2; 4]%nat) by (vm_compute; reflexivity).
    assert (Y : map (fun t => third t (1, 3)%nat) (map tria_val (tris_on fwarped (1, 3)%nat)) = [2; 4]%nat) by (rewrite map_map; exact X).
    rewrite E in Y. cbn [map] in Y. injection Y as -> ->. cbn [fst snd].
    assert (S : det2 (pos (mesh_val fwarped) 1) (pos (mesh_val fwarped) 3) (pos (mesh_val fwarped) 2) = - det2 (pos (mesh_val fwarped) 1) (pos (mesh_val fwarped) 2) (pos (mesh_val fwarped) 3)) by (unfold det2; ring).
    rewrite S. rewrite Ropp_mult_distr_l_reverse. apply Ropp_lt_gt_0_contravar. apply Rmult_lt_0_compat; lra.
Qed.

Lemma w_props : forall pfn, props_complete (mesh_val fwarped) pfn.
Proof.
  assert (LK := lock_val fwarped). intros [|]; unfold props_complete.
  - intros k H. rewrite edge_keys_val, w_edges in H. rewrite !(prop_lock _ _ LK). cbn [In] in H. destruct H as [<-|[<-|[<-|[<-|[<-|[]]]]]]; split; vm_compute; discriminate.
  - intros t H. rewrite (trias_lock _ _ LK) in H. apply in_map_iff in H. destruct H as [t' [<- H]]. unfold tria_val; cbn [tprop].
    assert (X : forall t, In t (trias_of fwarped) -> tprop t <> None) by (intros t [<-|[<-|[]]]; discriminate).
    assert (Y := X t' H). destruct (tprop t'); [discriminate|contradiction].
Qed.
Lemma w_valid : forall pfn, valid (mesh_val fwarped) pfn.
Proof. intros pfn. constructor; [exact w_wf|exact w_plate|apply w_props|discriminate]. Qed.

(** booleans that imply the bounds *)
Definition finiteb (x : double) : bool := match x with S754_zero _ => true | S754_finite _ m e => bounded 53 1024 m e | _ => false end.
Lemma finiteb_ok : forall x, finiteb x = true -> finite x.
Proof. intros [s|s| |s m e] H; try discriminate; [exact I|exact H]. Qed.

Lemma w_scale : k0_scale fwarped 4 4 2 64.
Proof.
  assert (B := w_bounds). destruct B as [X1 [Y1 [X2 [Y2 [X3 [Y3 [X4 [Y4 [Z1 [Z2 [Z3 Z4]]]]]]]]]]]. destruct w_dets as [D1 D2]. assert (LK := lock_val fwarped).
  constructor.
  - assert (G : forall x, In x (flat_map (fun kn : nat * node double => [vx (nxyz (snd kn)); vy (nxyz (snd kn)); vz (nxyz (snd kn))]) (nodes fwarped)) -> finite x /\ Rabs (val x) <= 2 * 4).
    { match goal with |- context [In _ ?l] => let v := eval vm_compute in l in change l with v end. intros x H. cbn [In] in H.
      repeat (destruct H as [<-|H]; [split; [reflexivity || exact I|dval; rewrite ?Rabs_R0; try (rewrite Rabs_right by lra); lra]|]). destruct H. }
    intros n nd H x Hx. apply G. apply in_flat_map. exists (n, nd). split; [exact H|exact Hx].
  - intros t a b H VA VB.
    assert (V : forall n, vertex t n -> In n [1; 2; 3; 4]%nat).
    { intros n HV. unfold vertex in HV. destruct (w_tria t H) as [E|E]; injection E as E1 E2 E3; rewrite E1, E2, E3 in HV; cbn [In]; intuition. }
    apply V in VA, VB. cbn [In] in VA, VB.
    destruct VA as [<-|[<-|[<-|[<-|[]]]]], VB as [<-|[<-|[<-|[<-|[]]]]]; split; apply Rabs_le; lra.
  - intros t H. rewrite (trias_lock _ _ LK) in H. apply in_map_iff in H. destruct H as [t' [<- H]]. unfold tarea, tdet. cbn [tria_val tn1 tn2 tn3].
    destruct (w_tria t' H) as [E|E]; injection E as -> -> ->; rewrite Rabs_right by lra; lra.
  - assert (G : forall p, In p [fprop (dz 1); fprop (dz 2); fprop (dz 3)] -> forall x, In x (prop_entries p) -> finite x /\ Rabs (val x) <= 64).
    { intros p Hp x Hx. assert (H : In x (flat_map prop_entries [fprop (dz 1); fprop (dz 2); fprop (dz 3)])) by (apply in_flat_map; exists p; auto). clear Hp Hx p. revert x H.
      match goal with |- context [In _ ?l] => let v := eval vm_compute in l in change l with v end. intros x H. cbn [In] in H.
      repeat (destruct H as [<-|H]; [split; [reflexivity || exact I|dval; rewrite ?Rabs_R0; try (rewrite Rabs_right by lra); lra]|]). destruct H. }
    intros p [[n Hn]|[t [H Hp]]].
    + apply G. assert (K : In n (node_keys fwarped)).
      { unfold nodeprop in Hn. destruct (dget Nat.eqb n (nodes fwarped)) as [nd|] eqn:Q; [|discriminate]. apply (dget_in Nat.eqb nat_eqb_spec) in Q. apply in_map_iff. exists (n, nd); auto. }
      rewrite w_keys in K. cbn [In] in K. destruct K as [<-|[<-|[<-|[<-|[]]]]]; vm_compute in Hn; injection Hn as <-; [left|right; left|right; right; left|left]; vm_compute; reflexivity.
    + apply G. destruct H as [<-|[<-|[]]]; vm_compute in Hp; injection Hp as <-; [left|right; left]; vm_compute; reflexivity.
  - lra.
  - lra.
  - unfold roundoff. lra.
  - lra.
  - lra.
  - vm_compute. discriminate.
Qed.
