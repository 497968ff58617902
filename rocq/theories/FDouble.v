(** The square of ExDouble.v. *)
From Coq Require Import ZArith Reals List Bool Arith Lra Lia String Floats.SpecFloat.
From Verif Require Import Num Float Py Mesh Utils CalcK0 AddK0s Ops Spec SpecRead SpecK0 SpecK0s SpecStab SpecStat SpecConv SpecSol SpecSol2 SpecKorn SpecRound SpecRound2 SpecRound6 SpecCond
  FSum FDict FWf FOps FOut FRound8 FMove FRead FRead2 FConn FRound13 LRead LOut LRound2 Ex ExK0s ExStab ExGrid ExMindlin ExFloat ExDouble.
Import ListNotations.
Local Open Scope R_scope.
Notation S_ := (mesh_val star).

Lemma s_reads : reads sread.
Proof. apply (reads_delaunay spoints ssimplices). vm_compute. reflexivity. Qed.
Lemma s_read_wf : wf_mesh sread.
Proof. apply reads_wf; [exact s_reads|]. intros t [<-|[<-|[<-|[<-|[]]]]]; unfold distinct; cbn; repeat split; discriminate. Qed.
Lemma s_run : star = run sops sread.
Proof. vm_compute. reflexivity. Qed.
Lemma s_wf : wf_mesh S_.
Proof. apply val_wf. rewrite s_run. apply wf_run, s_read_wf. Qed.

Lemma s_keys : node_keys star = [1; 2; 3; 4; 5]%nat.
Proof. vm_compute. reflexivity. Qed.
Lemma s_edges : edge_keys star = [(1, 2); (2, 5); (1, 5); (2, 3); (3, 5); (3, 4); (4, 5); (1, 4)]%nat.
Proof. vm_compute. reflexivity. Qed.
Lemma s_trias : map (fun t => (tn1 t, tn2 t, tn3 t)) (trias_of star) = [(1, 2, 5); (2, 3, 5); (3, 4, 5); (4, 1, 5)]%nat.
Proof. vm_compute. reflexivity. Qed.
Lemma s_tria : forall t, In t (trias_of star) -> (tn1 t, tn2 t, tn3 t) = (1, 2, 5)%nat \/ (tn1 t, tn2 t, tn3 t) = (2, 3, 5)%nat \/ (tn1 t, tn2 t, tn3 t) = (3, 4, 5)%nat \/ (tn1 t, tn2 t, tn3 t) = (4, 1, 5)%nat.
Proof. intros t H. apply (in_map (fun t => (tn1 t, tn2 t, tn3 t))) in H. rewrite s_trias in H. cbn [In] in H. intuition. Qed.
Lemma s_tria' : forall t, In t (trias_of S_) -> (tn1 t, tn2 t, tn3 t) = (1, 2, 5)%nat \/ (tn1 t, tn2 t, tn3 t) = (2, 3, 5)%nat \/ (tn1 t, tn2 t, tn3 t) = (3, 4, 5)%nat \/ (tn1 t, tn2 t, tn3 t) = (4, 1, 5)%nat.
Proof. intros t H. rewrite (trias_lock _ _ (lock_val star)) in H. apply in_map_iff in H. destruct H as [t' [<- H]]. exact (s_tria t' H). Qed.

Lemma s_pos : pos S_ 1 = V3 0 0 0 /\ pos S_ 2 = V3 1 0 0 /\ pos S_ 3 = V3 1 1 0 /\ pos S_ 4 = V3 0 1 0 /\ pos S_ 5 = V3 (1 / 2) (1 / 2) 0.
Proof.
  assert (Q : pos S_ 1 = vec_val (V3 (dz 0) (dz 0) (dz 0)) /\ pos S_ 2 = vec_val (V3 (dz 1) (dz 0) (dz 0)) /\ pos S_ 3 = vec_val (V3 (dz 1) (dz 1) (dz 0)) /\ pos S_ 4 = vec_val (V3 (dz 0) (dz 1) (dz 0)) /\
    pos S_ 5 = vec_val (V3 (#1 / #2) (#1 / #2) (dz 0))%num) by (repeat split; vm_compute; reflexivity).
  destruct Q as [-> [-> [-> [-> ->]]]]. unfold vec_val; cbn [vx vy vz].
  repeat match goal with |- context [val ?d] => match d with S754_finite _ _ _ => fail 1 | S754_zero _ => fail 1 | _ => dnum d end end.
  dval. repeat split; f_equal; lra.
Qed.
Ltac spos := destruct s_pos as [P1 [P2 [P3 [P4 P5]]]]; rewrite ?P1, ?P2, ?P3, ?P4, ?P5; cbn [vx vy vz].

Lemma s_det : forall t, In t (trias_of S_) -> tdet S_ t = 1 / 2.
Proof. intros t H. unfold tdet, det2. destruct (s_tria' t H) as [E|[E|[E|E]]]; injection E as -> -> ->; spos; lra. Qed.
Lemma s_area : forall t, In t (trias_of S_) -> tarea S_ t = 1 / 4.
Proof. intros t H. unfold tarea. rewrite (s_det t H), Rabs_right by lra. lra. Qed.

Lemma s_plate : plate S_.
Proof.
  assert (LK := lock_val star). constructor.
  - exists 0. rewrite (keys_lock _ _ LK), s_keys. intros n H. cbn [In] in H. destruct H as [<-|[<-|[<-|[<-|[<-|[]]]]]]; spos; reflexivity.
  - intros t H. rewrite (s_det t H). lra.
  - intros k H. rewrite edge_keys_val, s_edges in H. rewrite (tris_on_lock _ _ LK), map_length. cbn [In] in H. repeat (destruct H as [<-|H]; [vm_compute; lia|]). destruct H.
  - intros k t1 t2 H E. rewrite edge_keys_val, s_edges in H. rewrite (tris_on_lock _ _ LK) in E.
    assert (L : List.length (tris_on star k) = 2%nat) by (rewrite <- (map_length tria_val), E; reflexivity).
    assert (Y : map (fun t => third t k) (map tria_val (tris_on star k)) = [third t1 k; third t2 k]) by (rewrite E; reflexivity).
    rewrite map_map in Y. change (fun x => third (tria_val x) k) with (fun x : tria double => third x k) in Y. clear E.
    cbn [In] in H. repeat (destruct H as [<-|H]; [vm_compute in L; try discriminate; clear L; match type of Y with ?l = _ => let v := eval vm_compute in l in change l with v in Y end; injection Y as Y1 Y2; rewrite <- Y1, <- Y2; cbn [fst snd]; unfold det2; spos; lra|]). destruct H.
Qed.

Lemma s_prop : forall p, (exists n, nodeprop star n = Some p) \/ (exists t, In t (trias_of star) /\ tprop t = Some p) -> p = fprop (dz 1).
Proof.
  intros p [[n Hn]|[t [H Hp]]].
  - assert (K : In n (node_keys star)).
    { unfold nodeprop in Hn. destruct (dget Nat.eqb n (nodes star)) as [nd|] eqn:Q; [|discriminate]. apply (dget_in Nat.eqb nat_eqb_spec) in Q. apply in_map_iff. exists (n, nd); auto. }
    rewrite s_keys in K. cbn [In] in K. destruct K as [<-|[<-|[<-|[<-|[<-|[]]]]]]; vm_compute in Hn; injection Hn as <-; vm_compute; reflexivity.
  - destruct H as [<-|[<-|[<-|[<-|[]]]]]; vm_compute in Hp; injection Hp as <-; vm_compute; reflexivity.
Qed.
Lemma s_one : all_props S_ (fun q => q = prop_val (fprop (dz 1))).
Proof.
  assert (LK := lock_val star). split.
  - intros n p Hp. rewrite (prop_lock _ _ LK) in Hp. destruct (nodeprop star n) as [q|] eqn:E; [|discriminate]. injection Hp as <-. f_equal. apply s_prop. left. exists n. exact E.
  - intros t p Ht Hp. rewrite (trias_lock _ _ LK) in Ht. apply in_map_iff in Ht. destruct Ht as [t' [<- Ht]]. cbn in Hp. destruct (tprop t') as [q|] eqn:E; [|discriminate]. injection Hp as <-. f_equal. apply s_prop. right. exists t'. auto.
Qed.
Lemma s_props : forall pfn, props_complete S_ pfn.
Proof.
  assert (LK := lock_val star). intros [|]; unfold props_complete.
  - intros k H. rewrite edge_keys_val, s_edges in H. rewrite !(prop_lock _ _ LK). cbn [In] in H. repeat (destruct H as [<-|H]; [split; vm_compute; discriminate|]). destruct H.
  - intros t H. rewrite (trias_lock _ _ LK) in H. apply in_map_iff in H. destruct H as [t' [<- H]]. unfold tria_val; cbn [tprop].
    assert (X : forall t, In t (trias_of star) -> tprop t <> None) by (intros t [<-|[<-|[<-|[<-|[]]]]]; discriminate).
    assert (Y := X t' H). destruct (tprop t'); [discriminate|contradiction].
Qed.
Lemma s_valid : forall pfn, valid S_ pfn.
Proof. intros pfn. constructor; [exact s_wf|exact s_plate|apply s_props|discriminate]. Qed.

Lemma s_scale : k0_scale star 1 4 1 64.
Proof.
  constructor.
  - assert (G : forall x, In x (flat_map (fun kn : nat * node double => [vx (nxyz (snd kn)); vy (nxyz (snd kn)); vz (nxyz (snd kn))]) (nodes star)) -> finite x /\ Rabs (val x) <= 1 * 1).
    { match goal with |- context [In _ ?l] => let v := eval vm_compute in l in change l with v end. intros x H. cbn [In] in H.
      repeat (destruct H as [<-|H]; [split; [reflexivity || exact I|dval; rewrite ?Rabs_R0; try (rewrite Rabs_right by lra); lra]|]). destruct H. }
    intros n nd H x Hx. apply G. apply in_flat_map. exists (n, nd). split; [exact H|exact Hx].
  - intros t a b H VA VB.
    assert (V : forall n, vertex t n -> In n [1; 2; 3; 4; 5]%nat).
    { intros n HV. unfold vertex in HV. destruct (s_tria t H) as [E|[E|[E|E]]]; injection E as E1 E2 E3; rewrite E1, E2, E3 in HV; cbn [In]; intuition. }
    apply V in VA, VB. cbn [In] in VA, VB.
    destruct VA as [<-|[<-|[<-|[<-|[<-|[]]]]]], VB as [<-|[<-|[<-|[<-|[<-|[]]]]]]; spos; split; apply Rabs_le; lra.
  - intros t H. rewrite (s_area t H). lra.
  - intros p Hp. rewrite (s_prop p Hp). intros x Hx. revert x Hx.
    match goal with |- context [In _ ?l] => let v := eval vm_compute in l in change l with v end. intros x H. cbn [In] in H.
    repeat (destruct H as [<-|H]; [split; [reflexivity || exact I|dval; rewrite ?Rabs_R0; try (rewrite Rabs_right by lra); lra]|]). destruct H.
  - lra.
  - lra.
  - unfold roundoff. lra.
  - lra.
  - lra.
  - vm_compute. discriminate.
Qed.

Lemma s_shear : shear_scale star 64 (dz 0).
Proof.
  constructor.
  - intros p Hp. rewrite (s_prop p Hp). split; [|split].
    + intros x Hx. revert x Hx. match goal with |- context [In _ ?l] => let v := eval vm_compute in l in change l with v end. intros x H. cbn [In] in H.
      repeat (destruct H as [<-|H]; [split; [reflexivity || exact I|dval; rewrite ?Rabs_R0; try (rewrite Rabs_right by lra); lra]|]). destruct H.
    + intros x Hx. revert x Hx. match goal with |- context [In _ ?l] => let v := eval vm_compute in l in change l with v end. intros x H. cbn [In] in H.
      repeat (destruct H as [<-|H]; [split; [reflexivity || exact I|dval; rewrite ?Rabs_R0; try (rewrite Rabs_right by lra); lra]|]). destruct H.
    + cbn [ph fprop]. match goal with |- finite ?l /\ _ => let v := eval vm_compute in l in change l with v end; (split; [reflexivity|dval; lra]).
  - split; [exact I|]. left. match goal with |- val ?l = _ => let v := eval vm_compute in l in change l with v end. reflexivity.
  - vm_compute. discriminate.
Qed.
Lemma s_alpha : val (dz 0) = 0.
Proof. match goal with |- val ?l = _ => let v := eval vm_compute in l in change l with v end. reflexivity. Qed.

Lemma filter_le : forall A (f : A -> bool) l, (List.length (filter f l) <= List.length l)%nat.
Proof. intros A f l. induction l as [|a l IH]; [cbn; lia|]. cbn [filter]. destruct (f a); cbn [List.length]; lia. Qed.
Lemma s_bound : forall i j, plate_bound star "cell-based" 1 4 1 64 i j <= / 20000.
Proof.
  intros i j. unfold plate_bound, shear_bound, k0_bound, k0_size. cbn [String.eqb Ascii.eqb Bool.eqb].
  assert (A : (shared star (node_at star i) (node_at star j) <= 8)%nat) by (unfold shared; rewrite s_edges; apply (filter_le _ _ [(1, 2); (2, 5); (1, 5); (2, 3); (3, 5); (3, 4); (4, 5); (1, 4)]%nat)).
  assert (B : (common star (node_at star i) (node_at star j) <= 4)%nat) by (unfold common; eapply Nat.le_trans; [apply filter_le|]; apply (Nat.eq_le_incl (List.length (trias_of star)) 4); reflexivity).
  apply le_INR in A, B. assert (A0 := pos_INR (shared star (node_at star i) (node_at star j))). assert (B0 := pos_INR (common star (node_at star i) (node_at star j))).
  set (a := INR (shared _ _ _)) in *. set (b := INR (common _ _ _)) in *. change (INR 8) with (1 + 1 + 1 + 1 + 1 + 1 + 1 + 1) in A. change (INR 4) with (1 + 1 + 1 + 1) in B. clearbody a b.
  rewrite pow1.
  assert (A2 : 0 <= a ^ 2 <= 64) by (cbn [pow]; split; [apply Rmult_le_pos; lra|]; replace 64 with (8 * 8) by ring; apply Rmult_le_compat; lra).
  assert (B2 : 0 <= b ^ 2 <= 16) by (cbn [pow]; split; [apply Rmult_le_pos; lra|]; replace 16 with (4 * 4) by ring; apply Rmult_le_compat; lra).
  assert (BA : b * a <= 4 * 8) by (apply Rmult_le_compat; lra). assert (BA2 : b * a ^ 2 <= 4 * 64) by (apply Rmult_le_compat; lra).
  unfold roundoff. lra.
Qed.
Lemma s_rows : row_sums 25 (plate_bound star "cell-based" 1 4 1 64) (/ 500).
Proof.
  intros i _. eapply Rle_trans; [apply Sum_le; intros j _; apply s_bound|]. unfold Sum. cbn [seq map]. unfold rsum. cbn [fold_right]. lra.
Qed.

Ltac dz_all := repeat match goal with |- context [val ?d] => match d with S754_finite _ _ _ => fail 1 | S754_zero _ => fail 1 | _ => let v := eval vm_compute in (d : double) in change d with v end end; dval.
Lemma s_stiff : stiffness_ge 1 (prop_val (fprop (dz 1))).
Proof.
  intros e. unfold strain_sq, dens, quad3, prop_val, fprop; cbn [pA pB pD]; unfold mat3_val; cbn [m00 m01 m02 m10 m11 m12 m20 m21 m22].
  set (a := exx e); set (b := eyy e); set (d := exy e); set (x := kxx e); set (y := kyy e); set (z := kxy e).
  assert (H1 := sq_nn (a + b)). assert (H2 := sq_nn (a + d)). assert (H3 := sq_nn (b + d)). assert (H4 := sq_nn (a + x)). assert (H5 := sq_nn (b + y)).
  assert (H6 := sq_nn (d + z)). assert (H7 := sq_nn (x + y)). assert (H8 := sq_nn (x + z)). assert (H9 := sq_nn (y + z)).
  assert (S1 := sq_nn a). assert (S2 := sq_nn b). assert (S3 := sq_nn d). assert (S4 := sq_nn x). assert (S5 := sq_nn y). assert (S6 := sq_nn z). dz_all. lra.
Qed.
Ltac ab := apply Rabs_le; dz_all; lra.
Lemma s_mindlin : forall pfn, mindlin_plate unit_square S_ pfn (prop_val (fprop (dz 1))) (1 / 2) 1 (centroid S_) 20 1 3 (9 / 100).
Proof.
  intros pfn. split; [apply s_valid|]. split; [exact s_one|].
  split; [unfold shear_pos; cbn [prop_val ph pk13 pk23 pE fprop mat2_val e00 e11]; dz_all; lra|].
  split; [exact s_stiff|]. split; [unfold shear_ge; cbn [prop_val ph pk13 pk23 pE fprop mat2_val e00 e11]; dz_all; lra|].
  split; [unfold mat3_bounded, prop_val, fprop; cbn [pA]; unfold mat3_val; cbn [m00 m01 m02 m10 m11 m12 m20 m21 m22]; repeat split; ab|].
  split; [unfold mat3_bounded, prop_val, fprop; cbn [pB]; unfold mat3_val; cbn [m00 m01 m02 m10 m11 m12 m20 m21 m22]; repeat split; ab|].
  split; [unfold mat3_bounded, prop_val, fprop; cbn [pD]; unfold mat3_val; cbn [m00 m01 m02 m10 m11 m12 m20 m21 m22]; repeat split; ab|].
  split.
  { assert (G : forall p, p = prop_val (fprop (dz 1)) -> Rabs (pk13 p) <= 20 /\ Rabs (pk23 p) <= 20 /\ Rabs (e00 (pE p)) <= 20 /\ Rabs (e11 (pE p)) <= 20 /\ 9 / 100 <= ph p).
    { intros p ->. cbn [prop_val ph pk13 pk23 pE fprop mat2_val e00 e11]. repeat split; try ab. dz_all; lra. }
    destruct s_one as [A B]. split; [intros n p E; apply G, (A n p E)|intros t p Ht E; apply G, (B t p Ht E)]. }
  split.
  - intros n Hn. rewrite (keys_lock _ _ (lock_val star)), s_keys in Hn. cbn [In] in Hn. unfold unit_square; cbn [fst snd].
    destruct Hn as [<-|[<-|[<-|[<-|[<-|[]]]]]]; spos; lra.
  - intros t Ht. 
    unfold unit_square, near, centroid; cbn [fst snd]. rewrite (s_area t Ht). split; [|split; [|lra]].
    + destruct (s_tria' t Ht) as [E|[E|[E|E]]]; injection E as -> -> ->; spos; lra.
    + intros n [Hn|[Hn|Hn]]; rewrite Hn; destruct (s_tria' t Ht) as [E|[E|[E|E]]]; injection E as -> -> ->; spos; split; apply Rabs_le; lra.
Qed.

Lemma s_nodes : List.length (nodes S_) = 5%nat.
Proof. reflexivity. Qed.
Lemma s_dome : admissible 25 cornered (sampled S_ dome).
Proof.
  intros i _ Hi. unfold cornered in Hi. apply Nat.ltb_lt in Hi. unfold sampled, field. cbv zeta. rewrite (keys_lock _ _ (lock_val star)), s_keys.
  unfold dome; cbn [fu fv fw ffx ffy poly fval].
  destruct (i mod 5)%nat as [|[|[|[|k]]]]; try reflexivity.
  assert (D : (i / 5 < 4)%nat) by (apply Nat.div_lt_upper_bound; lia).
  destruct (i / 5)%nat as [|[|[|[|j]]]]; cbn [nth]; [spos; lra|spos; lra|spos; lra|spos; lra|lia].
Qed.
Lemma s_held : held [0; 1; 2; 3; 4]%nat S_ cornered.
Proof.
  intros k n j Hk L Hn Hj. rewrite edge_keys_val, s_edges in Hk. rewrite (tris_on_lock _ _ (lock_val star)), map_length in L. unfold cornered. apply Nat.ltb_lt.
  unfold rank. rewrite (keys_lock _ _ (lock_val star)), s_keys.
  assert (J : (j < 5)%nat) by (cbn [In] in Hj; lia). clear Hj.
  cbn [In] in Hk. repeat (destruct Hk as [<-|Hk]; [vm_compute in L; try discriminate; cbn [fst snd] in Hn; destruct Hn as [->| ->]; cbn [index_in Nat.eqb]; lia|]). destruct Hk.
Qed.
Lemma s_strip : in_strip (1 / 2) S_.
Proof.
  exists (1 / 2). intros n Hn. rewrite (keys_lock _ _ (lock_val star)), s_keys in Hn. cbn [In] in Hn. apply Rabs_le.
  destruct Hn as [<-|[<-|[<-|[<-|[<-|[]]]]]]; spos; lra.
Qed.
Lemma s_used : all_used S_.
Proof.
  intros n Hn. rewrite (keys_lock _ _ (lock_val star)), s_keys in Hn.
  assert (T : forall x y z, In (x, y, z) [(1, 2, 5); (2, 3, 5); (3, 4, 5); (4, 1, 5)]%nat -> exists t, In t (trias_of S_) /\ tn1 t = x /\ tn2 t = y /\ tn3 t = z).
  { intros x y z H. rewrite <- s_trias in H. apply in_map_iff in H. destruct H as [t [E H]]. exists (tria_val t). split; [rewrite (trias_lock _ _ (lock_val star)); apply in_map, H|]. injection E as <- <- <-. auto. }
  destruct (T 1 2 5)%nat as [t1 [I1 [A1 [B1 C1]]]]; [cbn; auto|]. destruct (T 3 4 5)%nat as [t2 [I2 [A2 [B2 C2]]]]; [cbn; auto|].
  cbn [In] in Hn. unfold vertex. destruct Hn as [<-|[<-|[<-|[<-|[<-|[]]]]]]; [exists t1|exists t1|exists t2|exists t2|exists t1]; auto.
Qed.
Lemma s_valence : valence_le 4 S_.
Proof. intros n _. eapply Nat.le_trans; [apply filter_le|]. apply (Nat.eq_le_incl (List.length (trias_of S_)) 4). reflexivity. Qed.
