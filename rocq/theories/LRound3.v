(** Lemmas behind the property on the rounding errors of calc_kG (C87). *)
(* P: Num Float Py Mesh Utils CalcK0 CalcKG Spec SpecK0 SpecKG SpecRound SpecRound3 ExFloat *)
From Coq Require Import ZArith Reals List Bool Arith Lra Lia SpecFloat.
From Verif Require Import Num Float Py Mesh Utils CalcK0 CalcKG Spec SpecK0 SpecKG SpecRound SpecRound3 FSum FMat FDict FWf FOut FSetup FAsm FK0 FKG FRound2 FRound3 FRound8 FRound9 FRound12 FRound13 FRound24 LK0 LKG LRound ExFloat ExK0.
Import ListNotations.
Local Open Scope R_scope.

(** ** C87 *)

(** calc_kG after calc_k0 in doubles, compared with both in exact arithmetic on the plate and the displacements with the same values:
    all succeed, the entries in doubles are finite, and entry (i, j) differs by at most 2^30 c^2 kappa 2^-53 rho^4 s w, where c is the
    number of edges whose domain has the nodes of row i and column j. Entries outside of the rows and columns of w are zero. *)
Lemma c87_error : forall (m : mesh double) pfn pfn' d h rho kappa s w, valid (mesh_val m) pfn -> k0_scale m h rho kappa s -> kG_scale m h s w d ->
  props_complete (mesh_val m) pfn' -> length d = (length (nodes m) * 5)%nat ->
  exists m' K G M' KR GR, calc_k0 m pfn = (m', Ok K) /\ calc_kG d m' pfn' = Ok G /\
    calc_k0 (mesh_val m) pfn = (M', Ok KR) /\ calc_kG (map val d) M' pfn' = Ok GR /\
    mdim G = (length (nodes m) * 5)%nat /\ mdim GR = (length (nodes m) * 5)%nat /\
    forall i j, (i < length (nodes m) * 5)%nat -> (j < length (nodes m) * 5)%nat ->
      finite (mentry G i j) /\ Rabs (val (mentry G i j) - mentry GR i j) <= kG_bound m rho kappa s w i j.
Proof.
  intros m pfn pfn' d h rho kappa s w V KS KG PC LD. destruct (calc_edges m h rho s kappa pfn KS V) as [es [ES [k [K [C1 [C2 [F [EK RD]]]]]]]]. destruct V as [W P PC0 N].
  assert (NN : nodes m <> []) by (intros E; apply N; unfold mesh_val; cbn [nodes]; rewrite E; reflexivity).
  destruct (kG_lock m h rho s kappa w d KS KG W P LD NN pfn' PC es ES EK RD F) as [G [GR [E1 [E2 [D1 [D2 H]]]]]].
  exists (number m es), k, G, (number (mesh_val m) ES), K, GR. do 6 (split; [assumption|]). intros i j Hi Hj. destruct (H i j Hi Hj) as [FF [_ B]]. split; [exact FF|]. eapply Rle_trans; [exact B|].
  unfold kG_bound. destruct (_ && _)%bool; [|cbn [INR]; lra]. set (c := INR _). unfold Ek.
  assert (SL := slsw m h rho s kappa w d KS KG). assert (SP := s_pos _ _ _ _ SL). assert (R1 := sl_rho _ _ _ _ SL). assert (DP := d_pos _ _ _ _ SL).
  assert (R2 : 1 <= rho * rho) by (rewrite <- (Rmult_1_r 1); apply Rmult_le_compat; lra). assert (R4 : 1 <= rho * rho * (rho * rho)) by (rewrite <- (Rmult_1_r 1); apply Rmult_le_compat; lra).
  assert (Q : 0 <= kappa * roundoff * (rho * rho * (rho * rho)) * (s * w) * (c * c)).
  { apply Rmult_le_pos; [|apply Rle_0_sqr]. apply Rmult_le_pos; [|lra]. apply Rmult_le_pos; lra. }
  cbn [pow]. lra.
Qed.

Lemma kG_bound_comm : forall T (m : mesh T) rho kappa s w i j, kG_bound m rho kappa s w i j = kG_bound m rho kappa s w j i.
Proof. intros. unfold kG_bound. rewrite andb_comm, shared_comm. reflexivity. Qed.

(** The matrix in doubles is symmetric up to twice that bound. *)
Lemma c87_symmetric : forall (m : mesh double) pfn pfn' d h rho kappa s w, valid (mesh_val m) pfn -> k0_scale m h rho kappa s -> kG_scale m h s w d ->
  props_complete (mesh_val m) pfn' -> length d = (length (nodes m) * 5)%nat ->
  exists m' K G, calc_k0 m pfn = (m', Ok K) /\ calc_kG d m' pfn' = Ok G /\ forall i j, (i < mdim G)%nat -> (j < mdim G)%nat ->
    Rabs (val (mentry G i j) - val (mentry G j i)) <= 2 * kG_bound m rho kappa s w i j.
Proof.
  intros m pfn pfn' d h rho kappa s w V KS KG PC LD. destruct (c87_error m pfn pfn' d h rho kappa s w V KS KG PC LD) as [m' [K [G [M' [KR [GR [C1 [E1 [C2 [E2 [D1 [D2 H]]]]]]]]]]]].
  exists m', K, G. split; [exact C1|]. split; [exact E1|]. rewrite D1. intros i j Hi Hj. destruct (H i j Hi Hj) as [_ A]. destruct (H j i Hj Hi) as [_ B].
  assert (S : mentry GR i j = mentry GR j i).
  { destruct (c16_tiling _ _ V) as [M2 [K2 [E [Hp _]]]]. rewrite C2 in E. injection E as <- <-.
    assert (SY : symmetric GR).
    { destruct (c40_symmetric _ _ _ _ E2) as [_ [SY _]]. apply SY. intros k e He. destruct (Hp k e He) as [A0 [-> [P0 _]]]. intros X; injection X as X. lra. }
    apply SY; rewrite D2; assumption. }
  rewrite (kG_bound_comm _ m rho kappa s w j i) in B. rewrite S in A. apply abs_split in A, B. apply abs_join; lra.
Qed.

(** The work of the membrane forces by the matrix in doubles is that of exact arithmetic up to rounding errors. *)
Lemma c87_work : forall (m : mesh double) pfn pfn' d h rho kappa s w, valid (mesh_val m) pfn -> k0_scale m h rho kappa s -> kG_scale m h s w d ->
  props_complete (mesh_val m) pfn' -> length d = (length (nodes m) * 5)%nat ->
  exists m' K G, calc_k0 m pfn = (m', Ok K) /\ calc_kG d m' pfn' = Ok G /\ forall u v,
    Rabs (form (matrix_val G) u v - kG_energy (mesh_val m) pfn' (vec_of (map val d)) u v)
    <= Sum (fun i => Sum (fun j => Rabs (u i) * kG_bound m rho kappa s w i j * Rabs (v j)) (seq 0 (mdim G))) (seq 0 (mdim G)).
Proof.
  intros m pfn pfn' d h rho kappa s w V KS KG PC LD. destruct (c87_error m pfn pfn' d h rho kappa s w V KS KG PC LD) as [m' [K [G [M' [KR [GR [C1 [E1 [C2 [E2 [D1 [D2 H]]]]]]]]]]]].
  exists m', K, G. split; [exact C1|]. split; [exact E1|]. intros u v.
  destruct (calc_kG_spec (mesh_val m) M' pfn' (map val d)) as [G2 [E [_ F]]]; [exists pfn, KR; auto|exact PC|rewrite map_length; unfold mesh_val; cbn [nodes]; rewrite map_length; exact LD|].
  rewrite E2 in E. injection E as <-. rewrite <- F. unfold form. rewrite D2, <- D1. cbn [matrix_val mdim mentry].
  set (l := seq 0 (mdim G)).
  replace (Sum (fun i => Sum (fun j => u i * val (mentry G i j) * v j) l) l - Sum (fun i => Sum (fun j => u i * mentry GR i j * v j) l) l)
    with (Sum (fun i => Sum (fun j => u i * (val (mentry G i j) - mentry GR i j) * v j) l) l).
  - apply Sum_abs_le. intros i Hi. apply Sum_abs_le. intros j Hj. apply in_seq in Hi, Hj. destruct (H i j) as [_ B]; [lia|lia|].
    rewrite !Rabs_mult. apply Rmult_le_compat_r; [apply Rabs_pos|]. apply Rmult_le_compat_l; [apply Rabs_pos|exact B].
  - unfold Rminus at 2. rewrite <- (Rmult_1_l (Sum (fun i => Sum (fun j => u i * mentry GR i j * v j) l) l)), Ropp_mult_distr_l, <- Sum_scal, <- Sum_plus.
    apply Sum_ext. intros i. rewrite <- Sum_scal, <- Sum_plus. apply Sum_ext. intros j. ring.
Qed.

(** A rigid motion prestresses nothing up to rounding errors. *)
Lemma c87_rigid : forall (m : mesh double) pfn pfn' d h rho kappa s w, valid (mesh_val m) pfn -> k0_scale m h rho kappa s -> kG_scale m h s w d ->
  props_complete (mesh_val m) pfn' -> length d = (length (nodes m) * 5)%nat -> rigid (mesh_val m) (vec_of (map val d)) ->
  exists m' K G, calc_k0 m pfn = (m', Ok K) /\ calc_kG d m' pfn' = Ok G /\ forall i j, (i < mdim G)%nat -> (j < mdim G)%nat ->
    Rabs (val (mentry G i j)) <= kG_bound m rho kappa s w i j.
Proof.
  intros m pfn pfn' d h rho kappa s w V KS KG PC LD RI. destruct (c87_error m pfn pfn' d h rho kappa s w V KS KG PC LD) as [m' [K [G [M' [KR [GR [C1 [E1 [C2 [E2 [D1 [D2 H]]]]]]]]]]]].
  exists m', K, G. split; [exact C1|]. split; [exact E1|]. rewrite D1. intros i j Hi Hj. destruct (H i j Hi Hj) as [_ A].
  destruct (c43_rigid (mesh_val m) M' pfn' (map val d)) as [G2 [E [Z _]]]; [exists pfn, KR; auto|exact PC|rewrite map_length; unfold mesh_val; cbn [nodes]; rewrite map_length; exact LD|].
  rewrite E2 in E. injection E as <-. rewrite (Z RI i j) in A by (rewrite D2; assumption). rewrite Rminus_0_r in A. exact A.
Qed.

Lemma small_scale : forall d w, / 18446744073709551616 <= w <= 2 -> (forall x, In x d -> finite x /\ Rabs (val x) <= w * 4) -> kG_scale fwarped 4 64 w d.
Proof.
  intros d w Hw Hd. constructor; [|exact Hd|lra|lra].
  assert (G : forall p, In p [fprop (dz 1); fprop (dz 2); fprop (dz 3)] -> forall x, In x (mat3_all (pA p) ++ mat3_all (pB p)) -> finite x /\ Rabs (val x) <= 64).
  { intros p Hp x Hx. assert (H : In x (flat_map (fun p => mat3_all (pA p) ++ mat3_all (pB p)) [fprop (dz 1); fprop (dz 2); fprop (dz 3)])) by (apply in_flat_map; exists p; auto). clear Hp Hx p. revert x H.
    match goal with |- context [In _ ?l] => let v := eval vm_compute in l in change l with v end. intros x H. cbn [In] in H.
    repeat (destruct H as [<-|H]; [split; [reflexivity || exact I|dval; rewrite ?Rabs_R0; try (rewrite Rabs_right by lra); lra]|]). destruct H. }
  intros p [[n Hn]|[t [H Hp]]].
  - apply G. assert (K : In n (node_keys fwarped)).
    { unfold nodeprop in Hn. destruct (dget Nat.eqb n (nodes fwarped)) as [nd|] eqn:Q; [|discriminate]. apply (dget_in Nat.eqb nat_eqb_spec) in Q. apply in_map_iff. exists (n, nd); auto. }
    rewrite w_keys in K. cbn [In] in K. destruct K as [<-|[<-|[<-|[<-|[]]]]]; vm_compute in Hn; injection Hn as <-; [left|right; left|right; right; left|left]; vm_compute; reflexivity.
  - apply G. destruct H as [<-|[<-|[]]]; vm_compute in Hp; injection Hp as <-; [left|right; left]; vm_compute; reflexivity.
Qed.

(** The two triangles of the examples of C81 with displacements of up to 118/1024: no entry is off by more than 1/300. *)
Lemma c87_error_ex : forall pfn pfn', valid (mesh_val fwarped) pfn /\ k0_scale fwarped 4 4 2 64 /\ kG_scale fwarped 4 64 (/ 32) fsmall /\
  props_complete (mesh_val fwarped) pfn' /\ length fsmall = (length (nodes fwarped) * 5)%nat /\ kG_bound fwarped 4 2 64 (/ 32) 2 2 <= / 300.
Proof.
  intros pfn pfn'. split; [apply w_valid|]. split; [exact w_scale|]. split.
  - apply small_scale; [lra|].
    match goal with |- context [In _ ?l] => let v := eval vm_compute in l in change l with v end. intros x H. cbn [In] in H.
    repeat (destruct H as [<-|H]; [split; [reflexivity || exact I|dval; rewrite ?Rabs_R0; apply Rabs_le; lra]|]). destruct H.
  - split; [apply w_props|]. split; [reflexivity|]. unfold kG_bound.
    assert (E : shared fwarped (node_at fwarped 2) (node_at fwarped 2) = 5%nat) by (vm_compute; reflexivity). rewrite E. unfold roundoff. cbn [Nat.modulo Nat.divmod Nat.eqb andb fst snd Nat.sub INR pow]. lra.
Qed.

(** The same plate turned in its plane. *)
Lemma c87_rigid_ex : forall pfn pfn', valid (mesh_val fwarped) pfn /\ k0_scale fwarped 4 4 2 64 /\ kG_scale fwarped 4 64 2 fturn /\
  props_complete (mesh_val fwarped) pfn' /\ length fturn = (length (nodes fwarped) * 5)%nat /\ rigid (mesh_val fwarped) (vec_of (map val fturn)).
Proof.
  intros pfn pfn'. split; [apply w_valid|]. split; [exact w_scale|]. split.
  - apply small_scale; [lra|].
    match goal with |- context [In _ ?l] => let v := eval vm_compute in l in change l with v end. intros x H. cbn [In] in H.
    repeat (destruct H as [<-|H]; [split; [reflexivity || exact I|dval; rewrite ?Rabs_R0; apply Rabs_le; lra]|]). destruct H.
  - split; [apply w_props|]. split; [reflexivity|]. exists 0, 0, 1, (val (dz 7)), (val (dz 7)).
    assert (K : node_keys (mesh_val fwarped) = [1; 2; 3; 4]%nat) by (vm_compute; reflexivity).
    rewrite K. intros n Hn. unfold comp.
    assert (V : forall x : double, val (SFopp x) = - val x) by (intros [|b| |[] p e]; cbn; ring).
    destruct w_pos as [P1 [P2 [P3 P4]]]. cbn [In] in Hn.
    destruct Hn as [<-|[<-|[<-|[<-|[]]]]]; (rewrite P1 || rewrite P2 || rewrite P3 || rewrite P4);
      match goal with |- context [rank ?m ?n] => let r := eval vm_compute in (rank m n) in replace (rank m n) with r by (vm_compute; reflexivity) end;
      unfold vec_of, fturn; cbn [Nat.mul Nat.add]; unfold vec_val; cbn [vx vy];
      rewrite !(nth_indep _ 0 (val (dz 0))) by (vm_compute; lia); rewrite !map_nth; rewrite ?Rmult_1_l, ?Rplus_0_l, <- ?V;
      repeat split; rewrite ?Rminus_0_l, <- ?V; (f_equal; vm_compute; reflexivity).
Qed.
