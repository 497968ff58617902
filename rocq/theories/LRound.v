(** Lemmas behind the property on the rounding errors of calc_k0 (C81). *)
(* P: Num Float Py Mesh Utils CalcK0 Spec SpecK0 SpecRound ExFloat *)
From Coq Require Import ZArith Reals List Bool Arith Lra Lia.
From Verif Require Import Num Float Py Mesh Utils CalcK0 Spec SpecK0 SpecRound FSum FMat FDict FWf FOut FSetup FAsm FK0 FRound2 FRound3 FRound8 FRound9 FRound12 FRound13 LK0 ExFloat ExK0.
Import ListNotations.
Local Open Scope R_scope.

Lemma index_nth : forall l, NoDup l -> forall i, (i < length l)%nat -> index_in (nth i l 0%nat) l = i.
Proof.
  intros l N. induction N as [|a l NI N IH]; intros i H; [cbn in H; lia|]. destruct i as [|i]; cbn [nth index_in].
  - rewrite Nat.eqb_refl. reflexivity.
  - cbn in H. destruct (Nat.eqb_spec (nth i l 0%nat) a) as [E|E]; [exfalso; apply NI; rewrite <- E; apply nth_In; lia|]. rewrite IH by lia. reflexivity.
Qed.
Lemma row_node : forall T (m : mesh T) i, NoDup (node_keys m) -> (i < length (nodes m) * 5)%nat ->
  In (node_at m i) (node_keys m) /\ (i mod 5 < 5)%nat /\ (rank m (node_at m i) * 5 + i mod 5)%nat = i.
Proof.
  intros T m i N H. assert (L : length (node_keys m) = length (nodes m)) by apply map_length.
  assert (D : (i / 5 < length (node_keys m))%nat) by (rewrite L; apply Nat.div_lt_upper_bound; lia).
  split; [apply nth_In, D|]. split; [apply Nat.mod_upper_bound; lia|]. unfold rank, node_at. rewrite index_nth by assumption.
  assert (X := Nat.div_mod i 5). lia.
Qed.

Lemma shared_comm : forall T (m : mesh T) a b, shared m a b = shared m b a.
Proof. intros T m a b. unfold shared. f_equal. apply filter_ext. intros k. apply andb_comm. Qed.

Lemma Sum_abs_le : forall A (f g : A -> R) l, (forall a, In a l -> Rabs (f a) <= g a) -> Rabs (Sum f l) <= Sum g l.
Proof.
  intros A f g l H. induction l as [|a l IH]; [rewrite !Sum_nil, Rabs_R0; lra|]. rewrite !Sum_cons. eapply Rle_trans; [apply Rabs_triang|].
  apply Rplus_le_compat; [apply H; left; reflexivity|apply IH; intros b Hb; apply H; right; exact Hb].
Qed.

(** ** C81 *)

(** calc_k0 in doubles, compared with calc_k0 in exact arithmetic on the plate with the same coordinates and stiffnesses: both
    return a matrix, the entries in doubles are finite, and entry (i, j) differs by at most 2^20 c^2 kappa 2^-53 rho^3 s, where c is
    the number of edges whose domain has the nodes of row i and column j. In particular both are zero if there is no such edge. *)
Lemma c81_error : forall (m : mesh double) pfn h rho kappa s, valid (mesh_val m) pfn -> k0_scale m h rho kappa s ->
  exists m' K M' KR, calc_k0 m pfn = (m', Ok K) /\ calc_k0 (mesh_val m) pfn = (M', Ok KR) /\
    mdim K = (List.length (nodes m) * 5)%nat /\ mdim KR = (List.length (nodes m) * 5)%nat /\
    forall i j, (i < List.length (nodes m) * 5)%nat -> (j < List.length (nodes m) * 5)%nat ->
      finite (mentry K i j) /\ Rabs (val (mentry K i j) - mentry KR i j) <= k0_bound m rho kappa s i j.
Proof.
  intros m pfn h rho kappa s [W P PC N] KS.
  assert (NN : nodes m <> []) by (intros E; apply N; unfold mesh_val; cbn [nodes]; rewrite E; reflexivity).
  destruct (calc_lock m h rho s kappa pfn KS W P PC NN) as [K [KR [E1 [E2 H]]]].
  destruct (calc_k0 m pfn) as [m' r] eqn:C1. destruct (calc_k0 (mesh_val m) pfn) as [M' r'] eqn:C2. cbn [snd] in E1, E2. subst r r'.
  exists m', K, M', KR. split; [reflexivity|]. split; [reflexivity|].
  destruct (c18_numbering _ _ _ _ _ _ C1) as [_ [_ D1]]. destruct (c18_numbering _ _ _ _ _ _ C2) as [_ [_ D2]].
  split; [exact D1|]. split; [rewrite D2; unfold mesh_val; cbn [nodes]; rewrite map_length; reflexivity|].
  intros i j Hi Hj. assert (ND := wf_nodes m (wf_val m W)).
  destruct (row_node _ m i ND Hi) as [I1 [I2 I3]]. destruct (row_node _ m j ND Hj) as [J1 [J2 J3]].
  destruct (H _ _ _ _ I1 J1 I2 J2) as [F [_ B]]. rewrite I3, J3 in F, B. split; [exact F|]. eapply Rle_trans; [exact B|].
  unfold k0_bound, err. set (c := INR _). assert (SL := SL m h rho s kappa KS). destruct (consts h rho s kappa SL) as [SP [R1 [DP [DL [BP [EP _]]]]]].
  assert (Q : 0 <= c * c * err rho s kappa) by (apply Rmult_le_pos; [apply Rle_0_sqr|lra]). unfold err in Q. cbn [pow]. lra.
Qed.

(** The matrix in doubles is symmetric up to twice that bound (exact symmetry is refuted, C72). *)
Lemma c81_symmetric : forall (m : mesh double) pfn h rho kappa s, valid (mesh_val m) pfn -> k0_scale m h rho kappa s ->
  exists m' K, calc_k0 m pfn = (m', Ok K) /\ forall i j, (i < mdim K)%nat -> (j < mdim K)%nat ->
    Rabs (val (mentry K i j) - val (mentry K j i)) <= 2 * k0_bound m rho kappa s i j.
Proof.
  intros m pfn h rho kappa s V KS. destruct (c81_error m pfn h rho kappa s V KS) as [m' [K [M' [KR [C1 [C2 [D1 [D2 H]]]]]]]].
  exists m', K. split; [exact C1|]. rewrite D1. intros i j Hi Hj. destruct (H i j Hi Hj) as [_ A]. destruct (H j i Hj Hi) as [_ B].
  assert (S : mentry KR i j = mentry KR j i).
  { destruct (c16_tiling _ _ V) as [M2 [K2 [E [Hp _]]]]. rewrite C2 in E. injection E as <- <-.
    assert (SY : symmetric KR).
    { apply (c20_symmetric _ _ _ _ C2). intros k e He. destruct (Hp k e He) as [A0 [-> [P0 _]]]. intros X; injection X as X. lra. }
    apply SY; rewrite D2; assumption. }
  replace (k0_bound m rho kappa s j i) with (k0_bound m rho kappa s i j) in B by (unfold k0_bound; rewrite shared_comm; reflexivity).
  rewrite S in A. apply abs_split in A, B. apply abs_join; lra.
Qed.

(** The energies of the matrix in doubles are those of exact arithmetic up to rounding errors. *)
Lemma c81_energy : forall (m : mesh double) pfn h rho kappa s, valid (mesh_val m) pfn -> k0_scale m h rho kappa s ->
  exists m' K, calc_k0 m pfn = (m', Ok K) /\ forall u v,
    Rabs (form (matrix_val K) u v - k0_energy (mesh_val m) pfn u v)
    <= Sum (fun i => Sum (fun j => Rabs (u i) * k0_bound m rho kappa s i j * Rabs (v j)) (seq 0 (mdim K))) (seq 0 (mdim K)).
Proof.
  intros m pfn h rho kappa s V KS. destruct (c81_error m pfn h rho kappa s V KS) as [m' [K [M' [KR [C1 [C2 [D1 [D2 H]]]]]]]].
  exists m', K. split; [exact C1|]. intros u v.
  destruct (valid_spec _ _ V) as [M2 [K2 [E [_ [F _]]]]]. rewrite C2 in E. injection E as <- <-. rewrite <- F. unfold form. rewrite D2, <- D1. cbn [matrix_val mdim mentry].
  set (l := seq 0 (mdim K)).
  replace (Sum (fun i => Sum (fun j => u i * val (mentry K i j) * v j) l) l - Sum (fun i => Sum (fun j => u i * mentry KR i j * v j) l) l)
    with (Sum (fun i => Sum (fun j => u i * (val (mentry K i j) - mentry KR i j) * v j) l) l).
  - apply Sum_abs_le. intros i Hi. apply Sum_abs_le. intros j Hj. apply in_seq in Hi, Hj. destruct (H i j) as [_ B]; [lia|lia|].
    rewrite !Rabs_mult. apply Rmult_le_compat_r; [apply Rabs_pos|]. apply Rmult_le_compat_l; [apply Rabs_pos|exact B].
  - unfold Rminus at 2. rewrite <- (Rmult_1_l (Sum (fun i => Sum (fun j => u i * mentry KR i j * v j) l) l)), Ropp_mult_distr_l, <- Sum_scal, <- Sum_plus.
    apply Sum_ext. intros i. rewrite <- Sum_scal, <- Sum_plus. apply Sum_ext. intros j. ring.
Qed.

(** A rigid motion is free of nodal forces up to rounding errors. *)
Lemma c81_rigid : forall (m : mesh double) pfn h rho kappa s, valid (mesh_val m) pfn -> k0_scale m h rho kappa s ->
  exists m' K, calc_k0 m pfn = (m', Ok K) /\ forall u, rigid (mesh_val m) u -> forall i, (i < mdim K)%nat ->
    Rabs (mulv (matrix_val K) u i) <= Sum (fun j => k0_bound m rho kappa s i j * Rabs (u j)) (seq 0 (mdim K)).
Proof.
  intros m pfn h rho kappa s V KS. destruct (c81_error m pfn h rho kappa s V KS) as [m' [K [M' [KR [C1 [C2 [D1 [D2 H]]]]]]]].
  exists m', K. split; [exact C1|]. intros u Ru i Hi.
  destruct (c22_rigid _ _ V) as [M2 [K2 [E Z]]]. rewrite C2 in E. injection E as <- <-. specialize (Z u Ru i). rewrite D2, <- D1 in Z. specialize (Z Hi).
  rewrite <- (Rminus_0_r (mulv _ u i)), <- Z. unfold mulv. rewrite D2, <- D1. cbn [matrix_val mdim mentry]. set (l := seq 0 (mdim K)).
  replace (Sum (fun j => val (mentry K i j) * u j) l - Sum (fun j => mentry KR i j * u j) l) with (Sum (fun j => (val (mentry K i j) - mentry KR i j) * u j) l).
  - apply Sum_abs_le. intros j Hj. apply in_seq in Hj. destruct (H i j) as [_ B]; [lia|lia|]. rewrite Rabs_mult. apply Rmult_le_compat_r; [apply Rabs_pos|exact B].
  - unfold Rminus at 2. rewrite <- (Rmult_1_l (Sum (fun j => mentry KR i j * u j) l)), Ropp_mult_distr_l, <- Sum_scal, <- Sum_plus. apply Sum_ext. intros j. ring.
Qed.

(** A plate of two triangles whose coordinates are no exact doubles (1/7, 37/9, ...), with stiffnesses of up to 60. *)
Lemma c81_error_ex : forall pfn, valid (mesh_val fwarped) pfn /\ k0_scale fwarped 4 4 2 64 /\ k0_bound fwarped 4 2 64 0 0 <= / 40000.
Proof.
  intros pfn. split; [apply w_valid|]. split; [exact w_scale|]. unfold k0_bound.
  assert (E : shared fwarped (node_at fwarped 0) (node_at fwarped 0) = 5%nat) by (vm_compute; reflexivity). rewrite E. unfold roundoff. cbn [INR pow]. lra.
Qed.

(** On this plate, a rotation in the plane by 2 with the translation (2, -2). *)
Lemma c81_rigid_ex : forall pfn, valid (mesh_val fwarped) pfn /\ k0_scale fwarped 4 4 2 64 /\
  rigid (mesh_val fwarped) (field (mesh_val fwarped) (fun c n => match c with
    | 0%nat => 2 - 2 * vy (pos (mesh_val fwarped) n) | 1%nat => -2 + 2 * vx (pos (mesh_val fwarped) n) | _ => 7 end)).
Proof.
  intros pfn. split; [apply w_valid|]. split; [exact w_scale|]. exists 2, (-2), 2, 7, 7. intros n Hn. rewrite !field_comp by (try lia; assumption). repeat split.
Qed.
