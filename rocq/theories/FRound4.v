(** Rounding errors of areas and of the orientation test. *)
From Coq Require Import ZArith Reals List Bool Arith Lra Lia QArith Qreals.
From Flocq Require Import Core.
From Verif Require Import Num Float Py Mesh Utils CalcK0 SpecRound FFloat FTree FRound FRound2 FRound3.
Import ListNotations.
Local Open Scope R_scope.

Ltac qn := repeat match goal with
  | |- context [Q2R ?q] => let r := eval cbv in (Qnum q) in let d := eval cbv in (Qden q) in progress change (Q2R q) with (IZR r * / IZR (Zpos d)) end.

Lemma near_abs : forall h rho s delta b x X, near h rho s delta b x X -> near h rho s delta b (Rabs x) (Rabs X).
Proof.
  intros h rho s delta b x X [A [B [C [D E]]]]. do 3 (split; [assumption|]). rewrite Rabs_Rabsolu. split; [exact D|].
  eapply Rle_trans; [|exact E]. apply Rabs_triang_inv2.
Qed.
Lemma nearF_abs : forall h rho s delta b x X, nearF h rho s delta b x X -> nearF h rho s delta b (nabs x) (Rabs X).
Proof. intros h rho s delta b x X [F N]. destruct (fl_abs x F) as [F' V]. split; [exact F'|]. rewrite V. apply near_abs, N. Qed.

Definition sum_tree (n : nat) : expr := fold_left (fun t i => Eadd t (Emul (EV (2 * i)) (EV (2 * i + 1)))) (seq 0 n) (EV 20).

Section Area.
  Variables h rho s kappa : R.
  Hypothesis SL : scales h rho s (kappa * roundoff).
  Hypothesis K1 : 1 <= kappa.
  Hypothesis KX : in64 (kappa * h).
  Let delta := kappa * roundoff.
  Let X := kappa * h.
  Let SLX : scales h 1 X roundoff := SLX h rho s kappa SL KX.
  Notation cl := (cl h kappa).

  Definition xb : fb := Fb (Qmake 1025 1024) 0 0 0 0 1.
  Definition db : fb := Fb (Qmake 3 2) 0 (Qmake 1537 1024) 0 1 0.

  Lemma cl_x : forall c x x', cl c x x' -> (c <= 3)%Q -> nearF h 1 X roundoff xb x (val x).
  Proof.
    intros c x x' [F [B E]] C. split; [exact F|]. apply (near_self _ _ _ _ SLX); unfold xb; cbn [fv frv fd frd]; try lia; [unfold Q2R; cbn; lra|unfold Q2R; cbn; lra|].
    unfold sc; cbn [fh fs powerRZ pow]. replace (Q2R (Qmake 1025 1024)) with (1025 / 1024) by (unfold Q2R; cbn; lra).
    apply Qle_Rle in C. replace (Q2R 3) with 3 in C by (unfold Q2R; cbn; lra).
    assert (HP := h_pos _ _ _ _ SL). assert (DP := d_pos _ _ _ _ SL). assert (DS := small_delta h rho s kappa SL). fold delta in DP, DS.
    assert (DH : 0 < delta * h) by (apply Rmult_lt_0_compat; assumption). assert (DH1 : delta * h <= / 1048576 * h) by (apply Rmult_le_compat_r; lra).
    assert (XH := X_h h rho s kappa SL K1). fold X in XH, B. fold delta in E.
    assert (Q2R c * (delta * h) <= 3 * (delta * h)) by (apply Rmult_le_compat_r; lra).
    apply abs_split in B, E. apply abs_join; lra.
  Qed.
  Lemma cl_d : forall c1 c2 y z y' z', cl c1 y y' -> cl c2 z z' -> (c1 <= 3)%Q -> (c2 <= 3)%Q -> Rabs (y' - z') <= 4 / 3 * h ->
    nearF h 1 X roundoff db (nsub y z) (val y - val z).
  Proof.
    intros c1 c2 y z y' z' [F1 [_ E1]] [F2 [_ E2]] C1 C2 D. fold delta in E1, E2.
    apply Qle_Rle in C1, C2. replace (Q2R 3) with 3 in C1, C2 by (unfold Q2R; cbn; lra).
    assert (HP := h_pos _ _ _ _ SL). assert (DP := d_pos _ _ _ _ SL). assert (DS := small_delta h rho s kappa SL). fold delta in DP, DS.
    assert (DH : 0 < delta * h) by (apply Rmult_lt_0_compat; assumption). assert (DH1 : delta * h <= / 1048576 * h) by (apply Rmult_le_compat_r; lra).
    assert (Q2R c1 * (delta * h) <= 3 * (delta * h)) by (apply Rmult_le_compat_r; lra). assert (Q2R c2 * (delta * h) <= 3 * (delta * h)) by (apply Rmult_le_compat_r; lra).
    assert (B : Rabs (val y - val z) <= 3 / 2 * h) by (apply abs_split in D, E1, E2; apply abs_join; lra).
    destruct (round_near h 1 X roundoff (sl_h _ _ _ _ SLX) (sl_s _ _ _ _ SLX) (sl_rho _ _ _ _ SLX) (sl_delta _ _ _ _ SLX) (sl_small _ _ _ _ SLX)
      (Fb (Qmake 3 2) 0 0 0 1 0) db (Qmake 3 2) (val y - val z) (val y - val z)) as [Z1 Z2]; unfold db; rewrite ?(sc_h h X); cbn [fv frv fd frd fh fs pow]; try reflexivity; try lia.
    - unfold Q2R; cbn; lra.
    - lra.
    - vm_compute rerr. unfold Q2R; cbn; lra.
    - replace (Q2R (Qmake 3 2)) with (3 / 2) by (unfold Q2R; cbn; lra). lra.
    - replace (val y - val z - (val y - val z)) with 0 by ring. rewrite Rabs_R0, RMicromega.Q2R_0. lra.
    - replace (Q2R (Qmake 3 2)) with (3 / 2) by (unfold Q2R; cbn; lra). lra.
    - destruct (fl_sub y z F1 F2 Z1) as [F V]. split; [exact F|]. rewrite V. exact Z2.
  Qed.

  (** the list of factors x, difference, x, difference, ... *)
  Fixpoint facs {T} (l : list (T * T)) : list T := match l with [] => [] | (a, b) :: l' => a :: b :: facs l' end.
  Definition halfabs (S : double) : double := ndiv (nabs S) (nofZ 2).

  Definition lf0 (i : nat) : fb := if Nat.even i then xb else db.
  Definition lf (i : nat) : fb := if Nat.eqb i 20 then Fb 0 0 0 0 1 1 else lf0 i.
  Lemma sum_ok : forall n (l : list (double * double)) (r : list (R * R)), (1 <= n <= 5)%nat -> length l = n ->
    Forall2 (fun p q => nearF h 1 X roundoff xb (fst p) (fst q) /\ nearF h 1 X roundoff db (snd p) (snd q)) l r ->
    let S := evalG L0F (fun i => nth i (facs l) (nofZ 0)) (sum_tree n) in
    let S' := evalG L0R (fun i => nth i (facs r) 0) (sum_tree n) in
    finite (halfabs S) /\ Rabs (val (halfabs S) - Rabs S' / 2) <= 24 * (delta * (h * h)).
  Proof.
    intros n l r N Ln F2 S S'.
    assert (Z0 : forall b, 0 <= Q2R (fv b) -> 0 <= Q2R (fd b) -> frv b = frd b -> nearF h 1 X roundoff b (nofZ 0) 0).
    { intros b B1 B2 B3. destruct (fl_ofZ 0 ltac:(lia)) as [F V]. split; [exact F|]. rewrite V. apply (near_self _ _ _ _ SLX); try assumption; try lia.
      rewrite Rabs_R0. apply Rmult_le_pos; [apply Rmult_le_pos; [exact B1|apply pow_le; lra]|left; apply (sc_pos h X (sl_h _ _ _ _ SLX) (sl_s _ _ _ _ SLX))]. }
    assert (Zx : nearF h 1 X roundoff xb (nofZ 0) 0) by (apply Z0; try reflexivity; unfold xb, Q2R; cbn; lra).
    assert (Zd : nearF h 1 X roundoff db (nofZ 0) 0) by (apply Z0; try reflexivity; unfold db, Q2R; cbn; lra).
    assert (LR : length (facs l) = (2 * n)%nat /\ length (facs r) = (2 * n)%nat).
    { rewrite <- Ln. clear -F2. induction F2 as [|[a b] [a' b'] l r _ F2 [IH1 IH2]]; [auto|]. cbn [facs length]. rewrite IH1, IH2. lia. }
    assert (HV0 : forall i, nearF h 1 X roundoff (lf0 i) (nth i (facs l) (nofZ 0)) (nth i (facs r) 0)).
    { clear S S' N Ln LR. induction F2 as [|[a b] [a' b'] l r [H1 H2] F2 IH]; intros i.
      - destruct i; cbn [facs nth]; unfold lf0; destruct (Nat.even _); assumption.
      - cbn [facs]. destruct i as [|[|i]]; [exact H1|exact H2|]. cbn [nth]. change (lf0 (Datatypes.S (Datatypes.S i))) with (lf0 i). apply IH. }
    assert (HV : forall i, nearF h 1 X roundoff (lf i) (nth i (facs l) (nofZ 0)) (nth i (facs r) 0)).
    { intros i. unfold lf. destruct (Nat.eqb_spec i 20) as [->|_]; [|apply HV0].
      rewrite !nth_overflow by lia. apply Z0; try reflexivity; cbn; rewrite RMicromega.Q2R_0; lra. }
    assert (NS : nearF h 1 X roundoff (Fb (Qmake 31 4) 0 38 0 1 1) S S').
    { apply (within_ok h 1 X roundoff SLX lf noinv); [exact HV|apply noinv_ok|].
      destruct n as [|[|[|[|[|[|n]]]]]]; try lia; vm_compute; reflexivity. }
    assert (NA := nearF_abs _ _ _ _ _ _ _ NS).
    assert (ND := within_ok h 1 X roundoff SLX (fun _ => Fb (Qmake 31 4) 0 38 0 1 1) noinv (fun _ => nabs S) (fun _ => Rabs S') (fun _ => NA) (noinv_ok _ _ _ _ _ _)
      (Ediv (EV 0) (EZ 2)) (Fb 4 0 24 0 1 1) ltac:(vm_compute; reflexivity)).
    destruct ND as [F [_ [_ [_ [_ E]]]]]. cbn [evalG] in F, E. split; [exact F|]. eapply Rle_trans; [exact E|].
    unfold sc; cbn [fd frd fh fs pow]. rewrite powerRZ_1. replace (Q2R 24) with 24 by (unfold Q2R; cbn; lra).
    assert (U := uX h kappa). unfold delta, X in *. right. replace (roundoff * 24 * 1 * (h * (kappa * h * 1))) with (24 * h * (roundoff * (kappa * h))) by ring. rewrite U. ring.
  Qed.

  (** points: nodes are exact, centroids have an error *)
  Definition clv (c : Q) (p : vec3 double) (p' : vec3 R) : Prop := cl c (vx p) (vx p') /\ cl c (vy p) (vy p') /\ cl c (vz p) (vz p').
  Definition exact (p : vec3 double) (p' : vec3 R) : Prop := clv 0 p p' /\ val (vx p) = vx p' /\ val (vy p) = vy p'.
  Definition apart (v : R) (p q : vec3 R) : Prop := Rabs (vx p - vx q) <= v /\ Rabs (vy p - vy q) <= v.

  Lemma apart_sym : forall v p q, apart v p q -> apart v q p.
  Proof. intros v p q [A B]. unfold apart. rewrite (Rabs_minus_sym (vx q)), (Rabs_minus_sym (vy q)). auto. Qed.
  Lemma apart_le : forall v w p q, apart v p q -> v <= w -> apart w p q.
  Proof. intros v w p q [A B] L. split; lra. Qed.
  Lemma apart_self : forall v p, 0 <= v -> apart v p p.
  Proof. intros v p V. unfold apart, Rminus. rewrite !Rplus_opp_r, Rabs_R0. auto. Qed.

  Lemma half_pert : forall x S S', Rabs (x - Rabs S / 2) <= 24 * (delta * (h * h)) -> Rabs (S - S') <= 12 * (delta * (h * h)) ->
    Rabs (x - Rabs S' / 2) <= 30 * (delta * (h * h)).
  Proof.
    intros x S S' A B. replace (x - Rabs S' / 2) with ((x - Rabs S / 2) + (Rabs S - Rabs S') / 2) by field. eapply Rle_trans; [apply Rabs_triang|].
    assert (T := Rabs_triang_inv2 S S'). unfold Rdiv at 2. rewrite Rabs_mult, (Rabs_right (/ 2)) by lra. lra.
  Qed.
  Lemma det_pert : forall a b e f, Rabs a <= h -> Rabs b <= h -> Rabs e <= 6 * (delta * h) -> Rabs f <= 6 * (delta * h) -> Rabs (a * e - b * f) <= 12 * (delta * (h * h)).
  Proof.
    intros a b e f A B E F. unfold Rminus. eapply Rle_trans; [apply Rabs_triang|]. rewrite Rabs_Ropp, !Rabs_mult.
    assert (Rabs a * Rabs e <= h * (6 * (delta * h))) by (apply Rmult_le_compat; try apply Rabs_pos; assumption).
    assert (Rabs b * Rabs f <= h * (6 * (delta * h))) by (apply Rmult_le_compat; try apply Rabs_pos; assumption). lra.
  Qed.

  Ltac leafs := repeat first [ apply Forall2_nil | apply Forall2_cons; [split; cbn [fst snd]|] ].

  Section Pts.
    Variables (p1 m1 p2 m2 : vec3 double) (P1 M1 P2 M2 : vec3 R).
    Hypothesis E1 : exact p1 P1.
    Hypothesis E2 : exact p2 P2.
    Hypothesis C1 : clv 3 m1 M1.
    Hypothesis C2 : clv 3 m2 M2.
    Hypothesis A12 : apart h P1 P2.
    Hypothesis A11 : apart h P1 M1.
    Hypothesis A21 : apart h P2 M1.
    Hypothesis A1_ : apart h P1 M2.
    Hypothesis A2_ : apart h P2 M2.
    Hypothesis AM : apart (4 / 3 * h) M1 M2.

    Lemma err3 : forall c x x', cl c x x' -> (c <= 3)%Q -> Rabs (val x - x') <= 3 * (delta * h).
    Proof.
      intros c x x' [_ [_ E]] C. eapply Rle_trans; [exact E|]. apply Qle_Rle in C. replace (Q2R 3) with 3 in C by (unfold Q2R; cbn; lra).
      assert (HP := h_pos _ _ _ _ SL). assert (DP := d_pos _ _ _ _ SL). apply Rmult_le_compat_r; [left; apply Rmult_lt_0_compat|]; assumption.
    Qed.

    Ltac d1 := match goal with
      | |- nearF _ _ _ _ xb _ _ => eapply cl_x; [first [apply (proj1 E1) | apply (proj1 E2) | apply C1 | apply C2]|unfold Qle; cbn; lia]
      | |- nearF _ _ _ _ db (nsub ?a ?b) _ => eapply cl_d; [first [apply (proj1 E1) | apply (proj1 E2) | apply C1 | apply C2]|first [apply (proj1 E1) | apply (proj1 E2) | apply C1 | apply C2]|unfold Qle; cbn; lia|unfold Qle; cbn; lia|]
      end.
    Ltac d2 := assert (HP := h_pos _ _ _ _ SL);
      first [ eapply Rle_trans; [first [apply A12|apply A11|apply A21|apply A1_|apply A2_|apply AM]|lra]
            | rewrite Rabs_minus_sym; eapply Rle_trans; [first [apply A12|apply A11|apply A21|apply A1_|apply A2_|apply AM]|lra]
            | unfold Rminus; rewrite Rplus_opp_r, Rabs_R0; lra ].

    (** domain of an edge with two triangles *)
    Lemma area5 : exists a A, area_of_points [p1; m1; p2; m2; p1] = Ok a /\ area_of_points [P1; M1; P2; M2; P1] = Ok A /\
      finite a /\ Rabs (val a - A) <= 30 * (delta * (h * h)).
    Proof.
      set (l := [(vx p1, nsub (vy p1) (vy m2)); (vx p1, nsub (vy m1) (vy p1)); (vx m1, nsub (vy p2) (vy p1)); (vx p2, nsub (vy m2) (vy m1)); (vx m2, nsub (vy p1) (vy p2))]).
      set (r := [(val (vx p1), val (vy p1) - val (vy m2)); (val (vx p1), val (vy m1) - val (vy p1)); (val (vx m1), val (vy p2) - val (vy p1)); (val (vx p2), val (vy m2) - val (vy m1)); (val (vx m2), val (vy p1) - val (vy p2))]).
      destruct (sum_ok 5 l r ltac:(lia) eq_refl) as [F E]. { unfold l, r. leafs; d1; d2. }
      exists (halfabs (evalG L0F (fun i => nth i (facs l) (nofZ 0)) (sum_tree 5))). eexists. split; [reflexivity|]. split; [reflexivity|]. split; [exact F|].
      apply (half_pert _ _ _ E).
      destruct E1 as [_ [X1 Y1]]. destruct E2 as [_ [X2 Y2]].
      assert (Ex1 := err3 _ _ _ (proj1 C1) ltac:(unfold Qle; cbn; lia)). assert (Ey1 := err3 _ _ _ (proj1 (proj2 C1)) ltac:(unfold Qle; cbn; lia)).
      assert (Ex2 := err3 _ _ _ (proj1 C2) ltac:(unfold Qle; cbn; lia)). assert (Ey2 := err3 _ _ _ (proj1 (proj2 C2)) ltac:(unfold Qle; cbn; lia)).
      apply abs_split in Ex1, Ey1, Ex2, Ey2.
      match goal with |- Rabs ?e <= _ => replace e with ((vx P1 - vx P2) * ((val (vy m1) - vy M1) - (val (vy m2) - vy M2)) - (vy P1 - vy P2) * ((val (vx m1) - vx M1) - (val (vx m2) - vx M2))) end.
      - apply det_pert; [apply A12|apply A12|apply abs_join; lra|apply abs_join; lra].
      - unfold l, r, sum_tree. cbn [seq fold_left evalG facs nth Nat.mul Nat.add map vx vy]. rnum. rewrite X1, Y1, X2, Y2. ring.
    Qed.
    Lemma area4 : exists a A, area_of_points [p1; m1; p2; p1] = Ok a /\ area_of_points [P1; M1; P2; P1] = Ok A /\
      finite a /\ Rabs (val a - A) <= 30 * (delta * (h * h)).
    Proof.
      set (l := [(vx p1, nsub (vy p1) (vy p2)); (vx p1, nsub (vy m1) (vy p1)); (vx m1, nsub (vy p2) (vy p1)); (vx p2, nsub (vy p1) (vy m1))]).
      set (r := [(val (vx p1), val (vy p1) - val (vy p2)); (val (vx p1), val (vy m1) - val (vy p1)); (val (vx m1), val (vy p2) - val (vy p1)); (val (vx p2), val (vy p1) - val (vy m1))]).
      destruct (sum_ok 4 l r ltac:(lia) eq_refl) as [F E]. { unfold l, r. leafs; d1; d2. }
      exists (halfabs (evalG L0F (fun i => nth i (facs l) (nofZ 0)) (sum_tree 4))). eexists. split; [reflexivity|]. split; [reflexivity|]. split; [exact F|].
      apply (half_pert _ _ _ E).
      destruct E1 as [_ [X1 Y1]]. destruct E2 as [_ [X2 Y2]].
      assert (Ex1 := err3 _ _ _ (proj1 C1) ltac:(unfold Qle; cbn; lia)). assert (Ey1 := err3 _ _ _ (proj1 (proj2 C1)) ltac:(unfold Qle; cbn; lia)).
      assert (HP := h_pos _ _ _ _ SL). assert (DP := d_pos _ _ _ _ SL). fold delta in DP. assert (DH : 0 < delta * h) by (apply Rmult_lt_0_compat; assumption).
      match goal with |- Rabs ?e <= _ => replace e with ((vx P1 - vx P2) * (val (vy m1) - vy M1) - (vy P1 - vy P2) * (val (vx m1) - vx M1)) end.
      - apply det_pert; [apply A12|apply A12|lra|lra].
      - unfold l, r, sum_tree. cbn [seq fold_left evalG facs nth Nat.mul Nat.add map vx vy]. rnum. rewrite X1, Y1, X2, Y2. ring.
    Qed.
    Lemma area3 : exists a A, area_of_points [m1; p2; p1] = Ok a /\ area_of_points [M1; P2; P1] = Ok A /\
      finite a /\ Rabs (val a - A) <= 30 * (delta * (h * h)).
    Proof.
      set (l := [(vx p1, nsub (vy m1) (vy p2)); (vx m1, nsub (vy p2) (vy p1)); (vx p2, nsub (vy p1) (vy m1))]).
      set (r := [(val (vx p1), val (vy m1) - val (vy p2)); (val (vx m1), val (vy p2) - val (vy p1)); (val (vx p2), val (vy p1) - val (vy m1))]).
      destruct (sum_ok 3 l r ltac:(lia) eq_refl) as [F E]. { unfold l, r. leafs; d1; d2. }
      exists (halfabs (evalG L0F (fun i => nth i (facs l) (nofZ 0)) (sum_tree 3))). eexists. split; [reflexivity|]. split; [reflexivity|]. split; [exact F|].
      apply (half_pert _ _ _ E).
      destruct E1 as [_ [X1 Y1]]. destruct E2 as [_ [X2 Y2]].
      assert (Ex1 := err3 _ _ _ (proj1 C1) ltac:(unfold Qle; cbn; lia)). assert (Ey1 := err3 _ _ _ (proj1 (proj2 C1)) ltac:(unfold Qle; cbn; lia)).
      assert (HP := h_pos _ _ _ _ SL). assert (DP := d_pos _ _ _ _ SL). fold delta in DP. assert (DH : 0 < delta * h) by (apply Rmult_lt_0_compat; assumption).
      match goal with |- Rabs ?e <= _ => replace e with ((vx P1 - vx P2) * (val (vy m1) - vy M1) - (vy P1 - vy P2) * (val (vx m1) - vx M1)) end.
      - apply det_pert; [apply A12|apply A12|lra|lra].
      - unfold l, r, sum_tree. cbn [seq fold_left evalG facs nth Nat.mul Nat.add map vx vy]. rnum. rewrite X1, Y1, X2, Y2. ring.
    Qed.
  End Pts.
End Area.
