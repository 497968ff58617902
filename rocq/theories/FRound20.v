(** The contributions of a triangle of given vertices, in doubles and in reals. *)
From Coq Require Import ZArith Reals List Bool Arith Lra Lia QArith Qreals.
From Flocq Require Import Core.
From Verif Require Import Num Float Py Mesh Utils CalcK0 AddK0s Spec SpecRound SpecRound2 FGeom FMat FWf FSetup FFloat FTree FRound FRound2 FRound3 FRound4 FRound5 FRound6 FRound8 FRound9 FRound10 FRound11 FRound14 FRound15 FRound16 FRound17 FRound18 FRound19.
Import ListNotations.
Local Open Scope R_scope.

(** cell_tria and cellns_tria, without the choice of the nodes, the area and the length *)
Definition cell_rest {T} {N : Num T} (L : lits T) (pfn : bool) (alpha : T) (t : tria T) (mid : vec3 T) (Ac maxl : T) (n1 n2 n3 : node T) : res (list (Z * Z * T)) :=
  let! Ac1 := area_of_points [mid; nxyz n1; nxyz n2] in
  let! Ac2 := area_of_points [mid; nxyz n2; nxyz n3] in
  let! Ac3 := area_of_points [mid; nxyz n3; nxyz n1] in
  let! s := tria_shear pfn t n1 n2 n3 in
  let '(E44, E45, E55) := shear_stiffness s alpha maxl in
  let! i1 := node_index n1 in
  let! i2 := node_index n2 in
  let! i3 := node_index n3 in
  Ok (cell_at L i1 i2 i3 (fun i => nth i [Ac; Ac1; Ac2; Ac3; E44; E45; E55;
    nsub (vx (nxyz n1)) (vx mid); nsub (vy (nxyz n1)) (vy mid); nsub (vx (nxyz n2)) (vx mid); nsub (vy (nxyz n2)) (vy mid);
    nsub (vx (nxyz n2)) (vx mid); nsub (vy (nxyz n2)) (vy mid); nsub (vx (nxyz n3)) (vx mid); nsub (vy (nxyz n3)) (vy mid);
    nsub (vx (nxyz n3)) (vx mid); nsub (vy (nxyz n3)) (vy mid); nsub (vx (nxyz n1)) (vx mid); nsub (vy (nxyz n1)) (vy mid)] (nofZ 0))).
Definition cellns_rest {T} {N : Num T} (pfn : bool) (alpha : T) (t : tria T) (Ac maxl : T) (n1 n2 n3 : node T) : res (list (Z * Z * T)) :=
  let! s := tria_shear pfn t n1 n2 n3 in
  let '(E44, E45, E55) := shear_stiffness s alpha maxl in
  let! i1 := node_index n1 in
  let! i2 := node_index n2 in
  let! i3 := node_index n3 in
  Ok (cellns_at i1 i2 i3 (fun i => nth i [Ac; E44; E45; E55;
    nsub (vx (nxyz n2)) (vx (nxyz n1)); nsub (vy (nxyz n2)) (vy (nxyz n1)); nsub (vx (nxyz n3)) (vx (nxyz n1)); nsub (vy (nxyz n3)) (vy (nxyz n1))] (nofZ 0))).

Lemma bind_ok : forall A B (x : res A) (f : A -> res B) y, x = Ok y -> bind x f = f y.
Proof. intros A B x f y ->. reflexivity. Qed.

Lemma cell_tria_rest : forall T (N : Num T) (L : lits T) m pfn alpha mfa t d1 d2 d3 mid x1 x2 x3 Ac maxl us, get_node m (tn1 t) = Ok d1 -> get_node m (tn2 t) = Ok d2 -> get_node m (tn3 t) = Ok d3 ->
  getMid m t = Ok mid -> orient_cell mid d1 d2 d3 = (x1, x2, x3) -> get_area m t = Ok Ac -> maxl_tria m t Ac mfa = Ok maxl ->
  cell_rest L pfn alpha t mid Ac maxl x1 x2 x3 = Ok us -> cell_tria L m pfn alpha mfa t = Ok us.
Proof.
  intros T N L m pfn alpha mfa t d1 d2 d3 mid x1 x2 x3 Ac maxl us G1 G2 G3 GM GO GA GL R. unfold cell_tria. rewrite G1, G2, G3. cbn [bind]. rewrite GM. cbn [bind]. rewrite GO, GA. cbn [bind].
  unfold cell_rest in R. destruct (area_of_points [mid; nxyz x1; nxyz x2]); [|discriminate]. cbn [bind] in *. destruct (area_of_points [mid; nxyz x2; nxyz x3]); [|discriminate]. cbn [bind] in *.
  destruct (area_of_points [mid; nxyz x3; nxyz x1]); [|discriminate]. cbn [bind] in *. destruct (tria_shear pfn t x1 x2 x3); [|discriminate]. cbn [bind] in *. rewrite GL. cbn [bind]. exact R.
Qed.
Lemma cellns_tria_rest : forall T (N : Num T) m pfn alpha mfa t d1 d2 d3 x1 x2 x3 Ac maxl us, get_node m (tn1 t) = Ok d1 -> get_node m (tn2 t) = Ok d2 -> get_node m (tn3 t) = Ok d3 ->
  orient_cellns d1 d2 d3 = (x1, x2, x3) -> get_area m t = Ok Ac -> maxl_tria m t Ac mfa = Ok maxl ->
  cellns_rest pfn alpha t Ac maxl x1 x2 x3 = Ok us -> cellns_tria m pfn alpha mfa t = Ok us.
Proof.
  intros T N m pfn alpha mfa t d1 d2 d3 x1 x2 x3 Ac maxl us G1 G2 G3 GO GA GL R. unfold cellns_tria. rewrite G1, G2, G3. cbn [bind]. rewrite GO, GA. cbn [bind].
  unfold cellns_rest in R. destruct (tria_shear pfn t x1 x2 x3); [|discriminate]. cbn [bind] in *. rewrite GL. cbn [bind]. exact R.
Qed.

Section Local.
  Variables h rho s kappa : R.
  Hypothesis SL : scales h rho s (kappa * roundoff).
  Hypothesis K1 : 1 <= kappa.
  Hypothesis KX : in64 (kappa * h).
  Let delta := kappa * roundoff.
  Let eps := delta * rho.
  Variable alpha : double.
  Hypothesis FA : finite alpha.
  Hypothesis VA : val alpha = 0 \/ in64 (val alpha).
  Variables (pfn : bool) (t : tria double) (n1 n2 n3 : node double) (mid : vec3 double) (M : vec3 R).
  Notation P1 := (vec_val (nxyz n1)).
  Notation P2 := (vec_val (nxyz n2)).
  Notation P3 := (vec_val (nxyz n3)).
  Hypothesis HN : pfn = true -> forall n, In n [n1; n2; n3] -> exists p, nprop n = Some p /\ prop_fine s p.
  Hypothesis HT : pfn = false -> exists p, tprop t = Some p /\ prop_fine s p.
  Hypothesis X1 : exact h kappa (nxyz n1) P1.
  Hypothesis X2 : exact h kappa (nxyz n2) P2.
  Hypothesis X3 : exact h kappa (nxyz n3) P3.
  Hypothesis TR : tri h rho P1 P2 P3 M.
  Hypothesis CM : clv h kappa 3 mid M.
  Variables (r1 r2 r3 nn : nat).
  Hypothesis I1 : nindex n1 = Some r1.
  Hypothesis I2 : nindex n2 = Some r2.
  Hypothesis I3 : nindex n3 = Some r3.
  Hypothesis NR : (r1 < nn /\ r2 < nn /\ r3 < nn)%nat.
  Variables (ac : double) (A : R) (l : double) (L : R).
  Hypothesis FAc : finite ac.
  Hypothesis EAc : Rabs (val ac - A) <= 30 * (delta * (h * h)).
  Hypothesis VAc : A = Rabs (det2 P1 P2 P3) / 2.
  Hypothesis UAc : A <= h * h.
  Hypothesis RL : rel eps 32 l L.
  Hypothesis GL : rng (-84) 66 L.

  Lemma garb_near : nearF h rho s delta garb ac A.
  Proof.
    split; [exact FAc|]. assert (0 <= A) by (rewrite VAc; assert (X := Rabs_pos (det2 P1 P2 P3)); lra). unfold near, sc, garb; cbn [fv frv fd frd fh fs pow].
    change (powerRZ h 2) with (h * (h * 1)). change (powerRZ s 0) with 1. rewrite Q2R_1. replace (Q2R 30) with 30 by (unfold Q2R; cbn; lra).
    split; [lia|]. split; [lra|]. split; [lra|]. rewrite (Rabs_right A) by lra. split; lra.
  Qed.
  Lemma fatA : h * h <= 3 * rho * A.
  Proof.
    rewrite VAc. assert (F := tr_fat _ _ _ _ _ _ TR). assert (HH := Rle_0_sqr h). unfold Rsqr in HH. lra.
  Qed.
  Lemma sub_area : forall p q P Q, exact h kappa p P -> exact h kappa q Q -> apart h Q P -> apart h Q M -> apart h P M -> Rabs (det2 M P Q) = A * 2 / 3 ->
    exists a, area_of_points [mid; p; q] = Ok a /\ area_of_points [M; P; Q] = Ok (A / 3) /\ nearF h rho s delta garb3 a (A / 3) /\ val a <> 0 /\ near h rho s delta iacb (/ val a) (/ (A / 3)).
  Proof.
    intros p q P Q EP EQ AQP AQM APM D. destruct (FRound4.area3 h rho s kappa SL K1 KX q mid p Q M P EQ EP CM AQP AQM APM) as [a [A' [G1 [G2 [F E]]]]].
    rewrite FGeom.area3 in G2. injection G2 as <-. rewrite D in E. replace (A * 2 / 3 / 2) with (A / 3) in E by field.
    exists a. split; [exact G1|]. split; [rewrite FGeom.area3, D; f_equal; field|].
    assert (PA : 0 <= A) by (rewrite VAc; assert (X := Rabs_pos (det2 P1 P2 P3)); lra).
    split; [apply area3_near; [exact F|exact E|lra]|]. apply (area_inv h rho s kappa SL a (A / 3) E). rewrite VAc. assert (Z := tr_fat _ _ _ _ _ _ TR). lra.
  Qed.
  Lemma det_m : Rabs (det2 M P1 P2) = A * 2 / 3 /\ Rabs (det2 M P2 P3) = A * 2 / 3 /\ Rabs (det2 M P3 P1) = A * 2 / 3.
  Proof.
    destruct (tr_mid _ _ _ _ _ _ TR) as [E1 E2]. rewrite VAc.
    assert (Q : Rabs (det2 P1 P2 P3) / 2 * 2 / 3 = Rabs (det2 P1 P2 P3 * / 3)) by (rewrite Rabs_mult, (Rabs_right (/ 3)) by lra; field). rewrite Q.
    assert (Mx : vx M = (vx P1 + vx P2 + vx P3) / 3) by lra. assert (My : vy M = (vy P1 + vy P2 + vy P3) / 3) by lra.
    split; [|split]; f_equal; unfold det2; rewrite Mx, My; field.
  Qed.

  Let F1 := proj1 X1. Let F2 := proj1 X2. Let F3 := proj1 X3.
  Lemma tri_z : vz P1 = vz M /\ vz P2 = vz M /\ vz P3 = vz M.
  Proof. destruct (tr_z _ _ _ _ _ _ TR) as [Z1 [Z2 Z3]]. split; [|split]; congruence. Qed.
  Lemma tri_am : apart h P1 M /\ apart h P2 M /\ apart h P3 M.
  Proof.
    split; [apply (tri_m h rho s kappa SL _ _ _ _ TR)|]. split; [apply (tri_m h rho s kappa SL _ _ _ _ (tri_swap _ _ _ _ _ _ TR))|].
    destruct TR as [[A1 A2] [B1 B2] [C1 C2] _ [E1 E2] _]. apply abs_split in A1, A2, B1, B2, C1, C2. split; apply abs_join; lra.
  Qed.
  Lemma vec_m : forall n, In n [n1; n2; n3] -> nearF h rho s delta vecb (nsub (vx (nxyz n)) (vx mid)) (vx (vec_val (nxyz n)) - vx M) /\ nearF h rho s delta vecb (nsub (vy (nxyz n)) (vy mid)) (vy (vec_val (nxyz n)) - vy M).
  Proof.
    intros n Hn. destruct tri_z as [Z1 [Z2 Z3]]. destruct tri_am as [B1 [B2 B3]].
    assert (Q : clv h kappa 0 (nxyz n) (vec_val (nxyz n)) /\ apart h (vec_val (nxyz n)) M /\ vz (vec_val (nxyz n)) = vz M).
    { destruct Hn as [<-|[<-|[<-|[]]]]; [split; [exact F1|]|split; [exact F2|]|split; [exact F3|]]; split; assumption. }
    destruct Q as [Q1 [Q2 Q3]]. destruct (seg_vec h rho s kappa SL 0 3 _ _ _ _ Q1 CM ltac:(unfold Qle; cbn; lia) ltac:(unfold Qle; cbn; lia) ltac:(unfold Qle; cbn; lia) Q2 Q3) as [V1 [V2 _]]. split; assumption.
  Qed.
  Lemma vec_1 : forall n, In n [n2; n3] -> nearF h rho s delta vecb (nsub (vx (nxyz n)) (vx (nxyz n1))) (vx (vec_val (nxyz n)) - vx P1) /\ nearF h rho s delta vecb (nsub (vy (nxyz n)) (vy (nxyz n1))) (vy (vec_val (nxyz n)) - vy P1).
  Proof.
    intros n Hn. destruct tri_z as [Z1 [Z2 Z3]].
    assert (Q : clv h kappa 0 (nxyz n) (vec_val (nxyz n)) /\ apart h (vec_val (nxyz n)) P1 /\ vz (vec_val (nxyz n)) = vz P1).
    { destruct Hn as [<-|[<-|[]]]; [split; [exact F2|split; [apply apart_sym, TR|congruence]]|split; [exact F3|split; [apply apart_sym, TR|congruence]]]. }
    destruct Q as [Q1 [Q2 Q3]]. destruct (seg_vec h rho s kappa SL 0 0 _ _ _ _ Q1 F1 ltac:(unfold Qle; cbn; lia) ltac:(unfold Qle; cbn; lia) ltac:(unfold Qle; cbn; lia) Q2 Q3) as [V1 [V2 _]]. split; assumption.
  Qed.
  Lemma zero_vec : nearF h rho s delta vecb (nofZ 0) 0.
  Proof.
    assert (HP := h_pos _ _ _ _ SL). assert (DP := d_pos _ _ _ _ SL). fold delta in DP. split; [exact I|]. unfold near, sc, vecb; cbn [fv frv fd frd fh fs pow]. change (powerRZ h 1) with (h * 1). change (powerRZ s 0) with 1.
    change (val (nofZ 0)) with 0. rewrite Rminus_0_r, Rabs_R0, Q2R_1. replace (Q2R 5) with 5 by (unfold Q2R; cbn; lra).
    assert (0 < delta * h) by (apply Rmult_lt_0_compat; assumption). split; [lia|]. repeat split; lra.
  Qed.

  Definition cells : list (nat * nat) := grid [r1; r2; r3].
  Lemma cells_lt : forall p, In p cells -> (fst p < nn * 5)%nat /\ (snd p < nn * 5)%nat.
  Proof.
    intros [a b] H. unfold cells, grid in H. apply in_prod_iff in H. destruct H as [Ha Hb]. apply dofsN_in in Ha, Hb.
    destruct Ha as [i [c [Hi [Hc ->]]]]. destruct Hb as [j [d [Hj [Hd ->]]]]. cbn [fst snd]. destruct NR as [N1 [N2 N3]].
    assert (i < nn)%nat by (cbn in Hi; intuition lia). assert (j < nn)%nat by (cbn in Hj; intuition lia). lia.
  Qed.
  Lemma at_combine : forall T (us : list (Z * Z * T)), us = combine (map fst us) (map snd us).
  Proof. intros T us. induction us as [|[p y] us IH]; [reflexivity|]. cbn [map combine fst snd]. rewrite <- IH. reflexivity. Qed.

  Lemma cell_local : exists us US, cell_rest lits_src pfn alpha t mid ac l n1 n2 n3 = Ok us /\
    cell_rest lits_src pfn (val alpha) (tria_val t) M A L (node_val n1) (node_val n2) (node_val n3) = Ok US /\
    steps (nn * 5) (Bc h rho s 310 155000 3 4) (Ec h rho s kappa 310 155000 3 4) us US cells.
  Proof.
    destruct tri_am as [B1 [B2 B3]]. destruct det_m as [D1 [D2 D3]].
    destruct (sub_area _ _ _ _ X1 X2 (apart_sym _ _ _ (tr_12 _ _ _ _ _ _ TR)) B2 B1 D1) as [a1 [G1 [G1' [N1 [Z1 V1]]]]].
    destruct (sub_area _ _ _ _ X2 X3 (apart_sym _ _ _ (tr_2o _ _ _ _ _ _ TR)) B3 B2 D2) as [a2 [G2 [G2' [N2 [Z2 V2]]]]].
    destruct (sub_area _ _ _ _ X3 X1 (tr_1o _ _ _ _ _ _ TR) B1 B3 D3) as [a3 [G3 [G3' [N3 [Z3 V3]]]]].
    destruct (tria_near h rho s kappa SL alpha FA VA pfn t n1 n2 n3 HN HT) as [x [X [S1 [S2 SS]]]].
    destruct (SS l L RL GL) as [e44 [e55 [E44 [E55 [H1 [H2 [Q1 Q2]]]]]]].
    destruct (vec_m n1 ltac:(cbn; auto)) as [U1 W1]. destruct (vec_m n2 ltac:(cbn; auto)) as [U2 W2]. destruct (vec_m n3 ltac:(cbn; auto)) as [U3 W3].
    unfold cell_rest. rewrite G1, G2, G3. cbn [node_val nxyz]. rewrite G1', G2', G3'. cbn [bind]. rewrite S1, S2. cbn [bind]. rewrite H1, H2. unfold node_index. cbn [node_val nindex]. rewrite I1, I2, I3. cbn [bind].
    match goal with |- exists us US, Ok (cell_at _ _ _ _ ?f) = _ /\ Ok (cell_at _ _ _ _ ?g) = _ /\ _ => set (vF := f); set (vR := g) end.
    eexists. eexists. split; [reflexivity|]. split; [reflexivity|].
    rewrite (at_combine _ (cell_at lits_src _ _ _ vF)), (at_combine _ (cell_at lits_src _ _ _ vR)), !cell_at_pos, !cell_at_trees.
    change [Z.of_nat r1; Z.of_nat r2; Z.of_nat r3] with (map Z.of_nat [r1; r2; r3]). rewrite <- grid_Z.
    apply (trees_steps h rho s kappa SL 310 155000 3 4 cell_leaf cell_ileaf).
    - intros i. unfold vF, vR. do 19 (destruct i as [|i]; [first [exact garb_near|exact N1|exact N2|exact N3|exact Q1|exact Q2|exact U1|exact W1|exact U2|exact W2|exact U3|exact W3|apply zero_near; [exact SL|reflexivity|reflexivity|cbn; lia]]|]).
      rewrite !nth_overflow by (cbn; lia). exact zero_vec.
    - intros i b Hb. unfold vF, vR. do 4 (destruct i as [|i]; [injection Hb as <-; first [apply (area_inv h rho s kappa SL ac A EAc fatA)|split; assumption]|]). discriminate Hb.
    - intros i. unfold cell_leaf. destruct (Nat.eqb i 0); [reflexivity|]. destruct (Nat.leb i 3); [reflexivity|]. destruct (Nat.eqb i 5); [reflexivity|]. destruct (Nat.leb i 6); reflexivity.
    - unfold cells. rewrite grid_rot. exact cell_ok.
    - reflexivity.
    - exact cells_lt.
  Qed.
  Lemma cellns_local : exists us US, cellns_rest pfn alpha t ac l n1 n2 n3 = Ok us /\
    cellns_rest pfn (val alpha) (tria_val t) A L (node_val n1) (node_val n2) (node_val n3) = Ok US /\
    steps (nn * 5) (Bc h rho s 7 1500 1 2) (Ec h rho s kappa 7 1500 1 2) us US cells.
  Proof.
    destruct (tria_near h rho s kappa SL alpha FA VA pfn t n1 n2 n3 HN HT) as [x [X [S1 [S2 SS]]]].
    destruct (SS l L RL GL) as [e44 [e55 [E44 [E55 [H1 [H2 [Q1 Q2]]]]]]].
    destruct (vec_1 n2 ltac:(cbn; auto)) as [U2 W2]. destruct (vec_1 n3 ltac:(cbn; auto)) as [U3 W3].
    unfold cellns_rest. cbn [node_val nxyz]. rewrite S1, S2. cbn [bind]. rewrite H1, H2. unfold node_index. cbn [node_val nindex]. rewrite I1, I2, I3. cbn [bind].
    match goal with |- exists us US, Ok (cellns_at _ _ _ ?f) = _ /\ Ok (cellns_at _ _ _ ?g) = _ /\ _ => set (vF := f); set (vR := g) end.
    eexists. eexists. split; [reflexivity|]. split; [reflexivity|].
    rewrite (at_combine _ (cellns_at _ _ _ vF)), (at_combine _ (cellns_at _ _ _ vR)), !cellns_at_pos.
    rewrite (cellns_at_trees _ _ (@lits_src double NumF)), (cellns_at_trees _ _ (@lits_src R NumR)).
    change [Z.of_nat r1; Z.of_nat r2; Z.of_nat r3] with (map Z.of_nat [r1; r2; r3]). rewrite <- grid_Z.
    apply (trees_steps h rho s kappa SL 7 1500 1 2 cellns_leaf cellns_ileaf).
    - intros i. unfold vF, vR. do 8 (destruct i as [|i]; [first [exact garb_near|exact Q1|exact Q2|exact U2|exact W2|exact U3|exact W3|apply zero_near; [exact SL|reflexivity|reflexivity|cbn; lia]]|]).
      rewrite !nth_overflow by (cbn; lia). exact zero_vec.
    - intros i b Hb. unfold vF, vR. destruct i as [|i]; [injection Hb as <-; apply (area_inv h rho s kappa SL ac A EAc fatA)|]. discriminate Hb.
    - intros i. unfold cellns_leaf. destruct (Nat.eqb i 0); [reflexivity|]. destruct (Nat.eqb i 2); [reflexivity|]. destruct (Nat.leb i 3); reflexivity.
    - unfold cells. rewrite grid_rot. exact cellns_ok.
    - reflexivity.
    - exact cells_lt.
  Qed.

  (** ** Orientation *)
  Lemma orient_cell_near : orient_cell mid n1 n2 n3 = (if Rlt_dec (det2 P1 P2 P3) 0 then (n2, n1, n3) else (n1, n2, n3)) /\
    orient_cell M (node_val n1) (node_val n2) (node_val n3) = (if Rlt_dec (det2 P1 P2 P3) 0 then (node_val n2, node_val n1, node_val n3) else (node_val n1, node_val n2, node_val n3)).
  Proof.
    clear NR.
    destruct tri_z as [Z1 [Z2 Z3]]. destruct tri_am as [B1 [B2 B3]]. destruct (tr_mid _ _ _ _ _ _ TR) as [E1 E2].
    assert (Mx : vx M = (vx P1 + vx P2 + vx P3) / 3) by lra. assert (My : vy M = (vy P1 + vy P2 + vy P3) / 3) by lra.
    assert (D : (vx P1 - vx M) * (vy P2 - vy M) - (vy P1 - vy M) * (vx P2 - vx M) = det2 P1 P2 P3 / 3) by (unfold det2; rewrite Mx, My; field).
    split.
    - unfold orient_cell.
      destruct (seg_vec h rho s kappa SL 0 3 _ _ _ _ F1 CM ltac:(unfold Qle; cbn; lia) ltac:(unfold Qle; cbn; lia) ltac:(unfold Qle; cbn; lia) B1 Z1) as [V1 [V2 V3]].
      destruct (seg_vec h rho s kappa SL 0 3 _ _ _ _ F2 CM ltac:(unfold Qle; cbn; lia) ltac:(unfold Qle; cbn; lia) ltac:(unfold Qle; cbn; lia) B2 Z2) as [W1 [W2 W3]].
      rewrite (sign_near h rho s kappa SL _ _ _ _ _ _ V1 V2 V3 W1 W2 W3).
      + rewrite D. destruct (Rlt_dec (det2 P1 P2 P3 / 3) 0), (Rlt_dec (det2 P1 P2 P3) 0); try reflexivity; lra.
      + rewrite D. unfold Rdiv. rewrite Rabs_mult, (Rabs_right (/ 3)) by lra. assert (F := tr_fat _ _ _ _ _ _ TR). lra.
    - unfold orient_cell, dot, cross, vsub, ZGLOBAL. cbn [node_val nxyz vx vy vz]. rnum.
      match goal with |- (if ?b then _ else _) = _ => assert (Q : b = if Rlt_dec (det2 P1 P2 P3) 0 then true else false) end.
      { unfold nltb; cbn. match goal with |- (if Rlt_dec ?x ?y then _ else _) = _ => replace x with (det2 P1 P2 P3 / 3) by (rewrite <- D; cbn; ring) end.
        destruct (Rlt_dec (det2 P1 P2 P3 / 3) 0), (Rlt_dec (det2 P1 P2 P3) 0); try reflexivity; lra. }
      rewrite Q. destruct (Rlt_dec (det2 P1 P2 P3) 0); reflexivity.
  Qed.
  Lemma orient_cellns_near : orient_cellns n1 n2 n3 = (if Rlt_dec (det2 P1 P2 P3) 0 then (n2, n1, n3) else (n1, n2, n3)) /\
    orient_cellns (node_val n1) (node_val n2) (node_val n3) = (if Rlt_dec (det2 P1 P2 P3) 0 then (node_val n2, node_val n1, node_val n3) else (node_val n1, node_val n2, node_val n3)).
  Proof.
    clear NR.
    destruct tri_z as [Z1 [Z2 Z3]].
    assert (D : (vx P2 - vx P1) * (vy P3 - vy P1) - (vy P2 - vy P1) * (vx P3 - vx P1) = det2 P1 P2 P3) by (unfold det2; ring).
    split.
    - unfold orient_cellns.
      destruct (seg_vec h rho s kappa SL 0 0 _ _ _ _ F2 F1 ltac:(unfold Qle; cbn; lia) ltac:(unfold Qle; cbn; lia) ltac:(unfold Qle; cbn; lia) (apart_sym _ _ _ (tr_12 _ _ _ _ _ _ TR)) ltac:(congruence)) as [V1 [V2 V3]].
      destruct (seg_vec h rho s kappa SL 0 0 _ _ _ _ F3 F1 ltac:(unfold Qle; cbn; lia) ltac:(unfold Qle; cbn; lia) ltac:(unfold Qle; cbn; lia) (apart_sym _ _ _ (tr_1o _ _ _ _ _ _ TR)) ltac:(congruence)) as [W1 [W2 W3]].
      rewrite (sign_near h rho s kappa SL _ _ _ _ _ _ V1 V2 V3 W1 W2 W3).
      + rewrite D. destruct (Rlt_dec (det2 P1 P2 P3) 0); reflexivity.
      + rewrite D. assert (F := tr_fat _ _ _ _ _ _ TR). assert (HH := Rle_0_sqr h). unfold Rsqr in HH. lra.
    - unfold orient_cellns, dot, cross, vsub, ZGLOBAL. cbn [node_val nxyz vx vy vz]. rnum.
      match goal with |- (if ?b then _ else _) = _ => assert (Q : b = if Rlt_dec (det2 P1 P2 P3) 0 then true else false) end.
      { unfold nltb; cbn. match goal with |- (if Rlt_dec ?x ?y then _ else _) = _ => replace x with (det2 P1 P2 P3) by (rewrite <- D; cbn; ring) end.
        destruct (Rlt_dec (det2 P1 P2 P3) 0); reflexivity. }
      rewrite Q. destruct (Rlt_dec (det2 P1 P2 P3) 0); reflexivity.
  Qed.
End Local.
