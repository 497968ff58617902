(** The contributions of an edge of given nodes and triangles, in doubles and in reals. *)
From Coq Require Import ZArith Reals List Bool Arith Lra Lia QArith Qreals.
From Flocq Require Import Core.
From Verif Require Import Num Float Py Mesh Utils CalcK0 GenEdgeB GenEdgeI AddK0s Spec SpecRound SpecRound2 FGeom FMat FWf FSetup FFloat FTree FRound FRound2 FRound3 FRound4 FRound5 FRound6 FRound8 FRound9 FRound10 FRound11 FRound14 FRound15 FRound16 FRound17 FRound18 FRound19 FRound20 FRound25.
Import ListNotations.
Local Open Scope R_scope.

(** ** Entries *)
Definition b1b : fb := Fb 1 1 6 0 1 0.
Definition ei_leaf (i : nat) : fb :=
  if Nat.eqb i 0 then acb else if Nat.leb i 2 then garb3 else if Nat.leb i 5 then shb2 else if Nat.eqb i 7 then b1b else vecb.
Definition ei_ileaf (i : nat) : option fb := if Nat.leb i 2 then Some iacb else None.
Definition eb_leaf (i : nat) : fb :=
  if Nat.eqb i 0 then garb3 else if Nat.eqb i 2 then zb 0 1 else if Nat.leb i 3 then shb2 else vecb.
Definition eb_ileaf (i : nat) : option fb := if Nat.eqb i 0 then Some iacb else None.
Definition ei_at {T} {N : Num T} (L : lits T) (i1 i2 i3 i4 : Z) (v : nat -> T) : list (Z * Z * T) :=
  edgei_entries L i1 i2 i3 i4 (v 0%nat) (v 1%nat) (v 2%nat) (v 3%nat) (v 4%nat) (v 5%nat) (v 6%nat) (v 7%nat) (v 8%nat) (v 9%nat) (v 10%nat) (v 11%nat) (v 12%nat) (v 13%nat).
Definition eb_at {T} {N : Num T} (L : lits T) (i1 i2 i3 : Z) (v : nat -> T) : list (Z * Z * T) :=
  edgeb_entries L i1 i2 i3 (v 0%nat) (v 1%nat) (v 2%nat) (v 3%nat) (v 4%nat) (v 5%nat) (v 6%nat) (v 7%nat).
Definition ei_trees : list expr := map snd (ei_at lits_expr 0 1 2 3 EV).
Definition eb_trees : list expr := map snd (eb_at lits_expr 0 1 2 EV).
Lemma ei_at_trees : forall T (N : Num T) (L : lits T) i1 i2 i3 i4 (v : nat -> T), map snd (ei_at L i1 i2 i3 i4 v) = map (evalG L v) ei_trees.
Proof. intros. reflexivity. Qed.
Lemma eb_at_trees : forall T (N : Num T) (L : lits T) i1 i2 i3 (v : nat -> T), map snd (eb_at L i1 i2 i3 v) = map (evalG L v) eb_trees.
Proof. intros. reflexivity. Qed.
Lemma ei_at_pos : forall T (N : Num T) (L : lits T) i1 i2 i3 i4 (v : nat -> T), map fst (ei_at L i1 i2 i3 i4 v) = list_prod (dofs3 [i1; i2; i3; i4]) (dofs3 [i1; i2; i3; i4]).
Proof. intros. reflexivity. Qed.
Lemma eb_at_pos : forall T (N : Num T) (L : lits T) i1 i2 i3 (v : nat -> T), map fst (eb_at L i1 i2 i3 v) = list_prod (dofs3 [i1; i2; i3]) (dofs3 [i1; i2; i3]).
Proof. intros. reflexivity. Qed.
Definition rpos4 : list Z := map (fun p => (rot (fst p) + rot (snd p))%Z) (list_prod (dofs3 [0; 0; 0; 0]%Z) (dofs3 [0; 0; 0; 0]%Z)).
Lemma grid_rot4 : forall i1 i2 i3 i4, map (fun p => Z.of_nat (rotations (fst p) (snd p))) (grid [i1; i2; i3; i4]) = rpos4.
Proof.
  intros i1 i2 i3 i4. rewrite (map_ext _ (fun p => (fun q => Z.of_nat (fst q + snd q)) (rotn (fst p), rotn (snd p)))) by (intros p; reflexivity).
  rewrite <- (map_map (fun p => (rotn (fst p), rotn (snd p))) (fun q => Z.of_nat (fst q + snd q))). unfold grid. rewrite (map_prod _ _ _ _ rotn rotn), dofsN_rot. vm_compute. reflexivity.
Qed.
Lemma ei_ok : forallb (ent_ok ei_leaf ei_ileaf (bq 280 345000 5 6)) (combine rpos4 ei_trees) = true.
Proof. vm_compute. reflexivity. Qed.
Lemma eb_ok : forallb (ent_ok eb_leaf eb_ileaf (bq 280 345000 5 6)) (combine rpos eb_trees) = true.
Proof. vm_compute. reflexivity. Qed.

(** ** boundary_edge and interior_edge without the lookups *)
Definition eb_sel {T} {N : Num T} (pfn : bool) (tr1 : tria T) (n1 n2 o1 : node T) : res (shear T) :=
  if pfn then
    let! p1 := get_or AttributeError (nprop n1) in
    let! p2 := get_or AttributeError (nprop n2) in
    let! po1 := get_or AttributeError (nprop o1) in
    Ok (shear3 (ndiv (nofZ 4) (nofZ 9)) (ndiv (nofZ 4) (nofZ 9)) (ndiv (nofZ 1) (nofZ 9)) p1 p2 po1)
  else let! p := get_or AttributeError (tprop tr1) in Ok (shear_of p).
Definition ei_sel {T} {N : Num T} (pfn : bool) (tr1 tr2 : tria T) (Ac1 Ac2 Ac : T) (n1 n2 o1 o2 : node T) : res (shear T) :=
  if pfn then
    let! p1 := get_or AttributeError (nprop n1) in
    let! p2 := get_or AttributeError (nprop n2) in
    let! po1 := get_or AttributeError (nprop o1) in
    let! po2 := get_or AttributeError (nprop o2) in
    Ok (shear4 (ndiv (nofZ 5) (nofZ 12)) (ndiv (nofZ 5) (nofZ 12)) (ndiv (nofZ 1) (nofZ 12)) (ndiv (nofZ 1) (nofZ 12)) p1 p2 po1 po2)
  else
    let! p1 := get_or AttributeError (tprop tr1) in
    let! p2 := get_or AttributeError (tprop tr2) in
    Ok (shearA Ac1 Ac2 Ac p1 p2).
Definition eb_maxl {T} {N : Num T} (mfa : bool) (e : edge T) (Ac : T) : res T := if mfa then Ok (nsqrt Ac) else pymax (map iple (eipts e)).
Definition ei_maxl {T} {N : Num T} (m : mesh T) (mfa : bool) (e : edge T) (Ac : T) : res T :=
  if mfa then Ok (nsqrt Ac)
  else
    let! lm := pymax (map iple (eipts e)) in
    let! le := edge_length m (en1 e, en2 e) in
    Ok (nmax2 lm le).
Definition eb_rest {T} {N : Num T} (L : lits T) (pfn : bool) (alpha : T) (tr1 : tria T) (mid1 : vec3 T) (Ac maxl : T) (n1 n2 o1 : node T) : res (list (Z * Z * T)) :=
  let! s := eb_sel pfn tr1 n1 n2 o1 in
  let '(E44, E45, E55) := shear_stiffness s alpha maxl in
  let! i1 := node_index n1 in
  let! i2 := node_index n2 in
  let! i3 := node_index o1 in
  Ok (eb_at L i1 i2 i3 (fun i => nth i [Ac; E44; E45; E55;
    nsub (vx (nxyz n1)) (vx mid1); nsub (vy (nxyz n1)) (vy mid1); nsub (vx (nxyz n2)) (vx mid1); nsub (vy (nxyz n2)) (vy mid1)] (nofZ 0))).
Definition ei_rest {T} {N : Num T} (L : lits T) (pfn : bool) (alpha : T) (tr1 tr2 : tria T) (mid1 mid2 : vec3 T) (Ac maxl : T) (n1 n2 o1 o2 : node T) : res (list (Z * Z * T)) :=
  let! Ac1 := area_of_points [mid1; nxyz n1; nxyz n2] in
  let! Ac2 := area_of_points [nxyz n1; mid2; nxyz n2] in
  let! s := ei_sel pfn tr1 tr2 Ac1 Ac2 Ac n1 n2 o1 o2 in
  let '(E44, E45, E55) := shear_stiffness_int s alpha maxl in
  let! i1 := node_index n1 in
  let! i2 := node_index n2 in
  let! i3 := node_index o1 in
  let! i4 := node_index o2 in
  Ok (ei_at L i1 i2 i3 i4 (fun i => nth i [Ac; Ac1; Ac2; E44; E45; E55;
    nsub (vx (nxyz n1)) (vx mid1); nsub (vz (nxyz n1)) (vy mid1); nsub (vx (nxyz n2)) (vx mid1); nsub (vy (nxyz n2)) (vy mid1);
    nsub (vx mid2) (vx (nxyz n1)); nsub (vy mid2) (vy (nxyz n1)); nsub (vx (nxyz n2)) (vx (nxyz n1)); nsub (vy (nxyz n2)) (vy (nxyz n1))] (nofZ 0))).

Lemma boundary_rest : forall T (N : Num T) (L : lits T) m pfn alpha mfa e tr1 n1 n2 mid1 o1 Ac maxl us, getMid m tr1 = Ok mid1 -> other_node m (eother1 e) = Ok o1 -> eAc e = Some Ac ->
  eb_maxl mfa e Ac = Ok maxl -> eb_rest L pfn alpha tr1 mid1 Ac maxl n1 n2 o1 = Ok us -> boundary_edge L m pfn alpha mfa e tr1 n1 n2 = Ok us.
Proof.
  intros T N L m pfn alpha mfa e tr1 n1 n2 mid1 o1 Ac maxl us GM GO GA GL R. unfold boundary_edge. rewrite GM. cbn [bind]. rewrite GO. cbn [bind]. rewrite GA. cbn [get_or bind].
  unfold eb_rest in R. fold (eb_sel pfn tr1 n1 n2 o1). destruct (eb_sel pfn tr1 n1 n2 o1) as [s|]; [|discriminate]. cbn [bind] in *. unfold eb_maxl in GL. rewrite GL. cbn [bind]. exact R.
Qed.
Lemma interior_rest : forall T (N : Num T) (L : lits T) m pfn alpha mfa e tr1 tr2 n1 n2 mid1 mid2 o1 o2 Ac maxl us, getMid m tr1 = Ok mid1 -> getMid m tr2 = Ok mid2 ->
  other_node m (eother1 e) = Ok o1 -> other_node m (eother2 e) = Ok o2 -> eAc e = Some Ac ->
  ei_maxl m mfa e Ac = Ok maxl -> ei_rest L pfn alpha tr1 tr2 mid1 mid2 Ac maxl n1 n2 o1 o2 = Ok us -> interior_edge L m pfn alpha mfa e tr1 tr2 n1 n2 = Ok us.
Proof.
  intros T N L m pfn alpha mfa e tr1 tr2 n1 n2 mid1 mid2 o1 o2 Ac maxl us GM GM2 GO GO2 GA GL R. unfold interior_edge. rewrite GM, GM2. cbn [bind]. rewrite GO, GO2. cbn [bind]. rewrite GA. cbn [get_or bind].
  unfold ei_rest in R. destruct (area_of_points [mid1; nxyz n1; nxyz n2]) as [Ac1|]; [|discriminate]. cbn [bind] in *. destruct (area_of_points [nxyz n1; mid2; nxyz n2]) as [Ac2|]; [|discriminate]. cbn [bind] in *.
  fold (ei_sel pfn tr1 tr2 Ac1 Ac2 Ac n1 n2 o1 o2). destruct (ei_sel pfn tr1 tr2 Ac1 Ac2 Ac n1 n2 o1 o2) as [s|]; [|discriminate]. cbn [bind] in *.
  fold (ei_maxl m mfa e Ac). rewrite GL. cbn [bind]. exact R.
Qed.

Section Local.
  Variables h rho s kappa : R.
  Hypothesis SL : scales h rho s (kappa * roundoff).
  Hypothesis K1 : 1 <= kappa.
  Hypothesis KX : in64 (kappa * h).
  Let delta := kappa * roundoff.
  Let eps := delta * rho.
  Variable alpha : double.
  Hypothesis FA : finite alpha.
  Hypothesis VA : val alpha = 0 \/ in64 (val alpha).
  Let E0 : roundoff <= eps := eps_low h rho s kappa SL.

  (** a triangle between its centroid and the ends *)
  Ltac leafs := repeat first [ apply Forall2_nil | apply Forall2_cons; [split; cbn [fst snd]|] ].
  Lemma area3m : forall (p1 m1 p2 : vec3 double) (P1 M1 P2 : vec3 R), exact h kappa p1 P1 -> exact h kappa p2 P2 -> clv h kappa 3 m1 M1 -> apart h P1 P2 -> apart h P1 M1 -> apart h P2 M1 ->
    exists a A, area_of_points [p1; m1; p2] = Ok a /\ area_of_points [P1; M1; P2] = Ok A /\ finite a /\ Rabs (val a - A) <= 30 * (delta * (h * h)).
  Proof.
    intros p1 m1 p2 P1 M1 P2 E1 E2 C1 A12 A11 A21.
    set (l := [(vx p2, nsub (vy p1) (vy m1)); (vx p1, nsub (vy m1) (vy p2)); (vx m1, nsub (vy p2) (vy p1))]).
    set (r := [(val (vx p2), val (vy p1) - val (vy m1)); (val (vx p1), val (vy m1) - val (vy p2)); (val (vx m1), val (vy p2) - val (vy p1))]).
    destruct (sum_ok h rho s kappa SL KX 3 l r ltac:(lia) eq_refl) as [F E].
    { unfold l, r. leafs;
      try (eapply cl_x; [exact SL|exact K1|exact KX|first [apply (proj1 E1) | apply (proj1 E2) | apply C1]|unfold Qle; cbn; lia]);
      try (eapply cl_d; [exact SL|exact KX|first [apply (proj1 E1) | apply (proj1 E2) | apply C1]|first [apply (proj1 E1) | apply (proj1 E2) | apply C1]|unfold Qle; cbn; lia|unfold Qle; cbn; lia|]);
      assert (HP := h_pos _ _ _ _ SL);
      first [ eapply Rle_trans; [first [apply A12|apply A11|apply A21]|lra]
            | rewrite Rabs_minus_sym; eapply Rle_trans; [first [apply A12|apply A11|apply A21]|lra] ]. }
    exists (halfabs (evalG L0F (fun i => nth i (facs l) (nofZ 0)) (sum_tree 3))). eexists. split; [reflexivity|]. split; [reflexivity|]. split; [exact F|].
    apply (half_pert _ _ _ _ _ E).
    destruct E1 as [_ [X1 Y1]]. destruct E2 as [_ [X2 Y2]].
    assert (Ex1 := err3 h rho s kappa SL _ _ _ (proj1 C1) ltac:(unfold Qle; cbn; lia)). assert (Ey1 := err3 h rho s kappa SL _ _ _ (proj1 (proj2 C1)) ltac:(unfold Qle; cbn; lia)).
    assert (HP := h_pos _ _ _ _ SL). assert (DP := d_pos _ _ _ _ SL). fold delta in DP. fold delta in Ex1, Ey1. assert (DH : 0 < delta * h) by (apply Rmult_lt_0_compat; assumption).
    match goal with |- Rabs ?e <= _ => replace e with ((vx P1 - vx P2) * (val (vy m1) - vy M1) - (vy P1 - vy P2) * (val (vx m1) - vx M1)) end.
    - apply (det_pert h kappa); [apply A12|apply A12|fold delta; lra|fold delta; lra].
    - unfold l, r, sum_tree. cbn [seq fold_left evalG facs nth Nat.mul Nat.add map vx vy]. rnum. rewrite X1, Y1, X2, Y2. ring.
  Qed.

  (** ** Shear stiffness *)
  Definition prop_fine2 (p : prop double) : Prop := prop_fine s p /\ finite (e01 (pE p)) /\ Rabs (val (e01 (pE p))) <= s.

  Lemma pf_k : forall p, prop_fine2 p -> forall x, In x [pk13 p; pk23 p] -> finite x /\ Rabs (val x) <= s ^ 0.
  Proof. intros p [[H _] _] x Hx. apply (H x Hx). Qed.
  Lemma pf_e : forall p, prop_fine2 p -> forall x, In x [e00 (pE p); e01 (pE p); e11 (pE p)] -> finite x /\ Rabs (val x) <= s ^ 1.
  Proof.
    intros p [[_ [H _]] [F B]] x Hx. cbn [pow]. rewrite Rmult_1_r. destruct Hx as [<-|[<-|[<-|[]]]]; [apply H; cbn; auto|split; assumption|apply H; cbn; auto].
  Qed.
  Lemma pf_t : forall p, prop_fine2 p -> rel eps 0 (ph p) (val (ph p)) /\ rng (-64) 64 (val (ph p)).
  Proof. intros p [H _]. apply (thick_rel rho s kappa p H). Qed.

  (** one property of the domain in both arithmetics *)
  Record good_shear (x : shear double) (X : shear R) : Prop := {
    gs_13 : nearF h rho s delta kbb (sk13 x) (sk13 X);
    gs_23 : nearF h rho s delta kbb (sk23 x) (sk23 X);
    gs_00 : nearF h rho s delta ebb (e00 (sE x)) (e00 (sE X));
    gs_01 : nearF h rho s delta ebb (e01 (sE x)) (e01 (sE X));
    gs_11 : nearF h rho s delta ebb (e11 (sE x)) (e11 (sE X));
    gs_h : rel eps 143 (sh x) (sh X) /\ rng (-64) 64 (sh X) }.

  Lemma good_b : forall x X l L, good_shear x X -> rel eps 92 l L -> rng (-84) 66 L ->
    exists e44 e55 E44 E55, shear_stiffness x alpha l = (e44, nofZ 0, e55) /\ shear_stiffness X (val alpha) L = (E44, nofZ 0, E55) /\ nearF h rho s delta shb2 e44 E44 /\ nearF h rho s delta shb2 e55 E55.
  Proof.
    intros x X l L [G13 G23 G0 _ G1 [RT GT]] RL GL. assert (CN := corB_near h rho s kappa SL alpha FA VA _ _ _ _ RL GL RT GT).
    do 4 eexists. split; [reflexivity|]. split; [reflexivity|]. split; apply (fke_near h rho s kappa SL); assumption.
  Qed.
  Lemma good_i : forall x X l L, good_shear x X -> rel eps 92 l L -> rng (-84) 66 L ->
    exists e44 e45 e55 E44 E45 E55, shear_stiffness_int x alpha l = (e44, e45, e55) /\ shear_stiffness_int X (val alpha) L = (E44, E45, E55) /\
      nearF h rho s delta shb2 e44 E44 /\ nearF h rho s delta shb2 e45 E45 /\ nearF h rho s delta shb2 e55 E55.
  Proof.
    intros x X l L [G13 G23 G0 G01 G1 [RT GT]] RL GL. assert (CN := corI_near h rho s kappa SL alpha FA VA _ _ _ _ RL GL RT GT).
    do 6 eexists. split; [reflexivity|]. split; [reflexivity|]. split; [|split]; apply (fke_near h rho s kappa SL); try assumption. apply min_near; assumption.
  Qed.

  Lemma good_of : forall p, prop_fine2 p -> good_shear (shear_of p) (shear_of (prop_val p)).
  Proof.
    intros p H. assert (K := pf_k p H). assert (E := pf_e p H). destruct (pf_t p H) as [T G].
    assert (LK : forall x, In x [pk13 p; pk23 p] -> nearF h rho s delta kbb x (val x)).
    { intros x Hx. apply (lin_near h rho s kappa SL alpha VA (EV 0) 0 (or_intror (or_intror eq_refl)) (or_introl eq_refl) x x x x). intros y [<-|[<-|[<-|[<-|[]]]]]; apply K, Hx. }
    assert (LE : forall x, In x [e00 (pE p); e01 (pE p); e11 (pE p)] -> nearF h rho s delta ebb x (val x)).
    { intros x Hx. apply (lin_near h rho s kappa SL alpha VA (EV 0) 1 (or_intror (or_intror eq_refl)) (or_intror eq_refl) x x x x). intros y [<-|[<-|[<-|[<-|[]]]]]; apply E, Hx. }
    constructor; try (apply LK; cbn; auto; fail); try (apply LE; cbn; auto; fail). split; [apply (rel_mono eps E0 _ 143 _ _ T); lra|exact G].
  Qed.
  Lemma good_3 : forall p q r, prop_fine2 p -> prop_fine2 q -> prop_fine2 r ->
    good_shear (shear3 (ndiv (nofZ 4) (nofZ 9)) (ndiv (nofZ 4) (nofZ 9)) (ndiv (nofZ 1) (nofZ 9)) p q r)
      (shear3 (ndiv (nofZ 4) (nofZ 9)) (ndiv (nofZ 4) (nofZ 9)) (ndiv (nofZ 1) (nofZ 9)) (prop_val p) (prop_val q) (prop_val r)).
  Proof.
    intros p q r Hp Hq Hr. destruct (pf_t p Hp) as [T1 G1]. destruct (pf_t q Hq) as [T2 G2]. destruct (pf_t r Hr) as [T3 G3].
    constructor.
    - apply (lin_near h rho s kappa SL alpha VA ln3 0 (or_introl eq_refl) (or_introl eq_refl) (pk13 p) (pk13 q) (pk13 r) (pk13 r)). intros y [<-|[<-|[<-|[<-|[]]]]]; [apply (pf_k p Hp)|apply (pf_k q Hq)|apply (pf_k r Hr)|apply (pf_k r Hr)]; cbn; auto.
    - apply (lin_near h rho s kappa SL alpha VA ln3 0 (or_introl eq_refl) (or_introl eq_refl) (pk23 p) (pk23 q) (pk23 r) (pk23 r)). intros y [<-|[<-|[<-|[<-|[]]]]]; [apply (pf_k p Hp)|apply (pf_k q Hq)|apply (pf_k r Hr)|apply (pf_k r Hr)]; cbn; auto.
    - apply (lin_near h rho s kappa SL alpha VA ln3 1 (or_introl eq_refl) (or_intror eq_refl) (e00 (pE p)) (e00 (pE q)) (e00 (pE r)) (e00 (pE r))). intros y [<-|[<-|[<-|[<-|[]]]]]; [apply (pf_e p Hp)|apply (pf_e q Hq)|apply (pf_e r Hr)|apply (pf_e r Hr)]; cbn; auto.
    - apply (lin_near h rho s kappa SL alpha VA ln3 1 (or_introl eq_refl) (or_intror eq_refl) (e01 (pE p)) (e01 (pE q)) (e01 (pE r)) (e01 (pE r))). intros y [<-|[<-|[<-|[<-|[]]]]]; [apply (pf_e p Hp)|apply (pf_e q Hq)|apply (pf_e r Hr)|apply (pf_e r Hr)]; cbn; auto.
    - apply (lin_near h rho s kappa SL alpha VA ln3 1 (or_introl eq_refl) (or_intror eq_refl) (e11 (pE p)) (e11 (pE q)) (e11 (pE r)) (e11 (pE r))). intros y [<-|[<-|[<-|[<-|[]]]]]; [apply (pf_e p Hp)|apply (pf_e q Hq)|apply (pf_e r Hr)|apply (pf_e r Hr)]; cbn; auto.
    - exact (mean3 h rho s kappa SL _ _ _ _ _ _ T1 T2 T3 G1 G2 G3).
  Qed.
  Lemma good_4 : forall p q r o, prop_fine2 p -> prop_fine2 q -> prop_fine2 r -> prop_fine2 o ->
    good_shear (shear4 (ndiv (nofZ 5) (nofZ 12)) (ndiv (nofZ 5) (nofZ 12)) (ndiv (nofZ 1) (nofZ 12)) (ndiv (nofZ 1) (nofZ 12)) p q r o)
      (shear4 (ndiv (nofZ 5) (nofZ 12)) (ndiv (nofZ 5) (nofZ 12)) (ndiv (nofZ 1) (nofZ 12)) (ndiv (nofZ 1) (nofZ 12)) (prop_val p) (prop_val q) (prop_val r) (prop_val o)).
  Proof.
    intros p q r o Hp Hq Hr Ho. destruct (pf_t p Hp) as [T1 G1]. destruct (pf_t q Hq) as [T2 G2]. destruct (pf_t r Hr) as [T3 G3]. destruct (pf_t o Ho) as [T4 G4].
    constructor.
    - apply (lin_near h rho s kappa SL alpha VA ln4 0 (or_intror (or_introl eq_refl)) (or_introl eq_refl) (pk13 p) (pk13 q) (pk13 r) (pk13 o)). intros y [<-|[<-|[<-|[<-|[]]]]]; [apply (pf_k p Hp)|apply (pf_k q Hq)|apply (pf_k r Hr)|apply (pf_k o Ho)]; cbn; auto.
    - apply (lin_near h rho s kappa SL alpha VA ln4 0 (or_intror (or_introl eq_refl)) (or_introl eq_refl) (pk23 p) (pk23 q) (pk23 r) (pk23 o)). intros y [<-|[<-|[<-|[<-|[]]]]]; [apply (pf_k p Hp)|apply (pf_k q Hq)|apply (pf_k r Hr)|apply (pf_k o Ho)]; cbn; auto.
    - apply (lin_near h rho s kappa SL alpha VA ln4 1 (or_intror (or_introl eq_refl)) (or_intror eq_refl) (e00 (pE p)) (e00 (pE q)) (e00 (pE r)) (e00 (pE o))). intros y [<-|[<-|[<-|[<-|[]]]]]; [apply (pf_e p Hp)|apply (pf_e q Hq)|apply (pf_e r Hr)|apply (pf_e o Ho)]; cbn; auto.
    - apply (lin_near h rho s kappa SL alpha VA ln4 1 (or_intror (or_introl eq_refl)) (or_intror eq_refl) (e01 (pE p)) (e01 (pE q)) (e01 (pE r)) (e01 (pE o))). intros y [<-|[<-|[<-|[<-|[]]]]]; [apply (pf_e p Hp)|apply (pf_e q Hq)|apply (pf_e r Hr)|apply (pf_e o Ho)]; cbn; auto.
    - apply (lin_near h rho s kappa SL alpha VA ln4 1 (or_intror (or_introl eq_refl)) (or_intror eq_refl) (e11 (pE p)) (e11 (pE q)) (e11 (pE r)) (e11 (pE o))). intros y [<-|[<-|[<-|[<-|[]]]]]; [apply (pf_e p Hp)|apply (pf_e q Hq)|apply (pf_e r Hr)|apply (pf_e o Ho)]; cbn; auto.
    - exact (mean4 h rho s kappa SL _ _ _ _ _ _ _ _ T1 T2 T3 T4 G1 G2 G3 G4).
  Qed.
  Lemma good_A : forall p q ac a1 a2 A A1 A2, prop_fine2 p -> prop_fine2 q ->
    finite ac -> Rabs (val ac - A) <= 30 * (delta * (h * h)) -> finite a1 -> Rabs (val a1 - A1) <= 30 * (delta * (h * h)) -> finite a2 -> Rabs (val a2 - A2) <= 30 * (delta * (h * h)) ->
    A = A1 + A2 -> h * h <= 3 * (rho * A1) -> h * h <= 3 * (rho * A2) -> A1 <= h * h / 3 -> A2 <= h * h / 3 ->
    good_shear (shearA a1 a2 ac p q) (shearA A1 A2 A (prop_val p) (prop_val q)).
  Proof.
    intros p q ac a1 a2 A A1 A2 Hp Hq Fa Da F1 D1 F2 D2 SA L1 L2 U1 U2. destruct (pf_t p Hp) as [T1 G1]. destruct (pf_t q Hq) as [T2 G2].
    assert (N := meanA_near h rho s kappa SL ac a1 a2 A A1 A2 Fa Da F1 D1 F2 D2 SA L1 L2 U1 U2).
    constructor.
    - apply (N 0%nat (pk13 p) (pk13 q) (or_introl eq_refl)). intros y [<-|[<-|[]]]; [apply (pf_k p Hp)|apply (pf_k q Hq)]; cbn; auto.
    - apply (N 0%nat (pk23 p) (pk23 q) (or_introl eq_refl)). intros y [<-|[<-|[]]]; [apply (pf_k p Hp)|apply (pf_k q Hq)]; cbn; auto.
    - apply (N 1%nat (e00 (pE p)) (e00 (pE q)) (or_intror eq_refl)). intros y [<-|[<-|[]]]; [apply (pf_e p Hp)|apply (pf_e q Hq)]; cbn; auto.
    - apply (N 1%nat (e01 (pE p)) (e01 (pE q)) (or_intror eq_refl)). intros y [<-|[<-|[]]]; [apply (pf_e p Hp)|apply (pf_e q Hq)]; cbn; auto.
    - apply (N 1%nat (e11 (pE p)) (e11 (pE q)) (or_intror eq_refl)). intros y [<-|[<-|[]]]; [apply (pf_e p Hp)|apply (pf_e q Hq)]; cbn; auto.
    - exact (meanA_rel h rho s kappa SL ac a1 a2 A A1 A2 Fa Da F1 D1 F2 D2 SA L1 L2 U1 U2 _ _ _ _ T1 T2 G1 G2).
  Qed.

  (** ** The ordinate that an interior edge takes from z *)
  Lemma z_near : forall (a b : double) A B, cl h kappa 0 a A -> cl h kappa 3 b B -> Rabs (A - B) <= rho * h -> nearF h rho s delta b1b (nsub a b) (A - B).
  Proof.
    intros a b A B [F1 [B1 D1]] [F2 [B2 D2]] V. fold delta in D1, D2. rewrite RMicromega.Q2R_0 in D1. replace (Q2R 3) with 3 in D2 by (unfold Q2R; cbn; lra).
    assert (HP := h_pos _ _ _ _ SL). assert (DP := d_pos _ _ _ _ SL). fold delta in DP. assert (DH : 0 < delta * h) by (apply Rmult_lt_0_compat; assumption).
    assert (DS := small_delta h rho s kappa SL). fold delta in DS. assert (UX := uX h kappa). fold delta in UX.
    destruct KX as [X1 X2]. assert (HX := X_h h rho s kappa SL K1).
    assert (DH2 : delta * h <= / 1048576 * h) by (apply Rmult_le_compat_r; lra).
    apply abs_split in B1, B2, D1, D2.
    assert (BX : Rabs (val a - val b) <= 2 * (kappa * h) + 3 * (delta * h)) by (apply abs_join; lra).
    destruct (fl_sub a b F1 F2) as [F W].
    { eapply Rle_trans; [exact BX|]. apply Rle_trans with (bpow radix2 66); [|apply bpow_le; lia]. change (bpow radix2 66) with 73786976294838206464. lra. }
    split; [exact F|]. rewrite W. assert (E := rnd_err (val a - val b)).
    assert (EE : Rabs (rnd (val a - val b) - (val a - val b)) <= 5 / 2 * (delta * h)).
    { eapply Rle_trans; [exact E|]. apply Rle_trans with (roundoff * (2 * (kappa * h) + 3 * (delta * h)) + eta); [apply Rplus_le_compat_r, Rmult_le_compat_l; [unfold roundoff; lra|exact BX]|].
      assert (ET : eta <= / 8 * (delta * h)).
      { unfold eta. rewrite <- UX. apply Rle_trans with (bpow radix2 (-200)); [assert (Y := bpow_gt_0 radix2 (-1074)); apply Rle_trans with (bpow radix2 (-1074)); [lra|apply bpow_le; lia]|]. apply Rle_trans with (/ 8 * (roundoff * / 18446744073709551616)); [|apply Rmult_le_compat_l; [lra|apply Rmult_le_compat_l; [unfold roundoff; lra|exact X1]]].
        unfold roundoff. cbn [bpow]. change (Z.pow_pos radix2 200) with (2 ^ 200)%Z. 
        apply Rle_trans with (/ IZR (2 ^ 120)); [apply Rinv_le; [apply IZR_lt; reflexivity|apply IZR_le; vm_compute; discriminate]|]. 
        replace (IZR (2 ^ 120)) with (8 * (9007199254740992 * 18446744073709551616)) by (rewrite <- !mult_IZR; f_equal). right. field. }
      assert (U3 : roundoff * (3 * (delta * h)) <= / 8 * (delta * h)).
      { replace (roundoff * (3 * (delta * h))) with (3 * roundoff * (delta * h)) by ring. apply Rmult_le_compat_r; [lra|unfold roundoff; lra]. }
      assert (U2 : roundoff * (2 * (kappa * h)) = 2 * (delta * h)) by (rewrite <- UX; ring). lra. }
    apply abs_split in EE. unfold near, sc, b1b; cbn [fv frv fd frd fh fs pow]. change (powerRZ h 1) with (h * 1). rewrite Q2R_1. replace (Q2R 6) with 6 by (unfold Q2R; cbn; lra).
    split; [lia|]. split; [lra|]. split; [lra|]. split; [lra|]. apply abs_join; lra.
  Qed.

  (** ** Area between the centroid and the ends *)
  Lemma det_mid : forall P1 P2 O M, tri h rho P1 P2 O M -> Rabs (det2 M P1 P2) = Rabs (det2 P1 P2 O) / 3 /\ Rabs (det2 P1 M P2) = Rabs (det2 P1 P2 O) / 3.
  Proof.
    intros P1 P2 O M TR. destruct (tr_mid _ _ _ _ _ _ TR) as [E1 E2].
    assert (Mx : vx M = (vx P1 + vx P2 + vx O) / 3) by lra. assert (My : vy M = (vy P1 + vy P2 + vy O) / 3) by lra.
    assert (Q : Rabs (det2 P1 P2 O) / 3 = Rabs (det2 P1 P2 O * / 3)) by (rewrite Rabs_mult, (Rabs_right (/ 3)) by lra; reflexivity). rewrite Q.
    split; [f_equal|rewrite <- (Rabs_Ropp (det2 P1 P2 O * / 3)); f_equal]; unfold det2; rewrite Mx, My; field.
  Qed.
  Lemma det_le : forall P1 P2 O M, tri h rho P1 P2 O M -> Rabs (det2 P1 P2 O) <= 2 * (h * h).
  Proof.
    intros P1 P2 O M [[A1 A2] [B1 B2] _ _ _ _]. assert (HP := h_pos _ _ _ _ SL).
    replace (det2 P1 P2 O) with ((vx P1 - vx P2) * (vy P1 - vy O) - (vy P1 - vy P2) * (vx P1 - vx O)) by (unfold det2; ring).
    assert (X := Rmult_le_compat _ _ _ _ (Rabs_pos _) (Rabs_pos _) A1 B2). assert (Y := Rmult_le_compat _ _ _ _ (Rabs_pos _) (Rabs_pos _) A2 B1).
    rewrite <- Rabs_mult in X, Y. apply abs_split in X, Y. apply abs_join; lra.
  Qed.
  Lemma sixth : forall P1 P2 O M, tri h rho P1 P2 O M -> let A := Rabs (det2 P1 P2 O) / 6 in 0 <= A <= / 3 * (h * h) /\ h * h <= 3 * (rho * A) /\ h * h <= 3 * rho * A /\ A <= h * h / 3.
  Proof.
    intros P1 P2 O M TR A. assert (U := det_le _ _ _ _ TR). assert (F := tr_fat _ _ _ _ _ _ TR). assert (P := Rabs_pos (det2 P1 P2 O)). unfold A. repeat split; lra.
  Qed.
  Lemma apart_m : forall P1 P2 O M, tri h rho P1 P2 O M -> apart h P1 M /\ apart h P2 M.
  Proof.
    intros P1 P2 O M TR. split; [apply (tri_m h rho s kappa SL _ _ _ _ TR)|apply (tri_m h rho s kappa SL _ _ _ _ (tri_swap _ _ _ _ _ _ TR))].
  Qed.
  Lemma zero_vec : nearF h rho s delta vecb (nofZ 0) 0.
  Proof.
    assert (HP := h_pos _ _ _ _ SL). assert (DP := d_pos _ _ _ _ SL). fold delta in DP. split; [exact I|]. unfold near, sc, vecb; cbn [fv frv fd frd fh fs pow]. change (powerRZ h 1) with (h * 1). change (powerRZ s 0) with 1.
    change (val (nofZ 0)) with 0. rewrite Rminus_0_r, Rabs_R0, Q2R_1. replace (Q2R 5) with 5 by (unfold Q2R; cbn; lra).
    assert (0 < delta * h) by (apply Rmult_lt_0_compat; assumption). split; [lia|]. repeat split; lra.
  Qed.
  Lemma grid_lt : forall rs nn, (forall r, In r rs -> (r < nn)%nat) -> forall p, In p (grid rs) -> (fst p < nn * 5)%nat /\ (snd p < nn * 5)%nat.
  Proof.
    intros rs nn NR [a b] H. unfold grid in H. apply in_prod_iff in H. destruct H as [Ha Hb]. apply dofsN_in in Ha, Hb.
    destruct Ha as [i [c [Hi [Hc ->]]]]. destruct Hb as [j [d [Hj [Hd ->]]]]. cbn [fst snd]. assert (A := NR i Hi). assert (B := NR j Hj). lia.
  Qed.

  Section Edge.
    Variables (pfn : bool) (tr1 tr2 : tria double) (n1 n2 o1 o2 : node double) (mid1 mid2 : vec3 double) (M1 M2 : vec3 R).
    Notation P1 := (vec_val (nxyz n1)).
    Notation P2 := (vec_val (nxyz n2)).
    Notation Q1 := (vec_val (nxyz o1)).
    Notation Q2 := (vec_val (nxyz o2)).
    Hypothesis X1 : exact h kappa (nxyz n1) P1.
    Hypothesis X2 : exact h kappa (nxyz n2) P2.
    Hypothesis TR1 : tri h rho P1 P2 Q1 M1.
    Hypothesis CM1 : clv h kappa 3 mid1 M1.
    Variables (r1 r2 r3 r4 nn : nat).
    Hypothesis I1 : nindex n1 = Some r1.
    Hypothesis I2 : nindex n2 = Some r2.
    Hypothesis I3 : nindex o1 = Some r3.
    Variables (ac : double) (A : R) (l : double) (L : R).
    Hypothesis FAc : finite ac.
    Hypothesis EAc : Rabs (val ac - A) <= 30 * (delta * (h * h)).
    Hypothesis RL : rel eps 92 l L.
    Hypothesis GL : rng (-84) 66 L.
    Ltac qs := first [ split; unfold Qle; cbn; lia | unfold Qle; cbn; lia ].

    Lemma eb_good : (pfn = true -> forall n, In n [n1; n2; o1] -> exists p, nprop n = Some p /\ prop_fine2 p) -> (pfn = false -> exists p, tprop tr1 = Some p /\ prop_fine2 p) ->
      exists x X, eb_sel pfn tr1 n1 n2 o1 = Ok x /\ eb_sel pfn (tria_val tr1) (node_val n1) (node_val n2) (node_val o1) = Ok X /\ good_shear x X.
    Proof.
      intros HN HT. destruct pfn.
      - destruct (HN eq_refl n1 ltac:(cbn; auto)) as [p1 [E1 F1]]. destruct (HN eq_refl n2 ltac:(cbn; auto)) as [p2 [E2 F2]]. destruct (HN eq_refl o1 ltac:(cbn; auto)) as [p3 [E3 F3]].
        unfold eb_sel. cbn [nprop node_val]. rewrite E1, E2, E3. cbn [option_map get_or bind]. eexists; eexists. split; [reflexivity|]. split; [reflexivity|]. apply good_3; assumption.
      - destruct (HT eq_refl) as [p [E F]]. unfold eb_sel. cbn [tprop tria_val]. rewrite E. cbn [option_map get_or bind]. eexists; eexists. split; [reflexivity|]. split; [reflexivity|]. apply good_of, F.
    Qed.

    Lemma eb_local : (pfn = true -> forall n, In n [n1; n2; o1] -> exists p, nprop n = Some p /\ prop_fine2 p) -> (pfn = false -> exists p, tprop tr1 = Some p /\ prop_fine2 p) ->
      A = Rabs (det2 P1 P2 Q1) / 6 -> (forall r, In r [r1; r2; r3] -> (r < nn)%nat) ->
      exists us US, eb_rest lits_src pfn alpha tr1 mid1 ac l n1 n2 o1 = Ok us /\
        eb_rest lits_src pfn (val alpha) (tria_val tr1) M1 A L (node_val n1) (node_val n2) (node_val o1) = Ok US /\
        steps (nn * 5) (Bc h rho s 280 345000 5 6) (Ec h rho s kappa 280 345000 5 6) us US (grid [r1; r2; r3]).
    Proof.
      intros HN HT EA NR. destruct (eb_good HN HT) as [x [X [S1 [S2 G]]]]. destruct (good_b x X l L G RL GL) as [e44 [e55 [E44 [E55 [H1 [H2 [N1 N2]]]]]]].
      destruct (sixth _ _ _ _ TR1) as [B1 [_ [B2 _]]]. rewrite <- EA in B1, B2. destruct (apart_m _ _ _ _ TR1) as [A1 A2]. destruct (tr_z _ _ _ _ _ _ TR1) as [Z1 [Z2 Z3]].
      destruct (seg_vec h rho s kappa SL 0 3 _ _ _ _ (proj1 X1) CM1 ltac:(qs) ltac:(qs) ltac:(qs) A1 ltac:(congruence)) as [U1 [W1 _]].
      destruct (seg_vec h rho s kappa SL 0 3 _ _ _ _ (proj1 X2) CM1 ltac:(qs) ltac:(qs) ltac:(qs) A2 ltac:(congruence)) as [U2 [W2 _]].
      unfold eb_rest. rewrite S1, S2. cbn [bind]. rewrite H1, H2. unfold node_index. cbn [node_val nindex nxyz]. rewrite I1, I2, I3. cbn [bind].
      match goal with |- exists us US, Ok (eb_at _ _ _ _ ?f) = _ /\ Ok (eb_at _ _ _ _ ?g) = _ /\ _ => set (vF := f); set (vR := g) end.
      eexists. eexists. split; [reflexivity|]. split; [reflexivity|].
      rewrite (at_combine _ (eb_at lits_src _ _ _ vF)), (at_combine _ (eb_at lits_src _ _ _ vR)), !eb_at_pos, !eb_at_trees.
      change [Z.of_nat r1; Z.of_nat r2; Z.of_nat r3] with (map Z.of_nat [r1; r2; r3]). rewrite <- grid_Z.
      apply (trees_steps h rho s kappa SL 280 345000 5 6 eb_leaf eb_ileaf).
      - intros i. unfold vF, vR. do 8 (destruct i as [|i]; [first [apply area3_near; assumption|exact N1|exact N2|exact U1|exact W1|exact U2|exact W2|apply zero_near; [exact SL|reflexivity|reflexivity|cbn; lia]]|]).
        rewrite !nth_overflow by (cbn; lia). exact zero_vec.
      - intros i b Hb. unfold vF, vR. destruct i as [|i]; [injection Hb as <-; apply (area_inv h rho s kappa SL ac A EAc B2)|]. discriminate Hb.
      - intros i. unfold eb_leaf. destruct (Nat.eqb i 0); [reflexivity|]. destruct (Nat.eqb i 2); [reflexivity|]. destruct (Nat.leb i 3); reflexivity.
      - rewrite grid_rot. exact eb_ok.
      - reflexivity.
      - apply grid_lt, NR.
    Qed.

    Hypothesis TR2 : tri h rho P1 P2 Q2 M2.
    Hypothesis CM2 : clv h kappa 3 mid2 M2.
    Hypothesis I4 : nindex o2 = Some r4.
    Hypothesis ZB : Rabs (vz P1 - vy M1) <= rho * h.

    Lemma ei_local : (pfn = true -> forall n, In n [n1; n2; o1; o2] -> exists p, nprop n = Some p /\ prop_fine2 p) ->
      (pfn = false -> forall t, In t [tr1; tr2] -> exists p, tprop t = Some p /\ prop_fine2 p) ->
      A = Rabs (det2 P1 P2 Q1) / 6 + Rabs (det2 P1 P2 Q2) / 6 -> (forall r, In r [r1; r2; r3; r4] -> (r < nn)%nat) ->
      exists us US, ei_rest lits_src pfn alpha tr1 tr2 mid1 mid2 ac l n1 n2 o1 o2 = Ok us /\
        ei_rest lits_src pfn (val alpha) (tria_val tr1) (tria_val tr2) M1 M2 A L (node_val n1) (node_val n2) (node_val o1) (node_val o2) = Ok US /\
        steps (nn * 5) (Bc h rho s 280 345000 5 6) (Ec h rho s kappa 280 345000 5 6) us US (grid [r1; r2; r3; r4]).
    Proof.
      intros HN HT EA NR. destruct (sixth _ _ _ _ TR1) as [B1 [B2 [B3 B4]]]. destruct (sixth _ _ _ _ TR2) as [C1 [C2 [C3 C4]]].
      destruct (apart_m _ _ _ _ TR1) as [A1 A2]. destruct (apart_m _ _ _ _ TR2) as [A3 A4]. destruct (tr_z _ _ _ _ _ _ TR1) as [Z1 [Z2 Z3]]. destruct (tr_z _ _ _ _ _ _ TR2) as [_ [Z4 Z5]].
      assert (A12 := tr_12 _ _ _ _ _ _ TR1).
      destruct (FRound4.area3 h rho s kappa SL K1 KX _ mid1 _ _ M1 _ X2 X1 CM1 (apart_sym _ _ _ A12) A2 A1) as [a1 [A1' [G1 [G1' [F1 D1]]]]].
      destruct (area3m _ mid2 _ _ M2 _ X1 X2 CM2 A12 A3 A4) as [a2 [A2' [G2 [G2' [F2 D2]]]]].
      destruct (det_mid _ _ _ _ TR1) as [M1' _]. destruct (det_mid _ _ _ _ TR2) as [_ M2'].
      rewrite FGeom.area3, M1' in G1'. injection G1' as <-. rewrite FGeom.area3, M2' in G2'. injection G2' as <-.
      replace (Rabs (det2 P1 P2 Q1) / 3 / 2) with (Rabs (det2 P1 P2 Q1) / 6) in D1 by field. replace (Rabs (det2 P1 P2 Q2) / 3 / 2) with (Rabs (det2 P1 P2 Q2) / 6) in D2 by field. fold delta in D1.
      assert (R1 : area_of_points [M1; P1; P2] = Ok (Rabs (det2 P1 P2 Q1) / 6)) by (rewrite FGeom.area3, M1'; f_equal; field).
      assert (R2 : area_of_points [P1; M2; P2] = Ok (Rabs (det2 P1 P2 Q2) / 6)) by (rewrite FGeom.area3, M2'; f_equal; field).
      set (B := Rabs (det2 P1 P2 Q1) / 6) in *. set (C := Rabs (det2 P1 P2 Q2) / 6) in *.
      assert (GS : exists x X, ei_sel pfn tr1 tr2 a1 a2 ac n1 n2 o1 o2 = Ok x /\ ei_sel pfn (tria_val tr1) (tria_val tr2) B C A (node_val n1) (node_val n2) (node_val o1) (node_val o2) = Ok X /\ good_shear x X).
      { destruct pfn.
        - destruct (HN eq_refl n1 ltac:(cbn; auto)) as [p1 [E1 H1]]. destruct (HN eq_refl n2 ltac:(cbn; auto)) as [p2 [E2 H2]]. destruct (HN eq_refl o1 ltac:(cbn; auto)) as [p3 [E3 H3]]. destruct (HN eq_refl o2 ltac:(cbn; auto)) as [p4 [E4 H4]].
          unfold ei_sel. cbn [nprop node_val]. rewrite E1, E2, E3, E4. cbn [option_map get_or bind]. eexists; eexists. split; [reflexivity|]. split; [reflexivity|]. apply good_4; assumption.
        - destruct (HT eq_refl tr1 ltac:(cbn; auto)) as [p [E1 H1]]. destruct (HT eq_refl tr2 ltac:(cbn; auto)) as [q [E2 H2]]. unfold ei_sel. cbn [tprop tria_val]. rewrite E1, E2. cbn [option_map get_or bind].
          eexists; eexists. split; [reflexivity|]. split; [reflexivity|]. apply good_A; assumption. }
      destruct GS as [x [X [S1 [S2 G]]]]. destruct (good_i x X l L G RL GL) as [e44 [e45 [e55 [E44 [E45 [E55 [H1 [H2 [N1 [N2 N3]]]]]]]]]].
      destruct (seg_vec h rho s kappa SL 0 3 _ _ _ _ (proj1 X1) CM1 ltac:(qs) ltac:(qs) ltac:(qs) A1 ltac:(congruence)) as [U1 [_ _]].
      destruct (seg_vec h rho s kappa SL 0 3 _ _ _ _ (proj1 X2) CM1 ltac:(qs) ltac:(qs) ltac:(qs) A2 ltac:(congruence)) as [U2 [W2 _]].
      destruct (seg_vec h rho s kappa SL 3 0 _ _ _ _ CM2 (proj1 X1) ltac:(qs) ltac:(qs) ltac:(qs) (apart_sym _ _ _ A3) ltac:(congruence)) as [U3 [W3 _]].
      destruct (seg_vec h rho s kappa SL 0 0 _ _ _ _ (proj1 X2) (proj1 X1) ltac:(qs) ltac:(qs) ltac:(qs) (apart_sym _ _ _ A12) ltac:(congruence)) as [U4 [W4 _]].
      assert (W1 := z_near _ _ _ _ (proj2 (proj2 (proj1 X1))) (proj1 (proj2 CM1)) ZB).
      assert (AN : nearF h rho s delta acb ac A) by (apply area_near; [exact FAc|exact EAc|rewrite EA; lra]).
      unfold ei_rest. rewrite G1, G2. cbn [node_val nxyz bind]. rewrite R1, R2. cbn [bind]. rewrite S1, S2. cbn [bind]. rewrite H1, H2. unfold node_index. cbn [node_val nindex nxyz]. rewrite I1, I2, I3, I4. cbn [bind].
      match goal with |- exists us US, Ok (ei_at _ _ _ _ _ ?f) = _ /\ Ok (ei_at _ _ _ _ _ ?g) = _ /\ _ => set (vF := f); set (vR := g) end.
      eexists. eexists. split; [reflexivity|]. split; [reflexivity|].
      rewrite (at_combine _ (ei_at lits_src _ _ _ _ vF)), (at_combine _ (ei_at lits_src _ _ _ _ vR)), !ei_at_pos, !ei_at_trees.
      change [Z.of_nat r1; Z.of_nat r2; Z.of_nat r3; Z.of_nat r4] with (map Z.of_nat [r1; r2; r3; r4]). rewrite <- grid_Z.
      apply (trees_steps h rho s kappa SL 280 345000 5 6 ei_leaf ei_ileaf).
      - intros i. unfold vF, vR. do 14 (destruct i as [|i]; [first [exact AN|apply area3_near; assumption|exact N1|exact N2|exact N3|exact U1|exact W1|exact U2|exact W2|exact U3|exact W3|exact U4|exact W4]|]).
        rewrite !nth_overflow by (cbn; lia). exact zero_vec.
      - intros i b Hb. unfold vF, vR. destruct i as [|[|[|i]]]; [injection Hb as <-..|discriminate Hb].
        + apply (area_inv h rho s kappa SL ac A EAc). rewrite EA. assert (0 <= 3 * rho * C) by (assert (Y := Rle_0_sqr h); unfold Rsqr in Y; lra). lra.
        + apply (area_inv h rho s kappa SL a1 B D1 B3).
        + apply (area_inv h rho s kappa SL a2 C D2 C3).
      - intros i. unfold ei_leaf. destruct (Nat.eqb i 0); [reflexivity|]. destruct (Nat.leb i 2); [reflexivity|]. destruct (Nat.leb i 5); [reflexivity|]. destruct (Nat.eqb i 7); reflexivity.
      - rewrite grid_rot4. exact ei_ok.
      - reflexivity.
      - apply grid_lt, NR.
    Qed.
  End Edge.
End Local.
