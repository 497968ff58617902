(** Rounding errors of the membrane forces and of the entries of calc_kG. *)
From Coq Require Import ZArith Reals List Bool Arith Lra Lia QArith Qreals.
From Flocq Require Import Core.
From Verif Require Import Num Float Py Mesh Utils CalcK0 CalcKG Spec SpecRound FFloat FTree FRound FRound2 FRound3 FRound4 FRound5 FRound6 FRound7.
Import ListNotations.
Local Open Scope R_scope.

(** ** Variables.  [bd]: the position of the place-holder of a domain with one triangle *)
Definition one_tria (bd : option nat) : bool := match bd with Some _ => true | None => false end.
Definition fleafz (bd : option nat) (i : nat) : fb := match bd with Some z => if Nat.eqb i z then zb 0 0 else f1b | None => f1b end.
(** normals and lengths (12), shape functions (16) *)
Definition row_leaf (bd : option nat) (i : nat) : fb :=
  if Nat.ltb i 12 then
    if (one_tria bd && Nat.leb 9 i)%bool then (if Nat.eqb i 11 then zb 1 0 else zb 0 0)
    else if Nat.eqb (Nat.modulo i 3) 2 then leb_ else nxb
  else if (one_tria bd && Nat.leb 24 i)%bool then zb 0 0 else fleafz bd (Nat.modulo i 4).
Definition row_list {T} {N : Num T} (rows : seg T * seg T * seg T * seg T) : list T :=
  let '(r1, r2, r3, r4) := rows in
  [s_nx r1; s_ny r1; s_le r1; s_nx r2; s_ny r2; s_le r2; s_nx r3; s_ny r3; s_le r3; s_nx r4; s_ny r4; s_le r4] ++
  flat_map (fun r => [nth0 0 (s_f r); nth0 1 (s_f r); nth0 2 (s_f r); nth0 3 (s_f r)]) [r1; r2; r3; r4].
Definition row_vars {T} (v : nat -> T) (p : nat) : seg T * seg T * seg T * seg T :=
  let r k := {| s_nx := v (p + 3 * k)%nat; s_ny := v (p + 3 * k + 1)%nat; s_le := v (p + 3 * k + 2)%nat;
     s_f := [v (p + 12 + 4 * k)%nat; v (p + 12 + 4 * k + 1)%nat; v (p + 12 + 4 * k + 2)%nat; v (p + 12 + 4 * k + 3)%nat] |} in
  (r 0, r 1, r 2, r 3)%nat.
Definition ac_ileaf (i : nat) : option fb := match i with O => Some iacb | _ => None end.

(** ** Strains *)
Definition disb : fb := Fb 1 0 0 0 1 1.
Definition epb : fb := Fb 72 1 12300 2 0 1.
Definition gab : fb := Fb 144 1 24600 2 0 1.
Definition strain_leaf (bd : option nat) (i : nat) : fb :=
  if Nat.eqb i 0 then acb else if Nat.ltb i 29 then row_leaf bd (i - 1) else disb.
Definition strain_at {T} {N : Num T} (v : nat -> T) : vec3 T :=
  strain3 (v 0%nat) (row_vars v 1)
    (fun r => dc_entry r [v 29%nat] [v 30%nat] [v 31%nat] [v 32%nat] 0) (fun r => dc_entry r [v 33%nat] [v 34%nat] [v 35%nat] [v 36%nat] 0).
Definition strain_tree (c : vec3 expr -> expr) : expr := c (strain_at EV).
Lemma strain_trees : forall T (N : Num T) (L : lits T) (v : nat -> T),
  strain_at v = V3 (evalG L v (strain_tree vx)) (evalG L v (strain_tree vy)) (evalG L v (strain_tree vz)).
Proof. intros. reflexivity. Qed.
Definition strain_args {T} {N : Num T} (a : T) (rows : seg T * seg T * seg T * seg T) (d1 d2 d3 d4 : list T) (c1 c2 : nat) (i : nat) : T :=
  nth i ([a] ++ row_list rows ++ [nth0 c1 d1; nth0 c1 d2; nth0 c1 d3; nth0 c1 d4; nth0 c2 d1; nth0 c2 d2; nth0 c2 d3; nth0 c2 d4]) (nofZ 0).
Lemma strain_eq : forall T (N : Num T) (a : T) rows d1 d2 d3 d4 c1 c2,
  strain3 a rows (fun r => dc_entry r d1 d2 d3 d4 c1) (fun r => dc_entry r d1 d2 d3 d4 c2) = strain_at (strain_args a rows d1 d2 d3 d4 c1 c2).
Proof. intros T N a [[[r1 r2] r3] r4] d1 d2 d3 d4 c1 c2. reflexivity. Qed.

Definition zpos : list (option nat) := [None; Some 0; Some 1; Some 2; Some 3]%nat.
Lemma strain_ok : forallb (fun bd => within (strain_leaf bd) ac_ileaf (strain_tree vx) epb && within (strain_leaf bd) ac_ileaf (strain_tree vy) epb &&
  within (strain_leaf bd) ac_ileaf (strain_tree vz) gab)%bool zpos = true.
Proof. vm_compute. reflexivity. Qed.

(** ** Forces: the stiffness in place of the length, the strain in place of the stiffness *)
Definition st2b : fb := Fb 1 0 400 1 1 0.
Definition fo2b : fb := Fb 576 1 334000 2 1 1.
Definition fob : fb := Fb 576 1 334000 2 0 1.
Definition force_leaf (i : nat) : fb := if Nat.ltb i 18 then st2b else if Nat.eqb (Nat.modulo i 3) 2 then gab else epb.
Definition mat_at {T} (v : nat -> T) (p : nat) : mat3 T :=
  M3 (v p) (v (p + 1)%nat) (v (p + 2)%nat) (v (p + 3)%nat) (v (p + 4)%nat) (v (p + 5)%nat) (v (p + 6)%nat) (v (p + 7)%nat) (v (p + 8)%nat).
Definition force_at {T} {N : Num T} (v : nat -> T) : vec3 T :=
  vadd (m3mulv (mat_at v 0) (V3 (v 18%nat) (v 19%nat) (v 20%nat))) (m3mulv (mat_at v 9) (V3 (v 21%nat) (v 22%nat) (v 23%nat))).
Definition force_tree (c : vec3 expr -> expr) : expr := c (force_at EV).
Lemma force_trees : forall T (N : Num T) (L : lits T) (v : nat -> T),
  force_at v = V3 (evalG L v (force_tree vx)) (evalG L v (force_tree vy)) (evalG L v (force_tree vz)).
Proof. intros. reflexivity. Qed.
Definition mat_list {T} (A : mat3 T) : list T := [m00 A; m01 A; m02 A; m10 A; m11 A; m12 A; m20 A; m21 A; m22 A].
Definition force_args {T} {N : Num T} (A B : mat3 T) (e k : vec3 T) (i : nat) : T :=
  nth i (mat_list A ++ mat_list B ++ [vx e; vy e; vz e; vx k; vy k; vz k]) (nofZ 0).
Lemma force_eq : forall T (N : Num T) (A B : mat3 T) e k, vadd (m3mulv A e) (m3mulv B k) = force_at (force_args A B e k).
Proof. intros. reflexivity. Qed.
Lemma force_ok : (within force_leaf noinv (force_tree vx) fo2b && within force_leaf noinv (force_tree vy) fo2b && within force_leaf noinv (force_tree vz) fo2b)%bool = true.
Proof. vm_compute. reflexivity. Qed.

(** ** Entries *)
Definition kGb : fb := Fb 500000 3 480000000 4 0 1.
Definition kG_leaf (bd : option nat) (i : nat) : fb := if Nat.eqb i 0 then acb else if Nat.leb i 3 then fob else row_leaf bd (i - 4).
Definition kG_at {T} {N : Num T} (i1 i2 i3 i4 : Z) (v : nat -> T) : list (Z * Z * T) :=
  kG_updates [i1; i2; i3; i4] (v 0%nat) (V3 (v 1%nat) (v 2%nat) (v 3%nat)) (row_vars v 4).
Definition kG_trees : list expr := map snd (kG_at 0 1 2 3 EV).
Definition kG_args {T} {N : Num T} (a : T) (f : vec3 T) (rows : seg T * seg T * seg T * seg T) (i : nat) : T :=
  nth i ([a; vx f; vy f; vz f] ++ row_list rows) (nofZ 0).
Lemma kG_eq : forall T (N : Num T) i1 i2 i3 i4 (a : T) f rows, kG_updates [i1; i2; i3; i4] a f rows = kG_at i1 i2 i3 i4 (kG_args a f rows).
Proof. intros T N i1 i2 i3 i4 a f [[[r1 r2] r3] r4]. reflexivity. Qed.
Definition pos4 : list (nat * nat) := list_prod (seq 0 4) (seq 0 4).
Definition at4 (i1 i2 i3 i4 : Z) (p : nat * nat) : Z * Z := (nth (fst p) [i1; i2; i3; i4] 0 * 5 + 2, nth (snd p) [i1; i2; i3; i4] 0 * 5 + 2)%Z.
Lemma kG_at_eq : forall T (N : Num T) (L : lits T) i1 i2 i3 i4 (v : nat -> T), kG_at i1 i2 i3 i4 v = combine (map (at4 i1 i2 i3 i4) pos4) (map (evalG L v) kG_trees).
Proof. intros. reflexivity. Qed.

(** entries of the place-holder are exactly zero *)
Definition holder (bd : option nat) (p : nat * nat) : bool := match bd with Some z => (Nat.eqb (fst p) z || Nat.eqb (snd p) z)%bool | None => false end.
Definition kG_ok (bd : option nat) (pe : (nat * nat) * expr) : bool :=
  within (kG_leaf bd) ac_ileaf (snd pe) (if holder bd (fst pe) then Fb 0 3 0 4 0 1 else kGb).
Lemma kG_all : forallb (fun bd => forallb (kG_ok bd) (combine pos4 kG_trees)) zpos = true.
Proof. vm_compute. reflexivity. Qed.

(** ** Changes of the scales *)
Lemma near_sc : forall h s h' s' rho delta b b' x X, fv b = fv b' -> frv b = frv b' -> fd b = fd b' -> frd b = frd b' -> sc h s b = sc h' s' b' ->
  nearF h rho s delta b x X -> nearF h' rho s' delta b' x X.
Proof. intros h s h' s' rho delta b b' x X A B C D E [F N]. split; [exact F|]. unfold near in *. rewrite <- A, <- B, <- C, <- D, <- E. exact N. Qed.
Lemma near_geo : forall h s s' rho delta b x X, fs b = O -> nearF h rho s delta b x X -> nearF h rho s' delta b x X.
Proof. intros h s s' rho delta b x X E. apply near_sc; try reflexivity. unfold sc. rewrite E. reflexivity. Qed.

Section Force.
  Variables h rho s w kappa : R.
  Let delta := kappa * roundoff.
  Hypothesis S1 : scales h rho s delta.
  Hypothesis S2 : scales h rho w delta.
  Hypothesis S3 : scales h rho (s * w) delta.
  Lemma S4 : scales s rho w delta.
  Proof. destruct S1, S2. constructor; assumption. Qed.
  Notation nr := (nearF h rho s delta).

  Variable bd : option nat.
  Hypothesis HB : In bd zpos.
  Variables (a : double) (A : R) (rows : seg double * seg double * seg double * seg double) (ROWS : seg R * seg R * seg R * seg R).
  Hypothesis NA : nr acb a A.
  Hypothesis NZ : val a <> 0.
  Hypothesis NI : near h rho s delta iacb (/ val a) (/ A).
  Hypothesis NR : forall i, (i < 28)%nat -> nr (row_leaf bd i) (nth i (row_list rows) (nofZ 0)) (nth i (row_list ROWS) 0).

  Lemma row_geo : forall i, fs (row_leaf bd i) = O.
  Proof.
    intros i. unfold row_leaf, fleafz. destruct (Nat.ltb i 12).
    - destruct (_ && _)%bool; [destruct (Nat.eqb i 11); reflexivity|]. destruct (Nat.eqb _ 2); reflexivity.
    - destruct (_ && _)%bool; [reflexivity|]. destruct bd as [z|]; [|reflexivity]. destruct (Nat.eqb _ z); reflexivity.
  Qed.
  Lemma rows_len : length (row_list rows) = 28%nat /\ length (row_list ROWS) = 28%nat.
  Proof. destruct rows as [[[r1 r2] r3] r4], ROWS as [[[q1 q2] q3] q4]. split; reflexivity. Qed.
  Lemma inv_geo : forall s' i b, ac_ileaf i = Some b -> forall v V, (i = O -> v = a /\ V = A) -> val v <> 0 /\ near h rho s' delta b (/ val v) (/ V).
  Proof.
    intros s' [|i] b E v V H; [|discriminate]. injection E as <-. destruct (H eq_refl) as [-> ->]. split; [exact NZ|]. unfold near, sc in *. exact NI.
  Qed.
  Lemma zero_any : forall h' s' b, scales h' rho s' delta -> fd b = 0%Q \/ True -> (0 <= fv b)%Q -> (0 <= fd b)%Q -> (frd b <= frv b + 2)%nat -> nearF h' rho s' delta b (nofZ 0) 0.
  Proof.
    intros h' s' b SL _ V D L. destruct (fl_ofZ 0 ltac:(lia)) as [F E]. split; [exact F|]. rewrite E. apply Qle_Rle in V, D. rewrite RMicromega.Q2R_0 in V, D.
    apply (near_self _ _ _ _ SL); auto. rewrite Rabs_R0. assert (SP := sc_pos h' s' (sl_h _ _ _ _ SL) (sl_s _ _ _ _ SL) b). assert (RP := rho_pow rho (sl_rho _ _ _ _ SL) (frv b)).
    apply Rmult_le_pos; [apply Rmult_le_pos|]; lra.
  Qed.

  (** strains *)
  Variables (d1 d2 d3 d4 : list double) (D1 D2 D3 D4 : list R).
  Hypothesis ND : forall c, (c < 5)%nat -> nearF h rho w delta disb (nth0 c d1) (nth0 c D1) /\ nearF h rho w delta disb (nth0 c d2) (nth0 c D2) /\
    nearF h rho w delta disb (nth0 c d3) (nth0 c D3) /\ nearF h rho w delta disb (nth0 c d4) (nth0 c D4).
  Notation q c := (fun r => dc_entry r d1 d2 d3 d4 c).
  Notation Q c := (fun r => dc_entry r D1 D2 D3 D4 c).

  Definition strain_near (x : vec3 double) (X : vec3 R) : Prop :=
    nearF s rho w delta epb (vx x) (vx X) /\ nearF s rho w delta epb (vy x) (vy X) /\ nearF s rho w delta gab (vz x) (vz X).

  Lemma strain_args_near : forall c1 c2, (c1 < 5)%nat -> (c2 < 5)%nat -> forall i,
    nearF h rho w delta (strain_leaf bd i) (strain_args a rows d1 d2 d3 d4 c1 c2 i) (strain_args A ROWS D1 D2 D3 D4 c1 c2 i).
  Proof.
    intros c1 c2 H1 H2 i. destruct rows_len as [L1 L2]. destruct (ND c1 H1) as [A1 [A2 [A3 A4]]]. destruct (ND c2 H2) as [B1 [B2 [B3 B4]]].
    unfold strain_args, strain_leaf. destruct i as [|i]; [apply (near_geo h s); [reflexivity|exact NA]|]. cbn [Nat.eqb app nth].
    destruct (Nat.ltb_spec (S i) 29) as [LI|LI].
    - rewrite !app_nth1 by lia. cbn [Nat.sub]. rewrite Nat.sub_0_r. apply (near_geo h s); [apply row_geo|]. apply NR. lia.
    - rewrite !app_nth2 by lia. rewrite L1, L2. generalize (i - 28)%nat. intros k.
      do 8 (destruct k as [|k]; [cbn [nth]; assumption|]). cbn [nth].
      replace (match k with O => _ | S _ => _ end) with (@nofZ double NumF 0) by (destruct k; reflexivity).
      replace (match k with O => _ | S _ => _ end) with 0 by (destruct k; reflexivity).
      apply (zero_any h w disb S2); [auto|vm_compute; discriminate|vm_compute; discriminate|cbn; lia].
  Qed.

  Lemma strain_lock : forall c1 c2, (c1 < 5)%nat -> (c2 < 5)%nat -> strain_near (strain3 a rows (q c1) (q c2)) (strain3 A ROWS (Q c1) (Q c2)).
  Proof.
    intros c1 c2 H1 H2. rewrite !strain_eq, (strain_trees _ _ L0F), (strain_trees _ _ L0R). unfold strain_near. cbn [vx vy vz].
    assert (E := strain_ok). rewrite forallb_forall in E. specialize (E bd HB). apply andb_prop in E as [E Ez]. apply andb_prop in E as [Ex Ey].
    assert (HV := strain_args_near c1 c2 H1 H2).
    assert (HI : forall i b, ac_ileaf i = Some b -> val (strain_args a rows d1 d2 d3 d4 c1 c2 i) <> 0 /\
       near h rho w delta b (/ val (strain_args a rows d1 d2 d3 d4 c1 c2 i)) (/ strain_args A ROWS D1 D2 D3 D4 c1 c2 i)).
    { intros i b Hb. apply (inv_geo w i b Hb). intros ->. split; reflexivity. }
    split; [|split]; eapply near_sc; try (apply (within_ok h rho w delta S2 _ _ _ _ HV HI); eassumption); reflexivity.
  Qed.

  (** forces *)
  Variables (ma mb : mat3 double) (MA MB : mat3 R).
  Hypothesis NM : forall i, (i < 9)%nat -> nr stb (nth i (mat_list ma) (nofZ 0)) (nth i (mat_list MA) 0) /\ nr stb (nth i (mat_list mb) (nofZ 0)) (nth i (mat_list MB) 0).
  Definition force_near (x : vec3 double) (X : vec3 R) : Prop :=
    nearF h rho (s * w) delta fob (vx x) (vx X) /\ nearF h rho (s * w) delta fob (vy x) (vy X) /\ nearF h rho (s * w) delta fob (vz x) (vz X).
  Lemma stiff_sc : forall x X, nr stb x X -> nearF s rho w delta st2b x X.
  Proof. intros x X. apply near_sc; try reflexivity. unfold sc, stb, st2b. cbn [fh fs pow]. rewrite powerRZ_1, powerRZ_O. ring. Qed.
  Lemma force_lock : forall e k E K, strain_near e E -> strain_near k K -> force_near (vadd (m3mulv ma e) (m3mulv mb k)) (vadd (m3mulv MA E) (m3mulv MB K)).
  Proof.
    intros e k E K [E1 [E2 E3]] [K1 [K2 K3]]. rewrite !force_eq, (force_trees _ _ L0F), (force_trees _ _ L0R). unfold force_near. cbn [vx vy vz].
    assert (HV : forall i, nearF s rho w delta (force_leaf i) (force_args ma mb e k i) (force_args MA MB E K i)).
    { intros i. unfold force_args, force_leaf. destruct (Nat.ltb_spec i 18) as [LI|LI].
      - apply stiff_sc. destruct (Nat.lt_ge_cases i 9) as [L9|L9].
        + rewrite !app_nth1 by (cbn [mat_list length]; lia). apply NM. exact L9.
        + rewrite (app_nth2 (mat_list ma)), (app_nth2 (mat_list MA)), !app_nth1 by (cbn [mat_list length]; lia). apply NM. cbn [mat_list length]. lia.
      - assert (M : exists j, i = (18 + j)%nat) by (exists (i - 18)%nat; lia). destruct M as [j ->]. clear LI.
        replace (nth (18 + j) (mat_list ma ++ _) _) with (nth j [vx e; vy e; vz e; vx k; vy k; vz k] (nofZ 0)) by reflexivity.
        replace (nth (18 + j) (mat_list MA ++ _) _) with (nth j [vx E; vy E; vz E; vx K; vy K; vz K] 0) by reflexivity.
        do 6 (destruct j as [|j]; [assumption|]). cbn [nth].
        replace (match j with O => _ | S _ => _ end) with (@nofZ double NumF 0) by (destruct j; reflexivity).
        replace (match j with O => _ | S _ => _ end) with 0 by (destruct j; reflexivity).
        destruct (Nat.eqb _ 2); (apply (zero_any s w _ S4); [auto|vm_compute; discriminate|vm_compute; discriminate|cbn; lia]). }
    assert (W := force_ok). apply andb_prop in W as [W Wz]. apply andb_prop in W as [Wx Wy].
    assert (SE : sc s w fo2b = sc h (s * w) fob) by (unfold sc, fo2b, fob; cbn [fh fs pow]; rewrite powerRZ_1, powerRZ_O; ring).
    split; [|split]; eapply near_sc; try exact SE; try (apply (within_ok s rho w delta S4 _ _ _ _ HV (noinv_ok _ _ _ _ _ _)); eassumption); reflexivity.
  Qed.

  (** entries *)
  Lemma entries_lock : forall f F, force_near f F -> forall p e, In (p, e) (combine pos4 kG_trees) ->
    nearF h rho (s * w) delta (if holder bd p then Fb 0 3 0 4 0 1 else kGb) (evalG L0F (kG_args a f rows) e) (evalG L0R (kG_args A F ROWS) e).
  Proof.
    intros f F [F1 [F2 F3]] p e HP. destruct rows_len as [L1 L2].
    assert (HV : forall i, nearF h rho (s * w) delta (kG_leaf bd i) (kG_args a f rows i) (kG_args A F ROWS i)).
    { intros i. unfold kG_args, kG_leaf. destruct i as [|i]; [apply (near_geo h s); [reflexivity|exact NA]|].
      do 3 (destruct i as [|i]; [assumption|]). cbn [Nat.eqb Nat.leb app nth].
      replace (S (S (S (S i))) - 4)%nat with i by lia. destruct (Nat.lt_ge_cases i 28) as [LI|LI].
      - apply (near_geo h s); [apply row_geo|]. apply NR. exact LI.
      - rewrite !nth_overflow by lia. unfold row_leaf. destruct (Nat.ltb_spec i 12); [lia|]. 
        destruct (_ && _)%bool; [apply (zero_any h (s * w) _ S3); [auto|vm_compute; discriminate|vm_compute; discriminate|cbn; lia]|].
        unfold fleafz. destruct bd as [z|]; [destruct (Nat.eqb _ z)|]; (apply (zero_any h (s * w) _ S3); [auto|vm_compute; discriminate|vm_compute; discriminate|cbn; lia]). }
    assert (HI : forall i b, ac_ileaf i = Some b -> val (kG_args a f rows i) <> 0 /\ near h rho (s * w) delta b (/ val (kG_args a f rows i)) (/ kG_args A F ROWS i)).
    { intros i b Hb. apply (inv_geo (s * w) i b Hb). intros ->. split; reflexivity. }
    assert (E := kG_all). rewrite forallb_forall in E. specialize (E bd HB). rewrite forallb_forall in E. specialize (E _ HP). unfold kG_ok in E. cbn [fst snd] in E.
    exact (within_ok h rho (s * w) delta S3 _ _ _ _ HV HI _ _ E).
  Qed.
End Force.
