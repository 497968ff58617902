(** The effect of the decimals of the edge-based method. *)
From Coq Require Import ZArith Reals List Bool Arith Lra Lia QArith Qreals.
From Verif Require Import Num Py Mesh Utils CalcK0 GenEdgeB GenEdgeI AddK0s Spec SpecK0 SpecKG SpecK0s SpecEdge FTree FSum FMat FDict FGeom FWf FSetup FAsm
  FTensor FDom FKG FK0s FK0e FK0t FMove FK0u FConv FEdge.
Import ListNotations.
Local Open Scope R_scope.
Implicit Types (m : mesh R).

(** ** The statements as syntax trees *)

Definition kb (i : nat) : kind := match i with 0 => Area | 1 | 2 | 3 => Stiffness | _ => Length end%nat.
Definition ki (i : nat) : kind := match i with 0 | 1 | 2 => Area | 3 | 4 | 5 => Stiffness | _ => Length end%nat.
Definition eb : list (Z * Z * expr) := edgeb_entries lits_expr 0 1 2 (EV 0) (EV 1) (EV 2) (EV 3) (EV 4) (EV 5) (EV 6) (EV 7).
Definition ei : list (Z * Z * expr) := edgei_entries lits_expr 0 1 2 3 (EV 0) (EV 1) (EV 2) (EV 3) (EV 4) (EV 5)
  (EV 6) (EV 7) (EV 8) (EV 9) (EV 10) (EV 11) (EV 12) (EV 13).

Definition relab (is : list Z) (z : Z) : Z := (nth (Z.to_nat (z / 5)) is 0 * 5 + z mod 5)%Z.
Definition plug (L : lits R) (is : list Z) (vals : list R) (x : Z * Z * expr) : Z * Z * R :=
  (relab is (fst (fst x)), relab is (snd (fst x)), eval L (fun i => nth i vals 0) (snd x)).

Lemma eb_eval : forall L i1 i2 i3 Ac E44 E45 E55 a b c d,
  edgeb_entries L i1 i2 i3 Ac E44 E45 E55 a b c d = map (plug L [i1; i2; i3] [Ac; E44; E45; E55; a; b; c; d]) eb.
Proof. intros. lazy -[Rplus Rmult Rinv Ropp Rminus Rdiv IZR Z.add Z.mul]. reflexivity. Qed.
Lemma ei_eval : forall L i1 i2 i3 i4 Ac Ac1 Ac2 E44 E45 E55 a1 b1 c1 d1 a2 b2 c2 d2,
  edgei_entries L i1 i2 i3 i4 Ac Ac1 Ac2 E44 E45 E55 a1 b1 c1 d1 a2 b2 c2 d2
  = map (plug L [i1; i2; i3; i4] [Ac; Ac1; Ac2; E44; E45; E55; a1; b1; c1; d1; a2; b2; c2; d2]) ei.
Proof. intros. lazy -[Rplus Rmult Rinv Ropp Rminus Rdiv IZR Z.add Z.mul]. reflexivity. Qed.

(** ** Sums of bounds *)

(** 0 for deflections, 1 for rotations *)
Definition sz (z : Z) : Z := if Z.eqb (z mod 5) 2 then 0 else 1.
Definition ok_entry (n : Z) (kd : nat -> kind) (x : Z * Z * expr) : bool :=
  match bnd kd (snd x) with
  | Some b => Z.eqb (bh b) (sz (fst (fst x)) + sz (snd (fst x))) && Nat.leb (br b) 3 && Nat.eqb (bs b) 1
      && (Z.leb 2 (fst (fst x) mod 5) && Z.leb 2 (snd (fst x) mod 5))
      && (Z.leb 0 (fst (fst x)) && Z.ltb (fst (fst x)) (n * 5)) && (Z.leb 0 (snd (fst x)) && Z.ltb (snd (fst x)) (n * 5))
  | None => false
  end%bool.
Definition tot (kd : nat -> kind) (l : list (Z * Z * expr)) : Q :=
  fold_right (fun x acc => match bnd kd (snd x) with Some b => bd b + acc | None => acc end)%Q 0%Q l.

Lemma eb_ok : forallb (ok_entry 3 kb) eb = true.
Proof. vm_compute. reflexivity. Qed.
Lemma ei_ok : forallb (ok_entry 4 ki) ei = true.
Proof. vm_compute. reflexivity. Qed.
Lemma eb_tot : (tot kb eb <= 3300)%Q.
Proof. vm_compute. discriminate. Qed.
Lemma ei_tot : (tot ki ei <= 3300)%Q.
Proof. vm_compute. discriminate. Qed.

Definition lit_err : R := 1 / 3000000000000000.
Lemma lits_near : forall j, Rabs (lit_val lits_src j) <= 1 /\ Rabs (lit_val lits_frac j) <= 1 /\
  Rabs (lit_val lits_src j - lit_val lits_frac j) <= lit_err.
Proof.
  assert (A : forall x a, - a <= x <= a -> Rabs x <= a) by (intros x a [X1 X2]; apply Rabs_le; lra).
  unfold lit_err. intros j. do 5 (destruct j as [|j]; [cbn [lit_val]; rnum; repeat split; apply A; lra|]).
  cbn [lit_val]; rnum; repeat split; apply A; lra.
Qed.

Section Terms.
  Variable n : Z.
  Variable kd : nat -> kind.
  Variables h rho s : R.
  Hypothesis Hh : 0 < h.
  Hypothesis Hr : 1 <= rho.
  Hypothesis Hs : 0 <= s.
  Variable vals : list R.
  Hypothesis HV : forall i, match kd i with
    | Length => Rabs (nth i vals 0) <= h
    | Area => 0 < nth i vals 0 <= h * h /\ h * h <= rho * nth i vals 0
    | Stiffness => Rabs (nth i vals 0) <= s end.
  Variables (U V : R) (uu vv : Z -> R).
  Hypothesis HU : forall z, (0 <= z < n * 5)%Z -> (2 <= z mod 5)%Z -> powerRZ h (sz z) * Rabs (uu z) <= U.
  Hypothesis HVV : forall z, (0 <= z < n * 5)%Z -> (2 <= z mod 5)%Z -> powerRZ h (sz z) * Rabs (vv z) <= V.

  Lemma U_pos : forall z, (0 <= z < n * 5)%Z -> (2 <= z mod 5)%Z -> 0 <= U.
  Proof.
    intros z A B. eapply Rle_trans; [|apply (HU z A B)]. apply Rmult_le_pos; [left; apply powerRZ_lt, Hh|apply Rabs_pos].
  Qed.
  Lemma V_pos : forall z, (0 <= z < n * 5)%Z -> (2 <= z mod 5)%Z -> 0 <= V.
  Proof.
    intros z A B. eapply Rle_trans; [|apply (HVV z A B)]. apply Rmult_le_pos; [left; apply powerRZ_lt, Hh|apply Rabs_pos].
  Qed.

  Let term (L : lits R) (x : Z * Z * expr) : R := uu (fst (fst x)) * eval L (fun i => nth i vals 0) (snd x) * vv (snd (fst x)).

  Lemma term_near : forall x b, ok_entry n kd x = true -> bnd kd (snd x) = Some b ->
    Rabs (term lits_src x - term lits_frac x) <= Q2R (bd b) * (lit_err * s * (rho * rho * rho) * (U * V)) /\ 0 <= U * V /\ 0 <= Q2R (bd b).
  Proof.
    intros [[r c] x] b OK B. cbn [fst snd] in *. unfold ok_entry in OK. cbn [fst snd] in OK. rewrite B in OK.
    apply andb_prop in OK. destruct OK as [OK C2]. apply andb_prop in OK. destruct OK as [OK C1].
    apply andb_prop in OK. destruct OK as [OK M]. apply andb_prop in OK. destruct OK as [OK S]. apply andb_prop in OK. destruct OK as [EH LR].
    apply andb_prop in C1, C2, M. destruct C1 as [C1 C1'], C2 as [C2 C2'], M as [M1 M2].
    apply Z.leb_le in C1, C2, M1, M2. apply Z.ltb_lt in C1', C2'. apply Z.eqb_eq in EH. apply Nat.leb_le in LR. apply Nat.eqb_eq in S.
    assert (HL := lits_near).
    assert (DP : 0 <= lit_err) by (unfold lit_err; lra).
    assert (X := bnd_ok kd h rho s lit_err Hh Hr Hs DP lits_src lits_frac HL _ HV x b B). destruct X as [V1 [V2 [_ [_ X]]]].
    assert (UP := U_pos r (conj C1 C1') M1). assert (VP := V_pos c (conj C2 C2') M2).
    assert (BU := HU r (conj C1 C1') M1). assert (BV := HVV c (conj C2 C2') M2).
    split; [|split; [apply Rmult_le_pos; assumption|exact V2]]. unfold term; cbn [fst snd].
    set (p := eval lits_src (fun i => nth i vals 0) x) in *. set (q := eval lits_frac (fun i => nth i vals 0) x) in *.
    replace (uu r * p * vv c - uu r * q * vv c) with (uu r * (p - q) * vv c) by ring. rewrite !Rabs_mult.
    unfold mono in X. rewrite EH, S in X. rewrite powerRZ_add, pow_1 in X by lra.
    assert (RR : rho ^ br b <= rho * rho * rho).
    { replace (rho * rho * rho) with (rho ^ 3) by ring. apply Rle_pow; assumption. }
    assert (R0 : 0 <= rho ^ br b) by (apply pow_le; lra).
    set (hr := powerRZ h (sz r)) in *. set (hc := powerRZ h (sz c)) in *.
    assert (Hhr : 0 < hr) by (apply powerRZ_lt, Hh). assert (Hhc : 0 < hc) by (apply powerRZ_lt, Hh).
    assert (AU := Rabs_pos (uu r)). assert (AV := Rabs_pos (vv c)).
    apply Rle_trans with (Rabs (uu r) * (lit_err * Q2R (bd b) * (hr * hc * rho ^ br b * s)) * Rabs (vv c)).
    { apply Rmult_le_compat_r; [exact AV|]. apply Rmult_le_compat_l; [exact AU|exact X]. }
    replace (Rabs (uu r) * (lit_err * Q2R (bd b) * (hr * hc * rho ^ br b * s)) * Rabs (vv c))
      with ((lit_err * Q2R (bd b) * s) * rho ^ br b * ((hr * Rabs (uu r)) * (hc * Rabs (vv c)))) by ring.
    replace (Q2R (bd b) * (lit_err * s * (rho * rho * rho) * (U * V))) with ((lit_err * Q2R (bd b) * s) * (rho * rho * rho) * (U * V)) by ring.
    assert (Z0 : 0 <= lit_err * Q2R (bd b) * s) by (apply Rmult_le_pos; [apply Rmult_le_pos|]; assumption).
    clearbody hr hc. apply Rmult_le_compat.
    - apply Rmult_le_pos; assumption.
    - repeat apply Rmult_le_pos; lra.
    - apply Rmult_le_compat_l; assumption.
    - apply Rmult_le_compat; try assumption; apply Rmult_le_pos; lra.
  Qed.

  Lemma terms_near : forall l, forallb (ok_entry n kd) l = true ->
    Rabs (Sum (term lits_src) l - Sum (term lits_frac) l) <= Q2R (tot kd l) * (lit_err * s * (rho * rho * rho) * (U * V)) /\ 0 <= Q2R (tot kd l) /\ (l <> [] -> 0 <= U * V).
  Proof.
    induction l as [|x l IH]; intros OK.
    - split; [|split; [|congruence]]; cbn [tot fold_right]; rewrite RMicromega.Q2R_0; [|lra]. unfold Sum; cbn. rewrite Rminus_0_r, Rabs_R0. lra.
    - cbn [forallb] in OK. apply andb_prop in OK. destruct OK as [O1 O2]. destruct (IH O2) as [I1 [I2 _]]. rewrite !Sum_cons.
      destruct (bnd kd (snd x)) as [b|] eqn:B; [|unfold ok_entry in O1; rewrite B in O1; discriminate].
      destruct (term_near x b O1 B) as [T1 [T2 T3]]. unfold tot; cbn [fold_right]. rewrite B. fold (tot kd l). rewrite Q2R_plus.
      split; [|split; [lra|intros _; exact T2]].
      replace (term lits_src x + Sum (term lits_src) l - (term lits_frac x + Sum (term lits_frac) l))
        with ((term lits_src x - term lits_frac x) + (Sum (term lits_src) l - Sum (term lits_frac) l)) by ring.
      eapply Rle_trans; [apply Rabs_triang|]. rewrite Rmult_plus_distr_r. lra.
  Qed.
End Terms.

(** ** Edges *)

Section Scale.
  Variable m : mesh R.
  Hypothesis W : wf_mesh m.
  Hypothesis PL : plate m.
  Variable pfn : bool.
  Variables h rho c e : R.
  Hypothesis ES : edge_scale m h rho c e.

  Lemma dof_scale : forall U u ns, (forall x, In x ns -> In x (node_keys m)) -> field_scale m h U u ->
    forall z, (0 <= z < Z.of_nat (List.length ns) * 5)%Z -> (2 <= z mod 5)%Z ->
      powerRZ h (sz z) * Rabs (u (nidx (List.length (nodes m) * 5) (relab (map (zr m) ns) z))) <= U.
  Proof.
    intros U u ns HN FS z Z1 Z2. unfold relab.
    assert (LT : (Z.to_nat (z / 5) < List.length ns)%nat).
    { assert (0 <= z / 5)%Z by (apply Z.div_pos; lia). assert (z / 5 < Z.of_nat (List.length ns))%Z by (apply Z.div_lt_upper_bound; lia). lia. }
    set (x := nth (Z.to_nat (z / 5)) ns 0%nat). assert (Hx : In x ns) by (apply nth_In, LT).
    assert (E : nth (Z.to_nat (z / 5)) (map (zr m) ns) 0%Z = zr m x).
    { rewrite (nth_indep _ 0%Z (zr m 0%nat)) by (rewrite map_length; exact LT). apply map_nth. }
    rewrite E. clear E. destruct (dof_at m u x (HN x Hx)) as [D2 [D3 D4]]. destruct (FS x (HN x Hx)) as [F2 [F3 F4]].
    assert (MB := Z.mod_pos_bound z 5 ltac:(lia)). unfold sz.
    assert (C : (z mod 5 = 2 \/ z mod 5 = 3 \/ z mod 5 = 4)%Z) by lia.
    destruct C as [C|[C|C]]; rewrite C; cbn [Z.eqb Pos.eqb].
    - rewrite D2. cbn [powerRZ]. lra.
    - rewrite D3, powerRZ_1. exact F3.
    - rewrite D4, powerRZ_1. exact F4.
  Qed.

  Lemma plug_form : forall N L is vals l u v, upd_form N (map (plug L is vals) l) u v =
    Sum (fun x => u (nidx N (relab is (fst (fst x)))) * eval L (fun i => nth i vals 0) (snd x) * v (nidx N (relab is (snd (fst x))))) l.
  Proof. intros. unfold upd_form. rewrite Sum_map. reflexivity. Qed.

  Lemma mean3_near : forall (f : vec3 R -> R) (a b1 b2 b3 : R), Rabs (a - b1) <= h -> Rabs (a - b2) <= h -> Rabs (a - b3) <= h -> Rabs (a - (b1 + b2 + b3) / 3) <= h.
  Proof.
    intros _ a b1 b2 b3 H1 H2 H3. replace (a - (b1 + b2 + b3) / 3) with (((a - b1) + (a - b2) + (a - b3)) / 3) by field.
    unfold Rdiv. rewrite Rabs_mult. rewrite (Rabs_right (/ 3)) by lra.
    assert (X := Rabs_triang ((a - b1) + (a - b2)) (a - b3)). assert (Y := Rabs_triang (a - b1) (a - b2)). lra.
  Qed.

  Lemma tarea_small : forall t, In t (trias_of m) -> tarea m t <= h * h.
  Proof.
    intros t Ht. unfold tarea, tdet, det2. assert (HP := es_h _ _ _ _ _ ES).
    destruct (es_near _ _ _ _ _ ES t (tn2 t) (tn1 t) Ht) as [A1 [A2 _]]; [unfold vertex; auto..|].
    destruct (es_near _ _ _ _ _ ES t (tn3 t) (tn1 t) Ht) as [B1 [B2 _]]; [unfold vertex; auto..|].
    set (x := vx (pos m (tn2 t)) - vx (pos m (tn1 t))) in *. set (y := vy (pos m (tn3 t)) - vy (pos m (tn1 t))) in *.
    set (x' := vx (pos m (tn3 t)) - vx (pos m (tn1 t))) in *. set (y' := vy (pos m (tn2 t)) - vy (pos m (tn1 t))) in *.
    clearbody x y x' y'. assert (T := Rabs_triang (x * y) (- (x' * y'))). rewrite Rabs_Ropp, !Rabs_mult in T.
    assert (P1 : Rabs x * Rabs y <= h * h) by (apply Rmult_le_compat; auto using Rabs_pos).
    assert (P2 : Rabs x' * Rabs y' <= h * h) by (apply Rmult_le_compat; auto using Rabs_pos).
    unfold Rminus. lra.
  Qed.

  Lemma edge_val_bound : forall f b k, In k (edge_keys m) -> 0 <= b -> all_props m (fun p => Rabs (f p) <= b) -> Rabs (edge_val m pfn f k) <= b.
  Proof.
    intros f b k Hk B [H1 H2]. unfold edge_val. assert (T := on_pos m PL k).
    assert (PV : forall o, (forall p, o = Some p -> Rabs (f p) <= b) -> - b <= pval f o <= b).
    { intros [p|] H; cbn [pval]; [|lra]. specialize (H p eq_refl). revert H. unfold Rabs. destruct Rcase_abs; lra. }
    assert (N : forall n, - b <= pval f (nodeprop m n) <= b) by (intros n; apply PV; intros p; apply H1).
    assert (E : forall t, In t (tris_on m k) -> - b <= pval f (tprop t) <= b).
    { intros t Ht. apply PV. intros p. apply H2. apply tris_on_in in Ht. tauto. }
    assert (Na := N (fst k)). assert (Nb := N (snd k)). apply Rabs_le.
    destruct (tris_on m k) as [|t [|t' [|t'' l]]]; try lra.
    - assert (Nt := N (third t k)). destruct pfn; [lra|apply E; left; reflexivity].
    - assert (Nt := N (third t k)). assert (Nt' := N (third t' k)). destruct pfn; [lra|].
      assert (A1 := T t (or_introl eq_refl)). assert (A2 := T t' (or_intror (or_introl eq_refl))).
      assert (E1 := E t (or_introl eq_refl)). assert (E2 := E t' (or_intror (or_introl eq_refl))).
      set (p := pval f (tprop t)) in *. set (q := pval f (tprop t')) in *. set (a := tarea m t) in *. set (a' := tarea m t') in *.
      assert (X1 : a * p <= a * b) by (apply Rmult_le_compat_l; lra). assert (X2 : a' * q <= a' * b) by (apply Rmult_le_compat_l; lra).
      assert (X3 : a * - b <= a * p) by (apply Rmult_le_compat_l; lra). assert (X4 : a' * - b <= a' * q) by (apply Rmult_le_compat_l; lra).
      assert (AP : 0 < / (a + a')) by (apply Rinv_0_lt_compat; lra).
      assert (S : b = (a + a') * b * / (a + a')) by (field; lra).
      split; [rewrite S at 1|rewrite S at 1]; unfold Rdiv; [rewrite Ropp_mult_distr_l|]; apply Rmult_le_compat_r; lra.
  Qed.

  Let C0 : 0 <= c := es_c _ _ _ _ _ ES.
  Let E0 : 0 <= e := es_e _ _ _ _ _ ES.
  Lemma edge_G_bound : forall k, In k (edge_keys m) ->
    Rabs (fst (fst (edge_G m pfn k))) <= c * e /\ Rabs (snd (fst (edge_G m pfn k))) <= c * e /\ Rabs (snd (edge_G m pfn k)) <= c * e.
  Proof.
    intros k Hk. assert (CE : 0 <= c * e) by (apply Rmult_le_pos; assumption).
    assert (K1 : Rabs (edge_val m pfn pk13 k) <= c) by (apply edge_val_bound; [exact Hk|exact C0|]; refine (all_imp m _ _ _ (es_factor _ _ _ _ _ ES)); tauto).
    assert (K2 : Rabs (edge_val m pfn pk23 k) <= c) by (apply edge_val_bound; [exact Hk|exact C0|]; refine (all_imp m _ _ _ (es_factor _ _ _ _ _ ES)); tauto).
    assert (A : Rabs (edge_val m pfn (fun p => e00 (pE p)) k) <= e) by (apply edge_val_bound; [exact Hk|exact E0|]; refine (all_imp m _ _ _ (es_stiff _ _ _ _ _ ES)); tauto).
    assert (B : Rabs (edge_val m pfn (fun p => e01 (pE p)) k) <= e) by (apply edge_val_bound; [exact Hk|exact E0|]; refine (all_imp m _ _ _ (es_stiff _ _ _ _ _ ES)); tauto).
    assert (D : Rabs (edge_val m pfn (fun p => e11 (pE p)) k) <= e) by (apply edge_val_bound; [exact Hk|exact E0|]; refine (all_imp m _ _ _ (es_stiff _ _ _ _ _ ES)); tauto).
    assert (K3 : Rabs (Rmin (edge_val m pfn pk13 k) (edge_val m pfn pk23 k)) <= c) by (unfold Rmin; destruct Rle_dec; assumption).
    assert (Q : forall x y, Rabs x <= c -> Rabs y <= e -> Rabs (x * y) <= c * e).
    { intros x y X Y. rewrite Rabs_mult. apply Rmult_le_compat; auto using Rabs_pos. }
    unfold edge_G. cbv zeta. destruct (tris_on m k) as [|t [|t' l]]; cbn [fst snd]; rewrite ?Rabs_R0; auto.
  Qed.

  Lemma on_vertex : forall k t, In k (edge_keys m) -> In t (tris_on m k) ->
    In t (trias_of m) /\ vertex t (fst (ccw m k)) /\ vertex t (snd (ccw m k)) /\ vertex t (third t k).
  Proof.
    intros k t Hk Ht. destruct (on_perm m W k Hk t Ht) as [P _]. split; [apply tris_on_in in Ht; tauto|]. apply perm3_vertex, P.
  Qed.

  Lemma edge_Q_near : forall U V u v k, In k (edge_keys m) -> field_scale m h U u -> field_scale m h V v ->
    Rabs (edge_Q lits_src m pfn k u v - edge_Q lits_frac m pfn k u v) <= 11 / 10000000000000 * (c * e) * (rho * rho * rho) * (U * V).
  Proof.
    intros U V u v k Hk FU FV. assert (HP := es_h _ _ _ _ _ ES). assert (RP := es_rho _ _ _ _ _ ES).
    assert (CE : 0 <= c * e) by (apply Rmult_le_pos; assumption). destruct (edge_G_bound k Hk) as [G1 [G2 G3]].
    assert (L2 := pl_two m PL k Hk). assert (NE := tris_on_nonempty m W k Hk). assert (T := on_pos m PL k).
    destruct (ccw_nodes m W k Hk) as [K1 K2]. assert (OV := on_vertex k). assert (OP := on_perm m W k Hk). assert (CO := centroid_of m W k Hk).
    assert (NEAR := es_near _ _ _ _ _ ES). assert (FAT := es_fat _ _ _ _ _ ES). assert (SM := tarea_small).
    assert (RR : 0 <= rho * rho * rho) by (repeat apply Rmult_le_pos; lra).
    assert (FIN : forall q, (q <= 3300)%Q -> 0 <= U * V -> Q2R q * (lit_err * (c * e) * (rho * rho * rho) * (U * V)) <= 11 / 10000000000000 * (c * e) * (rho * rho * rho) * (U * V)).
    { intros q HQ UV. apply Qle_Rle in HQ. replace (Q2R 3300) with 3300 in HQ by (unfold Q2R; cbn; lra).
      assert (X : 0 <= (c * e) * (rho * rho * rho) * (U * V)) by (apply Rmult_le_pos; [apply Rmult_le_pos; assumption|exact UV]).
      unfold lit_err. set (z := (c * e) * (rho * rho * rho) * (U * V)) in *.
      replace (Q2R q * (1 / 3000000000000000 * (c * e) * (rho * rho * rho) * (U * V))) with (Q2R q * (1 / 3000000000000000) * z) by (unfold z; ring).
      replace (11 / 10000000000000 * (c * e) * (rho * rho * rho) * (U * V)) with (11 / 10000000000000 * z) by (unfold z; ring).
      apply Rmult_le_compat_r; [exact X|]. lra. }
    unfold edge_Q, edge_upds, dom_area.
    set (n1 := fst (ccw m k)) in *. set (n2 := snd (ccw m k)) in *. clearbody n1 n2.
    destruct (tris_on m k) as [|t [|t' [|t'' l]]] eqn:ET; [contradiction| | |cbn in L2; lia].
    - assert (I : In t [t]) by (left; reflexivity). destruct (OV t Hk I) as [IT [V1 [V2 V3]]]. destruct (OP t I) as [_ K3]. destruct (CO t I) as [CX CY].
      assert (TP := T t I). assert (F := FAT t IT). assert (S := SM t IT).
      rewrite CX, CY, !eb_eval, !plug_form.
      match goal with |- Rabs (Sum (fun x => _ * eval _ (fun i => nth i ?vals 0) _ * _) _ - _) <= _ => set (vv := vals) end.
      assert (HV : forall i, match kb i with
        | Length => Rabs (nth i vv 0) <= h | Area => 0 < nth i vv 0 <= h * h /\ h * h <= rho * nth i vv 0 | Stiffness => Rabs (nth i vv 0) <= c * e end).
      { intros i. unfold Sum in vv; cbn [map rsum fold_right] in vv.
        destruct i as [|i]; [cbn; lra|]. do 3 (destruct i as [|i]; [cbn; assumption|]).
        destruct i as [|i]; [cbn; apply (mean3_near vx); apply (NEAR t); assumption|].
        destruct i as [|i]; [cbn; apply (mean3_near vy); apply (NEAR t); assumption|].
        destruct i as [|i]; [cbn; apply (mean3_near vx); apply (NEAR t); assumption|].
        destruct i as [|i]; [cbn; apply (mean3_near vy); apply (NEAR t); assumption|].
        cbn. destruct i; rewrite Rabs_R0; lra. }
      assert (NS : forall x, In x [n1; n2; third t k] -> In x (node_keys m)) by (intros x [<-|[<-|[<-|[]]]]; assumption).
      destruct (terms_near 3 kb h rho (c * e) HP RP CE vv HV U V
        (fun z => u (nidx (List.length (nodes m) * 5) (relab (map (zr m) [n1; n2; third t k]) z)))
        (fun z => v (nidx (List.length (nodes m) * 5) (relab (map (zr m) [n1; n2; third t k]) z)))
        (dof_scale U u [n1; n2; third t k] NS FU) (dof_scale V v [n1; n2; third t k] NS FV) eb eb_ok) as [X1 [X2 X3]].
      eapply Rle_trans; [exact X1|]. apply FIN; [exact eb_tot|apply X3; discriminate].
    - assert (I : In t [t; t']) by (left; reflexivity). assert (I' : In t' [t; t']) by (right; left; reflexivity).
      destruct (OV t Hk I) as [IT [V1 [V2 V3]]]. destruct (OP t I) as [_ K3]. destruct (CO t I) as [CX CY].
      destruct (OV t' Hk I') as [IT' [V1' [V2' V3']]]. destruct (OP t' I') as [_ K3']. destruct (CO t' I') as [CX' CY'].
      assert (TP := T t I). assert (F := FAT t IT). assert (S := SM t IT). assert (TP' := T t' I'). assert (F' := FAT t' IT'). assert (S' := SM t' IT').
      rewrite CX, CY, CX', CY', !ei_eval, !plug_form.
      match goal with |- Rabs (Sum (fun x => _ * eval _ (fun i => nth i ?vals 0) _ * _) _ - _) <= _ => set (vv := vals) end.
      assert (HV : forall i, match ki i with
        | Length => Rabs (nth i vv 0) <= h | Area => 0 < nth i vv 0 <= h * h /\ h * h <= rho * nth i vv 0 | Stiffness => Rabs (nth i vv 0) <= c * e end).
      { assert (RT : 0 <= rho * tarea m t) by (apply Rmult_le_pos; lra). assert (RT' : 0 <= rho * tarea m t') by (apply Rmult_le_pos; lra).
        assert (HHP : 0 < h * h) by (apply Rmult_lt_0_compat; assumption).
        intros i. unfold Sum in vv; cbn [map rsum fold_right] in vv.
        do 3 (destruct i as [|i]; [cbn; lra|]). do 3 (destruct i as [|i]; [cbn; assumption|]).
        destruct i as [|i]; [cbn; apply (mean3_near vx); apply (NEAR t); assumption|].
        destruct i as [|i]; [cbn; apply (mean3_near vy); apply (NEAR t); assumption|].
        destruct i as [|i]; [cbn; apply (mean3_near vx); apply (NEAR t); assumption|].
        destruct i as [|i]; [cbn; apply (mean3_near vy); apply (NEAR t); assumption|].
        destruct i as [|i]; [cbn; rewrite Rabs_minus_sym; apply (mean3_near vx); apply (NEAR t'); assumption|].
        destruct i as [|i]; [cbn; rewrite Rabs_minus_sym; apply (mean3_near vy); apply (NEAR t'); assumption|].
        destruct i as [|i]; [cbn; apply (NEAR t); assumption|].
        destruct i as [|i]; [cbn; apply (NEAR t); assumption|].
        cbn. destruct i; rewrite Rabs_R0; lra. }
      assert (NS : forall x, In x [n1; n2; third t k; third t' k] -> In x (node_keys m)) by (intros x [<-|[<-|[<-|[<-|[]]]]]; assumption).
      destruct (terms_near 4 ki h rho (c * e) HP RP CE vv HV U V
        (fun z => u (nidx (List.length (nodes m) * 5) (relab (map (zr m) [n1; n2; third t k; third t' k]) z)))
        (fun z => v (nidx (List.length (nodes m) * 5) (relab (map (zr m) [n1; n2; third t k; third t' k]) z)))
        (dof_scale U u [n1; n2; third t k; third t' k] NS FU) (dof_scale V v [n1; n2; third t k; third t' k] NS FV) ei ei_ok) as [X1 [X2 X3]].
      eapply Rle_trans; [exact X1|]. apply FIN; [exact ei_tot|apply X3; discriminate].
  Qed.
End Scale.
