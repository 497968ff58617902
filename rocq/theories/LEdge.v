(** Lemmas behind the property on rigid motions and constant shear, edge-based (C79). *)
(* P: Num Py Mesh Utils CalcK0 AddK0s Spec SpecK0 SpecKG SpecK0s SpecEdge Ex ExK0 ExK0s *)
From Coq Require Import ZArith Reals List Bool Arith Lra Lia String.
From Verif Require Import Num Py Mesh Utils CalcK0 GenEdgeI AddK0s Spec SpecK0 SpecKG SpecK0s SpecEdge FSum FMat FDict FGeom FWf FSetup FAsm
  FTensor FSmooth FRenum FKG FK0s FK0e FK0t FMove FK0u FK0r FStab2 FEdge LK0 LK0s Ex ExK0 ExK0s.
Import ListNotations.
Local Open Scope R_scope.
Implicit Types (m : mesh R).

Lemma quad2_tuple : forall (G : R * R * R) x y, quad2 (fst (fst G)) (snd (fst G)) (snd G) x y =
  (let '(G44, G45, G55) := G in G44 * fst x * fst y + G45 * (fst x * snd y + snd x * fst y) + G55 * snd x * snd y).
Proof. intros [[a b] c] x y. reflexivity. Qed.

Lemma level_energy : forall m pfn alpha mfa u v, wf_mesh m -> plate m -> starts_level m ->
  Sum (fun x => corr alpha (edge_val m pfn ph x) (edge_size m mfa x) * edge_Q lits_frac m pfn x u v) (edge_keys m)
  = edge_energy m pfn alpha mfa (strain_edge m u) (strain_edge m v).
Proof.
  intros m pfn alpha mfa u v W PL SL. unfold edge_energy. apply Sum_ext_in. intros x Hx.
  assert (D := dom_pos m W PL x Hx). rewrite (edge_Q_frac m W PL pfn x Hx).
  rewrite !(strain_geom m W PL x Hx) by (intros t t' E; exact (SL x t t' Hx E)).
  rewrite <- quad2_tuple. unfold quad2; cbn [fst snd]. field. lra.
Qed.

(** ** C79 *)

(** Edge-based with exact fractions, on a plate whose edges with two triangles start in nodes with y = z: the call adds the
    energy of the discrete shear strains of the edge domains. Missing: the decimals of the code, and plates in other
    positions (refuted below). *)
Lemma c79_energy_partial : forall m m' pfn alpha mfa k, call_ok m m' pfn alpha k -> starts_level m ->
  exists k', add_k0s lits_frac k m' pfn "edge-based" alpha mfa = (k', Ok tt) /\
    adds k k' (fun u v => edge_energy m pfn alpha mfa (strain_edge m u) (strain_edge m v)).
Proof.
  intros m m' pfn alpha mfa k C SL. destruct (call_spec _ _ _ _ _ C) as [W PL].
  destruct (edge_method_add lits_frac m m' pfn alpha mfa k C) as [k' [E [A1 A2]]]. exists k'. split; [exact E|]. split; [exact A1|].
  intros u v. rewrite A2, level_energy by assumption. reflexivity.
Qed.
Lemma two_call : forall h pfn alpha, 0 <= alpha -> exists m', call_ok (move 0 h (two (shear_prop 1 1 1 1))) m' pfn alpha (zeros 20).
Proof.
  intros h pfn alpha A. set (p := shear_prop 1 1 1 1).
  destruct (prepare (two p) pfn (two_valid _ pfn)) as [m1 P1].
  destruct (prepare (move 0 h (two p)) pfn) as [m2 P2]; [apply mv_valid; [apply two_wf'|apply two_valid]|]. exists m2.
  apply (mv_call 0 h (two p) m1); [|exact P2].
  constructor; [exact P1|apply (va_props _ pfn (two_valid _ pfn))|apply with_one; [exact two_wf|cbn; lra]|exact A|reflexivity].
Qed.
Lemma two_start : forall h p, fst (edge_ends (move 0 h (two p)) (1, 3)%nat) = 3%nat.
Proof.
  intros h p. assert (W := two_wf' p). destruct two_pos as [P1 [P2 [P3 P4]]].
  assert (K : In (1, 3)%nat (edge_keys (two p))) by (cbn; auto).
  change (edge_ends (move 0 h (two p)) (1, 3)%nat) with (ccw (move 0 h (two p)) (1, 3)%nat). rewrite (mv_ccw 0 h (two p) W _ K).
  assert (T : tris_on (two p) (1, 3)%nat = [two_t1 p; two_t2 p]) by reflexivity.
  unfold ccw. rewrite T. unfold two, all_same. rewrite wp_pos. cbn [fst snd]. change (third (two_t1 p) (1, 3)%nat) with 2%nat.
  rewrite P1, P2, P3. unfold det2; cbn [vx vy]. destruct Rlt_dec; [lra|reflexivity].
Qed.
Lemma two_level : forall p, starts_level (move 0 (-1) (two p)).
Proof.
  intros p k t t' Hk E. change (edge_keys (move 0 (-1) (two p))) with [(1, 2); (2, 3); (1, 3); (3, 4); (1, 4)]%nat in Hk.
  destruct Hk as [<-|[<-|[<-|[<-|[<-|[]]]]]]; try discriminate E. rewrite two_start.
  rewrite !(mv_pos 0 (-1) (two p)) by (cbn; tauto). unfold two, all_same. rewrite wp_pos. destruct two_pos as [_ [_ [P3 _]]]. rewrite P3.
  cbn. lra.
Qed.
Lemma c79_energy_partial_ex : forall pfn, let m := move 0 (-1) (two (shear_prop 1 1 1 1)) in
  (exists m', call_ok m m' pfn 2 (zeros 20)) /\ starts_level m /\ exists k t t', In k (edge_keys m) /\ tris_on m k = [t; t'].
Proof.
  intros pfn m. split; [apply two_call; lra|]. split; [apply two_level|]. exists (1, 3)%nat. do 2 eexists.
  split; [cbn; tauto|reflexivity].
Qed.

(** With exact fractions and on the same plates: a constant shear strain is reproduced in every domain. *)
Lemma c79_constant_partial : forall m m' pfn alpha mfa k u wx wy px py, call_ok m m' pfn alpha k -> starts_level m ->
  constant_shear m u wx wy px py ->
  exists k', add_k0s lits_frac k m' pfn "edge-based" alpha mfa = (k', Ok tt) /\
    forall v, form k' u v = form k u v + edge_energy m pfn alpha mfa (fun _ => (wx + px, wy + py)) (strain_edge m v).
Proof.
  intros m m' pfn alpha mfa k u wx wy px py C SL CS. destruct (call_spec _ _ _ _ _ C) as [W PL].
  destruct (c79_energy_partial m m' pfn alpha mfa k C SL) as [k' [E [_ A]]]. exists k'. split; [exact E|].
  intros v. rewrite A. f_equal. unfold edge_energy. apply Sum_ext_in. intros x Hx. rewrite (strain_edge_affine m W PL x Hx u wx wy px py CS). reflexivity.
Qed.
Definition two_rot : nat -> R := fun i => nth i [0;0;0;0;-1; 0;0;0;0;-1; 0;0;1;0;-1; 0;0;1;0;-1] 0.
Lemma two_rotation : forall h p, constant_shear (move 0 h (two p)) two_rot 0 1 0 (-1).
Proof.
  intros h p. exists (- h). intros n Hn. unfold affine. rewrite (mv_pos 0 h (two p)) by exact Hn. unfold two, all_same. rewrite wp_pos.
  destruct two_pos as [P1 [P2 [P3 P4]]]. assert (E : node_keys (move 0 h (two p)) = [1; 2; 3; 4]%nat) by reflexivity. rewrite E in Hn.
  destruct Hn as [<-|[<-|[<-|[<-|[]]]]]; rewrite ?P1, ?P2, ?P3, ?P4;
    unfold comp, rank; fold (two p); change (node_keys (move 0 h (all_same p two_read))) with [1; 2; 3; 4]%nat; cbn; repeat split; lra.
Qed.
Lemma c79_constant_partial_ex : forall pfn, let m := move 0 (-1) (two (shear_prop 1 1 1 1)) in
  (exists m', call_ok m m' pfn 2 (zeros 20)) /\ starts_level m /\ exists u, constant_shear m u 0 1 0 (-1).
Proof. intros pfn m. split; [apply two_call; lra|]. split; [apply two_level|]. exists two_rot. apply two_rotation. Qed.

(** With exact fractions, on any plate with positive stiffness: a rigid rotation with a slope in y carries no energy if and
    only if all edges with two triangles start in nodes with y = z. *)
Lemma c79_rotation_partial : forall m m' pfn alpha mfa k u wx wy, call_ok m m' pfn alpha k -> stiff_pos m ->
  constant_shear m u wx wy (- wx) (- wy) -> wy <> 0 ->
  exists k', add_k0s lits_frac k m' pfn "edge-based" alpha mfa = (k', Ok tt) /\
    (form k' u u = form k u u <-> starts_level m).
Proof.
  intros m m' pfn alpha mfa k u wx wy C ST CS NZ. destruct (call_spec _ _ _ _ _ C) as [W PL].
  destruct (edge_method_add lits_frac m m' pfn alpha mfa k C) as [k' [E [A1 A2]]]. exists k'. split; [exact E|].
  assert (PC := co_props _ _ _ _ _ C). assert (TH := co_thick _ _ _ _ _ C). assert (AL := co_alpha _ _ _ _ _ C).
  assert (SF : stiff_full m).
  { refine (all_imp m _ _ _ ST). intros p [H1 [H2 H3]]. split; [lra|]. split; [lra|]. intros x y.
    destruct (Req_dec x 0) as [-> |N]; [destruct (Req_dec y 0) as [-> |N]; [right; ring|]|]; left; apply H3; auto. }
  rewrite A2. split; intros H.
  - intros x t t' Hx T.
    assert (Z : edge_Q lits_frac m pfn x u u = 0).
    { assert (CR := corr_range alpha _ (edge_size m mfa x) AL (edge_thick m pfn x W PL PC TH Hx)).
      assert (X := Sum_zero_each _ (fun x => corr alpha (edge_val m pfn ph x) (edge_size m mfa x) * edge_Q lits_frac m pfn x u u) (edge_keys m)).
      apply Rmult_eq_reg_l with (corr alpha (edge_val m pfn ph x) (edge_size m mfa x)); [|lra]. rewrite Rmult_0_r. apply X; [|lra|exact Hx].
      intros y Hy. apply Rmult_le_pos; [|apply edge_Q_nonneg; assumption].
      left. apply (corr_range alpha _ (edge_size m mfa y) AL (edge_thick m pfn y W PL PC TH Hy)). }
    apply (edge_Q_zero m W PL pfn PC x Hx ST) in Z.
    rewrite (strain_rotation m W PL x Hx t t' u wx wy T CS) in Z. apply pair_equal_spec in Z. destruct Z as [Z1 Z2].
    change (edge_ends m x) with (ccw m x).
    destruct (Req_dec (vy (pos m (fst (ccw m x)))) (vz (pos m (fst (ccw m x))))) as [Y|Y]; [exact Y|]. exfalso.
    set (d := vy (pos m (fst (ccw m x))) - vz (pos m (fst (ccw m x)))) in *. assert (ND : d <> 0) by (unfold d; lra).
    assert (F := first_left m W PL x Hx t [t'] T).
    destruct (centroid_of m W x Hx t) as [CX CY]; [rewrite T; left; reflexivity|].
    set (c := vx (pos m (snd (ccw m x))) - vx (centroid m t)) in *. set (e := vy (pos m (snd (ccw m x))) - vy (centroid m t)) in *.
    assert (C0 : c = 0).
    { destruct (Req_dec c 0) as [Q|Q]; [exact Q|]. exfalso. assert (V : d * wy * c <> 0) by (repeat apply Rmult_integral_contrapositive_currified; assumption). apply V; lra. }
    assert (E0 : e = 0).
    { destruct (Req_dec e 0) as [Q|Q]; [exact Q|]. exfalso. rewrite C0 in Z1.
      assert (V : d * (wy * e) <> 0) by (repeat apply Rmult_integral_contrapositive_currified; assumption). apply V; lra. }
    unfold det2 in F. unfold c in C0. unfold e in E0. rewrite CX in C0. rewrite CY in E0.
    set (x1 := vx (pos m (fst (ccw m x)))) in *. set (y1 := vy (pos m (fst (ccw m x)))) in *.
    set (x2 := vx (pos m (snd (ccw m x)))) in *. set (y2 := vy (pos m (snd (ccw m x)))) in *.
    assert (E3 : vx (pos m (third t x)) = 2 * x2 - x1) by lra. assert (E4 : vy (pos m (third t x)) = 2 * y2 - y1) by lra.
    rewrite E3, E4 in F. lra.
  - rewrite level_energy by assumption. unfold edge_energy. rewrite Sum_zero; [ring|]. intros x Hx.
    rewrite (strain_edge_affine m W PL x Hx u wx wy _ _ CS). destruct (edge_G m pfn x) as [[a b] c]. cbn [fst snd]. ring.
Qed.
Lemma two_stiff : forall h, stiff_pos (move 0 h (two (shear_prop 1 1 1 1))).
Proof.
  intros h. apply mv_all_props. apply with_one; [exact two_wf|]. cbn. split; [lra|]. split; [lra|].
  intros x y N. assert (X := Rle_0_sqr x). assert (Y := Rle_0_sqr y). 
  assert (XP : x <> 0 -> 0 < Rsqr x) by apply Rsqr_pos_lt. assert (YP : y <> 0 -> 0 < Rsqr y) by apply Rsqr_pos_lt. unfold Rsqr in *.
  destruct N as [N|N]; [specialize (XP N)|specialize (YP N)]; lra.
Qed.
Lemma c79_rotation_partial_ex : forall pfn h, let m := move 0 h (two (shear_prop 1 1 1 1)) in
  (exists m', call_ok m m' pfn 2 (zeros 20)) /\ stiff_pos m /\ (exists u, constant_shear m u 0 1 (- 0) (- 1)) /\ (starts_level m <-> h = -1).
Proof.
  intros pfn h m. split; [apply two_call; lra|]. split; [apply two_stiff|]. split; [exists two_rot; rewrite Ropp_0; apply two_rotation|].
  split; [|intros ->; apply two_level]. intros SL.
  assert (T : tris_on m (1, 3)%nat = [two_t1 (shear_prop 1 1 1 1); two_t2 (shear_prop 1 1 1 1)]) by reflexivity.
  assert (X := SL (1, 3)%nat _ _ ltac:(cbn; tauto) T). unfold m in X. rewrite two_start in X.
  rewrite !(mv_pos 0 h (two (shear_prop 1 1 1 1))) in X by (cbn; tauto). unfold two, all_same in X. rewrite wp_pos in X.
  destruct two_pos as [_ [_ [P3 _]]]. rewrite P3 in X. cbn in X. lra.
Qed.

Lemma upd_form_row : forall n us i u, upd_form n us (delta i) u
  = Sum (fun x => snd x * u (nidx n (snd (fst x)))) (filter (fun x => Nat.eqb (nidx n (fst (fst x))) i) us).
Proof.
  intros n us i u. unfold upd_form. induction us as [|x us IH]; [reflexivity|]. rewrite Sum_cons, IH. cbn [filter]. unfold delta.
  destruct (Nat.eqb _ i); rewrite ?Sum_cons; ring.
Qed.
Lemma two_Q_rot : forall pfn h, let l := l6 lits_src in
  edge_Q lits_src (move 0 h (two (shear_prop 1 1 1 1))) pfn (1, 3)%nat (delta 7) two_rot =
  3 * (l * l) * (h * h) + (5 * (l * l) + 2 * (l * l12 lits_src) - l) * h - 3/2 * (l * l) - 3 * (l * l12 lits_src).
Proof.
  intros pfn h l. set (p := shear_prop 1 1 1 1). rewrite two_Qg. cbv zeta.
  assert (G : edge_G (two p) pfn (1, 3)%nat = (1 * 1, Rmin 1 1 * 0, 1 * 1)).
  { unfold edge_G. cbv zeta. unfold two. rewrite !(all_same_val two_read p pfn _ (1, 3)%nat two_wf two_plate) by (rewrite two_edge_keys; cbn; auto).
    assert (T : tris_on (all_same p two_read) (1, 3)%nat = [two_t1 p; two_t2 p]) by reflexivity. rewrite T. reflexivity. }
  rewrite G. cbn [fst snd]. rewrite upd_form_row. unfold l; clear l. generalize lits_src as L. intros L.
  match goal with |- Sum ?f ?x = _ =>
    let y := eval lazy -[Rplus Rmult Rinv Ropp Rminus Rdiv IZR Rmin] in (map f x) in
    assert (YY : Sum f x = rsum y) by (unfold Sum; f_equal; lazy -[Rplus Rmult Rinv Ropp Rminus Rdiv IZR Rmin]; reflexivity);
    rewrite YY; clear YY end.
  cbn [rsum fold_right]. rnum. destruct L as [a b c d e]; cbn [l6 l12 l24 l36 l72]. replace (Rmin 1 1) with 1 by (symmetry; apply Rmin_left; lra). field.
Qed.

(** The code: there is no bound for the force that a rigid rotation with slope 1 causes; the plate is a unit square of two
    triangles with unit stiffness, moved in y. *)
Lemma c79_rotation_refuted : forall pfn mfa B, exists m m' k' u, call_ok m m' pfn 0 (zeros 20) /\ stiff_pos m /\
  constant_shear m u 0 1 0 (-1) /\ add_k0s lits_src (zeros 20) m' pfn "edge-based" 0 mfa = (k', Ok tt) /\ B < mulv k' u 7.
Proof.
  intros pfn mfa B. set (p := shear_prop 1 1 1 1).
  assert (W : wf_mesh (two p)) by apply two_wf'.
  set (f := fun h x => edge_Q lits_src (move 0 h (two p)) pfn x (delta 7) two_rot).
  set (f0 := f 0 (1, 2)%nat + f 0 (2, 3)%nat + f 0 (3, 4)%nat + f 0 (1, 4)%nat + f 0 (1, 3)%nat).
  set (h := 1 + 20 * Rabs (B - f0)). assert (AB := Rabs_pos (B - f0)). assert (AB2 := Rle_abs (B - f0)).
  destruct (two_call h pfn 0 (Rle_refl 0)) as [m' C]. fold p in C.
  destruct (edge_method_add lits_src _ _ pfn 0 mfa _ C) as [k' [E A]].
  exists (move 0 h (two p)), m', k', two_rot. split; [exact C|]. split; [apply two_stiff|]. split; [apply two_rotation|]. split; [exact E|].
  rewrite (adds_mulv _ _ _ _ _ A) by (cbn; lia). rewrite mulv_form, form_zeros by (cbn; lia).
  assert (EK : edge_keys (move 0 h (two p)) = [(1, 2); (2, 3); (1, 3); (3, 4); (1, 4)]%nat) by reflexivity.
  assert (EK0 : edge_keys (two p) = [(1, 2); (2, 3); (1, 3); (3, 4); (1, 4)]%nat) by reflexivity.
  assert (CV : forall x l, In x (edge_keys (two p)) -> corr 0 (edge_val (move 0 h (two p)) pfn ph x) l = 1).
  { intros x l Hx. rewrite (mv_edge_val 0 h _ W).
    assert (V : edge_val (two p) pfn ph x = 1) by apply (all_same_val two_read p pfn ph x two_wf two_plate Hx).
    rewrite V. apply corr_zero; lra. }
  assert (BQ : forall g x, In x [(1, 2); (2, 3); (3, 4); (1, 4)]%nat -> f g x = edge_Q lits_src (two p) pfn x (delta 7) two_rot).
  { intros g x Hx. apply mv_edge_Q; [exact W|rewrite EK0; cbn [In] in Hx |- *; tauto|]. right. destruct Hx as [<-|[<-|[<-|[<-|[]]]]]; reflexivity. }
  rewrite EK. unfold Sum; cbn [map rsum fold_right]. rewrite !CV by (rewrite EK0; cbn [In]; tauto).
  fold (f h (1, 2)%nat) (f h (2, 3)%nat) (f h (1, 3)%nat) (f h (3, 4)%nat) (f h (1, 4)%nat).
  assert (B1 : forall x, In x [(1, 2); (2, 3); (3, 4); (1, 4)]%nat -> f h x = f 0 x) by (intros x Hx; rewrite !BQ by exact Hx; reflexivity).
  rewrite (B1 (1, 2)%nat), (B1 (2, 3)%nat), (B1 (3, 4)%nat), (B1 (1, 4)%nat) by (cbn [In]; tauto).
  assert (Q : f h (1, 3)%nat - f 0 (1, 3)%nat > h / 20).
  { unfold f. unfold p. rewrite !two_Q_rot. cbv zeta.
    assert (H1 : 1 <= h) by (unfold h; lra). clearbody h. cbn [l6 l12 lits_src]. rnum.
    assert (HH : h <= h * h) by (rewrite <- (Rmult_1_r h) at 1; apply Rmult_le_compat_l; lra). lra. }
  unfold f0 in *. unfold h in Q at 2. lra.
Qed.
