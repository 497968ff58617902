(** Distance between the solution of a static problem with shear and a smooth motion in equilibrium with the loads. *)
From Coq Require Import ZArith Reals List Bool Arith Lra Lia Psatz String.
From Verif Require Import Num Py Mesh Utils CalcK0 Spec SpecK0 SpecKG SpecK0s SpecStab SpecStat SpecConv SpecSol SpecSol2 FSum FMat FDict FGeom FWf FRead2 FAsm FTensor FSmooth FStab FStab2
  FK0s FK0u FConv FConv2 FSol FSol2 FLin2 LKG LK0s LStab.
Import ListNotations.
Local Open Scope R_scope.
Implicit Types (m : mesh R).

(** ** Gaps of linear fields *)

Section Linear.
  Variables (W0 wx wy A0 kx a B0 b ky : R).
  Definition lin_pt (x y : R) : pt := Pt x y (W0 + wx * x + wy * y) (A0 + kx * x + a * y) (B0 + b * x + ky * y).
  Definition qf (dx dy : R) : R := (kx * (dx * dx) + (a + b) * (dx * dy) + ky * (dy * dy)) / 2.

  Lemma gap_lin : forall x y x' y', gap (lin_pt x y) (lin_pt x' y') =
    (wx + ptfx (lin_pt x y)) * (x' - x) + (wy + ptfy (lin_pt x y)) * (y' - y) + qf (x' - x) (y' - y).
  Proof. intros. unfold gap, lin_pt, qf; cbn [ptx pty ptw ptfx ptfy]. field. Qed.

  Lemma gap_center : forall th x1 y1 x2 y2 x3 y3 x x', let c := center th (lin_pt x1 y1) (lin_pt x2 y2) (lin_pt x3 y3) in
    let fx := (ptfx (lin_pt x1 y1) + ptfx (lin_pt x2 y2) + ptfx (lin_pt x3 y3)) / 3 in
    let fy := (ptfy (lin_pt x1 y1) + ptfy (lin_pt x2 y2) + ptfy (lin_pt x3 y3)) / 3 in
    forall y y', gap c (lin_pt x' y') - gap c (lin_pt x y) =
      (wx + (1/2 + 3/2 * th) * fx) * (x' - x) + (wy + (1/2 + 3/2 * th) * fy) * (y' - y)
      + (qf (x' - (x1 + x2 + x3) / 3) (y' - (y1 + y2 + y3) / 3) - qf (x - (x1 + x2 + x3) / 3) (y - (y1 + y2 + y3) / 3)).
  Proof. intros. unfold c, fx, fy, gap, center, lin_pt, qf; cbn [ptx pty ptw ptfx ptfy]. field. Qed.

  Lemma qf_bound : forall sg h dx dy, Rabs kx <= sg -> Rabs ky <= sg -> Rabs (a + b) <= sg -> Rabs dx <= 2 * h -> Rabs dy <= 2 * h -> Rabs (qf dx dy) <= 6 * (h * h) * sg.
  Proof.
    intros sg h dx dy H1 H2 H3 X Y. unfold qf. assert (h0 := rb_nonneg _ _ X).
    assert (Z := rb_plus _ _ _ _ (rb_plus _ _ _ _ (rb_mult _ _ _ _ H1 (rb_mult _ _ _ _ X X)) (rb_mult _ _ _ _ H3 (rb_mult _ _ _ _ X Y))) (rb_mult _ _ _ _ H2 (rb_mult _ _ _ _ Y Y))).
    rewrite rb in *. lra.
  Qed.
End Linear.

Lemma tri_lin : forall m t q, tdet m t <> 0 -> exists q0, forall n, vertex t n -> q n = q0 + tgx m t q * vx (pos m n) + tgy m t q * vy (pos m n).
Proof.
  intros m t q N. exists (q (tn1 t) - tgx m t q * vx (pos m (tn1 t)) - tgy m t q * vy (pos m (tn1 t))).
  intros n Vn. unfold tgx, tgy. unfold tdet, det2 in *. unfold vertex in Vn. destruct Vn as [-> | [-> | ->]]; field; exact N.
Qed.

Lemma at_lin : forall m t v, tdet m t <> 0 -> exists W0 A0 B0, forall n, vertex t n ->
  at_node m v n = lin_pt W0 (tgx m t (comp m v 2)) (tgy m t (comp m v 2)) A0 (tgx m t (comp m v 3)) (tgy m t (comp m v 3)) B0 (tgx m t (comp m v 4)) (tgy m t (comp m v 4))
    (vx (pos m n)) (vy (pos m n)).
Proof.
  intros m t v N. destruct (tri_lin m t (comp m v 2) N) as [W0 H2]. destruct (tri_lin m t (comp m v 3) N) as [A0 H3]. destruct (tri_lin m t (comp m v 4) N) as [B0 H4].
  exists W0, A0, B0. intros n Vn. unfold at_node, lin_pt. rewrite (H2 n Vn), (H3 n Vn), (H4 n Vn). reflexivity.
Qed.

(** gradient of a linear function from two differences *)
Lemma grad_close : forall p q r gq gr a b A E d, Rabs (ptx q - ptx p) <= d -> Rabs (pty q - pty p) <= d -> Rabs (ptx r - ptx p) <= d -> Rabs (pty r - pty p) <= d ->
  0 < A -> A <= parea p q r ->
  Rabs (gq - (a * (ptx q - ptx p) + b * (pty q - pty p))) <= E -> Rabs (gr - (a * (ptx r - ptx p) + b * (pty r - pty p))) <= E ->
  Rabs ((gq * (pty r - pty p) - gr * (pty q - pty p)) / pdet p q r - a) <= E * d / A /\
  Rabs ((gr * (ptx q - ptx p) - gq * (ptx r - ptx p)) / pdet p q r - b) <= E * d / A.
Proof.
  intros p q r gq gr a b A E d QX QY RX RY HA Ar Gq Gr.
  set (eq := gq - _) in Gq. set (er := gr - _) in Gr.
  unfold parea in Ar. assert (DN : pdet p q r <> 0) by (intros Z; rewrite Z, Rabs_R0 in Ar; lra).
  replace (E * d / A) with ((E * d + E * d) / (2 * A)) by (field; lra).
  split.
  - replace (_ / pdet p q r - a) with ((eq * (pty r - pty p) - er * (pty q - pty p)) / pdet p q r)
      by (unfold eq, er; unfold pdet in *; field; exact DN).
    apply div_bound; [apply rb_minus; apply rb_mult; assumption|exact HA|lra].
  - replace (_ / pdet p q r - b) with ((er * (ptx q - ptx p) - eq * (ptx r - ptx p)) / pdet p q r)
      by (unfold eq, er; unfold pdet in *; field; exact DN).
    apply div_bound; [apply rb_minus; apply rb_mult; assumption|exact HA|lra].
Qed.

Lemma parea_swap : forall p q r, parea q p r = parea p q r.
Proof. intros. unfold parea. replace (pdet q p r) with (- pdet p q r) by (unfold pdet; ring). rewrite Rabs_Ropp. reflexivity. Qed.

Section Test.
  Variables (Om : R * R -> Prop) (m : mesh R) (h kappa : R) (Q : tria R -> R * R).
  Hypothesis FI : fine_trias Om m h kappa Q.
  Hypothesis Hh : 0 < h.
  Hypothesis Hk : 0 < kappa.

  Lemma vdiff : forall t a b, In t (trias_of m) -> vertex t a -> vertex t b ->
    Rabs (vx (pos m a) - vx (pos m b)) <= 2 * h /\ Rabs (vy (pos m a) - vy (pos m b)) <= 2 * h.
  Proof.
    intros t a b Ht Va Vb. destruct (proj2 FI t Ht) as [_ [NR _]]. destruct (NR a Va) as [A1 A2]. destruct (NR b Vb) as [B1 B2].
    split; rewrite rb in *; lra.
  Qed.

  Lemma test_near : forall method v t, In method cell_methods -> In t (trias_of m) -> let x := 24 * h / kappa * sqrt (strain_sq (tria_strain m v t)) in
    Rabs (fst (method_strain method m v t) - fst (test_shear method m v t)) <= x /\ Rabs (snd (method_strain method m v t) - snd (test_shear method m v t)) <= x.
  Proof.
    intros method v t HM Ht x. destruct (proj2 FI t Ht) as [_ [_ AR]].
    assert (HA : 0 < kappa * (h * h)) by (repeat apply Rmult_lt_0_compat; assumption).
    assert (DN : tdet m t <> 0) by (unfold tarea in AR; intros Z; rewrite Z, Rabs_R0 in AR; lra).
    destruct (at_lin m t v DN) as [W0 [A0 [B0 AL]]].
    destruct (strain_le_sqrt (tria_strain m v t)) as [_ [_ [_ [S1 [S2 S3]]]]]. cbn [tria_strain kxx kyy kxy] in S1, S2, S3.
    set (sg := sqrt _) in *. assert (sg0 : 0 <= sg) by apply sqrt_pos.
    replace x with ((12 * (h * h) * sg) * (2 * h) / (kappa * (h * h))) by (unfold x; field; lra). clear x.
    assert (V1 : vertex t (tn1 t)) by (left; reflexivity). assert (V2 : vertex t (tn2 t)) by (right; left; reflexivity).
    assert (V3 : vertex t (tn3 t)) by (right; right; reflexivity).
    set (wx := tgx m t (comp m v 2)) in *. set (wy := tgy m t (comp m v 2)) in *.
    set (kx := tgx m t (comp m v 3)) in *. set (ka := tgy m t (comp m v 3)) in *. set (kb := tgx m t (comp m v 4)) in *. set (ky := tgy m t (comp m v 4)) in *.
    assert (QB : forall dx dy, Rabs dx <= 2 * h -> Rabs dy <= 2 * h -> Rabs (qf kx ka kb ky dx dy) <= 6 * (h * h) * sg).
    { intros dx dy. apply qf_bound; assumption. }
    assert (PA : kappa * (h * h) <= parea (at_node m v (tn1 t)) (at_node m v (tn2 t)) (at_node m v (tn3 t))) by exact AR.
    destruct HM as [<-|[<-|[]]]; unfold method_strain, test_shear; cbn [String.eqb Ascii.eqb Bool.eqb].
    - rewrite <- third_factor. unfold strain_cell. set (p := at_node m v (tn1 t)) in *. set (q := at_node m v (tn2 t)) in *. set (r := at_node m v (tn3 t)) in *.
      assert (N : pdet p q r <> 0) by (unfold parea in PA; intros Z; rewrite Z, Rabs_R0 in PA; lra).
      destruct (cell_grad code_third p q r N) as [-> ->]. cbn [fst snd]. fold wx wy.
      assert (CB : forall n, vertex t n -> Rabs (vx (pos m n) - (vx (pos m (tn1 t)) + vx (pos m (tn2 t)) + vx (pos m (tn3 t))) / 3) <= 2 * h /\
        Rabs (vy (pos m n) - (vy (pos m (tn1 t)) + vy (pos m (tn2 t)) + vy (pos m (tn3 t))) / 3) <= 2 * h).
      { intros n Vn. destruct (vdiff t n _ Ht Vn V1) as [X1 Y1]. destruct (vdiff t n _ Ht Vn V2) as [X2 Y2]. destruct (vdiff t n _ Ht Vn V3) as [X3 Y3].
        split; rewrite rb in *; lra. }
      assert (G : forall n, vertex t n -> Rabs (gap (center code_third p q r) (at_node m v n) - gap (center code_third p q r) p -
        ((wx + (1/2 + 3/2 * code_third) * tmean t (comp m v 3)) * (ptx (at_node m v n) - ptx p) + (wy + (1/2 + 3/2 * code_third) * tmean t (comp m v 4)) * (pty (at_node m v n) - pty p))) <= 12 * (h * h) * sg).
      { intros n Vn. destruct (CB n Vn) as [N1 N2]. destruct (CB _ V1) as [P1 P2].
        assert (T3 : tmean t (comp m v 3) = (ptfx p + ptfx q + ptfx r) / 3) by reflexivity.
        assert (T4 : tmean t (comp m v 4) = (ptfy p + ptfy q + ptfy r) / 3) by reflexivity.
        rewrite T3, T4. clear T3 T4. unfold p, q, r. rewrite (AL n Vn), (AL _ V1), (AL _ V2), (AL _ V3). rewrite gap_center. cbn [ptx pty lin_pt].
        match goal with |- Rabs (?z + (?y1 - ?y2) - ?z') <= _ => replace (z + (y1 - y2) - z') with (y1 - y2) by ring end.
        replace (12 * (h * h) * sg) with (6 * (h * h) * sg + 6 * (h * h) * sg) by ring.
        apply rb_minus; apply QB; assumption. }
      destruct (vdiff t _ _ Ht V2 V1) as [X1 Y1]. destruct (vdiff t _ _ Ht V3 V1) as [X2 Y2].
      apply grad_close; try assumption; [apply (G _ V2)|apply (G _ V3)].
    - assert (G : forall a n, vertex t a -> vertex t n -> Rabs (gap (at_node m v a) (at_node m v n) -
        ((wx + comp m v 3 a) * (ptx (at_node m v n) - ptx (at_node m v a)) + (wy + comp m v 4 a) * (pty (at_node m v n) - pty (at_node m v a)))) <= 12 * (h * h) * sg).
      { intros a n Va Vn. destruct (vdiff t n a Ht Vn Va) as [X Y].
        assert (T3 : comp m v 3 a = ptfx (at_node m v a)) by reflexivity. assert (T4 : comp m v 4 a = ptfy (at_node m v a)) by reflexivity. rewrite T3, T4. clear T3 T4.
        rewrite (AL a Va), (AL n Vn), gap_lin. cbn [ptx pty lin_pt].
        match goal with |- Rabs (?z1 + ?z2 + ?y1 - ?z') <= _ => replace (z1 + z2 + y1 - z') with y1 by ring end.
        assert (Z := QB _ _ X Y). assert (0 <= h * h * sg) by (repeat apply Rmult_le_pos; lra). lra. }
      unfold strain_ns, gap_node. destruct (Rlt_dec (tdet m t) 0); unfold dsg; cbn [fst snd]; fold wx wy.
      + destruct (vdiff t _ _ Ht V1 V2) as [X1 Y1]. destruct (vdiff t _ _ Ht V3 V2) as [X2 Y2].
        apply grad_close; try assumption; [rewrite parea_swap; exact PA|apply (G _ _ V2 V1)|apply (G _ _ V2 V3)].
      + destruct (vdiff t _ _ Ht V2 V1) as [X1 Y1]. destruct (vdiff t _ _ Ht V3 V1) as [X2 Y2].
        apply grad_close; try assumption; [apply (G _ _ V1 V2)|apply (G _ _ V1 V3)].
  Qed.

  Lemma sq_abs_le : forall x y, Rabs x <= y -> x ^ 2 <= y ^ 2.
  Proof. intros x y H. assert (Z := rb_mult _ _ _ _ H H). rewrite rb in Z. simpl. lra. Qed.

  Lemma test_sq : forall method v, In method cell_methods ->
    Sum (fun t => tarea m t * ((fst (method_strain method m v t) - fst (test_shear method m v t)) ^ 2 + (snd (method_strain method m v t) - snd (test_shear method m v t)) ^ 2)) (trias_of m)
    <= 2 * (24 * h / kappa) ^ 2 * strains_sq m v.
  Proof.
    intros method v HM. unfold strains_sq. rewrite <- Sum_scal. apply Sum_le. intros t Ht. assert (A := area_nn m t).
    destruct (test_near method v t HM Ht) as [N1 N2]. apply sq_abs_le in N1. apply sq_abs_le in N2.
    replace ((24 * h / kappa * sqrt (strain_sq (tria_strain m v t))) ^ 2) with ((24 * h / kappa) ^ 2 * strain_sq (tria_strain m v t)) in N1, N2.
    2:{ rewrite Rpow_mult_distr. f_equal. simpl. rewrite Rmult_1_r, sqrt_sqrt by apply strain_sq_nonneg. reflexivity. }
    assert (Z := Rplus_le_compat _ _ _ _ N1 N2). apply (Rmult_le_compat_l _ _ _ A) in Z. lra.
  Qed.

  Lemma literal_third : forall method, In method cell_methods -> literal_error method ^ 2 = (3 / 2 * third_error method) ^ 2.
  Proof.
    intros method HM. unfold third_error. destruct HM as [<-|[<-|[]]]; cbn [String.eqb Ascii.eqb Bool.eqb].
    - assert (X := third_factor). replace (literal_error "cell-based") with (3 / 2 * (code_third - 1 / 3)) by lra.
      rewrite !Rpow_mult_distr. f_equal. apply pow2_abs || (rewrite <- pow2_abs; reflexivity).
    - unfold literal_error; cbn [String.eqb Ascii.eqb Bool.eqb]. ring.
  Qed.

  (** the rotation of the test strains against the mean *)
  Lemma tria_test : forall method v t, In method cell_methods -> In t (trias_of m) ->
    (fst (test_shear method m v t) - fst (tria_shear m v t)) ^ 2 <= literal_error method ^ 2 * tmean t (comp m v 3) ^ 2 + 8 * h ^ 2 * (tgx m t (comp m v 3) ^ 2 + tgy m t (comp m v 3) ^ 2) /\
    (snd (test_shear method m v t) - snd (tria_shear m v t)) ^ 2 <= literal_error method ^ 2 * tmean t (comp m v 4) ^ 2 + 8 * h ^ 2 * (tgx m t (comp m v 4) ^ 2 + tgy m t (comp m v 4) ^ 2).
  Proof.
    intros method v t HM Ht.
    assert (PN : forall a b, 0 <= 8 * h ^ 2 * (a ^ 2 + b ^ 2)) by (intros a b; apply Rmult_le_pos; [nra|nra]).
    destruct HM as [<-|[<-|[]]]; unfold test_shear, tria_shear; cbn [String.eqb Ascii.eqb Bool.eqb fst snd].
    - set (l := literal_error "cell-based"). split.
      + assert (Z := PN (tgx m t (comp m v 3)) (tgy m t (comp m v 3))). match goal with |- ?x ^ 2 <= _ => replace x with (l * tmean t (comp m v 3)) by ring end. rewrite Rpow_mult_distr. lra.
      + assert (Z := PN (tgx m t (comp m v 4)) (tgy m t (comp m v 4))). match goal with |- ?x ^ 2 <= _ => replace x with (l * tmean t (comp m v 4)) by ring end. rewrite Rpow_mult_distr. lra.
    - unfold literal_error; cbn [String.eqb Ascii.eqb Bool.eqb].
      destruct (proj2 FI t Ht) as [_ [_ AR]].
      assert (HA : 0 < kappa * (h * h)) by (repeat apply Rmult_lt_0_compat; assumption).
      assert (DN : tdet m t <> 0) by (unfold tarea in AR; intros Z; rewrite Z, Rabs_R0 in AR; lra).
      assert (V1 : vertex t (tn1 t)) by (left; reflexivity). assert (V2 : vertex t (tn2 t)) by (right; left; reflexivity).
      assert (V3 : vertex t (tn3 t)) by (right; right; reflexivity).
      assert (VG : vertex t (gap_node m t)) by (unfold gap_node; destruct (Rlt_dec _ _); assumption).
      destruct (vdiff t _ _ Ht VG V1) as [X1 Y1]. destruct (vdiff t _ _ Ht VG V2) as [X2 Y2]. destruct (vdiff t _ _ Ht VG V3) as [X3 Y3].
      assert (C : forall q, (q (gap_node m t) - tmean t q) ^ 2 <= 8 * h ^ 2 * (tgx m t q ^ 2 + tgy m t q ^ 2)).
      { intros q. destruct (tri_lin m t q DN) as [q0 Hq]. unfold tmean. rewrite (Hq _ VG), (Hq _ V1), (Hq _ V2), (Hq _ V3). set (gx := tgx m t q). set (gy := tgy m t q).
        set (g := gap_node m t) in *.
        match goal with |- ?x ^ 2 <= _ => replace x with (gx * (vx (pos m g) - (vx (pos m (tn1 t)) + vx (pos m (tn2 t)) + vx (pos m (tn3 t))) / 3)
          + gy * (vy (pos m g) - (vy (pos m (tn1 t)) + vy (pos m (tn2 t)) + vy (pos m (tn3 t))) / 3)) by field end.
        assert (DX : Rabs (vx (pos m g) - (vx (pos m (tn1 t)) + vx (pos m (tn2 t)) + vx (pos m (tn3 t))) / 3) <= 2 * h) by (rewrite rb in *; lra).
        assert (DY : Rabs (vy (pos m g) - (vy (pos m (tn1 t)) + vy (pos m (tn2 t)) + vy (pos m (tn3 t))) / 3) <= 2 * h) by (rewrite rb in *; lra).
        match type of DX with Rabs ?x <= _ => set (dx := x) in * end. match type of DY with Rabs ?x <= _ => set (dy := x) in * end. apply sq_abs_le in DX. apply sq_abs_le in DY.
        assert (Z := sq_nn (gx * dx - gy * dy)).
        assert (P1 : gx ^ 2 * dx ^ 2 <= gx ^ 2 * (2 * h) ^ 2) by (apply Rmult_le_compat_l; [apply pow2_ge_0|assumption]).
        assert (P2 : gy ^ 2 * dy ^ 2 <= gy ^ 2 * (2 * h) ^ 2) by (apply Rmult_le_compat_l; [apply pow2_ge_0|assumption]). lra. }
      split.
      + assert (Z := C (comp m v 3)). match goal with |- ?x ^ 2 <= _ => replace x with (comp m v 3 (gap_node m t) - tmean t (comp m v 3)) by ring end. lra.
      + assert (Z := C (comp m v 4)). match goal with |- ?x ^ 2 <= _ => replace x with (comp m v 4 (gap_node m t) - tmean t (comp m v 4)) by ring end. lra.
  Qed.

  Lemma mean_sq : forall method v S CK, In method cell_methods -> korn CK m S -> admissible (List.length (nodes m) * 5) S v ->
    Sum (fun t => tarea m t * ((fst (method_strain method m v t) - fst (tria_shear m v t)) ^ 2 + (snd (method_strain method m v t) - snd (tria_shear m v t)) ^ 2)) (trias_of m)
    <= (4 * (24 * h / kappa) ^ 2 + 2 * ((3 / 2 * third_error method) ^ 2 + 8 * h ^ 2) * CK) * strains_sq m v.
  Proof.
    intros method v S CK HM KO AV. assert (T := test_sq method v HM). assert (K := KO v AV). rewrite <- literal_third by exact HM. set (l := literal_error method).
    set (r := fun t => tmean t (comp m v 3) ^ 2 + tmean t (comp m v 4) ^ 2 + (tgx m t (comp m v 3) ^ 2 + tgy m t (comp m v 3) ^ 2 + tgx m t (comp m v 4) ^ 2 + tgy m t (comp m v 4) ^ 2)).
    assert (P0 : 0 <= 2 * (l ^ 2 + 8 * h ^ 2)) by (assert (X := pow2_ge_0 l); assert (Y := pow2_ge_0 h); lra).
    apply (Rmult_le_compat_l _ _ _ P0) in K.
    match goal with |- _ <= (?x + ?y * CK) * ?z => apply Rle_trans with (2 * (2 * (24 * h / kappa) ^ 2 * z) + y * (CK * z)); [|right; ring] end.
    eapply Rle_trans; [|apply Rplus_le_compat; [apply Rmult_le_compat_l; [lra|exact T]|exact K]].
    rewrite <- !Sum_scal, <- Sum_plus. apply Sum_le. intros t Ht. assert (A := area_nn m t).
    destruct (tria_test method v t HM Ht) as [N1 N2]. fold l in N1, N2.
    set (a1 := fst (method_strain method m v t)) in *. set (b1 := fst (test_shear method m v t)) in *. set (c1 := fst (tria_shear m v t)) in *.
    set (a2 := snd (method_strain method m v t)) in *. set (b2 := snd (test_shear method m v t)) in *. set (c2 := snd (tria_shear m v t)) in *.
    assert (Y : forall x y z, (x - z) ^ 2 <= 2 * (x - y) ^ 2 + 2 * (y - z) ^ 2) by (intros x y z; assert (Z := sq_nn ((x - y) - (y - z))); lra).
    assert (Y1 := Y a1 b1 c1). assert (Y2 := Y a2 b2 c2).
    assert (M3 := pow2_ge_0 (tmean t (comp m v 3))). assert (M4 := pow2_ge_0 (tmean t (comp m v 4))).
    assert (G1 := pow2_ge_0 (tgx m t (comp m v 3))). assert (G2 := pow2_ge_0 (tgy m t (comp m v 3))). assert (G3 := pow2_ge_0 (tgx m t (comp m v 4))). assert (G4 := pow2_ge_0 (tgy m t (comp m v 4))).
    set (x3 := tmean t (comp m v 3) ^ 2) in *. set (x4 := tmean t (comp m v 4) ^ 2) in *.
    set (g3 := tgx m t (comp m v 3) ^ 2) in *. set (g4 := tgy m t (comp m v 3) ^ 2) in *. set (g5 := tgx m t (comp m v 4) ^ 2) in *. set (g6 := tgy m t (comp m v 4) ^ 2) in *.
    assert (L0 := pow2_ge_0 l). assert (H0 := pow2_ge_0 h).
    assert (E1 : 0 <= l ^ 2 * (g3 + g4 + g5 + g6)) by (apply Rmult_le_pos; lra). assert (E2 : 0 <= h ^ 2 * (x3 + x4)) by (apply Rmult_le_pos; lra).
    assert (Z : (a1 - c1) ^ 2 + (a2 - c2) ^ 2 <= 2 * ((a1 - b1) ^ 2 + (a2 - b2) ^ 2) + 2 * (l ^ 2 + 8 * h ^ 2) * (x3 + x4 + (g3 + g4 + g5 + g6))) by lra.
    apply (Rmult_le_compat_l _ _ _ A) in Z. lra.
  Qed.
End Test.
