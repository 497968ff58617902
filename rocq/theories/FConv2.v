(** Consistency of the shear strains of the cell-based methods. *)
From Coq Require Import ZArith Reals List Bool Arith Lra Lia String.
From Verif Require Import Num Py Mesh Utils CalcK0 Spec SpecK0 SpecKG SpecK0s SpecConv FSum FWf FK0 FConv.
Import ListNotations.
Local Open Scope R_scope.
Implicit Types (m : mesh R).

Section Points.
  Variables (X Y w0 wx wy fx fy h rho sig : R).
  (** [p] is near (X, Y) and its field is near a plane with constant rotations, up to [sig] *)
  Definition pnear (p : pt) : Prop := Rabs (ptx p - X) <= h /\ Rabs (pty p - Y) <= h /\
    Rabs (ptw p - (w0 + wx * (ptx p - X) + wy * (pty p - Y))) <= rho /\ Rabs (ptfx p - fx) <= sig /\ Rabs (ptfy p - fy) <= sig.

  Lemma gap_near : forall p q, pnear p -> pnear q ->
    Rabs (gap p q - ((wx + fx) * (ptx q - ptx p) + (wy + fy) * (pty q - pty p))) <= 2 * rho + 4 * (h * sig).
  Proof.
    intros p q [P1 [P2 [P3 [P4 P5]]]] [Q1 [Q2 [Q3 [Q4 Q5]]]]. unfold gap.
    assert (DX := rb_minus _ _ _ _ Q1 P1). assert (DY := rb_minus _ _ _ _ Q2 P2).
    assert (FX := rb_plus _ _ _ _ P4 Q4). assert (FY := rb_plus _ _ _ _ P5 Q5).
    assert (M1 := rb_mult _ _ _ _ FX DX). assert (M2 := rb_mult _ _ _ _ FY DY). assert (D := rb_minus _ _ _ _ Q3 P3).
    rewrite rb in *.
    set (E1 := (ptfx p - fx + (ptfx q - fx)) * (ptx q - X - (ptx p - X))) in *.
    set (E2 := (ptfy p - fy + (ptfy q - fy)) * (pty q - Y - (pty p - Y))) in *.
    match goal with |- _ <= ?x <= _ => replace x with
      (ptw q - (w0 + wx * (ptx q - X) + wy * (pty q - Y)) - (ptw p - (w0 + wx * (ptx p - X) + wy * (pty p - Y))) + E1 / 2 + E2 / 2)
      by (unfold E1, E2; field) end.
    lra.
  Qed.

  (** gradient of the linear function with the values [g] *)
  Lemma grad_near : forall p q r gq gr a b A E, pnear p -> pnear q -> pnear r -> 0 < A -> A <= parea p q r ->
    Rabs (gq - (a * (ptx q - ptx p) + b * (pty q - pty p))) <= E -> Rabs (gr - (a * (ptx r - ptx p) + b * (pty r - pty p))) <= E ->
    Rabs ((gq * (pty r - pty p) - gr * (pty q - pty p)) / pdet p q r - a) <= 2 * E * h / A /\
    Rabs ((gr * (ptx q - ptx p) - gq * (ptx r - ptx p)) / pdet p q r - b) <= 2 * E * h / A.
  Proof.
    intros p q r gq gr a b A E [P1 [P2 _]] [Q1 [Q2 _]] [R1 [R2 _]] HA Ar Gq Gr.
    set (eq := gq - _) in Gq. set (er := gr - _) in Gr.
    assert (QX := rb_minus _ _ _ _ Q1 P1). assert (QY := rb_minus _ _ _ _ Q2 P2). assert (RX := rb_minus _ _ _ _ R1 P1). assert (RY := rb_minus _ _ _ _ R2 P2).
    replace (ptx q - X - (ptx p - X)) with (ptx q - ptx p) in QX by ring. replace (pty q - Y - (pty p - Y)) with (pty q - pty p) in QY by ring.
    replace (ptx r - X - (ptx p - X)) with (ptx r - ptx p) in RX by ring. replace (pty r - Y - (pty p - Y)) with (pty r - pty p) in RY by ring.
    unfold parea in Ar. assert (DN : pdet p q r <> 0) by (intros Z; rewrite Z, Rabs_R0 in Ar; lra).
    replace (2 * E * h / A) with ((E * (h + h) + E * (h + h)) / (2 * A)) by (field; lra).
    split.
    - replace (_ / pdet p q r - a) with ((eq * (pty r - pty p) - er * (pty q - pty p)) / pdet p q r)
        by (unfold eq, er; unfold pdet in *; field; exact DN).
      apply div_bound; [apply rb_minus; apply rb_mult; assumption|exact HA|lra].
    - replace (_ / pdet p q r - b) with ((er * (ptx q - ptx p) - eq * (ptx r - ptx p)) / pdet p q r)
        by (unfold eq, er; unfold pdet in *; field; exact DN).
      apply div_bound; [apply rb_minus; apply rb_mult; assumption|exact HA|lra].
  Qed.

  Lemma dsg_near : forall p q r A, pnear p -> pnear q -> pnear r -> 0 < A -> A <= parea p q r ->
    Rabs (fst (dsg p q r) - (wx + fx)) <= 2 * (2 * rho + 4 * (h * sig)) * h / A /\
    Rabs (snd (dsg p q r) - (wy + fy)) <= 2 * (2 * rho + 4 * (h * sig)) * h / A.
  Proof. intros p q r A P Q S HA Ar. unfold dsg; cbn [fst snd]. apply grad_near; try assumption; apply gap_near; assumption. Qed.
End Points.

(** the mean over the three parts is the gradient of the linear function with the gaps from the centroid *)
Lemma pdet_center : forall th p q r, pdet (center th p q r) p q = pdet p q r / 3 /\ pdet (center th p q r) q r = pdet p q r / 3 /\
  pdet (center th p q r) r p = pdet p q r / 3.
Proof. intros th p q r. unfold pdet, center; cbn [ptx pty]. repeat split; field. Qed.

Lemma cell_grad : forall th p q r, pdet p q r <> 0 -> let c := center th p q r in
  fst (cell_shear th p q r) = ((gap c q - gap c p) * (pty r - pty p) - (gap c r - gap c p) * (pty q - pty p)) / pdet p q r /\
  snd (cell_shear th p q r) = ((gap c r - gap c p) * (ptx q - ptx p) - (gap c q - gap c p) * (ptx r - ptx p)) / pdet p q r.
Proof.
  intros th p q r N c. assert (NR : Rabs (pdet p q r) <> 0) by (apply Rabs_no_R0; exact N).
  destruct (pdet_center th p q r) as [D1 [D2 D3]].
  assert (A3 : Rabs (pdet p q r / 3) = Rabs (pdet p q r) / 3) by (unfold Rdiv; rewrite Rabs_mult, (Rabs_right (/ 3)) by lra; reflexivity).
  unfold cell_shear. fold c. unfold dsg, parea. fold c in D1, D2, D3. rewrite D1, D2, D3, A3. cbn [fst snd].
  assert (CX : ptx c = (ptx p + ptx q + ptx r) / 3) by reflexivity. assert (CY : pty c = (pty p + pty q + pty r) / 3) by reflexivity.
  generalize dependent (gap c p); intros gp. generalize dependent (gap c q); intros gq. generalize dependent (gap c r); intros gr.
  rewrite CX, CY. generalize dependent (Rabs (pdet p q r)). generalize dependent (pdet p q r).
  intros D N _ _ _ B NB _. split; field; auto.
Qed.

Section Cell.
  Variables (X Y w0 wx wy fx fy h rho sig del : R).
  Hypothesis Hdel : 0 <= del.
  Lemma cell_near : forall th p q r A, pnear X Y w0 wx wy fx fy h rho sig p -> pnear X Y w0 wx wy fx fy h rho sig q -> pnear X Y w0 wx wy fx fy h rho sig r ->
    Rabs (th * (ptfx p + ptfx q + ptfx r) - (ptfx p + ptfx q + ptfx r) / 3) <= del ->
    Rabs (th * (ptfy p + ptfy q + ptfy r) - (ptfy p + ptfy q + ptfy r) / 3) <= del -> 0 < A -> A <= parea p q r ->
    Rabs (fst (cell_shear th p q r) - (wx + fx)) <= 2 * (2 * rho + 8 * (h * sig) + 4 * (h * del)) * h / A /\
    Rabs (snd (cell_shear th p q r) - (wy + fy)) <= 2 * (2 * rho + 8 * (h * sig) + 4 * (h * del)) * h / A.
  Proof.
    intros th p q r A P Q S T1 T2 HA Ar.
    assert (N : pdet p q r <> 0) by (unfold parea in Ar; intros Z; rewrite Z, Rabs_R0 in Ar; lra).
    destruct (cell_grad th p q r N) as [-> ->]. set (c := center th p q r).
    assert (H0 : 0 <= h) by (destruct P as [P1 _]; apply (rb_nonneg _ _ P1)).
    assert (CX : Rabs (ptx c - X) <= h) by (destruct P as [P1 _], Q as [Q1 _], S as [S1 _]; unfold c, center; cbn [ptx]; rewrite rb in *; lra).
    assert (CY : Rabs (pty c - Y) <= h) by (destruct P as [_ [P1 _]], Q as [_ [Q1 _]], S as [_ [S1 _]]; unfold c, center; cbn [pty]; rewrite rb in *; lra).
    assert (FX : Rabs (ptfx c - fx) <= sig + del).
    { destruct P as [_ [_ [_ [P1 _]]]], Q as [_ [_ [_ [Q1 _]]]], S as [_ [_ [_ [S1 _]]]]; unfold c, center; cbn [ptfx]; rewrite rb in *; lra. }
    assert (FY : Rabs (ptfy c - fy) <= sig + del).
    { destruct P as [_ [_ [_ [_ P1]]]], Q as [_ [_ [_ [_ Q1]]]], S as [_ [_ [_ [_ S1]]]]; unfold c, center; cbn [ptfy]; rewrite rb in *; lra. }
    assert (G : forall s, pnear X Y w0 wx wy fx fy h rho sig s -> 
      Rabs (gap c s - gap c p - ((wx + fx) * (ptx s - ptx p) + (wy + fy) * (pty s - pty p))) <= 2 * rho + 8 * (h * sig) + 4 * (h * del)).
    { intros s S0. destruct P as [P1 [P2 [P3 [P4 P5]]]], S0 as [S1 [S2 [S3 [S4 S5]]]].
      assert (X1 := rb_minus _ _ _ _ S1 CX). assert (X2 := rb_minus _ _ _ _ P1 CX). assert (Y1 := rb_minus _ _ _ _ S2 CY). assert (Y2 := rb_minus _ _ _ _ P2 CY).
      assert (A1 := rb_mult _ _ _ _ (rb_plus _ _ _ _ FX S4) X1). assert (A2 := rb_mult _ _ _ _ (rb_plus _ _ _ _ FX P4) X2).
      assert (B1 := rb_mult _ _ _ _ (rb_plus _ _ _ _ FY S5) Y1). assert (B2 := rb_mult _ _ _ _ (rb_plus _ _ _ _ FY P5) Y2).
      assert (D := rb_minus _ _ _ _ S3 P3). unfold gap. rewrite rb in *.
      match goal with |- _ <= ?x <= _ => match type of A1 with _ <= ?a1 <= _ => match type of A2 with _ <= ?a2 <= _ =>
        match type of B1 with _ <= ?b1 <= _ => match type of B2 with _ <= ?b2 <= _ => match type of D with _ <= ?d <= _ =>
          replace x with (d + a1 / 2 - a2 / 2 + b1 / 2 - b2 / 2) by field end end end end end end.
      lra. }
    apply (grad_near X Y w0 wx wy fx fy h rho sig); try assumption; apply G; assumption.
  Qed.
End Cell.

Section Shear.
  Variables (Om : R * R -> Prop) (m : mesh R) (h kappa : R) (P : tria R -> R * R).
  Hypothesis W : wf_mesh m.
  Hypothesis F : fine_trias Om m h kappa P.
  Hypothesis Hh : 0 < h.
  Hypothesis Hk : 0 < kappa.

  Definition serr (M s b del : R) : R := (8 * M + 32 * s + 32 * M * h) * h / kappa + 24 * del * b / kappa.

  Lemma parea_tria : forall u t, parea (at_node m u (tn1 t)) (at_node m u (tn2 t)) (at_node m u (tn3 t)) = tarea m t.
  Proof. reflexivity. Qed.

  Lemma smooth_near : forall f M s x y x' y', 0 <= M -> smooth Om M s f -> Om (x, y) -> Om (x', y') ->
    Rabs (x' - x) <= h -> Rabs (y' - y) <= h ->
    Rabs (fval f x' y' - (fval f x y + fdx f x y * (x' - x) + fdy f x y * (y' - y))) <= 2 * M * (h * h) /\
    Rabs (fval f x' y' - fval f x y) <= 2 * s * h + 2 * M * (h * h).
  Proof.
    intros f M s x y x' y' MN [S1 S2] O O' N1 N2. specialize (S1 x y x' y' O O'). destruct (S2 x y O) as [Dx Dy].
    assert (X : (x' - x) * (x' - x) <= h * h) by (assert (Z := rb_mult _ _ _ _ N1 N1); rewrite rb in Z; apply Z).
    assert (Y : (y' - y) * (y' - y) <= h * h) by (assert (Z := rb_mult _ _ _ _ N2 N2); rewrite rb in Z; apply Z).
    assert (Q : M * ((x' - x) * (x' - x) + (y' - y) * (y' - y)) <= M * (2 * (h * h))) by (apply Rmult_le_compat_l; lra).
    assert (A := rb_mult _ _ _ _ Dx N1). assert (B := rb_mult _ _ _ _ Dy N2). split; rewrite rb in *; lra.
  Qed.

  Section One.
    Variables (G : motion) (u : nat -> R) (M s b : R).
    Hypothesis MN : 0 <= M.
    Hypothesis SM : motion_smooth Om M s G.
    Hypothesis RB : rotations_le Om b G.
    Hypothesis SA : samples m G u.

    Lemma node_pnear : forall t n, In t (trias_of m) -> vertex t n -> let (x, y) := P t in
      pnear x y (fval (fw G) x y) (fdx (fw G) x y) (fdy (fw G) x y) (fval (ffx G) x y) (fval (ffy G) x y)
            h (2 * M * (h * h)) (2 * s * h + 2 * M * (h * h)) (at_node m u n) /\
      Rabs (ptfx (at_node m u n)) <= b /\ Rabs (ptfy (at_node m u n)) <= b.
    Proof.
      intros t n Ht Vn. destruct F as [F1 F2]. destruct (F2 t Ht) as [OP [NR _]]. specialize (NR n Vn).
      assert (Hn := wf_vertices m W t n Ht Vn). assert (On := F1 n Hn). destruct (SA n Hn) as [_ [_ [E2 [E3 E4]]]].
      destruct (P t) as [x y]. destruct NR as [N1 N2]. cbn [fst snd] in N1, N2. unfold pnear, at_node; cbn [ptx pty ptw ptfx ptfy].
      rewrite E2, E3, E4. destruct SM as [_ [_ [SW [SX SY]]]]. destruct (RB _ _ On) as [R1 R2].
      destruct (smooth_near (fw G) M s x y _ _ MN SW OP On N1 N2) as [A1 _].
      destruct (smooth_near (ffx G) M s x y _ _ MN SX OP On N1 N2) as [_ A2].
      destruct (smooth_near (ffy G) M s x y _ _ MN SY OP On N1 N2) as [_ A3]. auto 10.
    Qed.

    Lemma shear_near : forall method t, In method cell_methods -> In t (trias_of m) ->
      Rabs (fst (method_strain method m u t) - fst (true_shear G (P t))) <= serr M s b (third_error method) /\
      Rabs (snd (method_strain method m u t) - snd (true_shear G (P t))) <= serr M s b (third_error method).
    Proof.
      intros method t HM Ht.
      assert (N1 := node_pnear t (tn1 t) Ht (or_introl eq_refl)).
      assert (N2 := node_pnear t (tn2 t) Ht (or_intror (or_introl eq_refl))).
      assert (N3 := node_pnear t (tn3 t) Ht (or_intror (or_intror eq_refl))).
      destruct F as [_ F2]. destruct (F2 t Ht) as [OP [_ AR]]. clear F2.
      assert (HA : 0 < kappa * (h * h)) by (repeat apply Rmult_lt_0_compat; assumption).
      unfold true_shear. destruct (P t) as [x y]. cbn [fst snd].
      destruct N1 as [N1 [B1 C1]]. destruct N2 as [N2 [B2 C2]]. destruct N3 as [N3 [B3 C3]].
      assert (b0 := rb_nonneg _ _ B1).
      assert (S0 : 0 <= s) by (destruct SM as [_ [_ [[_ Z] _]]]; destruct (Z x y OP) as [Z1 _]; apply (rb_nonneg _ _ Z1)).
      set (p := at_node m u (tn1 t)) in *. set (q := at_node m u (tn2 t)) in *. set (r := at_node m u (tn3 t)) in *.
      assert (PA : kappa * (h * h) <= parea p q r) by exact AR.
      assert (MH : 0 <= M * (h * h)) by (apply Rmult_le_pos; [exact MN|nra]). assert (SH : 0 <= s * h) by (apply Rmult_le_pos; lra).
      assert (HS : 0 <= h * (2 * s * h + 2 * M * (h * h))) by (apply Rmult_le_pos; lra).
      destruct HM as [<-|[<-|[]]]; unfold method_strain, third_error; cbn [String.eqb Ascii.eqb Bool.eqb].
      - unfold strain_cell. fold p q r. set (del := Rabs (code_third - 1 / 3)).
        assert (DN : 0 <= del) by apply Rabs_pos.
        replace (serr M s b del) with (2 * (2 * (2 * M * (h * h)) + 8 * (h * (2 * s * h + 2 * M * (h * h))) + 4 * (h * (3 * (del * b)))) * h / (kappa * (h * h)))
          by (unfold serr; field; lra).
        apply (cell_near x y (fval (fw G) x y)); try assumption.
        + replace (_ - _) with ((code_third - 1 / 3) * (ptfx p + ptfx q + ptfx r)) by field.
          replace (3 * (del * b)) with (del * (b + b + b)) by ring. apply rb_mult; [apply Rle_refl|]. repeat apply rb_plus; assumption.
        + replace (_ - _) with ((code_third - 1 / 3) * (ptfy p + ptfy q + ptfy r)) by field.
          replace (3 * (del * b)) with (del * (b + b + b)) by ring. apply rb_mult; [apply Rle_refl|]. repeat apply rb_plus; assumption.
      - assert (BB : 2 * (2 * (2 * M * (h * h)) + 4 * (h * (2 * s * h + 2 * M * (h * h)))) * h / (kappa * (h * h)) <= serr M s b 0).
        { replace (serr M s b 0) with (2 * (2 * (2 * M * (h * h)) + 8 * (h * (2 * s * h + 2 * M * (h * h)))) * h / (kappa * (h * h)))
            by (unfold serr; field; lra).
          unfold Rdiv. apply Rmult_le_compat_r; [apply Rlt_le, Rinv_0_lt_compat, HA|]. apply Rmult_le_compat_r; lra. }
        unfold strain_ns. fold p q r. destruct (Rlt_dec (tdet m t) 0).
        + assert (PA' : kappa * (h * h) <= parea q p r).
          { unfold parea in *. replace (pdet q p r) with (- pdet p q r) by (unfold pdet; ring). rewrite Rabs_Ropp. exact PA. }
          destruct (dsg_near x y (fval (fw G) x y) _ _ _ _ _ _ _ q p r _ N2 N1 N3 HA PA') as [D1 D2].
          split; eapply rb_le; eassumption.
        + destruct (dsg_near x y (fval (fw G) x y) _ _ _ _ _ _ _ p q r _ N1 N2 N3 HA PA) as [D1 D2].
          split; eapply rb_le; eassumption.
    Qed.

    Lemma true_shear_le : forall t, In t (trias_of m) ->
      Rabs (fst (true_shear G (P t))) <= s + b /\ Rabs (snd (true_shear G (P t))) <= s + b.
    Proof.
      intros t Ht. destruct F as [_ F2]. destruct (F2 t Ht) as [OP _]. unfold true_shear. destruct (P t) as [x y]; cbn [fst snd].
      destruct SM as [_ [_ [[_ SW] _]]]. destruct (SW x y OP) as [S1 S2]. destruct (RB x y OP) as [R1 R2].
      split; apply rb_plus; assumption.
    Qed.
  End One.

  Hypothesis PL : plate m.

  Lemma vertex_diff : forall t a b, In t (trias_of m) -> vertex t a -> vertex t b ->
    Rabs (vx (pos m a) - vx (pos m b)) <= 2 * h /\ Rabs (vy (pos m a) - vy (pos m b)) <= 2 * h /\ vz (pos m a) - vz (pos m b) = 0.
  Proof.
    intros t a b Ht Va Vb. destruct F as [_ F2]. destruct (F2 t Ht) as [_ [NR _]]. destruct (NR a Va) as [A1 A2]. destruct (NR b Vb) as [B1 B2].
    split; [|split]; [rewrite rb in *; lra|rewrite rb in *; lra|].
    destruct (pl_flat m PL) as [z Z]. rewrite (Z a), (Z b); [ring|apply (wf_vertices m W t b Ht Vb)|apply (wf_vertices m W t a Ht Va)].
  Qed.

  Lemma size_small : forall mfa t, In t (trias_of m) -> tria_size m mfa t * tria_size m mfa t <= 8 * (h * h).
  Proof.
    intros mfa t Ht.
    assert (V1 : vertex t (tn1 t)) by (left; reflexivity). assert (V2 : vertex t (tn2 t)) by (right; left; reflexivity).
    assert (V3 : vertex t (tn3 t)) by (right; right; reflexivity).
    unfold tria_size. destruct mfa.
    - assert (A0 : 0 <= tarea m t) by (unfold tarea; assert (Y := Rabs_pos (tdet m t)); lra). rewrite sqrt_sqrt by exact A0.
      unfold tarea, tdet, det2. destruct (vertex_diff t _ _ Ht V2 V1) as [X2 [Y2 _]]. destruct (vertex_diff t _ _ Ht V3 V1) as [X3 [Y3 _]].
      assert (B := rb_minus _ _ _ _ (rb_mult _ _ _ _ X2 Y3) (rb_mult _ _ _ _ X3 Y2)).
      assert (0 <= h * h) by nra. lra.
    - assert (D : forall a b, vertex t a -> vertex t b -> 0 <= dist m a b /\ dist m a b * dist m a b <= 8 * (h * h)).
      { intros a b Va Vb. destruct (vertex_diff t a b Ht Va Vb) as [X [Y Z]]. unfold dist. split; [apply sqrt_pos|].
        rewrite Z. assert (X2 := rb_mult _ _ _ _ X X). assert (Y2 := rb_mult _ _ _ _ Y Y). rewrite rb in X2, Y2. rewrite sqrt_sqrt; [lra|].
        assert (0 <= (vx (pos m a) - vx (pos m b)) * (vx (pos m a) - vx (pos m b))) by apply Rle_0_sqr.
        assert (0 <= (vy (pos m a) - vy (pos m b)) * (vy (pos m a) - vy (pos m b))) by apply Rle_0_sqr. lra. }
      unfold Rmax. destruct (Rle_dec _ _); [destruct (Rle_dec _ _)|]; apply D; assumption.
  Qed.

  Variables (pfn : bool) (c th : R).
  Hypothesis PC : props_complete m pfn.
  Hypothesis SB : shear_bounded c th m.
  Hypothesis c0 : 0 <= c.
  Hypothesis th0 : 0 < th.

  Lemma val_le : forall (f : prop R -> R) t, all_props m (fun p => Rabs (f p) <= c) -> In t (trias_of m) -> Rabs (tria_val m pfn f t) <= c.
  Proof.
    intros f t [H1 H2] Ht. unfold tria_val. destruct pfn.
    - assert (X : forall n, Rabs (pval f (nodeprop m n)) <= c).
      { intros n. destruct (nodeprop m n) as [p|] eqn:E; cbn [pval]; [apply (H1 n p E)|rewrite Rabs_R0; exact c0]. }
      assert (X1 := X (tn1 t)). assert (X2 := X (tn2 t)). assert (X3 := X (tn3 t)). rewrite rb in *. lra.
    - destruct (tprop t) as [p|] eqn:E; cbn [pval]; [apply (H2 t p Ht E)|rewrite Rabs_R0; exact c0].
  Qed.

  Lemma thick_ge : forall t, In t (trias_of m) -> th <= tria_val m pfn ph t.
  Proof.
    intros t Ht. destruct SB as [H1 H2]. assert (PC' := PC). unfold tria_val. destruct pfn.
    - assert (X : forall n, vertex t n -> th <= pval ph (nodeprop m n)).
      { intros n Vn. assert (Q := vertex_prop m t n W PC' Ht Vn). destruct (nodeprop m n) as [p|] eqn:E; [|contradiction].
        cbn [pval]. apply (H1 n p E). }
      assert (X1 := X (tn1 t) (or_introl eq_refl)). assert (X2 := X (tn2 t) (or_intror (or_introl eq_refl))).
      assert (X3 := X (tn3 t) (or_intror (or_intror eq_refl))). lra.
    - assert (Q := PC' t Ht). destruct (tprop t) as [p|] eqn:E; [|contradiction]. cbn [pval]. apply (H2 t p Ht E).
  Qed.

  Lemma G_le : forall t, In t (trias_of m) -> Rabs (tria_G44 m pfn t) <= c * c /\ Rabs (tria_G55 m pfn t) <= c * c.
  Proof.
    intros t Ht. destruct SB as [H1 H2]. unfold tria_G44, tria_G55.
    split; apply rb_mult; (apply val_le; [split; [intros n p E; apply (H1 n p E)|intros t' p Ht' E; apply (H2 t' p Ht' E)]|exact Ht]).
  Qed.

  Lemma corr_near : forall alpha l t0, 0 <= alpha -> th <= t0 -> l * l <= 8 * (h * h) ->
    0 <= 1 - corr alpha t0 l <= 8 * alpha * (h * h) / (th * th) /\ 0 <= corr alpha t0 l <= 1.
  Proof.
    intros alpha l t0 A T L. unfold corr. assert (T2 : th * th <= t0 * t0) by (apply Rmult_le_compat; lra). assert (TP : 0 < th * th) by nra.
    assert (L0 : 0 <= l * l) by apply Rle_0_sqr. assert (AL : 0 <= alpha * (l * l)) by (apply Rmult_le_pos; assumption).
    assert (D : 0 < t0 * t0 + alpha * (l * l)) by lra.
    replace (1 - t0 * t0 / (t0 * t0 + alpha * (l * l))) with (alpha * (l * l) / (t0 * t0 + alpha * (l * l))) by (field; lra).
    assert (Q : 0 <= alpha * (l * l) / (t0 * t0 + alpha * (l * l))) by (apply Rmult_le_pos; [exact AL|apply Rlt_le, Rinv_0_lt_compat, D]).
    split; [split; [exact Q|]|].
    - apply Rle_trans with (alpha * (l * l) / (th * th)).
      + unfold Rdiv. apply Rmult_le_compat_l; [exact AL|]. apply Rinv_le_contravar; lra.
      + unfold Rdiv. apply Rmult_le_compat_r; [apply Rlt_le, Rinv_0_lt_compat, TP|]. 
        assert (alpha * (l * l) <= alpha * (8 * (h * h))) by (apply Rmult_le_compat_l; assumption). lra.
    - split; [apply Rmult_le_pos; [lra|apply Rlt_le, Rinv_0_lt_compat, D]|].
      apply Rmult_le_reg_r with (t0 * t0 + alpha * (l * l)); [exact D|]. unfold Rdiv. rewrite Rmult_assoc, Rinv_l by lra. lra.
  Qed.

  (** one product *)
  Lemma term_near : forall k G g g' e B C, 0 <= k <= 1 -> 1 - k <= C -> Rabs G <= c * c -> Rabs (g - g') <= e -> Rabs g' <= B ->
    Rabs (k * (G * g * g) - G * g' * g') <= c * c * (e * (2 * B + e)) + C * (c * c * (B * B)).
  Proof.
    intros k G g g' e B C K KC HG He HB.
    replace (k * (G * g * g) - G * g' * g') with (k * (G * ((g - g') * (2 * g' + (g - g')))) - (1 - k) * (G * (g' * g'))) by ring.
    assert (e0 := rb_nonneg _ _ He). assert (B0 := rb_nonneg _ _ HB).
    apply rb_minus.
    - assert (X : Rabs (G * ((g - g') * (2 * g' + (g - g')))) <= c * c * (e * (2 * B + e))).
      { apply rb_mult; [exact HG|]. apply rb_mult; [exact He|]. apply rb_plus; [|exact He]. apply rb_mult; [|exact HB]. rewrite Rabs_right; lra. }
      assert (Y := rb_nonneg _ _ X). rewrite Rabs_mult, (Rabs_right k) by lra. 
      assert (Z := Rabs_pos (G * ((g - g') * (2 * g' + (g - g'))))). nra.
    - apply rb_mult; [rewrite Rabs_right; lra|]. apply rb_mult; [exact HG|]. apply rb_mult; exact HB.
  Qed.

  Lemma shear_energy_near : forall method alpha mfa G u M s b, In method cell_methods -> 0 <= alpha -> 0 <= M ->
    motion_smooth Om M s G -> rotations_le Om b G -> samples m G u -> let e := serr M s b (third_error method) in
    Rabs (shear_energy (method_strain method m) m pfn alpha mfa u u - riemann_shear m pfn P G)
      <= 2 * (c * c) * (e * (2 * (s + b) + e) + 8 * alpha * (h * h) / (th * th) * ((s + b) * (s + b))) * total_area m.
  Proof.
    intros method alpha mfa G u M s b HM A MN SM RB SA e. unfold shear_energy, riemann_shear, total_area.
    match goal with |- Rabs (Sum ?f _ - Sum ?g _) <= _ =>
      replace (Sum f (trias_of m) - Sum g (trias_of m)) with (Sum (fun t => f t - g t) (trias_of m))
        by (rewrite (Sum_ext _ _ (fun t => f t + (-1) * g t)) by (intros; ring); rewrite Sum_plus, Sum_scal; ring) end.
    rewrite <- Sum_scal. apply Sum_abs. intros t Ht.
    destruct (shear_near G u M s b MN SM RB SA method t HM Ht) as [N1 N2]. fold e in N1, N2.
    destruct (true_shear_le G M s b SM RB t Ht) as [B1 B2]. destruct (G_le t Ht) as [G4 G5].
    destruct (corr_near alpha (tria_size m mfa t) (tria_val m pfn ph t) A (thick_ge t Ht) (size_small mfa t Ht)) as [[K0 K1] K2].
    set (k := corr _ _ _) in *. set (g := method_strain method m u t) in *. set (g' := true_shear G (P t)) in *.
    set (C := 8 * alpha * (h * h) / (th * th)) in *.
    assert (T1 := term_near k _ _ _ e _ C K2 K1 G4 N1 B1). assert (T2 := term_near k _ _ _ e _ C K2 K1 G5 N2 B2).
    assert (TP : 0 <= tarea m t) by (unfold tarea; assert (Y := Rabs_pos (tdet m t)); lra).
    match goal with |- Rabs ?x <= _ => replace x with
      (tarea m t * ((k * (tria_G44 m pfn t * fst g * fst g) - tria_G44 m pfn t * fst g' * fst g')
                    + (k * (tria_G55 m pfn t * snd g * snd g) - tria_G55 m pfn t * snd g' * snd g'))) by ring end.
    rewrite Rabs_mult, (Rabs_right (tarea m t)) by lra. rewrite (Rmult_comm _ (tarea m t)). apply Rmult_le_compat_l; [exact TP|].
    assert (T := rb_plus _ _ _ _ T1 T2). lra.
  Qed.
End Shear.
