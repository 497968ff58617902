(** The strains of the linear triangles are controlled by the smoothed strains. *)
From Coq Require Import ZArith Reals List Bool Arith Lra Lia Psatz Permutation.
From Verif Require Import Num Py Mesh Utils Spec SpecK0 SpecKG SpecK0s SpecStab SpecStat SpecConv SpecSol FSum FMat FDict FGeom FWf FRead2 FAsm FTensor FSmooth FStab FStab2 FConv LKG.
Import ListNotations.
Local Open Scope R_scope.
Implicit Types (m : mesh R).

(** ** A tensor from the stretches of three sides *)

Definition stretch (x y a b c : R) : R := x * x * a + x * y * c + y * y * b.

Lemma from_stretch : forall x1 y1 x2 y2 a b c, let x3 := - x1 - x2 in let y3 := - y1 - y2 in let D := x1 * y2 - x2 * y1 in
  let g1 := stretch x1 y1 a b c in let g2 := stretch x2 y2 a b c in let g3 := stretch x3 y3 a b c in
  D * D * a = - (g1 * (y2 * y3) + g2 * (y3 * y1) + g3 * (y1 * y2)) /\
  D * D * b = - (g1 * (x2 * x3) + g2 * (x3 * x1) + g3 * (x1 * x2)) /\
  D * D * c = g1 * (x2 * y3 + y2 * x3) + g2 * (x3 * y1 + y3 * x1) + g3 * (x1 * y2 + y1 * x2).
Proof. intros. unfold g1, g2, g3, stretch, D, x3, y3. repeat split; ring. Qed.

Definition sq3 (a b c : R) : R := a * a + b * b + c * c.

Lemma sq_le : forall x y, Rabs x <= y -> x * x <= y * y.
Proof. intros x y H. assert (Z := rb_mult _ _ _ _ H H). rewrite rb in Z. lra. Qed.

Lemma sq_abs : forall x, x * x = Rabs x * Rabs x.
Proof. intros x. unfold Rabs. destruct (Rcase_abs x); ring. Qed.

Lemma stretch_le : forall h x y a b c, Rabs x <= h -> Rabs y <= h -> Rabs (stretch x y a b c) <= h * h * (Rabs a + Rabs b + Rabs c).
Proof.
  intros h x y a b c X Y. unfold stretch.
  replace (h * h * (Rabs a + Rabs b + Rabs c)) with (h * h * Rabs a + h * h * Rabs c + h * h * Rabs b) by ring.
  repeat apply rb_plus; repeat apply rb_mult; try assumption; apply Rle_refl.
Qed.

Lemma three_sides : forall h kappa x1 y1 x2 y2 a b c a1 b1 c1 a2 b2 c2 a3 b3 c3, 0 < h -> 0 < kappa ->
  let x3 := - x1 - x2 in let y3 := - y1 - y2 in
  Rabs x1 <= h -> Rabs y1 <= h -> Rabs x2 <= h -> Rabs y2 <= h -> Rabs x3 <= h -> Rabs y3 <= h ->
  2 * kappa * (h * h) <= Rabs (x1 * y2 - x2 * y1) ->
  stretch x1 y1 a b c = stretch x1 y1 a1 b1 c1 -> stretch x2 y2 a b c = stretch x2 y2 a2 b2 c2 -> stretch x3 y3 a b c = stretch x3 y3 a3 b3 c3 ->
  kappa ^ 4 * sq3 a b c <= 27 / 8 * (sq3 a1 b1 c1 + sq3 a2 b2 c2 + sq3 a3 b3 c3).
Proof.
  intros h kappa x1 y1 x2 y2 a b c a1 b1 c1 a2 b2 c2 a3 b3 c3 Hh Hk x3 y3 X1 Y1 X2 Y2 X3 Y3 HD E1 E2 E3.
  destruct (from_stretch x1 y1 x2 y2 a b c) as [FA [FB FC]]. fold x3 y3 in FA, FB, FC. rewrite E1, E2, E3 in FA, FB, FC.
  set (D := x1 * y2 - x2 * y1) in *.
  assert (G1 := stretch_le h x1 y1 a1 b1 c1 X1 Y1). assert (G2 := stretch_le h x2 y2 a2 b2 c2 X2 Y2). assert (G3 := stretch_le h x3 y3 a3 b3 c3 X3 Y3).
  set (g1 := stretch x1 y1 a1 b1 c1) in *. set (g2 := stretch x2 y2 a2 b2 c2) in *. set (g3 := stretch x3 y3 a3 b3 c3) in *. clearbody g1 g2 g3.
  set (T1 := Rabs a1 + Rabs b1 + Rabs c1) in *. set (T2 := Rabs a2 + Rabs b2 + Rabs c2) in *. set (T3 := Rabs a3 + Rabs b3 + Rabs c3) in *.
  set (T := T1 + T2 + T3).
  assert (HH : 0 < h * h) by (apply Rmult_lt_0_compat; assumption).
  assert (H4 : 0 < h * h * (h * h)) by (apply Rmult_lt_0_compat; assumption).
  assert (P : forall p q, Rabs p <= h -> Rabs q <= h -> Rabs (p * q) <= h * h) by (intros; apply rb_mult; assumption).
  assert (BA : Rabs (D * D * a) <= h * h * (h * h) * T).
  { rewrite FA, Rabs_Ropp. replace (h * h * (h * h) * T) with (h * h * T1 * (h * h) + h * h * T2 * (h * h) + h * h * T3 * (h * h)) by (unfold T; ring).
    repeat apply rb_plus; apply rb_mult; auto. }
  assert (BB : Rabs (D * D * b) <= h * h * (h * h) * T).
  { rewrite FB, Rabs_Ropp. replace (h * h * (h * h) * T) with (h * h * T1 * (h * h) + h * h * T2 * (h * h) + h * h * T3 * (h * h)) by (unfold T; ring).
    repeat apply rb_plus; apply rb_mult; auto. }
  assert (BC : Rabs (D * D * c) <= h * h * (h * h) * (2 * T)).
  { rewrite FC. replace (h * h * (h * h) * (2 * T)) with (h * h * T1 * (h * h + h * h) + h * h * T2 * (h * h + h * h) + h * h * T3 * (h * h + h * h)) by (unfold T; ring).
    repeat apply rb_plus; apply rb_mult; auto; apply rb_plus; auto. }
  assert (DD : 4 * (kappa * kappa) * (h * h * (h * h)) <= D * D).
  { rewrite (sq_abs D). replace (4 * (kappa * kappa) * (h * h * (h * h))) with (2 * kappa * (h * h) * (2 * kappa * (h * h))) by ring.
    assert (0 <= 2 * kappa * (h * h)) by (apply Rmult_le_pos; lra). apply Rmult_le_compat; assumption. }
  assert (DN : 0 <= D * D) by nra.
  assert (KK : 0 < kappa * kappa) by (apply Rmult_lt_0_compat; assumption).
  assert (Q : forall z w, Rabs (D * D * z) <= h * h * (h * h) * w -> Rabs (4 * (kappa * kappa) * z) <= w).
  { intros z w H. rewrite Rabs_mult, (Rabs_right (D * D)) in H by lra. rewrite Rabs_mult, (Rabs_right (4 * (kappa * kappa))) by lra.
    apply Rmult_le_reg_l with (h * h * (h * h)); [exact H4|]. eapply Rle_trans; [|exact H].
    replace (h * h * (h * h) * (4 * (kappa * kappa) * Rabs z)) with (4 * (kappa * kappa) * (h * h * (h * h)) * Rabs z) by ring.
    apply Rmult_le_compat_r; [apply Rabs_pos|exact DD]. }
  apply Q, sq_le in BA. apply Q, sq_le in BB. apply Q, sq_le in BC.
  assert (TT : T * T <= 9 * (sq3 a1 b1 c1 + sq3 a2 b2 c2 + sq3 a3 b3 c3)).
  { unfold sq3. rewrite (sq_abs a1), (sq_abs b1), (sq_abs c1), (sq_abs a2), (sq_abs b2), (sq_abs c2), (sq_abs a3), (sq_abs b3), (sq_abs c3).
    unfold T, T1, T2, T3. generalize (Rabs a1) (Rabs b1) (Rabs c1) (Rabs a2) (Rabs b2) (Rabs c2) (Rabs a3) (Rabs b3) (Rabs c3). clear.
    intros x1 x2 x3 x4 x5 x6 x7 x8 x9.
    assert (C3 : forall x y z, (x + y + z) * (x + y + z) <= 3 * (x * x + y * y + z * z)).
    { intros x y z. assert (A := Rle_0_sqr (x - y)). assert (B := Rle_0_sqr (y - z)). assert (C := Rle_0_sqr (x - z)). unfold Rsqr in *. lra. }
    assert (A := C3 (x1 + x2 + x3) (x4 + x5 + x6) (x7 + x8 + x9)). assert (B1 := C3 x1 x2 x3). assert (B2 := C3 x4 x5 x6). assert (B3 := C3 x7 x8 x9). lra. }
  assert (16 * (kappa ^ 4 * sq3 a b c) <= 6 * (T * T)); [|lra].
  replace (16 * (kappa ^ 4 * sq3 a b c)) with (4 * (kappa * kappa) * a * (4 * (kappa * kappa) * a) + 4 * (kappa * kappa) * b * (4 * (kappa * kappa) * b) + 4 * (kappa * kappa) * c * (4 * (kappa * kappa) * c)) by (unfold sq3; ring).
  lra.
Qed.

(** ** Laminates *)

Lemma wsum3_ge : forall A (w : A -> R) (MA MB MD : A -> mat3 R) l e b, l <> [] ->
  (forall a, In a l -> 0 < w a) -> (forall a, In a l -> b <= dens (MA a) (MB a) (MD a) e e) ->
  b <= dens (wsum3 w MA l) (wsum3 w MB l) (wsum3 w MD l) e e.
Proof.
  intros A w MA MB MD l e b N Hw Hd. rewrite dens_wsum3. assert (P : 0 < Sum w l) by (apply Sum_pos; assumption).
  apply Rmult_le_reg_r with (Sum w l); [exact P|]. replace (Sum (fun a => w a * dens (MA a) (MB a) (MD a) e e) l / Sum w l * Sum w l) with
    (Sum (fun a => w a * dens (MA a) (MB a) (MD a) e e) l) by (field; lra).
  rewrite <- Sum_scal. apply Sum_le. intros a Ha. rewrite Rmult_comm. apply Rmult_le_compat_l; [left; apply Hw, Ha|apply Hd, Ha].
Qed.

Section Stable.
  Variable m : mesh R.
  Variable pfn : bool.
  Hypothesis V : valid m pfn.
  Variable lam : R.
  Let W := va_wf _ _ V.
  Let PL := va_plate _ _ V.

  Lemma stiffness_lower : forall k e, all_props m (stiffness_ge lam) -> In k (edge_keys m) ->
    lam * strain_sq e <= dens (edge_stiffness m pfn pA k) (edge_stiffness m pfn pB k) (edge_stiffness m pfn pD k) e e.
  Proof.
    intros k e PP Hk. destruct PP as [PN PT].
    assert (Z : forall o : option (prop R), o <> None -> (forall p, o = Some p -> stiffness_ge lam p) -> lam * strain_sq e <= dens (getp pA o) (getp pB o) (getp pD o) e e).
    { intros [p|] N H; cbn [getp]; [apply (H p eq_refl e)|congruence]. }
    assert (PC0 := va_props _ _ V). assert (VP := vertex_prop m pfn V). assert (TN := tris_nonempty m pfn V k Hk). assert (AP := area_pos m PL). clear W PL.
    unfold edge_stiffness. destruct pfn.
    - unfold node_stiffness. set (l := tris_on m k).
      assert (EV : forall sel, wsum3 (fun _ : mat3 R => 1) (fun X => X)
          (getp sel (nodeprop m (fst k)) :: getp sel (nodeprop m (snd k)) ::
           map (fun t => wsum3 (fun _ => 1) (fun n => getp sel (nodeprop m n)) [tn1 t; tn2 t; tn3 t]) l)
        = wsum3 (fun _ : (prop R -> mat3 R) -> mat3 R => 1) (fun f => f sel)
          ((fun sel => getp sel (nodeprop m (fst k))) :: (fun sel => getp sel (nodeprop m (snd k))) ::
           map (fun t sel => wsum3 (fun _ => 1) (fun n => getp sel (nodeprop m n)) [tn1 t; tn2 t; tn3 t]) l)).
      { intros sel. unfold wsum3. rewrite !Sum_cons, !Sum_map. reflexivity. }
      rewrite !EV. assert (PC := PC0 k Hk). apply wsum3_ge; [discriminate|intros; lra|].
      intros f Hf. cbn [In] in Hf. destruct Hf as [<-|[<-|Hf]].
      + apply Z; [apply PC|intros p; apply PN].
      + apply Z; [apply PC|intros p; apply PN].
      + apply in_map_iff in Hf. destruct Hf as [t [<- Ht]]. unfold l in Ht. apply tris_on_in in Ht. destruct Ht as [Ht _].
        apply wsum3_ge; [discriminate|intros; lra|].
        intros n Hn. apply Z; [|intros p; apply PN]. apply (VP eq_refl t n Ht). cbn [In] in Hn. unfold vertex. intuition.
    - unfold tria_stiffness. apply wsum3_ge.
      + exact TN.
      + intros t Ht. apply AP. apply tris_on_in in Ht; tauto.
      + intros t Ht. apply tris_on_in in Ht. destruct Ht as [Ht _]. apply Z; [apply (PC0 t Ht)|]. intros p Hp. apply (PT t p Ht Hp).
  Qed.

  (** ** Stretch of a side *)

  Lemma smooth_diff : forall k q, In k (edge_keys m) ->
    q (snd k) - q (fst k) = sgx m k q * (vx (pos m (snd k)) - vx (pos m (fst k))) + sgy m k q * (vy (pos m (snd k)) - vy (pos m (fst k))).
  Proof.
    intros k q Hk. assert (A := tris_area_pos m W PL k Hk). unfold sgx, sgy.
    set (dx := vx (pos m (snd k)) - vx (pos m (fst k))). set (dy := vy (pos m (snd k)) - vy (pos m (fst k))).
    apply Rmult_eq_reg_r with (Sum (tarea m) (tris_on m k)); [|apply Rgt_not_eq; exact A].
    transitivity (Sum (fun t => tarea m t * tgx m t q) (tris_on m k) * dx + Sum (fun t => tarea m t * tgy m t q) (tris_on m k) * dy); [|field; lra].
    rewrite <- !Sum_scal_r, <- Sum_plus, Rmult_comm, <- Sum_scal_r. apply Sum_ext_in. intros t Ht. apply tris_on_in in Ht. destruct Ht as [Ht [V1 V2]].
    rewrite (grad_diff m PL t q (fst k) (snd k) Ht V1 V2). fold dx dy. ring.
  Qed.

  (** side from [a] to [b] of a triangle: the smoothed strains of the edge give the same stretch *)
  Lemma stretch_side : forall t a b q r, In t (trias_of m) -> vertex t a -> vertex t b -> a <> b ->
    let k := (Nat.min a b, Nat.max a b) in let x := vx (pos m b) - vx (pos m a) in let y := vy (pos m b) - vy (pos m a) in
    stretch x y (tgx m t q) (tgy m t r) (tgy m t q + tgx m t r) = stretch x y (sgx m k q) (sgy m k r) (sgy m k q + sgx m k r).
  Proof.
    intros t a b q r Ht Va Vb N k x y. destruct (side_key m W t a b Ht Va Vb N) as [Hk [_ E]]. fold k in Hk, E.
    assert (G : forall q, q b - q a = tgx m t q * x + tgy m t q * y) by (intros f; apply (grad_diff m PL t f a b Ht Va Vb)).
    assert (H : forall q, q b - q a = sgx m k q * x + sgy m k q * y).
    { intros f. assert (X := smooth_diff k f Hk). clearbody k. destruct k as [k1 k2]. cbn [fst snd] in X.
      destruct E as [E|E]; injection E as <- <-; unfold x, y; lra. }
    unfold stretch. transitivity ((q b - q a) * x + (r b - r a) * y); [rewrite !G; ring|rewrite !H; ring].
  Qed.

  Lemma sides_sum : forall t f, In t (trias_of m) -> Sum f (sides t) = Sum (fun k => if mem_key k (sides t) then f k else 0) (edge_keys m).
  Proof.
    intros t f Ht. rewrite <- (Sum_filter_if _ (fun k => mem_key k (sides t)) f). apply Sum_perm. apply NoDup_Permutation.
    - apply sides_nodup. apply (wf_distinct m W t Ht).
    - apply NoDup_filter, (wf_edges m W).
    - intros k. rewrite filter_In, mem_key_in. split; [|tauto]. intros H; split; [|exact H]. apply (wf_edge_keys m W). exists t; auto.
  Qed.

  Lemma sum_sides : forall f, Sum (fun t => tarea m t * Sum f (sides t)) (trias_of m) = 3 * Sum (fun k => dom_area m k * f k) (edge_keys m).
  Proof.
    intros f.
    transitivity (Sum (fun t => Sum (fun k => if mem_key k (sides t) then tarea m t * f k else 0) (edge_keys m)) (trias_of m)).
    - apply Sum_ext_in. intros t Ht. rewrite (sides_sum t f Ht), <- Sum_scal. apply Sum_ext. intros k. destruct (mem_key k (sides t)); ring.
    - rewrite <- Sum_swap, <- Sum_scal. apply Sum_ext_in. intros k Hk. unfold dom_area, tris_on. rewrite Sum_filter_if.
      transitivity (f k * Sum (fun a => if is_vertex (fst k) a && is_vertex (snd k) a then tarea m a else 0) (trias_of m)); [|field].
      rewrite <- Sum_scal. apply Sum_ext_in. intros t Ht. rewrite (on_side m W k t Hk Ht). destruct (mem_key k (sides t)); ring.
  Qed.

  Lemma tria_stable : forall kappa u t, 0 < kappa -> shapely kappa m -> In t (trias_of m) ->
    kappa ^ 4 * strain_sq (tria_strain m u t) <= 27 / 8 * Sum (fun k => strain_sq (smoothed_strain m u k)) (sides t).
  Proof.
    intros kappa u t Hk SH Ht. destruct (SH t Ht) as [h [Hh [HV HA]]].
    assert (V1 : vertex t (tn1 t)) by (left; reflexivity). assert (V2 : vertex t (tn2 t)) by (right; left; reflexivity).
    assert (V3 : vertex t (tn3 t)) by (right; right; reflexivity). destruct (wf_distinct m W t Ht) as [D1 [D2 D3]].
    assert (T : forall q r, let k1 := (Nat.min (tn1 t) (tn2 t), Nat.max (tn1 t) (tn2 t)) in let k2 := (Nat.min (tn2 t) (tn3 t), Nat.max (tn2 t) (tn3 t)) in
      let k3 := (Nat.min (tn3 t) (tn1 t), Nat.max (tn3 t) (tn1 t)) in
      kappa ^ 4 * sq3 (tgx m t q) (tgy m t r) (tgy m t q + tgx m t r) <= 27 / 8 * (sq3 (sgx m k1 q) (sgy m k1 r) (sgy m k1 q + sgx m k1 r) +
        sq3 (sgx m k2 q) (sgy m k2 r) (sgy m k2 q + sgx m k2 r) + sq3 (sgx m k3 q) (sgy m k3 r) (sgy m k3 q + sgx m k3 r))).
    { intros q r k1 k2 k3.
      assert (S1 := stretch_side t _ _ q r Ht V1 V2 D1). assert (S2 := stretch_side t _ _ q r Ht V2 V3 D2). assert (S3 := stretch_side t _ _ q r Ht V3 V1 D3).
      cbv zeta in S1, S2, S3. fold k1 in S1. fold k2 in S2. fold k3 in S3.
      set (x1 := vx (pos m (tn2 t)) - vx (pos m (tn1 t))) in *. set (y1 := vy (pos m (tn2 t)) - vy (pos m (tn1 t))) in *.
      set (x2 := vx (pos m (tn3 t)) - vx (pos m (tn2 t))) in *. set (y2 := vy (pos m (tn3 t)) - vy (pos m (tn2 t))) in *.
      assert (X3 : vx (pos m (tn1 t)) - vx (pos m (tn3 t)) = - x1 - x2) by (unfold x1, x2; ring).
      assert (Y3 : vy (pos m (tn1 t)) - vy (pos m (tn3 t)) = - y1 - y2) by (unfold y1, y2; ring).
      rewrite X3, Y3 in S3.
      apply (three_sides h kappa x1 y1 x2 y2); try assumption; try (apply HV; assumption).
      - rewrite <- X3. apply HV; assumption.
      - rewrite <- Y3. apply HV; assumption.
      - unfold tarea in HA. replace (x1 * y2 - x2 * y1) with (tdet m t) by (unfold tdet, det2, x1, x2, y1, y2; ring). lra. }
    assert (TM := T (comp m u 0) (comp m u 1)). assert (TB := T (comp m u 3) (comp m u 4)). cbv zeta in TM, TB.
    unfold sides. rewrite !Sum_cons, Sum_nil. unfold strain_sq, sq3 in *. cbn [tria_strain smoothed_strain exx eyy exy kxx kyy kxy]. lra.
  Qed.

  Lemma strain_sq_nonneg : forall e, 0 <= strain_sq e.
  Proof. intros e. unfold strain_sq. assert (Q : forall x : R, 0 <= x * x) by (intros x; nra). assert (A := Q (exx e)). assert (B := Q (eyy e)).
    assert (C := Q (exy e)). assert (D := Q (kxx e)). assert (E := Q (kyy e)). assert (F := Q (kxy e)). lra. Qed.

  Lemma area_nn : forall t, 0 <= tarea m t.
  Proof. intros t. unfold tarea. assert (Y := Rabs_pos (tdet m t)). lra. Qed.

  Lemma smoothed_stable : forall kappa u, 0 < kappa -> shapely kappa m ->
    kappa ^ 4 * strains_sq m u <= 81 / 8 * Sum (fun k => dom_area m k * strain_sq (smoothed_strain m u k)) (edge_keys m).
  Proof.
    intros kappa u Hk SH. unfold strains_sq.
    assert (E := sum_sides (fun k => strain_sq (smoothed_strain m u k))).
    apply Rle_trans with (27 / 8 * Sum (fun t => tarea m t * Sum (fun k => strain_sq (smoothed_strain m u k)) (sides t)) (trias_of m)); [|lra].
    rewrite <- !Sum_scal. apply Sum_le. intros t Ht. assert (A := area_nn t). assert (T := tria_stable kappa u t Hk SH Ht).
    apply (Rmult_le_compat_l _ _ _ A) in T. lra.
  Qed.

  Lemma smoothed_energy : forall u, all_props m (stiffness_ge lam) ->
    lam * Sum (fun k => dom_area m k * strain_sq (smoothed_strain m u k)) (edge_keys m) <= k0_energy m pfn u u.
  Proof.
    intros u PP. unfold k0_energy. rewrite <- Sum_scal. apply Sum_le. intros k Hk.
    assert (L := stiffness_lower k (smoothed_strain m u k) PP Hk). assert (A := dom_nonneg m k).
    apply (Rmult_le_compat_l _ _ _ A) in L. lra.
  Qed.

  Lemma energy_stable : forall kappa u, 0 < kappa -> 0 < lam -> shapely kappa m -> all_props m (stiffness_ge lam) ->
    lam * kappa ^ 4 * strains_sq m u <= 81 / 8 * k0_energy m pfn u u.
  Proof.
    intros kappa u Hk Hl SH PP. assert (A := smoothed_stable kappa u Hk SH). assert (B := smoothed_energy u PP).
    apply (Rmult_le_compat_l lam) in A; [|lra]. lra.
  Qed.
End Stable.
