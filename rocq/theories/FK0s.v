(** Facts about add_k0s: the cell-based methods. *)
From Coq Require Import ZArith Reals List Bool Arith Lra Lia String.
From Verif Require Import Num Py Mesh Utils GenCell GenCellNS CalcK0 AddK0s Spec SpecK0 SpecKG SpecK0s FSum FMat FTensor
  FGenCell FGenCellNS FGeom FDict FWf FSetup FAsm FK0 FSmooth FTot FAny FKG.
Import ListNotations.
Local Open Scope R_scope.
Implicit Types (m : mesh R).

(** ** Geometry *)

(** numerators *)
Definition nx (p q r : pt) : R := gap p q * (pty r - pty p) - gap p r * (pty q - pty p).
Definition ny (p q r : pt) : R := gap p r * (ptx q - ptx p) - gap p q * (ptx r - ptx p).

Lemma pdet_center : forall th p q r, let c := center th p q r in
  pdet c p q = pdet p q r / 3 /\ pdet c q r = pdet p q r / 3 /\ pdet c r p = pdet p q r / 3.
Proof. intros th p q r c. unfold c, pdet, center; cbn [ptx pty]; split; [field|split; field]. Qed.

Lemma Rabs_div3 : forall d, Rabs (d / 3) = Rabs d / 3.
Proof. intros; unfold Rdiv; rewrite Rabs_mult, (Rabs_right (/ 3)) by lra; reflexivity. Qed.

Lemma cell_shear_eq : forall th p q r, pdet p q r <> 0 -> let c := center th p q r in
  cell_shear th p q r = ((nx c p q + nx c q r + nx c r p) / pdet p q r, (ny c p q + ny c q r + ny c r p) / pdet p q r).
Proof.
  intros th p q r D c. unfold cell_shear. fold c. destruct (pdet_center th p q r) as [E1 [E2 E3]]. fold c in E1, E2, E3.
  assert (A := Rabs_no_R0 _ D). unfold parea, dsg; cbn [fst snd]. rewrite E1, E2, E3, Rabs_div3.
  fold (nx c p q) (nx c q r) (nx c r p) (ny c p q) (ny c q r) (ny c r p). f_equal; field; auto.
Qed.

(** the strain does not depend on the order of the corners *)
Lemma cell_shear_rot : forall th p q r, pdet p q r <> 0 -> cell_shear th q r p = cell_shear th p q r.
Proof.
  intros th p q r D. assert (E : pdet q r p = pdet p q r) by (unfold pdet; ring).
  rewrite !cell_shear_eq by congruence. cbv zeta. rewrite E.
  assert (C : center th q r p = center th p q r) by (unfold center; f_equal; try ring; field). rewrite C.
  f_equal; f_equal; ring.
Qed.
Lemma cell_shear_swap : forall th p q r, pdet p q r <> 0 -> cell_shear th q p r = cell_shear th p q r.
Proof.
  intros th p q r D. assert (E : pdet q p r = - pdet p q r) by (unfold pdet; ring).
  rewrite !cell_shear_eq by (rewrite ?E; lra). cbv zeta. rewrite E.
  assert (C : center th q p r = center th p q r) by (unfold center; f_equal; try ring; field). rewrite C.
  set (c := center th p q r).
  assert (NX : forall a b, nx c b a = - nx c a b) by (intros; unfold nx; ring).
  assert (NY : forall a b, ny c b a = - ny c a b) by (intros; unfold ny; ring).
  rewrite (NX p q), (NX r p), (NX q r), (NY p q), (NY r p), (NY q r). f_equal; field; exact D.
Qed.

(** what the code adds up is the strain times the area *)
Definition dofs (u : Z -> R) (i : Z) (p : vec3 R) : pt :=
  Pt (vx p) (vy p) (u (i * 5 + 2)%Z) (u (i * 5 + 3)%Z) (u (i * 5 + 4)%Z).

Lemma cell_comb : forall l u i1 i2 i3 p1 p2 p3, 0 < det2 p1 p2 p3 ->
  let mid := mid3 p1 p2 p3 in let A := det2 p1 p2 p3 / 2 in
  comb _ pair0 padd pscale u (cell_units l i1 i2 i3 (A / 3) (A / 3) (A / 3)
    (vx p1 - vx mid) (vy p1 - vy mid) (vx p2 - vx mid) (vy p2 - vy mid)
    (vx p2 - vx mid) (vy p2 - vy mid) (vx p3 - vx mid) (vy p3 - vy mid)
    (vx p3 - vx mid) (vy p3 - vy mid) (vx p1 - vx mid) (vy p1 - vy mid))
  = pscale A (cell_shear (2 * l) (dofs u i1 p1) (dofs u i2 p2) (dofs u i3 p3)).
Proof.
  intros l u i1 i2 i3 p1 p2 p3 D mid A.
  assert (E : pdet (dofs u i1 p1) (dofs u i2 p2) (dofs u i3 p3) = det2 p1 p2 p3) by reflexivity.
  rewrite cell_shear_eq by (rewrite E; lra). cbv zeta. rewrite E.
  assert (PS : forall a b, pscale A (a / det2 p1 p2 p3, b / det2 p1 p2 p3) = (a / 2, b / 2)).
  { intros a b; unfold pscale, A; cbn [fst snd]; f_equal; field; lra. }
  rewrite PS.
  unfold cell_units, cell_units1, unit_shears, comb. cbn [fold_right app fst snd].
  unfold padd, pscale, pair0; cbn [fst snd]. unfold nx, ny, gap, center, dofs, A, mid, mid3, vdivs, vadd, det2;
  cbn [vx vy vz ptx pty ptw ptfx ptfy]; rnum.
  f_equal; field.
Qed.

Lemma cellns_comb : forall u i1 i2 i3 p1 p2 p3, 0 < det2 p1 p2 p3 -> let A := det2 p1 p2 p3 / 2 in
  comb _ pair0 padd pscale u (cellns_units i1 i2 i3 A
    (vx p2 - vx p1) (vy p2 - vy p1) (vx p3 - vx p1) (vy p3 - vy p1))
  = pscale A (dsg (dofs u i1 p1) (dofs u i2 p2) (dofs u i3 p3)).
Proof.
  intros u i1 i2 i3 p1 p2 p3 D A. unfold dsg.
  assert (E : pdet (dofs u i1 p1) (dofs u i2 p2) (dofs u i3 p3) = det2 p1 p2 p3) by reflexivity. rewrite E.
  assert (PS : forall a b, pscale A (a / det2 p1 p2 p3, b / det2 p1 p2 p3) = (a / 2, b / 2)).
  { intros a b; unfold pscale, A; cbn [fst snd]; f_equal; field; lra. }
  rewrite PS.
  unfold cellns_units, unit_shears, comb. cbn [fold_right app fst snd].
  unfold padd, pscale, pair0, dsg_w1, dsg_w2, dsg_w3, dsg_x1, dsg_x2, dsg_x3, dsg_y1, dsg_y2, dsg_y3; cbn [fst snd].
  unfold nx, ny, gap, dofs, A, det2; cbn [vx vy vz ptx pty ptw ptfx ptfy].
  f_equal; field.
Qed.

(** ** The pieces of the code *)

Lemma nmax2_Rmax : forall a b : R, nmax2 a b = Rmax a b.
Proof.
  intros a b. unfold nmax2. rnum. destruct (Rlt_dec a b) as [H|H].
  - symmetry; apply Rmax_right; lra.
  - symmetry; apply Rmax_left; lra.
Qed.

Lemma nmaxl_spec : forall (l : list R) a, In (nmaxl a l) (a :: l) /\ forall x, In x (a :: l) -> x <= nmaxl a l.
Proof.
  induction l as [|b l IH]; intros a; cbn [nmaxl].
  - split; [left; reflexivity|]. intros x [<-|[]]; lra.
  - rewrite nmax2_Rmax. destruct (IH (Rmax a b)) as [H1 H2]. split.
    + destruct H1 as [H1|H1]; [|right; right; exact H1]. rewrite <- H1. unfold Rmax. destruct (Rle_dec a b); [right; left|left]; reflexivity.
    + assert (M := H2 (Rmax a b) (or_introl eq_refl)). assert (L1 := Rmax_l a b). assert (L2 := Rmax_r a b).
      intros x [<-|[<-|H]]; [lra|lra|]. apply H2; right; exact H.
Qed.

Lemma max_unique : forall (P : R -> Prop) a b, P a -> (forall x, P x -> x <= a) -> P b -> (forall x, P x -> x <= b) -> a = b.
Proof. intros P a b H1 H2 H3 H4. assert (X := H2 b H3). assert (Y := H4 a H1). lra. Qed.

Lemma edge_length_ok : forall m k, wf_mesh m -> In (fst k) (node_keys m) -> In (snd k) (node_keys m) ->
  edge_length m k = Ok (dist m (fst k) (snd k)).
Proof.
  intros m k W Ha Hb. unfold edge_length.
  destruct (node_found m W _ Ha) as [da [-> [_ [Xa _]]]]. destruct (node_found m W _ Hb) as [db [-> [_ [Xb _]]]].
  cbn [bind]. rewrite Xa, Xb. reflexivity.
Qed.

Lemma dist_sym : forall m a b, dist m a b = dist m b a.
Proof. intros; unfold dist; f_equal; ring. Qed.
Lemma dist_minmax : forall m a b, dist m (Nat.min a b) (Nat.max a b) = dist m a b.
Proof.
  intros m a b. destruct (Nat.le_ge_cases a b).
  - rewrite Nat.min_l, Nat.max_r by assumption; reflexivity.
  - rewrite Nat.min_r, Nat.max_l by assumption. apply dist_sym.
Qed.

Lemma mapM_ok : forall A B (f : A -> res B) (g : A -> B) l, (forall a, In a l -> f a = Ok (g a)) -> mapM f l = Ok (map g l).
Proof.
  intros A B f g; induction l as [|a l IH]; intros H; [reflexivity|]. cbn [mapM].
  rewrite (H a (or_introl eq_refl)); cbn [bind]. rewrite IH by (intros; apply H; right; assumption). reflexivity.
Qed.

Section Tria.
  Variable m : mesh R.
  Hypothesis W : wf_mesh m.
  Hypothesis PL : plate m.
  Hypothesis I : indexed m.
  Variable pfn : bool.
  Hypothesis PC : props_complete m pfn.
  Hypothesis TH : thick m.
  Variable alpha : R.
  Hypothesis AL : 0 <= alpha.
  Variable mfa : bool.
  Variable t : tria R.
  Hypothesis Ht : In t (trias_of m).

  Let n := List.length (nodes m).

  Lemma tria_keys : In (tn1 t) (node_keys m) /\ In (tn2 t) (node_keys m) /\ In (tn3 t) (node_keys m).
  Proof. repeat split; apply (wf_vertices m W t); unfold vertex; auto. Qed.

  Lemma tarea_pos : 0 < tarea m t.
  Proof. unfold tarea. assert (D := Rabs_pos_lt _ (pl_nondeg m PL t Ht)). lra. Qed.

  Lemma get_area_ok : get_area m t = Ok (tarea m t).
  Proof.
    destruct tria_keys as [K1 [K2 K3]]. unfold get_area.
    destruct (node_found m W _ K1) as [d1 [-> [_ [X1 _]]]]. destruct (node_found m W _ K2) as [d2 [-> [_ [X2 _]]]].
    destruct (node_found m W _ K3) as [d3 [-> [_ [X3 _]]]]. cbn [bind]. rewrite X1, X2, X3. f_equal.
    destruct (pl_flat m PL) as [z F]. assert (Z1 := F _ K1). assert (Z2 := F _ K2). assert (Z3 := F _ K3).
    unfold tri_area3, tarea, tdet, norm, cross, vsub, dot, det2; cbn [vx vy vz]. rewrite Z1, Z2, Z3. rnum.
    match goal with |- 1 / 2 * sqrt ?e = Rabs ?d / 2 => replace e with (Rsqr d) by (unfold Rsqr; ring) end.
    rewrite sqrt_Rsqr_abs. field.
  Qed.

  Lemma maxl_ok : maxl_tria m t (tarea m t) mfa = Ok (tria_size m mfa t).
  Proof.
    unfold maxl_tria, tria_size. destruct mfa; [reflexivity|].
    destruct tria_keys as [K1 [K2 K3]].
    rewrite (mapM_ok _ _ _ (fun k => dist m (fst k) (snd k))).
    - assert (S := fun k => wf_tria_edges m W t Ht k). cbn [bind].
      destruct (map (fun k => dist m (fst k) (snd k)) (tedges t)) as [|a l] eqn:E.
      + exfalso. assert (Q : In (Nat.min (tn1 t) (tn2 t), Nat.max (tn1 t) (tn2 t)) (tedges t)) by (apply S; left; reflexivity).
        apply (in_map (fun k => dist m (fst k) (snd k))) in Q. rewrite E in Q. destruct Q.
      + unfold pymax. f_equal. destruct (nmaxl_spec l a) as [N1 N2].
        apply (max_unique (fun x => In x (a :: l))); [exact N1|exact N2| |].
        * rewrite <- E. set (mx := Rmax _ _).
          assert (Q : mx = dist m (tn1 t) (tn2 t) \/ mx = dist m (tn2 t) (tn3 t) \/ mx = dist m (tn3 t) (tn1 t)).
          { unfold mx, Rmax. repeat destruct Rle_dec; auto. }
          apply in_map_iff. destruct Q as [-> | [-> | ->]].
          -- exists (Nat.min (tn1 t) (tn2 t), Nat.max (tn1 t) (tn2 t)). split; [apply dist_minmax|]. apply S. left; reflexivity.
          -- exists (Nat.min (tn2 t) (tn3 t), Nat.max (tn2 t) (tn3 t)). split; [apply dist_minmax|]. apply S. right; left; reflexivity.
          -- exists (Nat.min (tn3 t) (tn1 t), Nat.max (tn3 t) (tn1 t)). split; [apply dist_minmax|]. apply S. right; right; left; reflexivity.
        * intros x Hx. rewrite <- E in Hx. apply in_map_iff in Hx. destruct Hx as [k [<- Hk]]. apply S in Hk.
          assert (L1 := Rmax_l (dist m (tn1 t) (tn2 t)) (Rmax (dist m (tn2 t) (tn3 t)) (dist m (tn3 t) (tn1 t)))).
          assert (L2 := Rmax_r (dist m (tn1 t) (tn2 t)) (Rmax (dist m (tn2 t) (tn3 t)) (dist m (tn3 t) (tn1 t)))).
          assert (L3 := Rmax_l (dist m (tn2 t) (tn3 t)) (dist m (tn3 t) (tn1 t))).
          assert (L4 := Rmax_r (dist m (tn2 t) (tn3 t)) (dist m (tn3 t) (tn1 t))).
          unfold sides in Hk. cbn [In] in Hk. destruct Hk as [<-|[<-|[<-|[]]]]; cbn [fst snd]; rewrite dist_minmax; lra.
    - intros k Hk. apply (wf_tria_edges m W t Ht) in Hk. apply sides_vertices in Hk. destruct Hk as [V1 V2].
      apply edge_length_ok; [exact W|apply (wf_vertices m W t _ Ht V1)|apply (wf_vertices m W t _ Ht V2)].
  Qed.

  (** the laminate data, whatever the order of the three nodes *)
  Lemma tria_shear_ok : forall d1 d2 d3 a b c, perm3 t a b c ->
    nprop d1 = nodeprop m a -> nprop d2 = nodeprop m b -> nprop d3 = nodeprop m c ->
    exists s, tria_shear pfn t d1 d2 d3 = Ok s /\ sk13 s = tria_val m pfn pk13 t /\ sk23 s = tria_val m pfn pk23 t /\
      e00 (sE s) = tria_val m pfn (fun p => e00 (pE p)) t /\ e11 (sE s) = tria_val m pfn (fun p => e11 (pE p)) t /\
      sh s = tria_val m pfn ph t.
  Proof.
    intros d1 d2 d3 a b c P E1 E2 E3. unfold tria_shear, tria_val. destruct pfn.
    - rewrite E1, E2, E3.
      assert (VP : forall x, vertex t x -> exists p, nodeprop m x = Some p).
      { intros x V. assert (Q := vertex_prop m t x W PC Ht V). destruct (nodeprop m x); [eauto|contradiction]. }
      destruct (perm3_vertex t _ _ _ P) as [Va [Vb Vc]].
      destruct (VP a Va) as [pa Qa]. destruct (VP b Vb) as [pb Qb]. destruct (VP c Vc) as [pc Qc].
      rewrite Qa, Qb, Qc; cbn [get_or bind]. eexists; split; [reflexivity|].
      assert (MV : forall f, (pval f (nodeprop m (tn1 t)) + pval f (nodeprop m (tn2 t)) + pval f (nodeprop m (tn3 t))) / 3
                  = AddK0s.lin3 (1/3) (1/3) (1/3) (f pa) (f pb) (f pc)).
      { intros f. destruct P as [H|[H|[H|[H|[H|H]]]]]; destruct H as [-> [-> ->]]; rewrite Qa, Qb, Qc; cbn [pval]; unfold AddK0s.lin3; rnum; field. }
      rewrite !MV. repeat split; reflexivity.
    - assert (Q := PC t Ht). destruct (tprop t) as [p|]; [|contradiction]. cbn [get_or bind].
      eexists; split; [reflexivity|]. repeat split; reflexivity.
  Qed.

  Lemma thick_pos : 0 < tria_val m pfn ph t.
  Proof.
    destruct TH as [TN TT]. unfold tria_val. destruct pfn.
    - assert (VP : forall x, vertex t x -> 0 < pval ph (nodeprop m x)).
      { intros x V. assert (Q := vertex_prop m t x W PC Ht V). destruct (nodeprop m x) as [p|] eqn:E; [|contradiction].
        cbn [pval]. apply (TN x p E). }
      assert (H1 := VP (tn1 t) (or_introl eq_refl)). assert (H2 := VP (tn2 t) (or_intror (or_introl eq_refl))).
      assert (H3 := VP (tn3 t) (or_intror (or_intror eq_refl))). lra.
    - assert (Q := PC t Ht). destruct (tprop t) as [p|] eqn:E; [|contradiction]. cbn [pval]. apply (TT t p Ht E).
  Qed.

  Lemma corr_den : forall h l, 0 < h -> 0 < h * h + alpha * (l * l).
  Proof. intros h l H. assert (0 < h * h) by nra. assert (0 <= l * l) by nra. nra. Qed.

  Lemma stiffness_ok : forall s l, 0 < sh s ->
    shear_stiffness s alpha l
    = (corr alpha (sh s) l * (sk23 s * e00 (sE s)), 0, corr alpha (sh s) l * (sk13 s * e11 (sE s))).
  Proof.
    intros s l H. unfold shear_stiffness, corr, sq. rnum.
    assert (D := corr_den (sh s) l H). f_equal; [f_equal|]; field; split; try lra.
  Qed.

  (** one element of either method; [a b c]: its vertices in the order of the code *)
  Let energy (g : (nat -> R) -> tria R -> R * R) (u v : nat -> R) : R :=
    tarea m t * corr alpha (tria_val m pfn ph t) (tria_size m mfa t) *
    (tria_G44 m pfn t * fst (g u t) * fst (g v t) + tria_G55 m pfn t * snd (g u t) * snd (g v t)).

  Lemma dofs_node : forall u x, In x (node_keys m) ->
    dofs (fun r => u (nidx (n * 5) r)) (zr m x) (pos m x) = at_node m u x.
  Proof.
    intros u x Hx. unfold dofs, at_node. f_equal; [apply (gcomp_comp m u 2 x Hx)|apply (gcomp_comp m u 3 x Hx)|apply (gcomp_comp m u 4 x Hx)]; lia.
  Qed.

  Lemma tensor_ok : forall d ps, (forall p, In p ps -> in_range (n * 5) (fst p)) ->
    upds_ok (n * 5) (tensor (S := R * R) d ps).
  Proof. intros d ps H x Hx. apply tensor_in in Hx. destruct Hx as [p [q [Hp [Hq ->]]]]. cbn [fst snd]. split; auto. Qed.

  Lemma zr_range : forall x c, In x (node_keys m) -> (0 <= c < 5)%Z -> in_range (n * 5) (zr m x * 5 + c).
  Proof. intros x c Hx Hc. apply rank_lt in Hx. unfold in_range, zr, n. lia. Qed.

  Lemma node_index_ok : forall x nd, In (x, nd) (nodes m) -> node_index nd = Ok (zr m x).
  Proof. intros x nd H. unfold node_index. rewrite (I x nd H). reflexivity. Qed.

  Lemma orient_cell_ok : forall d1 d2 d3, nxyz d1 = pos m (tn1 t) -> nxyz d2 = pos m (tn2 t) -> nxyz d3 = pos m (tn3 t) ->
    orient_cell (mid3 (pos m (tn1 t)) (pos m (tn2 t)) (pos m (tn3 t))) d1 d2 d3
    = (if Rlt_dec (tdet m t) 0 then (d2, d1, d3) else (d1, d2, d3)) /\
    orient_cellns d1 d2 d3 = (if Rlt_dec (tdet m t) 0 then (d2, d1, d3) else (d1, d2, d3)).
  Proof.
    intros d1 d2 d3 E1 E2 E3. unfold orient_cell, orient_cellns. rewrite E1, E2, E3. split.
    - replace (dot _ _) with (tdet m t / 3)
        by (unfold tdet, dot, cross, vsub, mid3, vdivs, vadd, ZGLOBAL, det2; cbn [vx vy vz]; rnum; field).
      rnum. destruct (Rlt_dec (tdet m t / 3) 0), (Rlt_dec (tdet m t) 0); try reflexivity; lra.
    - replace (dot _ _) with (tdet m t)
        by (unfold tdet, dot, cross, vsub, mid3, vdivs, vadd, ZGLOBAL, det2; cbn [vx vy vz]; rnum; field).
      rnum. destruct (Rlt_dec (tdet m t) 0); reflexivity.
  Qed.

  (** the oriented triangle *)
  Lemma oriented : exists a b c d1 d2 d3, perm3 t a b c /\
    0 < det2 (pos m a) (pos m b) (pos m c) /\ tarea m t = det2 (pos m a) (pos m b) (pos m c) / 2 /\
    (a, b, c) = (if Rlt_dec (tdet m t) 0 then (tn2 t, tn1 t, tn3 t) else (tn1 t, tn2 t, tn3 t)) /\
    In (a, d1) (nodes m) /\ In (b, d2) (nodes m) /\ In (c, d3) (nodes m) /\
    nxyz d1 = pos m a /\ nxyz d2 = pos m b /\ nxyz d3 = pos m c /\
    nprop d1 = nodeprop m a /\ nprop d2 = nodeprop m b /\ nprop d3 = nodeprop m c /\
    (let! x1 := get_node m (tn1 t) in let! x2 := get_node m (tn2 t) in let! x3 := get_node m (tn3 t) in
     let! mid := getMid m t in Ok (orient_cell mid x1 x2 x3)) = Ok (d1, d2, d3) /\
    (let! x1 := get_node m (tn1 t) in let! x2 := get_node m (tn2 t) in let! x3 := get_node m (tn3 t) in
     Ok (orient_cellns x1 x2 x3)) = Ok (d1, d2, d3).
  Proof.
    destruct tria_keys as [K1 [K2 K3]].
    destruct (node_found m W _ K1) as [d1 [G1 [_ [X1 [P1 J1]]]]]. destruct (node_found m W _ K2) as [d2 [G2 [_ [X2 [P2 J2]]]]].
    destruct (node_found m W _ K3) as [d3 [G3 [_ [X3 [P3 J3]]]]].
    assert (GM : getMid m t = Ok (mid3 (pos m (tn1 t)) (pos m (tn2 t)) (pos m (tn3 t)))).
    { apply (getMid_perm m W t _ _ _ Ht). left; auto. }
    destruct (orient_cell_ok d1 d2 d3 X1 X2 X3) as [O1 O2]. rewrite G1, G2, G3, GM; cbn [bind]. rewrite O1, O2.
    assert (D := pl_nondeg m PL t Ht). unfold tarea. destruct (Rlt_dec (tdet m t) 0) as [L|L].
    - exists (tn2 t), (tn1 t), (tn3 t), d2, d1, d3. rewrite Rabs_left by exact L. unfold tdet in *.
      rewrite (det2_swap12 (pos m (tn1 t))). repeat split; auto; try lra. right; left; auto.
    - exists (tn1 t), (tn2 t), (tn3 t), d1, d2, d3. rewrite Rabs_right by lra. unfold tdet in *.
      repeat split; auto; try lra. left; auto.
  Qed.

  Lemma at_node_det : forall u a b c, pdet (at_node m u a) (at_node m u b) (at_node m u c) = det2 (pos m a) (pos m b) (pos m c).
  Proof. reflexivity. Qed.

  Lemma cell_tria_ready : forall L, exists us, cell_tria L m pfn alpha mfa t = Ok us /\ upds_ok (n * 5) us /\
    forall u v, upd_form (n * 5) us u v = energy (strain_cell (2 * l6 L) m) u v.
  Proof.
    intros L. destruct oriented as (a & b & c & d1 & d2 & d3 & P & D & A & AB & J1 & J2 & J3 & X1 & X2 & X3 & P1 & P2 & P3 & O & _).
    destruct (tria_shear_ok d1 d2 d3 a b c P P1 P2 P3) as [s [S [S13 [S23 [S00 [S11 Sh]]]]]].
    assert (TP := thick_pos). assert (HS : 0 < sh s) by (rewrite Sh; exact TP).
    destruct (perm3_vertex t _ _ _ P) as [Va [Vb Vc]].
    assert (Ka := wf_vertices m W t a Ht Va). assert (Kb := wf_vertices m W t b Ht Vb). assert (Kc := wf_vertices m W t c Ht Vc).
    assert (GM := getMid_perm m W t a b c Ht P). unfold cell_tria.
    destruct (get_node m (tn1 t)) as [x1|]; [|discriminate]. destruct (get_node m (tn2 t)) as [x2|]; [|discriminate].
    destruct (get_node m (tn3 t)) as [x3|]; [|discriminate]. cbn [bind] in O |- *. rewrite GM in O |- *. cbn [bind] in O |- *.
    injection O as O. rewrite O. rewrite get_area_ok; cbn [bind]. rewrite !area3; cbn [bind]. rewrite X1, X2, X3, S; cbn [bind].
    rewrite maxl_ok; cbn [bind]. rewrite (stiffness_ok s _ HS).
    rewrite (node_index_ok a d1 J1), (node_index_ok b d2 J2), (node_index_ok c d3 J3); cbn [bind].
    eexists; split; [reflexivity|].
    set (mid := mid3 (pos m a) (pos m b) (pos m c)).
    assert (AA : forall p q, det2 mid p q = det2 (pos m a) (pos m b) (pos m c) / 3 -> Rabs (det2 mid p q) / 2 = tarea m t / 3).
    { intros p q E. rewrite E, A, Rabs_right by lra. field. }
    rewrite !AA; try (unfold mid, mid3, vdivs, vadd, det2; cbn [vx vy vz]; rnum; field).
    assert (TA := tarea_pos). rnum.
    rewrite (cell_entries_tensor L (tarea m t) (tarea m t / 3) (tarea m t / 3) (tarea m t / 3)) by lra.
    split.
    - apply tensor_ok. intros p Hp. unfold cell_units, cell_units1, unit_shears in Hp. cbn [In app] in Hp.
      repeat (destruct Hp as [<-|Hp]; [cbn [fst]; apply zr_range; [assumption|lia]|]). destruct Hp.
    - intros u v. rewrite quad2_form. unfold mid. rewrite A. rewrite !cell_comb by exact D. rewrite !dofs_node by assumption.
      assert (SC : forall w, cell_shear (2 * l6 L) (at_node m w a) (at_node m w b) (at_node m w c) = strain_cell (2 * l6 L) m w t).
      { intros w. unfold strain_cell. assert (DN := pl_nondeg m PL t Ht).
        destruct (Rlt_dec (tdet m t) 0); injection AB as -> -> ->; [apply cell_shear_swap|reflexivity].
        rewrite at_node_det. exact DN. }
      rewrite !SC. rewrite Sh, S23, S00, S13, S11. unfold energy, tria_G44, tria_G55. rewrite A.
      unfold quad2, pscale; cbn [fst snd]. field. lra.
  Qed.

  Lemma cellns_tria_ready : exists us, cellns_tria m pfn alpha mfa t = Ok us /\ upds_ok (n * 5) us /\
    forall u v, upd_form (n * 5) us u v = energy (strain_ns m) u v.
  Proof.
    destruct oriented as (a & b & c & d1 & d2 & d3 & P & D & A & AB & J1 & J2 & J3 & X1 & X2 & X3 & P1 & P2 & P3 & _ & O).
    destruct (tria_shear_ok d1 d2 d3 a b c P P1 P2 P3) as [s [S [S13 [S23 [S00 [S11 Sh]]]]]].
    assert (TP := thick_pos). assert (HS : 0 < sh s) by (rewrite Sh; exact TP).
    destruct (perm3_vertex t _ _ _ P) as [Va [Vb Vc]].
    assert (Ka := wf_vertices m W t a Ht Va). assert (Kb := wf_vertices m W t b Ht Vb). assert (Kc := wf_vertices m W t c Ht Vc).
    unfold cellns_tria.
    destruct (get_node m (tn1 t)) as [x1|]; [|discriminate]. destruct (get_node m (tn2 t)) as [x2|]; [|discriminate].
    destruct (get_node m (tn3 t)) as [x3|]; [|discriminate]. cbn [bind] in O |- *.
    injection O as O. rewrite O. rewrite get_area_ok; cbn [bind]. rewrite S; cbn [bind].
    rewrite maxl_ok; cbn [bind]. rewrite (stiffness_ok s _ HS).
    rewrite (node_index_ok a d1 J1), (node_index_ok b d2 J2), (node_index_ok c d3 J3); cbn [bind].
    eexists; split; [reflexivity|]. rewrite X1, X2, X3.
    assert (TA := tarea_pos). rnum. rewrite cellns_entries_tensor by lra. split.
    - apply tensor_ok. intros p Hp. unfold cellns_units, unit_shears in Hp. cbn [In app] in Hp.
      repeat (destruct Hp as [<-|Hp]; [cbn [fst]; apply zr_range; [assumption|lia]|]). destruct Hp.
    - intros u v. rewrite quad2_form. rewrite A. rewrite !cellns_comb by exact D. rewrite !dofs_node by assumption.
      assert (SC : forall w, dsg (at_node m w a) (at_node m w b) (at_node m w c) = strain_ns m w t).
      { intros w. unfold strain_ns. destruct (Rlt_dec (tdet m t) 0); injection AB as -> -> ->; reflexivity. }
      rewrite !SC. rewrite Sh, S23, S00, S13, S11. unfold energy, tria_G44, tria_G55. rewrite A.
      unfold quad2, pscale; cbn [fst snd]. field. lra.
  Qed.
End Tria.

(** ** The loops *)

Lemma for_each_form : forall X (f : X -> res (list (Z * Z * R))) (g : X -> (nat -> R) -> (nat -> R) -> R) N l k,
  mdim k = N ->
  (forall x, In x l -> exists us, f x = Ok us /\ upds_ok N us /\ forall u v, upd_form N us u v = g x u v) ->
  exists k', for_each (add_body f) l k = (k', Ok tt) /\ adds k k' (fun u v => Sum (fun x => g x u v) l).
Proof.
  intros X f g N; induction l as [|x l IH]; intros k D H.
  - exists k. split; [reflexivity|]. split; [reflexivity|]. intros; rewrite Sum_nil; ring.
  - destruct (H x (or_introl eq_refl)) as [us [E [O F]]].
    destruct (mupdates_form us k) as [k1 [E1 [D1 [_ F1]]]]; [rewrite D; exact O|].
    destruct (IH k1) as [k2 [E2 [D2 F2]]]; [congruence|intros; apply H; right; assumption|].
    exists k2. cbn [for_each]. unfold add_body at 1. rewrite E, E1. split; [exact E2|]. split; [congruence|].
    intros u v. rewrite F2, F1, D, F, Sum_cons. ring.
Qed.

(** independence of the matrix, on any mesh *)
Lemma mupdates_delta : forall us N, exists D r, forall k : matrix R, mdim k = N ->
  exists k', mupdates us k = (k', r) /\ mdim k' = N /\ forall i j, mentry k' i j = mentry k i j + D i j.
Proof.
  induction us as [|[[r c] x] us IH]; intros N.
  - exists (fun _ _ => 0), (Ok tt). intros k H. exists k. split; [reflexivity|]. split; [exact H|]. intros; ring.
  - destruct (pyidx N r) as [r'|] eqn:Er.
    + destruct (pyidx N c) as [c'|] eqn:Ec.
      * destruct (IH N) as [D [z H]]. exists (fun i j => (if (Nat.eqb i r' && Nat.eqb j c')%bool then x else 0) + D i j), z.
        intros k Hk. destruct (H (madd_at r' c' x k) Hk) as [k' [E [Dk F]]]. exists k'.
        unfold mupdates in *. cbn [for_each mupdate]. rewrite Hk, Er, Ec. split; [exact E|]. split; [exact Dk|].
        intros i j. rewrite F. cbn [madd_at mentry]. rnum. destruct (_ && _)%bool; ring.
      * exists (fun _ _ => 0), (Raise IndexError). intros k Hk. exists k. unfold mupdates. cbn [for_each mupdate]. rewrite Hk, Er, Ec.
        split; [reflexivity|]. split; [reflexivity|]. intros; ring.
    + exists (fun _ _ => 0), (Raise IndexError). intros k Hk. exists k. unfold mupdates. cbn [for_each mupdate]. rewrite Hk, Er.
      split; [reflexivity|]. split; [reflexivity|]. intros; ring.
Qed.

(** only positions named by the updates change *)
Lemma mupdates_where : forall us (k k' : matrix R) r, mupdates us k = (k', r) ->
  forall i j, mentry k' i j <> mentry k i j ->
  exists x, In x us /\ pyidx (mdim k) (fst (fst x)) = Some i /\ pyidx (mdim k) (snd (fst x)) = Some j.
Proof.
  induction us as [|[[r c] x] us IH]; intros k k' z E i j NE.
  - injection E as <- _. contradiction NE; reflexivity.
  - unfold mupdates in E. cbn [for_each mupdate] in E.
    destruct (pyidx (mdim k) r) as [r'|] eqn:Er; [|injection E as <- _; contradiction NE; reflexivity].
    destruct (pyidx (mdim k) c) as [c'|] eqn:Ec; [|injection E as <- _; contradiction NE; reflexivity].
    destruct ((Nat.eqb i r' && Nat.eqb j c')%bool) eqn:Q.
    + apply andb_true_iff in Q. destruct Q as [Q1 Q2]. apply Nat.eqb_eq in Q1. apply Nat.eqb_eq in Q2. subst.
      exists (r, c, x). split; [left; reflexivity|]. auto.
    + destruct (IH (madd_at r' c' x k) k' z E i j) as [y [Hy H]].
      * cbn [madd_at mentry]. rewrite Q. exact NE.
      * exists y. split; [right; exact Hy|]. exact H.
Qed.

Lemma for_each_delta : forall X (f : X -> res (list (Z * Z * R))) l N, exists D r, forall k : matrix R, mdim k = N ->
  exists k', for_each (add_body f) l k = (k', r) /\ mdim k' = N /\ forall i j, mentry k' i j = mentry k i j + D i j.
Proof.
  intros X f; induction l as [|x l IH]; intros N.
  - exists (fun _ _ => 0), (Ok tt). intros k H. exists k. split; [reflexivity|]. split; [exact H|]. intros; ring.
  - destruct (f x) as [us|e] eqn:E.
    + destruct (mupdates_delta us N) as [D1 [r1 H1]]. destruct r1 as [[]|e].
      * destruct (IH N) as [D2 [r2 H2]]. exists (fun i j => D1 i j + D2 i j), r2. intros k Hk.
        destruct (H1 k Hk) as [k1 [E1 [Q1 F1]]]. destruct (H2 k1 Q1) as [k2 [E2 [Q2 F2]]].
        exists k2. cbn [for_each]. unfold add_body at 1. rewrite E, E1. split; [exact E2|]. split; [exact Q2|].
        intros; rewrite F2, F1; ring.
      * exists D1, (Raise e). intros k Hk. destruct (H1 k Hk) as [k1 [E1 [Q1 F1]]]. exists k1. cbn [for_each]. unfold add_body at 1.
        rewrite E, E1. auto.
    + exists (fun _ _ => 0), (Raise e). intros k Hk. exists k. cbn [for_each]. unfold add_body at 1. rewrite E.
      split; [reflexivity|]. split; [exact Hk|]. intros; ring.
Qed.

Lemma mupdates_dim : forall us (k k' : matrix R) r, mupdates us k = (k', r) -> mdim k' = mdim k.
Proof.
  intros us k k' r E. destruct (mupdates_delta us (mdim k)) as [D [r1 H]]. destruct (H k eq_refl) as [k1 [E1 [Q _]]].
  rewrite E in E1. injection E1 as <- _. exact Q.
Qed.

Lemma for_each_where : forall X (f : X -> res (list (Z * Z * R))) l (k k' : matrix R) r,
  for_each (add_body f) l k = (k', r) -> forall i j, mentry k' i j <> mentry k i j ->
  exists x us y, In x l /\ f x = Ok us /\ In y us /\
    pyidx (mdim k) (fst (fst y)) = Some i /\ pyidx (mdim k) (snd (fst y)) = Some j.
Proof.
  intros X f; induction l as [|x l IH]; intros k k' r E i j NE.
  - injection E as <- _. contradiction NE; reflexivity.
  - cbn [for_each] in E. unfold add_body at 1 in E. destruct (f x) as [us|] eqn:Ef; [|injection E as <- _; contradiction NE; reflexivity].
    destruct (mupdates us k) as [k1 [[]|]] eqn:Em.
    + destruct (Req_dec (mentry k1 i j) (mentry k i j)) as [Q|Q].
      * destruct (IH k1 k' r E i j) as [x' [us' [y [H1 [H2 [H3 H4]]]]]]; [congruence|].
        rewrite (mupdates_dim _ _ _ _ Em) in H4.
        exists x', us', y. split; [right; exact H1|]. auto.
      * destruct (mupdates_where us k k1 _ Em i j Q) as [y [H1 H2]]. exists x, us, y. split; [left; reflexivity|]. auto.
    + injection E as <- _. destruct (mupdates_where us k k1 _ Em i j NE) as [y [H1 H2]].
      exists x, us, y. split; [left; reflexivity|]. auto.
Qed.
