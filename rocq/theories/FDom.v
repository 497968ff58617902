(** The boundary of the smoothing domains set up by calc_k0. *)
From Coq Require Import ZArith Reals List Bool Arith Lra Lia Permutation.
From Verif Require Import Num Py Mesh Utils Spec SpecK0 FSum FMat FDict FGeom FWf FSetup FAsm CalcK0.
Import ListNotations.
Local Open Scope R_scope.
Implicit Types (m : mesh R) (t : tria R).

Lemma perm3_perm : forall t a b o, perm3 t a b o -> Permutation [a; b; o] [tn1 t; tn2 t; tn3 t].
Proof.
  intros t a b o H. destruct H as [H|[H|[H|[H|[H|H]]]]]; destruct H as [-> [-> ->]].
  - apply Permutation_refl.
  - apply perm_swap.
  - apply perm_skip, perm_swap.
  - transitivity [b; a; o]; [apply perm_swap|]. apply perm_skip, perm_swap.
  - transitivity [a; o; b]; [apply perm_skip, perm_swap|]. apply perm_swap.
  - transitivity [b; a; o]; [apply perm_swap|]. transitivity [b; o; a]; [apply perm_skip, perm_swap|]. apply perm_swap.
Qed.

Lemma perm_perm3 : forall t a b o, Permutation [tn1 t; tn2 t; tn3 t] [a; b; o] -> perm3 t a b o.
Proof.
  intros t a b o H. unfold perm3. generalize (tn1 t) (tn2 t) (tn3 t) H. clear. intros x y z H.
  assert (I : In a [x; y; z]) by (apply (Permutation_in _ (Permutation_sym H)); left; reflexivity).
  destruct I as [I|[I|[I|[]]]]; subst.
  - apply Permutation_cons_inv in H. apply Permutation_length_2 in H. tauto.
  - assert (H' : Permutation [a; x; z] [a; b; o]) by (rewrite <- H; apply perm_swap).
    apply Permutation_cons_inv in H'. apply Permutation_length_2 in H'. tauto.
  - assert (H' : Permutation [a; x; y] [a; b; o]).
    { rewrite <- H. transitivity [x; a; y]; [apply perm_swap|]. apply perm_skip, perm_swap. }
    apply Permutation_cons_inv in H'. apply Permutation_length_2 in H'. tauto.
Qed.

Lemma centroid_mid : forall m t a b o, perm3 t a b o -> centroid m t = the_mid m a b o.
Proof.
  intros m t a b o P. unfold the_mid. rewrite <- (mid3_perm m t a b o P). reflexivity.
Qed.

Lemma ipt_on_the : forall m k t n1 n2 o f1 f2 f3 a b c, In t (tris_on m k) -> perm3 t n1 n2 o ->
  vz a = vz b -> f1 + f2 + f3 = 1 ->
  f1 * vx (pos m n1) + f2 * vx (pos m n2) + f3 * vx (pos m o) = (vx a + vx b) / 2 ->
  f1 * vy (pos m n1) + f2 * vy (pos m n2) + f3 * vy (pos m o) = (vy a + vy b) / 2 ->
  f1 * vz (pos m n1) + f2 * vz (pos m n2) + f3 * vz (pos m o) = (vz a + vz b) / 2 ->
  Permutation [a; b; c] [pos m (fst k); pos m (snd k); centroid m t] ->
  det2 a b c < 0 ->
  ipt_on m k a b (the_ipt m (eid t) n1 n2 o f1 f2 f3 (vsub a b)).
Proof.
  intros m k t n1 n2 o f1 f2 f3 a b c Ht P Z F X Y ZZ PM D.
  set (v := vsub a b).
  assert (Vx : vx v = vx a - vx b) by reflexivity.
  assert (Vy : vy v = vy a - vy b) by reflexivity.
  assert (Vz : vz v = 0) by (unfold v, vsub; cbn [vz]; rnum; lra).
  assert (NX := le_nx v Vz). assert (NY := le_ny v Vz).
  assert (SQ := norm_sq v). unfold dot in SQ; rnum. rewrite Vz, Vx, Vy in SQ.
  assert (POS : 0 < norm v).
  { destruct (norm_nonneg v) as [H|H]; [exact H|]. exfalso. symmetry in H. apply norm_zero in H.
    rewrite H in Vx, Vy; cbn [vx vy] in Vx, Vy. unfold det2 in D.
    replace (vx b) with (vx a) in D by lra. replace (vy b) with (vy a) in D by lra. lra. }
  set (nx := vx (unitvec (cross v ZGLOBAL))) in *. set (ny := vy (unitvec (cross v ZGLOBAL))) in *.
  constructor; unfold the_ipt; cbn [ipxyz ipf1 ipf2 ipf3 ipn1 ipn2 ipn3 ipnx ipny ipnz iple iptria vadd vscale vx vy vz]; rnum;
    try assumption; try reflexivity; fold nx ny.
  - apply (Rmult_eq_reg_l (norm v * norm v)); [|nra].
    replace (norm v * norm v * (nx * nx + ny * ny)) with ((norm v * nx) * (norm v * nx) + (norm v * ny) * (norm v * ny)) by ring.
    rewrite NX, NY, SQ, Vx, Vy. ring.
  - unfold unitvec, vdivs, cross, ZGLOBAL; cbn [vz]; rnum; cbn [vx vy vz]. unfold Rdiv. ring.
  - apply (Rmult_eq_reg_l (norm v)); [|lra].
    replace (norm v * (nx * (vx b - vx a) + ny * (vy b - vy a))) with ((norm v * nx) * (vx b - vx a) + (norm v * ny) * (vy b - vy a)) by ring.
    rewrite NX, NY, Vx, Vy. ring.
  - split; [exact POS|]. rewrite SQ. ring.
  - exists t, c. split; [exact Ht|]. split; [reflexivity|]. split; [apply perm3_perm; exact P|]. split; [exact PM|].
    apply (Rmult_lt_reg_l (norm v)); [exact POS|].
    replace (norm v * (nx * (vx c - vx a) + ny * (vy c - vy a))) with ((norm v * nx) * (vx c - vx a) + (norm v * ny) * (vy c - vy a)) by ring.
    rewrite NX, NY, Vx, Vy. unfold det2 in D. lra.
Qed.

Lemma ready_domain : forall m k e, wf_mesh m -> plate m -> In k (edge_keys m) -> ready m k e -> domain_ok m k e.
Proof.
  intros m k e W PL Hk RD. destruct (rd_dom m k e RD) as [n1 [n2 [E RR]]].
  destruct (ready_nodes m k n1 n2 W Hk E) as [K1 [K2 N12]].
  assert (PK : forall c, Permutation [pos m n1; pos m n2; c] [pos m (fst k); pos m (snd k); c]).
  { intros c. destruct E as [<-|<-]; cbn [fst snd]; [reflexivity|]. apply perm_swap. }
  assert (PE : Permutation [n1; n2] [fst k; snd k]).
  { destruct E as [<-|<-]; cbn [fst snd]; [reflexivity|]. apply perm_swap. }
  destruct RR as [[t R1]|[t [t' R2]]].
  - destruct R1 as [T D _ _ ES EI].
    assert (I1 : In t (tris_on m k)) by (rewrite T; left; reflexivity).
    destruct (tria_node m k t n1 n2 W Hk E I1) as [P [O1 [O2 [Ko Ht]]]].
    set (o := third t k) in *.
    assert (C := centroid_mid m t n1 n2 o P).
    assert (Z12 := flat_vec m PL n2 n1 K2 K1). assert (Z1o := flat_vec m PL o n1 Ko K1).
    assert (ZM : vz (the_mid m n1 n2 o) = vz (pos m n1)).
    { unfold the_mid, mid3, vdivs, vadd; cbn [vz]; rnum; rewrite Z12, Z1o; field. }
    assert (MX : vx (the_mid m n1 n2 o) = (vx (pos m n1) + vx (pos m n2) + vx (pos m o)) / 3) by reflexivity.
    assert (MY : vy (the_mid m n1 n2 o) = (vy (pos m n1) + vy (pos m n2) + vy (pos m o)) / 3) by reflexivity.
    assert (MZ : vz (the_mid m n1 n2 o) = (vz (pos m n1) + vz (pos m n2) + vz (pos m o)) / 3) by reflexivity.
    constructor.
    + exists t, [], n1, n2. rewrite C. auto.
    + rewrite ES, EI. unfold segments. cbn [tl combine].
      repeat apply Forall2_cons; cbn [fst snd]; try apply Forall2_nil.
      * apply (ipt_on_the m k t n1 n2 o _ _ _ _ _ (pos m n2)); auto; try lra.
        -- rewrite C. rewrite <- PK. apply perm_skip, perm_swap.
        -- unfold det2 in *. rewrite MX, MY. lra.
      * apply (ipt_on_the m k t n1 n2 o _ _ _ _ _ (pos m n1)); auto; try lra.
        -- rewrite C. rewrite <- PK. transitivity [the_mid m n1 n2 o; pos m n1; pos m n2]; [apply perm_skip, perm_swap|].
           transitivity [pos m n1; the_mid m n1 n2 o; pos m n2]; [apply perm_swap|]. apply perm_skip, perm_swap.
        -- unfold det2 in *. rewrite MX, MY. lra.
      * apply (ipt_on_the m k t n1 n2 o _ _ _ _ _ (the_mid m n1 n2 o)); auto; try lra.
        -- rewrite C. rewrite <- PK. apply perm_swap.
        -- unfold det2 in *. rewrite MX, MY. lra.
    + rewrite EI, !Sum_cons, Sum_nil, !the_ipt_nx;
      unfold vsub; cbn [vx vy vz]; rnum; lra.
    + rewrite EI, !Sum_cons, Sum_nil, !the_ipt_ny;
      unfold vsub; cbn [vx vy vz]; rnum; lra.
  - destruct R2 as [T D D' _ _ ES EI].
    assert (I1 : In t (tris_on m k)) by (rewrite T; left; reflexivity).
    assert (I2 : In t' (tris_on m k)) by (rewrite T; right; left; reflexivity).
    destruct (tria_node m k t n1 n2 W Hk E I1) as [P [O1 [O2 [Ko Ht]]]].
    destruct (tria_node m k t' n1 n2 W Hk E I2) as [P' [O1' [O2' [Ko' Ht']]]].
    set (o := third t k) in *. set (o' := third t' k) in *.
    assert (C := centroid_mid m t n1 n2 o P). assert (C' := centroid_mid m t' n1 n2 o' P').
    assert (Z12 := flat_vec m PL n2 n1 K2 K1). assert (Z1o := flat_vec m PL o n1 Ko K1).
    assert (Z1o' := flat_vec m PL o' n1 Ko' K1).
    assert (ZM : vz (the_mid m n1 n2 o) = vz (pos m n1)).
    { unfold the_mid, mid3, vdivs, vadd; cbn [vz]; rnum; rewrite Z12, Z1o; field. }
    assert (ZM' : vz (the_mid m n1 n2 o') = vz (pos m n1)).
    { unfold the_mid, mid3, vdivs, vadd; cbn [vz]; rnum; rewrite Z12, Z1o'; field. }
    assert (MX : vx (the_mid m n1 n2 o) = (vx (pos m n1) + vx (pos m n2) + vx (pos m o)) / 3) by reflexivity.
    assert (MY : vy (the_mid m n1 n2 o) = (vy (pos m n1) + vy (pos m n2) + vy (pos m o)) / 3) by reflexivity.
    assert (MZ : vz (the_mid m n1 n2 o) = (vz (pos m n1) + vz (pos m n2) + vz (pos m o)) / 3) by reflexivity.
    assert (MX' : vx (the_mid m n1 n2 o') = (vx (pos m n1) + vx (pos m n2) + vx (pos m o')) / 3) by reflexivity.
    assert (MY' : vy (the_mid m n1 n2 o') = (vy (pos m n1) + vy (pos m n2) + vy (pos m o')) / 3) by reflexivity.
    assert (MZ' : vz (the_mid m n1 n2 o') = (vz (pos m n1) + vz (pos m n2) + vz (pos m o')) / 3) by reflexivity.
    constructor.
    + exists t, [t'], n1, n2. rewrite C. cbn [map app]. rewrite C'. auto.
    + rewrite ES, EI. unfold segments. cbn [tl combine].
      repeat apply Forall2_cons; cbn [fst snd]; try apply Forall2_nil.
      * apply (ipt_on_the m k t n1 n2 o _ _ _ _ _ (pos m n2)); auto; try lra.
        -- rewrite C. rewrite <- PK. apply perm_skip, perm_swap.
        -- unfold det2 in *. rewrite MX, MY. lra.
      * apply (ipt_on_the m k t n1 n2 o _ _ _ _ _ (pos m n1)); auto; try lra.
        -- rewrite C. rewrite <- PK. transitivity [the_mid m n1 n2 o; pos m n1; pos m n2]; [apply perm_skip, perm_swap|].
           transitivity [pos m n1; the_mid m n1 n2 o; pos m n2]; [apply perm_swap|]. apply perm_skip, perm_swap.
        -- unfold det2 in *. rewrite MX, MY. lra.
      * apply (ipt_on_the m k t' n1 n2 o' _ _ _ _ _ (pos m n1)); auto; try lra.
        -- rewrite C'. rewrite <- PK. transitivity [pos m n2; pos m n1; the_mid m n1 n2 o']; [apply perm_skip, perm_swap|].
           apply perm_swap.
        -- unfold det2 in *. rewrite MX', MY'. lra.
      * apply (ipt_on_the m k t' n1 n2 o' _ _ _ _ _ (pos m n2)); auto; try lra.
        -- rewrite C'. rewrite <- PK. transitivity [pos m n1; the_mid m n1 n2 o'; pos m n2]; [apply perm_swap|]. apply perm_skip, perm_swap.
        -- unfold det2 in *. rewrite MX', MY'. lra.
    + rewrite EI, !Sum_cons, Sum_nil, !the_ipt_nx;
      unfold vsub; cbn [vx vy vz]; rnum; lra.
    + rewrite EI, !Sum_cons, Sum_nil, !the_ipt_ny;
      unfold vsub; cbn [vx vy vz]; rnum; lra.
Qed.

(** the smoothed gradient is the boundary integral over these segments *)
Lemma ready_bint : forall m k e q, wf_mesh m -> plate m -> In k (edge_keys m) -> ready m k e ->
  sgx m k q = bint_x e q / dom_area m k /\ sgy m k q = bint_y e q / dom_area m k.
Proof.
  intros m k e q W PL Hk RD. destruct (rd_dom m k e RD) as [n1 [n2 [E RR]]].
  destruct (ready_nodes m k n1 n2 W Hk E) as [K1 [K2 N12]].
  unfold bint_x, bint_y, ip_value.
  destruct RR as [[t R1]|[t [t' R2]]].
  - destruct R1 as [T D _ _ _ EI].
    assert (I1 : In t (tris_on m k)) by (rewrite T; left; reflexivity).
    destruct (tria_node m k t n1 n2 W Hk E I1) as [P [O1 [O2 [Ko Ht]]]].
    destruct (sgx1 m k t n1 n2 q W PL Hk E T) as [-> ->].
    set (o := third t k) in *.
    assert (Z12 := flat_vec m PL n2 n1 K2 K1). assert (Z1o := flat_vec m PL o n1 Ko K1).
    rewrite (dom_area1 m k t T), (tarea_perm m t n1 n2 o P), Rabs_right by lra.
    rewrite EI, !Sum_cons, !Sum_nil.
    rewrite !the_ipt_nx, !the_ipt_ny by
      (unfold vsub, the_mid, mid3, vdivs, vadd; cbn [vz]; rnum; rewrite ?Z12, ?Z1o; field).
    cbn [the_ipt ipf1 ipf2 ipf3 ipn1 ipn2 ipn3].
    unfold vsub, the_mid, mid3, vdivs, vadd; cbn [vx vy]; rnum.
    split; [unfold numx|unfold numy]; unfold det2 in *; field; lra.
  - destruct R2 as [T D D' _ _ _ EI].
    assert (I1 : In t (tris_on m k)) by (rewrite T; left; reflexivity).
    assert (I2 : In t' (tris_on m k)) by (rewrite T; right; left; reflexivity).
    destruct (tria_node m k t n1 n2 W Hk E I1) as [P [O1 [O2 [Ko Ht]]]].
    destruct (tria_node m k t' n1 n2 W Hk E I2) as [P' [O1' [O2' [Ko' Ht']]]].
    destruct (sgx2 m k t t' n1 n2 q W PL Hk E T D D') as [-> ->].
    set (o := third t k) in *. set (o' := third t' k) in *.
    assert (Z12 := flat_vec m PL n2 n1 K2 K1). assert (Z1o := flat_vec m PL o n1 Ko K1).
    assert (Z1o' := flat_vec m PL o' n1 Ko' K1).
    rewrite (dom_area2 m k t t' T), (tarea_perm m t n1 n2 o P), (tarea_perm m t' n1 n2 o' P'), (Rabs_right (det2 _ _ (pos m o))), Rabs_left by lra.
    rewrite EI, !Sum_cons, !Sum_nil.
    rewrite !the_ipt_nx, !the_ipt_ny by
      (unfold vsub, the_mid, mid3, vdivs, vadd; cbn [vz]; rnum; rewrite ?Z12, ?Z1o, ?Z1o'; field).
    cbn [the_ipt ipf1 ipf2 ipf3 ipn1 ipn2 ipn3].
    unfold vsub, the_mid, mid3, vdivs, vadd; cbn [vx vy]; rnum.
    split; [unfold numx|unfold numy]; unfold det2 in *; field; lra.
Qed.
