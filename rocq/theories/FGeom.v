(** Plane geometry: polygons, normals, gradients of linear interpolants. *)
From Coq Require Import ZArith Reals List Bool Arith Lra Lia.
From Verif Require Import Num Py Mesh Utils Spec FSum FMat.
Import ListNotations.
Local Open Scope R_scope.
Implicit Types (m : mesh R).

(** ** Sums over windows of a periodic function *)

Lemma zrange_app : forall n a, zrange a (S n) = zrange a n ++ [(a + Z.of_nat n)%Z].
Proof.
  induction n as [|n IH]; intros a.
  - cbn. f_equal. lia.
  - change (zrange a (S (S n))) with (a :: zrange (a + 1) (S n)).
    rewrite IH. cbn [zrange app]. do 3 f_equal. lia.
Qed.

Lemma in_zrange : forall n a i, In i (zrange a n) <-> (a <= i < a + Z.of_nat n)%Z.
Proof.
  induction n as [|n IH]; intros a i; cbn [zrange In].
  - lia.
  - rewrite IH. lia.
Qed.

Lemma zrange_shift : forall n a (g : Z -> R),
  Sum (fun i => g (i + 1)%Z) (zrange a n) = Sum g (zrange (a + 1) n).
Proof.
  induction n as [|n IH]; intros a g; cbn [zrange]; [reflexivity|].
  rewrite !Sum_cons, IH; reflexivity.
Qed.

Lemma periodic_window1 : forall n a (g : Z -> R),
  (forall i, g (i + Z.of_nat n)%Z = g i) -> Sum g (zrange (a + 1) n) = Sum g (zrange a n).
Proof.
  intros [|n] a g H; [reflexivity|].
  rewrite zrange_app. cbn [zrange]. rewrite Sum_app, !Sum_cons, Sum_nil.
  replace (a + 1 + Z.of_nat n)%Z with (a + Z.of_nat (S n))%Z by lia. rewrite H; ring.
Qed.

(** ** Cyclic access to a list *)

Definition cyc {A} (d : A) (l : list A) (i : Z) : A :=
  nth (Z.to_nat (i mod Z.of_nat (length l))) l d.

Lemma cyc_periodic : forall A (d : A) l i, cyc d l (i + Z.of_nat (length l)) = cyc d l i.
Proof.
  intros A d l i; unfold cyc.
  destruct l as [|a l]; [cbn; destruct (Z.to_nat _), (Z.to_nat _); reflexivity|].
  set (n := Z.of_nat (length (a :: l))).
  replace (i + n)%Z with (i + 1 * n)%Z by lia. rewrite Z.mod_add; [reflexivity|].
  unfold n; cbn [length]; lia.
Qed.

Lemma cyc_nth : forall A (d : A) l k, (k < length l)%nat -> cyc d l (Z.of_nat k) = nth k l d.
Proof.
  intros A d l k H; unfold cyc. rewrite Z.mod_small by lia. rewrite Nat2Z.id; reflexivity.
Qed.

Lemma py_get_cyc : forall A (d : A) l i,
  (- Z.of_nat (length l) <= i < Z.of_nat (length l))%Z -> py_get l i = Ok (cyc d l i).
Proof.
  intros A d l i H; unfold py_get, pyidx, cyc.
  destruct (Z.leb_spec 0 i).
  - destruct (Z.ltb_spec i (Z.of_nat (length l))); [|lia].
    rewrite Z.mod_small by lia.
    rewrite (nth_error_nth' l d) by lia; reflexivity.
  - destruct (Z.leb_spec 0 (i + Z.of_nat (length l))); [|lia].
    assert (E : (i mod Z.of_nat (length l) = i + Z.of_nat (length l))%Z).
    { replace i with ((i + Z.of_nat (length l)) + (-1) * Z.of_nat (length l))%Z at 1 by lia.
      rewrite Z.mod_add by lia. apply Z.mod_small; lia. }
    rewrite E, (nth_error_nth' l d) by lia; reflexivity.
Qed.

(** ** The loop of area_of_polygon *)

Lemma area_loop_sum : forall (x y : list R) is a, length x = length y ->
  (forall i, In i is -> (1 - Z.of_nat (length x) <= i < Z.of_nat (length x) - 1)%Z) ->
  area_loop x y is a
  = Ok (a + Sum (fun i => cyc 0 x i * (cyc 0 y (i + 1) - cyc 0 y (i - 1))) is).
Proof.
  intros x y is; induction is as [|i is IH]; intros a L H.
  - rewrite Sum_nil. cbn. f_equal; ring.
  - assert (Hi := H i (or_introl eq_refl)).
    cbn [area_loop]. rewrite (py_get_cyc _ 0 x), !(py_get_cyc _ 0 y) by lia.
    cbn [bind]. rewrite IH; [|exact L|intros j Hj; apply H; right; exact Hj].
    rewrite Sum_cons. rnum. f_equal; ring.
Qed.

(** ** Shoelace formula *)

Definition crs (p q : vec3 R) : R := vx p * vy q - vx q * vy p.

(** sum of the cross products along the path p, l, q *)
Fixpoint path (p : vec3 R) (l : list (vec3 R)) (q : vec3 R) : R :=
  match l with [] => crs p q | r :: l' => crs p r + path r l' q end.

(** closed path *)
Definition shoelace (l : list (vec3 R)) : R :=
  match l with [] => 0 | p :: l' => path p l' p end.

Lemma path_nth : forall l p q d,
  path p l q = Sum (fun k => crs (nth k (p :: l ++ [q]) d) (nth (S k) (p :: l ++ [q]) d))
                   (seq 0 (S (length l))).
Proof.
  induction l as [|r l IH]; intros p q d.
  - cbn [path length seq app nth]. rewrite Sum_cons, Sum_nil; ring.
  - cbn [path length]. rewrite (IH r q d).
    change (seq 0 (S (S (length l)))) with (0%nat :: seq 1 (S (length l))).
    rewrite Sum_cons, <- (seq_shift (S (length l))), Sum_map. cbn [nth app]. reflexivity.
Qed.

Lemma Sum_zrange_seq : forall n (g : Z -> R),
  Sum g (zrange 0 n) = Sum (fun k => g (Z.of_nat k)) (seq 0 n).
Proof.
  induction n as [|n IH]; intros g; [reflexivity|].
  rewrite zrange_app, seq_S, !Sum_app, IH. cbn [Sum rsum map fold_right]. reflexivity.
Qed.

Lemma shoelace_cyc : forall l, l <> [] ->
  shoelace l = Sum (fun i => cyc 0 (map vx l) i * cyc 0 (map vy l) (i + 1)
                           - cyc 0 (map vx l) (i + 1) * cyc 0 (map vy l) i)
                   (zrange 0 (length l)).
Proof.
  intros [|p l] H; [contradiction|]. clear H.
  cbn [shoelace]. rewrite (path_nth l p p (V3 0 0 0)), Sum_zrange_seq.
  apply Sum_ext_in. intros k Hk. apply in_seq in Hk.
  assert (X : forall (f : vec3 R -> R), f (V3 0 0 0) = 0 -> forall j, (j <= S (length l))%nat ->
     cyc 0 (map f (p :: l)) (Z.of_nat j) = f (nth j (p :: l ++ [p]) (V3 0 0 0))).
  { intros f F0 j Hj.
    replace (cyc 0 (map f (p :: l)) (Z.of_nat j))
      with (cyc (f (V3 0 0 0)) (map f (p :: l)) (Z.of_nat j)) by (rewrite F0; reflexivity).
    destruct (Nat.eq_dec j (S (length l))) as [->|Ne].
    - replace (Z.of_nat (S (length l))) with (0 + Z.of_nat (length (map f (p :: l))))%Z
        by (rewrite map_length; cbn [length]; lia).
      rewrite cyc_periodic, (cyc_nth _ _ _ 0%nat) by (cbn; lia). cbn [map nth].
      rewrite app_nth2 by lia. rewrite Nat.sub_diag; reflexivity.
    - rewrite cyc_nth by (rewrite map_length; cbn [length]; lia).
      rewrite map_nth. f_equal. change (p :: l ++ [p]) with ((p :: l) ++ [p]).
      rewrite app_nth1 by (cbn [length]; lia). reflexivity. }
  replace (Z.of_nat k + 1)%Z with (Z.of_nat (S k)) by lia.
  cbn [length] in Hk.
  rewrite !(X vx eq_refl), !(X vy eq_refl) by lia. reflexivity.
Qed.

Lemma area_of_points_shoelace : forall l, length l <> 1%nat ->
  area_of_points l = Ok (Rabs (shoelace l) / 2).
Proof.
  intros l H. unfold area_of_points, area_of_polygon.
  rewrite map_length.
  destruct l as [|p l].
  { cbn. rnum. reflexivity. }
  set (ps := p :: l) in *. set (n := length ps).
  rewrite area_loop_sum; [|rewrite !map_length; reflexivity|].
  2: { intros i Hi. apply in_zrange in Hi. rewrite map_length. fold n.
       assert (n <> 1%nat) by exact H. assert (n <> 0%nat) by (unfold n; cbn; discriminate).
       unfold ps in n. fold n in Hi. lia. }
  cbn [bind]. rnum. do 3 f_equal. rewrite Rplus_0_l.
  assert (NE : ps <> []) by discriminate.
  rewrite (shoelace_cyc ps NE).
  set (X := cyc 0 (map vx ps)). set (Y := cyc 0 (map vy ps)).
  assert (PX : forall i, X (i + Z.of_nat n)%Z = X i).
  { intros; unfold X, n. rewrite <- (map_length vx). apply cyc_periodic. }
  assert (PY : forall i, Y (i + Z.of_nat n)%Z = Y i).
  { intros; unfold Y, n. rewrite <- (map_length vy). apply cyc_periodic. }
  fold n.
  rewrite (Sum_ext _ _ (fun i => X i * Y (i + 1)%Z + -1 * (X i * Y (i - 1)%Z))) by (intros; ring).
  rewrite Sum_plus, Sum_scal.
  rewrite (Sum_ext _ (fun i => X i * Y (i + 1)%Z - X (i + 1)%Z * Y i)
             (fun i => X i * Y (i + 1)%Z + -1 * (X (i + 1)%Z * Y i))) by (intros; ring).
  rewrite Sum_plus, Sum_scal.
  change 0%Z with (-1 + 1)%Z at 1 2.
  rewrite (periodic_window1 n (-1) (fun i => X i * Y (i + 1)%Z)).
  2: { intros i. rewrite PX. replace (i + Z.of_nat n + 1)%Z with (i + 1 + Z.of_nat n)%Z by lia.
       rewrite PY; reflexivity. }
  f_equal. f_equal.
  rewrite <- (periodic_window1 n (-1) (fun i => X i * Y (i - 1)%Z)).
  2: { intros i. rewrite PX. replace (i + Z.of_nat n - 1)%Z with (i - 1 + Z.of_nat n)%Z by lia.
       rewrite PY; reflexivity. }
  rewrite <- zrange_shift.
  rewrite (periodic_window1 n (-1) (fun i => X (i + 1)%Z * Y i)).
  2: { intros i. rewrite PY. replace (i + Z.of_nat n + 1)%Z with (i + 1 + Z.of_nat n)%Z by lia.
       rewrite PX; reflexivity. }
  apply Sum_ext; intros i. replace (i + 1 - 1)%Z with i by lia. reflexivity.
Qed.

Lemma area3 : forall a b c, area_of_points [a; b; c] = Ok (Rabs (det2 a b c) / 2).
Proof.
  intros. rewrite area_of_points_shoelace by (cbn; lia). do 3 f_equal.
  unfold det2; cbn [shoelace path]; unfold crs; ring.
Qed.

Lemma area4 : forall a b c, area_of_points [a; b; c; a] = Ok (Rabs (det2 a b c) / 2).
Proof.
  intros. rewrite area_of_points_shoelace by (cbn; lia). do 3 f_equal.
  unfold det2; cbn [shoelace path]; unfold crs; ring.
Qed.

Lemma area5 : forall a b c d,
  area_of_points [a; b; c; d; a] = Ok (Rabs (det2 a b c + det2 a c d) / 2).
Proof.
  intros. rewrite area_of_points_shoelace by (cbn; lia). do 3 f_equal.
  unfold det2; cbn [shoelace path]; unfold crs; ring.
Qed.

(** ** Properties of closed paths *)

Lemma path_app : forall l1 p r l2 q, path p (l1 ++ r :: l2) q = path p l1 r + path r l2 q.
Proof.
  induction l1 as [|s l1 IH]; intros; cbn [app path]; [reflexivity|]. rewrite IH; ring.
Qed.

Lemma crs_anti : forall p q, crs q p = - crs p q.
Proof. intros; unfold crs; ring. Qed.

Lemma path_rev : forall l p q, path q (rev l) p = - path p l q.
Proof.
  induction l as [|r l IH]; intros p q; cbn [rev path].
  - apply crs_anti.
  - rewrite path_app, IH. cbn [path]. rewrite (crs_anti p r); ring.
Qed.

Lemma shoelace_rotate : forall l1 l2, shoelace (l1 ++ l2) = shoelace (l2 ++ l1).
Proof.
  intros [|p l1] [|q l2]; rewrite ?app_nil_r; try reflexivity.
  cbn [app shoelace]. rewrite !path_app; ring.
Qed.

Lemma shoelace_rev : forall l, shoelace (rev l) = - shoelace l.
Proof.
  intros [|p l]; [cbn; ring|].
  cbn [rev]. rewrite (shoelace_rotate (rev l) [p]). cbn [app shoelace]. apply path_rev.
Qed.

Lemma shoelace_close : forall p l, shoelace (p :: l ++ [p]) = shoelace (p :: l).
Proof.
  intros; cbn [shoelace]. rewrite path_app. cbn [path]. unfold crs at 1; ring.
Qed.

Lemma path_translate : forall t l p q,
  path (vadd p t) (map (fun r => vadd r t) l) (vadd q t)
  = path p l q + (vx p - vx q) * vy t - (vy p - vy q) * vx t.
Proof.
  intros t l; induction l as [|r l IH]; intros p q; cbn [map path].
  - unfold crs, vadd; cbn; ring.
  - rewrite IH. unfold crs, vadd; cbn; ring.
Qed.

Lemma shoelace_translate : forall t l, shoelace (map (fun r => vadd r t) l) = shoelace l.
Proof. intros t [|p l]; [reflexivity|]. cbn [map shoelace]. rewrite path_translate; ring. Qed.

Lemma path_linear : forall (M : mat3 R) l p q,
  m02 M = 0 -> m12 M = 0 ->
  path (m3mulv M p) (map (m3mulv M) l) (m3mulv M q)
  = (m00 M * m11 M - m01 M * m10 M) * path p l q.
Proof.
  intros M l; induction l as [|r l IH]; intros p q H1 H2; cbn [map path].
  - unfold crs, m3mulv; cbn; rewrite H1, H2; ring.
  - rewrite IH by assumption. unfold crs, m3mulv; cbn; rewrite H1, H2; ring.
Qed.

(** ** Normals *)

Lemma dot_self : forall v : vec3 R, 0 <= dot v v.
Proof.
  intros v; unfold dot; rnum.
  assert (0 <= vx v * vx v) by apply Rle_0_sqr.
  assert (0 <= vy v * vy v) by apply Rle_0_sqr.
  assert (0 <= vz v * vz v) by apply Rle_0_sqr. lra.
Qed.

Lemma norm_sq : forall v : vec3 R, norm v * norm v = dot v v.
Proof. intros v; unfold norm; rnum. apply sqrt_sqrt, dot_self. Qed.

Lemma norm_nonneg : forall v : vec3 R, 0 <= norm v.
Proof. intros v; unfold norm; rnum. apply sqrt_pos. Qed.

Lemma norm_zero : forall v : vec3 R, norm v = 0 -> v = V3 0 0 0.
Proof.
  intros v H. assert (E := norm_sq v). rewrite H, Rmult_0_l in E. unfold dot in E; rnum.
  assert (Hx : 0 <= vx v * vx v) by apply Rle_0_sqr.
  assert (Hy : 0 <= vy v * vy v) by apply Rle_0_sqr.
  assert (Hz : 0 <= vz v * vz v) by apply Rle_0_sqr.
  assert (vx v = 0) by (apply Rsqr_0_uniq; unfold Rsqr; lra).
  assert (vy v = 0) by (apply Rsqr_0_uniq; unfold Rsqr; lra).
  assert (vz v = 0) by (apply Rsqr_0_uniq; unfold Rsqr; lra).
  destruct v as [a b c]; cbn in *; subst; reflexivity.
Qed.

Lemma norm_cross_Z : forall v : vec3 R, vz v = 0 -> norm (cross v ZGLOBAL) = norm v.
Proof.
  intros v H; unfold norm, dot, cross, ZGLOBAL; cbn. rewrite H. f_equal; ring.
Qed.

(** length times normal of a segment *)
Lemma le_nx : forall v : vec3 R, vz v = 0 -> norm v * vx (unitvec (cross v ZGLOBAL)) = vy v.
Proof.
  intros v H. unfold unitvec. rewrite norm_cross_Z by exact H.
  unfold vdivs; cbn [vx]. rnum. unfold cross, ZGLOBAL; cbn [vx vy vz]; rnum.
  destruct (Req_dec (norm v) 0) as [E|E].
  - rewrite E. apply norm_zero in E. rewrite E; cbn; ring.
  - rewrite H. field. exact E.
Qed.

Lemma le_ny : forall v : vec3 R, vz v = 0 -> norm v * vy (unitvec (cross v ZGLOBAL)) = - vx v.
Proof.
  intros v H. unfold unitvec. rewrite norm_cross_Z by exact H.
  unfold vdivs; cbn [vy]. rnum. unfold cross, ZGLOBAL; cbn [vx vy vz]; rnum.
  destruct (Req_dec (norm v) 0) as [E|E].
  - rewrite E. apply norm_zero in E. rewrite E; cbn; ring.
  - rewrite H. field. exact E.
Qed.

(** ** Gradient of the linear interpolant *)

Definition numx (p1 p2 p3 : vec3 R) (q1 q2 q3 : R) : R :=
  (q2 - q1) * (vy p3 - vy p1) - (q3 - q1) * (vy p2 - vy p1).
Definition numy (p1 p2 p3 : vec3 R) (q1 q2 q3 : R) : R :=
  (q3 - q1) * (vx p2 - vx p1) - (q2 - q1) * (vx p3 - vx p1).

Lemma det2_swap12 : forall a b c, det2 b a c = - det2 a b c.
Proof. intros; unfold det2; ring. Qed.
Lemma det2_swap23 : forall a b c, det2 a c b = - det2 a b c.
Proof. intros; unfold det2; ring. Qed.
Lemma det2_rot : forall a b c, det2 b c a = det2 a b c.
Proof. intros; unfold det2; ring. Qed.

(** Contour integral over a ccw domain with one triangle: path mid, n1, n2, mid. *)
Lemma contour1_x : forall p1 p2 po q1 q2 qo,
  let m := mid3 p1 p2 po in
  (2/3*q1 + 1/6*q2 + 1/6*qo) * (vy p1 - vy m) + (1/6*q1 + 2/3*q2 + 1/6*qo) * (vy m - vy p2)
  + (1/2*q1 + 1/2*q2 + 0*qo) * (vy p2 - vy p1) = numx p1 p2 po q1 q2 qo / 6.
Proof. intros; unfold m, mid3, vdivs, vadd, numx; cbn; field. Qed.

Lemma contour1_y : forall p1 p2 po q1 q2 qo,
  let m := mid3 p1 p2 po in
  (2/3*q1 + 1/6*q2 + 1/6*qo) * - (vx p1 - vx m) + (1/6*q1 + 2/3*q2 + 1/6*qo) * - (vx m - vx p2)
  + (1/2*q1 + 1/2*q2 + 0*qo) * - (vx p2 - vx p1) = numy p1 p2 po q1 q2 qo / 6.
Proof. intros; unfold m, mid3, vdivs, vadd, numy; cbn; field. Qed.

(** ... with two triangles: path mid1, n1, mid2, n2, mid1. *)
Lemma contour2_x : forall p1 p2 po po' q1 q2 qo qo',
  let m := mid3 p1 p2 po in let m' := mid3 p1 p2 po' in
  (2/3*q1 + 1/6*q2 + 1/6*qo) * (vy p1 - vy m) + (1/6*q1 + 2/3*q2 + 1/6*qo) * (vy m - vy p2)
  + (1/6*q1 + 2/3*q2 + 1/6*qo') * (vy p2 - vy m') + (2/3*q1 + 1/6*q2 + 1/6*qo') * (vy m' - vy p1)
  = numx p1 p2 po q1 q2 qo / 6 - numx p1 p2 po' q1 q2 qo' / 6.
Proof. intros; unfold m, m', mid3, vdivs, vadd, numx; cbn; field. Qed.

Lemma contour2_y : forall p1 p2 po po' q1 q2 qo qo',
  let m := mid3 p1 p2 po in let m' := mid3 p1 p2 po' in
  (2/3*q1 + 1/6*q2 + 1/6*qo) * - (vx p1 - vx m) + (1/6*q1 + 2/3*q2 + 1/6*qo) * - (vx m - vx p2)
  + (1/6*q1 + 2/3*q2 + 1/6*qo') * - (vx p2 - vx m') + (2/3*q1 + 1/6*q2 + 1/6*qo') * - (vx m' - vx p1)
  = numy p1 p2 po q1 q2 qo / 6 - numy p1 p2 po' q1 q2 qo' / 6.
Proof. intros; unfold m, m', mid3, vdivs, vadd, numy; cbn; field. Qed.
