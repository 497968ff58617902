(** Lemmas behind the properties of the Lagrange interpolation (C08-C13). *)
(* P: Num Py Mesh Interp Spec SpecInterp *)
From Coq Require Import ZArith Reals List Bool Arith Lra Lia Permutation.
From Verif Require Import Num Py Mesh Interp Spec SpecInterp FSum FInterp.
Import ListNotations.
Local Open Scope R_scope.

Lemma sum2_lin1 : forall xs ys F x y,
  Sum (fun m => Sum (fun n => basis (at_ xs m) xs x * basis (at_ ys n) ys y * fget F [m; n]) (seq 0 (length ys))) (seq 0 (length xs))
  = lin1 xs (fun m => lin1 ys (fun n => fget F [m; n]) y) x.
Proof.
  intros. unfold lin1. apply Sum_ext_in. intros m _. rewrite <- Sum_scal. apply Sum_ext. intros n. ring.
Qed.
Lemma lin1_ext : forall xs f g x, (forall m, (m < length xs)%nat -> f m = g m) -> lin1 xs f x = lin1 xs g x.
Proof. intros xs f g x H. unfold lin1. apply Sum_ext_in. intros m Hm. apply in_seq in Hm. rewrite H by lia. reflexivity. Qed.
Lemma lin1_plus : forall xs f g x, lin1 xs (fun m => f m + g m) x = lin1 xs f x + lin1 xs g x.
Proof. intros. unfold lin1. rewrite <- Sum_plus. apply Sum_ext. intros; ring. Qed.
Lemma lin1_scal : forall xs a f x, lin1 xs (fun m => a * f m) x = a * lin1 xs f x.
Proof. intros. unfold lin1. rewrite <- Sum_scal. apply Sum_ext. intros; ring. Qed.
Lemma lin1_Sum : forall A xs (f : A -> nat -> R) (l : list A) x, lin1 xs (fun m => Sum (fun a => f a m) l) x = Sum (fun a => lin1 xs (f a) x) l.
Proof.
  intros A xs f l x. induction l as [|a l IH].
  - rewrite Sum_nil. unfold lin1. apply Sum_zero. intros; rewrite Sum_nil. ring.
  - rewrite Sum_cons, <- IH, <- lin1_plus. apply lin1_ext. intros; apply Sum_cons.
Qed.
Lemma lin1_poly1 : forall xs (c : nat -> R) x, NoDup xs ->
  lin1 xs (fun m => Sum (fun i => c i * at_ xs m ^ i) (seq 0 (length xs))) x = Sum (fun i => c i * x ^ i) (seq 0 (length xs)).
Proof.
  intros xs c x ND. rewrite lin1_Sum. apply Sum_ext_in. intros i Hi. apply in_seq in Hi. rewrite lin1_scal, lin1_pow by (auto; lia). reflexivity.
Qed.

(** ** C08 *)

(** At a point that is a node (m, n) the interpolation returns field_nodes[m, n]; x and y are
    numbers or arrays of K points. *)
Lemma c08_nodal : forall K x y xs ys F, points K x -> points K y -> NoDup xs -> NoDup ys ->
  has_shape F [length xs; length ys] ->
  exists v, interpolate_lagrange_2D x y xs ys F = Ok v /\
    forall k m n, (k < K)%nat -> (m < length xs)%nat -> (n < length ys)%nat ->
      value x k = at_ xs m -> value y k = at_ ys n -> value v k = fget F [m; n].
Proof.
  intros K x y xs ys F Px Py Nx Ny SH. destruct (interp2_points K x y xs ys F Px Py SH) as [v [E [_ [_ V]]]].
  exists v. split; [exact E|]. intros k m n Hk Hm Hn Ex Ey. rewrite (V k Hk), sum2_lin1, Ex, Ey, lin1_node by assumption.
  apply lin1_node; assumption.
Qed.

Definition ex_xs : list R := [0; 3; 1].
Definition ex_ys : list R := [2; -1].
Definition ex_F : ndarray R := NdArray [3%nat; 2%nat] (fun ij => match ij with [i; j] => 10 * INR i + INR j | _ => 0 end).

(** Three nodes in x, two in y, not sorted: at the points (3, -1) and (1, 2), and as numbers. *)
Lemma c08_nodal_ex :
  points 2 (Array [3; 1]) /\ points 2 (Array [-1; 2]) /\ NoDup [0; 3; 1] /\ NoDup [2; -1] /\
  has_shape (NdArray [3%nat; 2%nat] (fun ij => match ij with [i; j] => 10 * INR i + INR j | _ => 0 end)) [length [0; 3; 1]; length [2; -1]] /\
  exists l, interpolate_lagrange_2D (Array [3; 1]) (Array [-1; 2]) [0; 3; 1] [2; -1]
    (NdArray [3%nat; 2%nat] (fun ij => match ij with [i; j] => 10 * INR i + INR j | _ => 0 end)) = Ok (Array l) /\
    nth 0 l 0 = 11 /\ nth 1 l 0 = 20.
Proof.
  split; [reflexivity|]. split; [reflexivity|]. split; [repeat constructor; cbn; lra|]. split; [repeat constructor; cbn; lra|]. split; [reflexivity|].
  assert (P1 : points 2 (Array [3; 1])) by reflexivity. assert (P2 : points 2 (Array [-1; 2])) by reflexivity.
  assert (N1 : NoDup [0; 3; 1]) by (repeat constructor; cbn; lra). assert (N2 : NoDup [2; -1]) by (repeat constructor; cbn; lra).
  destruct (c08_nodal 2 (Array [3; 1]) (Array [-1; 2]) ex_xs ex_ys ex_F P1 P2 N1 N2 eq_refl) as [v [E V]].
  assert (A := proj2 (proj2 (interp2_array 2 _ _ _ _ _ _ P1 P2 E))).
  destruct v as [a|l].
  - exfalso. apply (proj2 A). left. split; [exact Logic.I|]. split; [|discriminate]. exists 0, 3. cbn. repeat split; auto; lra.
  - exists l. split; [exact E|]. split.
    + assert (X := V 0%nat 1%nat 1%nat). cbn in X. rewrite X; [lra|lia|lia|lia|reflexivity|reflexivity].
    + assert (X := V 1%nat 2%nat 0%nat). cbn in X. rewrite X; [lra|lia|lia|lia|reflexivity|reflexivity].
Qed.

(** ** C09 *)

(** A polynomial of degree < M in x and < N in y is reproduced at every point. *)
Lemma c09_exact : forall K x y xs ys F c, points K x -> points K y -> NoDup xs -> NoDup ys ->
  has_shape F [length xs; length ys] ->
  (forall m n, (m < length xs)%nat -> (n < length ys)%nat -> fget F [m; n] = poly2 (length xs) (length ys) c (at_ xs m) (at_ ys n)) ->
  exists v, interpolate_lagrange_2D x y xs ys F = Ok v /\
    forall k, (k < K)%nat -> value v k = poly2 (length xs) (length ys) c (value x k) (value y k).
Proof.
  intros K x y xs ys F c Px Py Nx Ny SH HF. destruct (interp2_points K x y xs ys F Px Py SH) as [v [E [_ [_ V]]]].
  exists v. split; [exact E|]. intros k Hk. rewrite (V k Hk), sum2_lin1.
  rewrite (lin1_ext _ _ (fun m => Sum (fun i => Sum (fun j => c i j * value y k ^ j) (seq 0 (length ys)) * at_ xs m ^ i) (seq 0 (length xs)))).
  - rewrite lin1_poly1 by exact Nx. unfold poly2. apply Sum_ext. intros i. rewrite <- Sum_scal_r. apply Sum_ext. intros j. ring.
  - intros m Hm. rewrite (lin1_ext _ _ (fun n => Sum (fun j => Sum (fun i => c i j * at_ xs m ^ i) (seq 0 (length xs)) * at_ ys n ^ j) (seq 0 (length ys)))).
    + rewrite lin1_poly1 by exact Ny.
      rewrite (Sum_ext _ _ (fun j => Sum (fun i => c i j * at_ xs m ^ i * value y k ^ j) (seq 0 (length xs)))) by (intros; rewrite Sum_scal_r; reflexivity).
      rewrite Sum_swap. apply Sum_ext. intros i. rewrite <- Sum_scal_r. apply Sum_ext. intros j. ring.
    + intros n Hn. rewrite (HF m n Hm Hn). unfold poly2. rewrite Sum_swap. apply Sum_ext. intros j. rewrite <- Sum_scal_r. apply Sum_ext. intros i. ring.
Qed.

(** The field x^2 y on three by two nodes, at a number x outside the nodes: the result is 10^2 * 7. *)
Lemma c09_exact_ex :
  let F := NdArray [3%nat; 2%nat] (fun ij => match ij with [i; j] => at_ [0; 3; 1] i ^ 2 * at_ [2; -1] j | _ => 0 end) in
  let c := fun i j => if Nat.eqb i 2 && Nat.eqb j 1 then 1 else 0 in
  (forall m n, (m < 3)%nat -> (n < 2)%nat -> fget F [m; n] = poly2 3 2 c (at_ [0; 3; 1] m) (at_ [2; -1] n)) /\
  exists v, interpolate_lagrange_2D (Scalar 10) (Scalar 7) [0; 3; 1] [2; -1] F = Ok v /\ value v 0 = 700.
Proof.
  intros F c.
  assert (HF : forall m n, (m < 3)%nat -> (n < 2)%nat -> fget F [m; n] = poly2 3 2 c (at_ [0; 3; 1] m) (at_ [2; -1] n)).
  { intros m n Hm Hn. unfold poly2, F, c. cbn [fget seq]. rewrite !Sum_cons, !Sum_nil. cbn [Nat.eqb andb]. ring. }
  split; [exact HF|].
  destruct (c09_exact 1 (Scalar 10) (Scalar 7) [0; 3; 1] [2; -1] F c) as [v [E V]].
  - exact Logic.I.
  - exact Logic.I.
  - repeat constructor; cbn; lra.
  - repeat constructor; cbn; lra.
  - reflexivity.
  - exact HF.
  - exists v. split; [exact E|]. rewrite V by lia. unfold poly2, c. cbn [length seq value]. rewrite !Sum_cons, !Sum_nil. cbn [Nat.eqb andb]. ring.
Qed.

(** ** C10 *)

(** The interpolated values are linear in the field. *)
Lemma c10_linear : forall K x y xs ys F G H a b, points K x -> points K y ->
  has_shape F [length xs; length ys] -> has_shape G [length xs; length ys] -> has_shape H [length xs; length ys] ->
  (forall m n, (m < length xs)%nat -> (n < length ys)%nat -> fget H [m; n] = a * fget F [m; n] + b * fget G [m; n]) ->
  exists vF vG vH, interpolate_lagrange_2D x y xs ys F = Ok vF /\ interpolate_lagrange_2D x y xs ys G = Ok vG /\
    interpolate_lagrange_2D x y xs ys H = Ok vH /\
    forall k, (k < K)%nat -> value vH k = a * value vF k + b * value vG k.
Proof.
  intros K x y xs ys F G H a b Px Py SF SG SH HH.
  destruct (interp2_points K x y xs ys F Px Py SF) as [vF [EF [_ [_ VF]]]].
  destruct (interp2_points K x y xs ys G Px Py SG) as [vG [EG [_ [_ VG]]]].
  destruct (interp2_points K x y xs ys H Px Py SH) as [vH [EH [_ [_ VH]]]].
  exists vF, vG, vH. repeat split; try assumption. intros k Hk. rewrite VF, VG, VH, !sum2_lin1 by exact Hk.
  rewrite <- !lin1_scal, <- lin1_plus. apply lin1_ext. intros m Hm. rewrite <- !lin1_scal, <- lin1_plus. apply lin1_ext. intros n Hn. apply HH; assumption.
Qed.

Lemma lin1_reorder : forall s xs f x, is_perm (length xs) s -> lin1 (reorder s xs) (fun m => f (img s m)) x = lin1 xs f x.
Proof.
  intros s xs f x P. assert (LS : length s = length xs) by (rewrite (Permutation_length P), seq_length; reflexivity).
  assert (PX : Permutation (reorder s xs) xs).
  { unfold reorder. rewrite (Permutation_map (at_ xs) P). replace (map (at_ xs) (seq 0 (length xs))) with xs; [reflexivity|].
    apply (nth_ext _ _ 0 0); [rewrite map_length, seq_length; reflexivity|]. intros i Hi.
    rewrite (nth_indep (map _ _) 0 (at_ xs 0)) by (rewrite map_length, seq_length; exact Hi). rewrite map_nth, seq_nth by exact Hi. reflexivity. }
  unfold lin1. rewrite (Permutation_length PX).
  rewrite (Sum_ext_in _ _ (fun m => basis (at_ xs (img s m)) xs x * f (img s m))).
  - rewrite <- (Sum_map _ _ (img s) (fun m => basis (at_ xs m) xs x * f m)). apply Sum_perm.
    replace (map (img s) (seq 0 (length xs))) with s; [exact P|]. apply (nth_ext _ _ 0%nat 0%nat); [rewrite map_length, seq_length; exact LS|].
    intros i Hi. rewrite (nth_indep (map _ _) 0%nat (img s 0)) by (rewrite map_length, seq_length; lia). rewrite map_nth, seq_nth by lia. reflexivity.
  - intros m Hm. apply in_seq in Hm. rewrite (basis_perm _ _ _ _ PX). f_equal. f_equal. change (at_ (reorder s xs) m) with (nth m (map (at_ xs) s) 0).
    rewrite (nth_indep (map _ _) 0 (at_ xs 0)) by (rewrite map_length; lia). apply (map_nth (at_ xs)).
Qed.
Lemma reorder_in : forall s xs a, is_perm (length xs) s -> (In a (reorder s xs) <-> In a xs).
Proof.
  intros s xs a P. unfold reorder. rewrite in_map_iff. split.
  - intros [m [<- H]]. apply (Permutation_in _ P), in_seq in H. apply at_in. lia.
  - intros H. destruct (In_nth _ _ 0 H) as [m [L E]]. exists m. split; [exact E|]. apply (Permutation_in _ (Permutation_sym P)), in_seq. lia.
Qed.
Lemma reorder_length : forall s xs, is_perm (length xs) s -> length (reorder s xs) = length xs.
Proof. intros s xs P. unfold reorder. rewrite map_length, (Permutation_length P), seq_length. reflexivity. Qed.

(** Permuting the x nodes with the rows of the field and the y nodes with its columns gives
    the same result (no distinctness needed). *)
Lemma c10_order : forall K x y xs ys s t F F', (0 < K)%nat -> points K x -> points K y ->
  is_perm (length xs) s -> is_perm (length ys) t ->
  has_shape F [length xs; length ys] -> has_shape F' [length xs; length ys] ->
  (forall m n, (m < length xs)%nat -> (n < length ys)%nat -> fget F' [m; n] = fget F [img s m; img t n]) ->
  interpolate_lagrange_2D x y (reorder s xs) (reorder t ys) F' = interpolate_lagrange_2D x y xs ys F.
Proof.
  intros K x y xs ys s t F F' HK Px Py Ps Pt SF SF' HF.
  assert (SF2 : shape F' = [length (reorder s xs); length (reorder t ys)]) by (rewrite !reorder_length; assumption).
  destruct (interp2_points K x y xs ys F Px Py SF) as [v [E [P [_ V]]]].
  destruct (interp2_points K x y _ _ F' Px Py SF2) as [v' [E' [P' [_ V']]]].
  destruct (interp2_array K _ _ _ _ _ _ Px Py E) as [_ [_ A]]. destruct (interp2_array K _ _ _ _ _ _ Px Py E') as [_ [_ A']].
  rewrite E, E'. f_equal. apply (points_eq K); try assumption.
  - rewrite A, A'. assert (T : forall s xs, is_perm (length xs) s -> (two_nodes (reorder s xs) <-> two_nodes xs)).
    { intros u zs Pu. unfold two_nodes. split; intros [a [b [Ia [Ib N]]]]; exists a, b; rewrite ?(reorder_in u zs) in * by exact Pu; auto. }
    rewrite (T s xs Ps), (T t ys Pt), !nonempty_len, !reorder_length by assumption. tauto.
  - intros k Hk. rewrite (V k Hk), (V' k Hk), !sum2_lin1.
    rewrite (lin1_ext _ _ (fun m => lin1 ys (fun n => fget F [img s m; n]) (value y k))).
    + apply (lin1_reorder s xs (fun m => lin1 ys (fun n => fget F [m; n]) (value y k))). exact Ps.
    + intros m Hm. rewrite reorder_length in Hm by exact Ps. rewrite (lin1_ext _ _ (fun n => fget F [img s m; img t n])).
      * apply (lin1_reorder t ys (fun n => fget F [img s m; n])). exact Pt.
      * intros n Hn. rewrite reorder_length in Hn by exact Pt. apply HF; assumption.
Qed.

(** Hypotheses of [c10_order] for three and two nodes. *)
Lemma c10_order_ex :
  is_perm 3 [2%nat; 0%nat; 1%nat] /\ is_perm 2 [1%nat; 0%nat] /\
  reorder [2%nat; 0%nat; 1%nat] [0; 3; 1] = [1; 0; 3] /\ reorder [1%nat; 0%nat] [2; -1] = [-1; 2] /\
  interpolate_lagrange_2D (Array [5; 6]) (Array [7; 8]) [1; 0; 3] [-1; 2]
    (NdArray [3%nat; 2%nat] (fun ij => match ij with
       | [i; j] => 10 * INR (nth i [2%nat; 0%nat; 1%nat] 0%nat) + INR (nth j [1%nat; 0%nat] 0%nat) | _ => 0 end))
  = interpolate_lagrange_2D (Array [5; 6]) (Array [7; 8]) [0; 3; 1] [2; -1]
    (NdArray [3%nat; 2%nat] (fun ij => match ij with [i; j] => 10 * INR i + INR j | _ => 0 end)).
Proof.
  assert (P1 : is_perm 3 [2%nat; 0%nat; 1%nat]) by (unfold is_perm; cbn; apply (Permutation_trans (perm_swap _ _ _)), perm_skip, perm_swap).
  assert (P2 : is_perm 2 [1%nat; 0%nat]) by (apply perm_swap).
  split; [exact P1|]. split; [exact P2|]. split; [reflexivity|]. split; [reflexivity|].
  apply (c10_order 2 (Array [5; 6]) (Array [7; 8]) [0; 3; 1] [2; -1] [2%nat; 0%nat; 1%nat] [1%nat; 0%nat]
    (NdArray [3%nat; 2%nat] (fun ij => match ij with [i; j] => 10 * INR i + INR j | _ => 0 end))); try reflexivity; try assumption; lia.
Qed.

(** ** C11 *)

(** The property fails: with nodes x = [0], y = [0, 1], z = [0, 2] and the constant field 1, the value at
    the node (0, 0, 2) is 0. *)
Lemma c11_nodal_refuted : exists x y z xs ys zs F m n p,
  NoDup xs /\ NoDup ys /\ NoDup zs /\ has_shape F [length xs; length ys; length zs] /\
  (m < length xs)%nat /\ (n < length ys)%nat /\ (p < length zs)%nat /\
  x = at_ xs m /\ y = at_ ys n /\ z = at_ zs p /\
  (forall ijk, fget F ijk = 1) /\
  interpolate_lagrange_3D (Scalar x) (Scalar y) (Scalar z) xs ys zs F = Ok (Scalar 0).
Proof.
  exists 0, 0, 2, [0], [0; 1], [0; 2], (NdArray [1; 2; 2]%nat (fun _ => 1)), 0%nat, 0%nat, 1%nat.
  split; [repeat constructor; cbn; lra|]. split; [repeat constructor; cbn; lra|]. split; [repeat constructor; cbn; lra|].
  split; [reflexivity|]. cbn [length]. split; [lia|]. split; [lia|]. split; [lia|]. repeat (split; [reflexivity|]).
  destruct (interp3_points 1 (Scalar 0) (Scalar 0) (Scalar 2) [0] [0; 1] [0; 2] (NdArray [1; 2; 2]%nat (fun _ => 1)) Logic.I Logic.I Logic.I eq_refl)
    as [v [E [P [A V]]]]. rewrite E. f_equal. specialize (V 0%nat Nat.lt_0_1).
  assert (S0 : ~ is_array v) by (rewrite A; intros [m [n [p [_ [_ [_ [[H _]|[[H _]|[H _]]]]]]]]]; exact H).
  destruct v as [a|l]; [|exfalso; apply S0; exact Logic.I]. f_equal. cbn [value] in V. rewrite V. cbn [length seq]. rewrite !Sum_cons, !Sum_nil.
  unfold at_. cbn [nth basis gbasis Nat.eqb fget]. unfold factor.
  repeat match goal with |- context [Req_EM_T ?a ?b] => destruct (Req_EM_T a b); try lra end; lra.
Qed.

(** What holds: if the z nodes are the first P of the y nodes, nodal values are reproduced.  Missing:
    any other z nodes, for which the statement is false in general ([c11_nodal_refuted]). *)
Lemma c11_nodal_partial : forall K x y z xs ys zs F, points K x -> points K y -> points K z ->
  NoDup xs -> NoDup ys -> (exists rest, ys = zs ++ rest) -> has_shape F [length xs; length ys; length zs] ->
  exists v, interpolate_lagrange_3D x y z xs ys zs F = Ok v /\
    forall k m n p, (k < K)%nat -> (m < length xs)%nat -> (n < length ys)%nat -> (p < length zs)%nat ->
      value x k = at_ xs m -> value y k = at_ ys n -> value z k = at_ zs p -> value v k = fget F [m; n; p].
Proof.
  intros K x y z xs ys zs F Px Py Pz Nx Ny [rest EY] SH.
  destruct (interp3_points K x y z xs ys zs F Px Py Pz SH) as [v [E [_ [_ V]]]]. exists v. split; [exact E|].
  intros k m n p Hk Hm Hn Hp Ex Ey Ez. rewrite (V k Hk), Ex, Ey, Ez.
  assert (AT : forall q, (q < length zs)%nat -> at_ zs q = at_ ys q) by (intros q Hq; unfold at_; rewrite EY, app_nth1 by exact Hq; reflexivity).
  rewrite (Sum_ext _ _ (fun m' => basis (at_ xs m') xs (at_ xs m) * fget F [m'; n; p])).
  - apply (lin1_node xs (fun m' => fget F [m'; n; p]) m Nx Hm).
  - intros m'. rewrite (Sum_ext _ _ (fun n' => basis (at_ ys n') ys (at_ ys n) * (basis (at_ xs m') xs (at_ xs m) * fget F [m'; n'; p]))).
    + apply (lin1_node ys (fun n' => basis (at_ xs m') xs (at_ xs m) * fget F [m'; n'; p]) n Ny Hn).
    + intros n'. rewrite (AT p Hp).
      rewrite (Sum_ext_in _ _ (fun p' => basis (at_ ys p') ys (at_ ys p) * (basis (at_ ys n') ys (at_ ys n) * (basis (at_ xs m') xs (at_ xs m) * fget F [m'; n'; p'])))).
      * apply (lin1_prefix ys (length zs) (fun p' => basis (at_ ys n') ys (at_ ys n) * (basis (at_ xs m') xs (at_ xs m) * fget F [m'; n'; p'])) p Ny); [rewrite EY, app_length; lia|exact Hp].
      * intros p' Hp'. apply in_seq in Hp'. rewrite gbasis_basis.
        -- rewrite (AT p') by lia. ring.
        -- intros b Hb _. rewrite Nat.sub_0_r in Hb. rewrite (AT p') by lia. apply nth_at, Hb.
Qed.

(** With one z node the third direction is ignored at that node: nodal values are reproduced too. *)
Lemma c11_one_node_partial : forall K x y z xs ys z0 F, points K x -> points K y -> points K z ->
  NoDup xs -> NoDup ys -> has_shape F [length xs; length ys; 1%nat] ->
  exists v, interpolate_lagrange_3D x y z xs ys [z0] F = Ok v /\
    forall k m n, (k < K)%nat -> (m < length xs)%nat -> (n < length ys)%nat ->
      value x k = at_ xs m -> value y k = at_ ys n -> value z k = z0 -> value v k = fget F [m; n; 0%nat].
Proof.
  intros K x y z xs ys z0 F Px Py Pz Nx Ny SH.
  destruct (interp3_points K x y z xs ys [z0] F Px Py Pz SH) as [v [E [_ [_ V]]]]. exists v. split; [exact E|].
  intros k m n Hk Hm Hn Ex Ey Ez. rewrite (V k Hk), Ex, Ey, Ez. cbn [length seq].
  rewrite (Sum_ext _ _ (fun m' => basis (at_ xs m') xs (at_ xs m) * fget F [m'; n; 0%nat])).
  - apply (lin1_node xs (fun m' => fget F [m'; n; 0%nat]) m Nx Hm).
  - intros m'. rewrite (Sum_ext _ _ (fun n' => basis (at_ ys n') ys (at_ ys n) * (basis (at_ xs m') xs (at_ xs m) * fget F [m'; n'; 0%nat]))).
    + apply (lin1_node ys (fun n' => basis (at_ xs m') xs (at_ xs m) * fget F [m'; n'; 0%nat]) n Ny Hn).
    + intros n'. rewrite Sum_cons, Sum_nil. unfold at_ at 5. cbn [nth]. rewrite gbasis_own. ring.
Qed.

(** With the same nodes in y and z, polynomials of degree < M, N, N are reproduced at every point. *)
Lemma c11_exact_partial : forall K x y z xs ys F c, points K x -> points K y -> points K z -> NoDup xs -> NoDup ys ->
  has_shape F [length xs; length ys; length ys] ->
  (forall m n p, (m < length xs)%nat -> (n < length ys)%nat -> (p < length ys)%nat ->
     fget F [m; n; p] = poly3 (length xs) (length ys) (length ys) c (at_ xs m) (at_ ys n) (at_ ys p)) ->
  exists v, interpolate_lagrange_3D x y z xs ys ys F = Ok v /\
    forall k, (k < K)%nat -> value v k = poly3 (length xs) (length ys) (length ys) c (value x k) (value y k) (value z k).
Proof.
  intros K x y z xs ys F c Px Py Pz Nx Ny SH HF.
  destruct (interp3_points K x y z xs ys ys F Px Py Pz SH) as [v [E [_ [_ V]]]]. exists v. split; [exact E|].
  intros k Hk. rewrite (V k Hk). set (a := value x k). set (b := value y k). set (d := value z k).
  transitivity (lin1 xs (fun m => lin1 ys (fun n => lin1 ys (fun p => fget F [m; n; p]) d) b) a).
  { unfold lin1. apply Sum_ext_in. intros m _. rewrite <- Sum_scal. apply Sum_ext_in. intros n _. rewrite <- !Sum_scal. apply Sum_ext_in. intros p Hp.
    rewrite gbasis_basis; [ring|]. intros e He _. rewrite Nat.sub_0_r in He. apply nth_at, He. }
  rewrite (lin1_ext _ _ (fun m => Sum (fun i => Sum (fun j => Sum (fun l => c i j l * b ^ j * d ^ l) (seq 0 (length ys))) (seq 0 (length ys)) * at_ xs m ^ i) (seq 0 (length xs)))).
  { rewrite lin1_poly1 by exact Nx. unfold poly3. apply Sum_ext. intros i. rewrite <- Sum_scal_r. apply Sum_ext. intros j. rewrite <- Sum_scal_r. apply Sum_ext. intros l. ring. }
  intros m Hm.
  rewrite (lin1_ext _ _ (fun n => Sum (fun j => Sum (fun i => Sum (fun l => c i j l * at_ xs m ^ i * d ^ l) (seq 0 (length ys))) (seq 0 (length xs)) * at_ ys n ^ j) (seq 0 (length ys)))).
  { rewrite lin1_poly1 by exact Ny.
    rewrite (Sum_ext _ _ (fun j => Sum (fun i => Sum (fun l => c i j l * at_ xs m ^ i * d ^ l) (seq 0 (length ys)) * b ^ j) (seq 0 (length xs)))) by (intros; rewrite Sum_scal_r; reflexivity).
    rewrite Sum_swap. apply Sum_ext. intros i. rewrite <- Sum_scal_r. apply Sum_ext. intros j. rewrite <- !Sum_scal_r. apply Sum_ext. intros l. ring. }
  intros n Hn.
  rewrite (lin1_ext _ _ (fun p => Sum (fun l => Sum (fun i => Sum (fun j => c i j l * at_ xs m ^ i * at_ ys n ^ j) (seq 0 (length ys))) (seq 0 (length xs)) * at_ ys p ^ l) (seq 0 (length ys)))).
  { rewrite lin1_poly1 by exact Ny.
    rewrite (Sum_ext _ _ (fun l => Sum (fun i => Sum (fun j => c i j l * at_ xs m ^ i * at_ ys n ^ j) (seq 0 (length ys)) * d ^ l) (seq 0 (length xs)))) by (intros; rewrite Sum_scal_r; reflexivity).
    rewrite Sum_swap.
    rewrite (Sum_ext _ (fun j => Sum (fun i => Sum (fun l => c i j l * at_ xs m ^ i * d ^ l) (seq 0 (length ys))) (seq 0 (length xs)) * at_ ys n ^ j)
      (fun j => Sum (fun i => Sum (fun l => c i j l * at_ xs m ^ i * d ^ l) (seq 0 (length ys)) * at_ ys n ^ j) (seq 0 (length xs)))) by (intros; rewrite Sum_scal_r; reflexivity).
    rewrite (Sum_swap _ _ (fun j i => Sum (fun l => c i j l * at_ xs m ^ i * d ^ l) (seq 0 (length ys)) * at_ ys n ^ j)). apply Sum_ext. intros i.
    rewrite (Sum_ext _ _ (fun l => Sum (fun j => c i j l * at_ xs m ^ i * at_ ys n ^ j * d ^ l) (seq 0 (length ys)))) by (intros; rewrite Sum_scal_r; reflexivity).
    rewrite Sum_swap. apply Sum_ext. intros j. rewrite <- Sum_scal_r. apply Sum_ext. intros l. ring. }
  intros p Hp. rewrite (HF m n p Hm Hn Hp). unfold poly3.
  rewrite (Sum_ext _ (fun l => _ * at_ ys p ^ l) (fun l => Sum (fun i => Sum (fun j => c i j l * at_ xs m ^ i * at_ ys n ^ j * at_ ys p ^ l) (seq 0 (length ys))) (seq 0 (length xs)))).
  2: { intros l. rewrite <- Sum_scal_r. apply Sum_ext. intros i. rewrite <- Sum_scal_r. reflexivity. }
  symmetry. etransitivity; [apply Sum_swap|]. apply Sum_ext. intros i. apply Sum_swap.
Qed.

(** Hypotheses of the partial theorems: two y nodes, two z nodes equal to them. *)
Lemma c11_ex : NoDup [0; 5] /\ NoDup [1; 4; 2] /\ (exists rest, [1; 4; 2] = [1; 4] ++ rest) /\
  has_shape (NdArray [2; 3; 2]%nat (fun ijk => match ijk with [i; j; k] => INR i + 10 * INR j + 100 * INR k | _ => 0 end))
    [length [0; 5]; length [1; 4; 2]; length [1; 4]] /\
  exists v, interpolate_lagrange_3D (Scalar 5) (Scalar 2) (Scalar 4) [0; 5] [1; 4; 2] [1; 4]
    (NdArray [2; 3; 2]%nat (fun ijk => match ijk with [i; j; k] => INR i + 10 * INR j + 100 * INR k | _ => 0 end)) = Ok v /\
    value v 0 = 121.
Proof.
  assert (N1 : NoDup [0; 5]) by (repeat constructor; cbn; lra). assert (N2 : NoDup [1; 4; 2]) by (repeat constructor; cbn; lra).
  assert (R : exists rest, [1; 4; 2] = [1; 4] ++ rest) by (exists [2]; reflexivity).
  split; [exact N1|]. split; [exact N2|]. split; [exact R|]. split; [reflexivity|].
  destruct (c11_nodal_partial 1 (Scalar 5) (Scalar 2) (Scalar 4) [0; 5] [1; 4; 2] [1; 4]
    (NdArray [2; 3; 2]%nat (fun ijk => match ijk with [i; j; k] => INR i + 10 * INR j + 100 * INR k | _ => 0 end))
    Logic.I Logic.I Logic.I N1 N2 R eq_refl) as [v [E V]].
  exists v. split; [exact E|]. rewrite (V 0%nat 1%nat 2%nat 1%nat); cbn; [lra|lia|lia|lia|lia|reflexivity|reflexivity|reflexivity].
Qed.

(** ** C12 *)

(** The property fails for one node per direction: three points, one value. *)
Lemma c12_length_refuted : exists (x y : list R) xs ys F, length x = 3%nat /\ length y = 3%nat /\
  has_shape F [length xs; length ys] /\ xs <> [] /\ ys <> [] /\
  interpolate_lagrange_2D (Array x) (Array y) xs ys F = Ok (Scalar 5).
Proof.
  exists [0; 1; 2], [0; 1; 2], [0], [0], (NdArray [1; 1]%nat (fun _ => 5)). repeat (split; [first [reflexivity|discriminate]|]).
  unfold interpolate_lagrange_2D, shape_ok. cbn. f_equal. f_equal. lra.
Qed.
(** The same in 3-D. *)
Lemma c12_length_3D_refuted : exists (x y z : list R) xs ys zs F, length x = 3%nat /\ length y = 3%nat /\ length z = 3%nat /\
  has_shape F [length xs; length ys; length zs] /\ xs <> [] /\ ys <> [] /\ zs <> [] /\
  interpolate_lagrange_3D (Array x) (Array y) (Array z) xs ys zs F = Ok (Scalar 5).
Proof.
  exists [0; 1; 2], [0; 1; 2], [0; 1; 2], [0], [0], [0], (NdArray [1; 1; 1]%nat (fun _ => 5)). repeat (split; [first [reflexivity|discriminate]|]).
  unfold interpolate_lagrange_3D, shape_ok. cbn. f_equal. f_equal. lra.
Qed.

(** What holds: as soon as one direction has two different nodes (and the other has a node) the result is an
    array of length K.  Missing: one node (value) in every direction. *)
Lemma c12_length_partial : forall (x y : list R) xs ys F v, length x = length y ->
  interpolate_lagrange_2D (Array x) (Array y) xs ys F = Ok v ->
  ((exists l, v = Array l /\ length l = length x) <-> (two_nodes xs /\ ys <> []) \/ (two_nodes ys /\ xs <> [])).
Proof.
  intros x y xs ys F v L E. destruct (interp2_array (length x) (Array x) (Array y) xs ys F v eq_refl (eq_sym L) E) as [P [_ A]].
  cbn [is_array] in A. destruct v as [a|l].
  - cbn in A. split; [intros [l [H _]]; discriminate|]. intros H. exfalso. tauto.
  - cbn in A, P. split; [intros _; tauto|]. intros _. exists l. auto.
Qed.
(** In 3-D two different nodes in x or in y are enough. *)
Lemma c12_length_3D_partial : forall (x y z : list R) xs ys zs F v, length y = length x -> length z = length x ->
  zs <> [] -> (two_nodes xs /\ ys <> []) \/ (two_nodes ys /\ xs <> []) ->
  interpolate_lagrange_3D (Array x) (Array y) (Array z) xs ys zs F = Ok v ->
  exists l, v = Array l /\ length l = length x.
Proof.
  intros x y z xs ys zs F v Ly Lz NZ H E.
  destruct (list_eq_dec Nat.eq_dec (shape F) [length xs; length ys; length zs]) as [SH|N].
  - destruct (interp3_points (length x) (Array x) (Array y) (Array z) xs ys zs F eq_refl Ly Lz SH) as [v' [E' [P [A _]]]].
    rewrite E in E'; injection E' as <-. assert (is_array v).
    { apply A. apply nonempty_len in NZ. rewrite !nonempty_len in H. destruct H as [[T L]|[T L]].
      - destruct (proj2 (active_two (Array x) xs) (conj Logic.I T)) as [m [Lm X]]. exists m, 0%nat, 0%nat. auto.
      - destruct (proj2 (active_two (Array y) ys) (conj Logic.I T)) as [n [Ln X]]. exists 0%nat, n, 0%nat. auto 6. }
    destruct v as [a|l]; [destruct H0|]. exists l. auto.
  - unfold interpolate_lagrange_3D, shape_ok in E. destruct (list_eq_dec Nat.eq_dec _ _); [contradiction|discriminate].
Qed.
(** Entry k depends on point k only: two calls with a point in common give the same value there. *)
Lemma c12_pointwise : forall K K' x y x' y' xs ys F v v' k k', points K x -> points K y -> points K' x' -> points K' y' ->
  interpolate_lagrange_2D x y xs ys F = Ok v -> interpolate_lagrange_2D x' y' xs ys F = Ok v' ->
  (k < K)%nat -> (k' < K')%nat -> value x k = value x' k' -> value y k = value y' k' -> value v k = value v' k'.
Proof.
  intros K K' x y x' y' xs ys F v v' k k' Px Py Px' Py' E E' Hk Hk' Ex Ey.
  destruct (interp2_array K _ _ _ _ _ _ Px Py E) as [_ [SH _]].
  destruct (interp2_points K x y xs ys F Px Py SH) as [w [Ew [_ [_ V]]]]. rewrite E in Ew; injection Ew as <-.
  destruct (interp2_points K' x' y' xs ys F Px' Py' SH) as [w [Ew [_ [_ V']]]]. rewrite E' in Ew; injection Ew as <-.
  rewrite (V k Hk), (V' k' Hk'), Ex, Ey. reflexivity.
Qed.
Lemma c12_pointwise_3D : forall K K' x y z x' y' z' xs ys zs F v v' k k', points K x -> points K y -> points K z ->
  points K' x' -> points K' y' -> points K' z' ->
  interpolate_lagrange_3D x y z xs ys zs F = Ok v -> interpolate_lagrange_3D x' y' z' xs ys zs F = Ok v' ->
  (k < K)%nat -> (k' < K')%nat -> value x k = value x' k' -> value y k = value y' k' -> value z k = value z' k' -> value v k = value v' k'.
Proof.
  intros K K' x y z x' y' z' xs ys zs F v v' k k' Px Py Pz Px' Py' Pz' E E' Hk Hk' Ex Ey Ez.
  destruct (list_eq_dec Nat.eq_dec (shape F) [length xs; length ys; length zs]) as [SH|N].
  - destruct (interp3_points K x y z xs ys zs F Px Py Pz SH) as [w [Ew [_ [_ V]]]]. rewrite E in Ew; injection Ew as <-.
    destruct (interp3_points K' x' y' z' xs ys zs F Px' Py' Pz' SH) as [w [Ew [_ [_ V']]]]. rewrite E' in Ew; injection Ew as <-.
    rewrite (V k Hk), (V' k' Hk'), Ex, Ey, Ez. reflexivity.
  - unfold interpolate_lagrange_3D, shape_ok in E. destruct (list_eq_dec Nat.eq_dec _ _); [contradiction|discriminate].
Qed.
(** Three points on two by one nodes: an array of length 3. *)
Lemma c12_ex : exists v, two_nodes [0; 1] /\
  interpolate_lagrange_2D (Array [0; 1; 2]) (Array [7; 8; 9]) [0; 1] [5] (NdArray [2; 1]%nat (fun _ => 3)) = Ok v /\
  exists l, v = Array l /\ length l = 3%nat.
Proof.
  destruct (interp2_points 3 (Array [0; 1; 2]) (Array [7; 8; 9]) [0; 1] [5] (NdArray [2; 1]%nat (fun _ => 3)) eq_refl eq_refl eq_refl) as [v [E _]].
  assert (T : two_nodes [0; 1]) by (exists 0, 1; cbn; repeat split; auto; lra).
  exists v. split; [exact T|]. split; [exact E|].
  apply (proj2 (c12_length_partial [0; 1; 2] [7; 8; 9] [0; 1] [5] (NdArray [2; 1]%nat (fun _ => 3)) v eq_refl E)). left. split; [exact T|discriminate].
Qed.

(** ** C13 *)

(** A field of another shape raises AssertionError whatever the points are; a field of the right shape raises
    nothing if the coordinates have the same length (or are numbers). *)
Lemma c13_2D : forall x y xs ys F,
  (shape F <> [length xs; length ys] -> interpolate_lagrange_2D x y xs ys F = Raise AssertionError) /\
  (shape F = [length xs; length ys] -> forall K, points K x -> points K y -> exists v, interpolate_lagrange_2D x y xs ys F = Ok v).
Proof.
  intros x y xs ys F. split.
  - intros N. unfold interpolate_lagrange_2D, shape_ok. destruct (list_eq_dec Nat.eq_dec _ _); [contradiction|reflexivity].
  - intros SH K Px Py. destruct (interp2_points K x y xs ys F Px Py SH) as [v [E _]]. exists v. exact E.
Qed.
(** The same in 3-D. *)
Lemma c13_3D : forall x y z xs ys zs F,
  (shape F <> [length xs; length ys; length zs] -> interpolate_lagrange_3D x y z xs ys zs F = Raise AssertionError) /\
  (shape F = [length xs; length ys; length zs] -> forall K, points K x -> points K y -> points K z ->
     exists v, interpolate_lagrange_3D x y z xs ys zs F = Ok v).
Proof.
  intros x y z xs ys zs F. split.
  - intros N. unfold interpolate_lagrange_3D, shape_ok. destruct (list_eq_dec Nat.eq_dec _ _); [contradiction|reflexivity].
  - intros SH K Px Py Pz. destruct (interp3_points K x y z xs ys zs F Px Py Pz SH) as [v [E _]]. exists v. exact E.
Qed.
(** A 2 by 2 field for 3 by 2 nodes, and a one-dimensional field. *)
Lemma c13_ex :
  interpolate_lagrange_2D (Scalar 0) (Scalar 0) [0; 1; 2] [0; 1] (NdArray [2; 2]%nat (fun _ => 0)) = Raise AssertionError /\
  interpolate_lagrange_2D (Scalar 0) (Scalar 0) [0; 1; 2] [0; 1] (NdArray [3]%nat (fun _ => 0)) = Raise AssertionError.
Proof. split; apply c13_2D; discriminate. Qed.
