(** Properties proved in LInterp.v, generated from it by tools/mkprops.py.
    Nothing but statements: each proof is one lemma of that file. *)
From Coq Require Import ZArith Reals List Bool Arith Permutation.
From Verif Require Import Num Py Mesh Interp Spec SpecInterp.
From Verif Require LInterp.
Import ListNotations.
Local Open Scope R_scope.

(** At a point that is a node (m, n) the interpolation returns field_nodes[m, n]; x and y are
    numbers or arrays of K points. *)
Theorem C08_nodal : forall K x y xs ys F, points K x -> points K y -> NoDup xs -> NoDup ys ->
  has_shape F [length xs; length ys] ->
  exists v, interpolate_lagrange_2D x y xs ys F = Ok v /\
    forall k m n, (k < K)%nat -> (m < length xs)%nat -> (n < length ys)%nat ->
      value x k = at_ xs m -> value y k = at_ ys n -> value v k = fget F [m; n].
Proof. exact LInterp.c08_nodal. Qed.
Print Assumptions C08_nodal.

(** Three nodes in x, two in y, not sorted: at the points (3, -1) and (1, 2), and as numbers. *)
Example C08_nodal_ex :
  points 2 (Array [3; 1]) /\ points 2 (Array [-1; 2]) /\ NoDup [0; 3; 1] /\ NoDup [2; -1] /\
  has_shape (NdArray [3%nat; 2%nat] (fun ij => match ij with [i; j] => 10 * INR i + INR j | _ => 0 end)) [length [0; 3; 1]; length [2; -1]] /\
  exists l, interpolate_lagrange_2D (Array [3; 1]) (Array [-1; 2]) [0; 3; 1] [2; -1]
    (NdArray [3%nat; 2%nat] (fun ij => match ij with [i; j] => 10 * INR i + INR j | _ => 0 end)) = Ok (Array l) /\
    nth 0 l 0 = 11 /\ nth 1 l 0 = 20.
Proof. exact LInterp.c08_nodal_ex. Qed.

(** A polynomial of degree < M in x and < N in y is reproduced at every point. *)
Theorem C09_exact : forall K x y xs ys F c, points K x -> points K y -> NoDup xs -> NoDup ys ->
  has_shape F [length xs; length ys] ->
  (forall m n, (m < length xs)%nat -> (n < length ys)%nat -> fget F [m; n] = poly2 (length xs) (length ys) c (at_ xs m) (at_ ys n)) ->
  exists v, interpolate_lagrange_2D x y xs ys F = Ok v /\
    forall k, (k < K)%nat -> value v k = poly2 (length xs) (length ys) c (value x k) (value y k).
Proof. exact LInterp.c09_exact. Qed.
Print Assumptions C09_exact.

(** The field x^2 y on three by two nodes, at a number x outside the nodes: the result is 10^2 * 7. *)
Example C09_exact_ex :
  let F := NdArray [3%nat; 2%nat] (fun ij => match ij with [i; j] => at_ [0; 3; 1] i ^ 2 * at_ [2; -1] j | _ => 0 end) in
  let c := fun i j => if Nat.eqb i 2 && Nat.eqb j 1 then 1 else 0 in
  (forall m n, (m < 3)%nat -> (n < 2)%nat -> fget F [m; n] = poly2 3 2 c (at_ [0; 3; 1] m) (at_ [2; -1] n)) /\
  exists v, interpolate_lagrange_2D (Scalar 10) (Scalar 7) [0; 3; 1] [2; -1] F = Ok v /\ value v 0 = 700.
Proof. exact LInterp.c09_exact_ex. Qed.

(** The interpolated values are linear in the field. *)
Theorem C10_linear : forall K x y xs ys F G H a b, points K x -> points K y ->
  has_shape F [length xs; length ys] -> has_shape G [length xs; length ys] -> has_shape H [length xs; length ys] ->
  (forall m n, (m < length xs)%nat -> (n < length ys)%nat -> fget H [m; n] = a * fget F [m; n] + b * fget G [m; n]) ->
  exists vF vG vH, interpolate_lagrange_2D x y xs ys F = Ok vF /\ interpolate_lagrange_2D x y xs ys G = Ok vG /\
    interpolate_lagrange_2D x y xs ys H = Ok vH /\
    forall k, (k < K)%nat -> value vH k = a * value vF k + b * value vG k.
Proof. exact LInterp.c10_linear. Qed.
Print Assumptions C10_linear.

(** Permuting the x nodes with the rows of the field and the y nodes with its columns gives
    the same result (no distinctness needed). *)
Theorem C10_order : forall K x y xs ys s t F F', (0 < K)%nat -> points K x -> points K y ->
  is_perm (length xs) s -> is_perm (length ys) t ->
  has_shape F [length xs; length ys] -> has_shape F' [length xs; length ys] ->
  (forall m n, (m < length xs)%nat -> (n < length ys)%nat -> fget F' [m; n] = fget F [img s m; img t n]) ->
  interpolate_lagrange_2D x y (reorder s xs) (reorder t ys) F' = interpolate_lagrange_2D x y xs ys F.
Proof. exact LInterp.c10_order. Qed.
Print Assumptions C10_order.

(** Hypotheses of [c10_order] for three and two nodes. *)
Example C10_order_ex :
  is_perm 3 [2%nat; 0%nat; 1%nat] /\ is_perm 2 [1%nat; 0%nat] /\
  reorder [2%nat; 0%nat; 1%nat] [0; 3; 1] = [1; 0; 3] /\ reorder [1%nat; 0%nat] [2; -1] = [-1; 2] /\
  interpolate_lagrange_2D (Array [5; 6]) (Array [7; 8]) [1; 0; 3] [-1; 2]
    (NdArray [3%nat; 2%nat] (fun ij => match ij with
       | [i; j] => 10 * INR (nth i [2%nat; 0%nat; 1%nat] 0%nat) + INR (nth j [1%nat; 0%nat] 0%nat) | _ => 0 end))
  = interpolate_lagrange_2D (Array [5; 6]) (Array [7; 8]) [0; 3; 1] [2; -1]
    (NdArray [3%nat; 2%nat] (fun ij => match ij with [i; j] => 10 * INR i + INR j | _ => 0 end)).
Proof. exact LInterp.c10_order_ex. Qed.

(** The property fails: with nodes x = [0], y = [0, 1], z = [0, 2] and the constant field 1, the value at
    the node (0, 0, 2) is 0. *)
Theorem C11_nodal_refuted : exists x y z xs ys zs F m n p,
  NoDup xs /\ NoDup ys /\ NoDup zs /\ has_shape F [length xs; length ys; length zs] /\
  (m < length xs)%nat /\ (n < length ys)%nat /\ (p < length zs)%nat /\
  x = at_ xs m /\ y = at_ ys n /\ z = at_ zs p /\
  (forall ijk, fget F ijk = 1) /\
  interpolate_lagrange_3D (Scalar x) (Scalar y) (Scalar z) xs ys zs F = Ok (Scalar 0).
Proof. exact LInterp.c11_nodal_refuted. Qed.
Print Assumptions C11_nodal_refuted.

(** What holds: if the z nodes are the first P of the y nodes, nodal values are reproduced.  Missing:
    any other z nodes, for which the statement is false in general ([c11_nodal_refuted]). *)
Theorem C11_nodal_partial : forall K x y z xs ys zs F, points K x -> points K y -> points K z ->
  NoDup xs -> NoDup ys -> (exists rest, ys = zs ++ rest) -> has_shape F [length xs; length ys; length zs] ->
  exists v, interpolate_lagrange_3D x y z xs ys zs F = Ok v /\
    forall k m n p, (k < K)%nat -> (m < length xs)%nat -> (n < length ys)%nat -> (p < length zs)%nat ->
      value x k = at_ xs m -> value y k = at_ ys n -> value z k = at_ zs p -> value v k = fget F [m; n; p].
Proof. exact LInterp.c11_nodal_partial. Qed.
Print Assumptions C11_nodal_partial.

(** With one z node the third direction is ignored at that node: nodal values are reproduced too. *)
Theorem C11_one_node_partial : forall K x y z xs ys z0 F, points K x -> points K y -> points K z ->
  NoDup xs -> NoDup ys -> has_shape F [length xs; length ys; 1%nat] ->
  exists v, interpolate_lagrange_3D x y z xs ys [z0] F = Ok v /\
    forall k m n, (k < K)%nat -> (m < length xs)%nat -> (n < length ys)%nat ->
      value x k = at_ xs m -> value y k = at_ ys n -> value z k = z0 -> value v k = fget F [m; n; 0%nat].
Proof. exact LInterp.c11_one_node_partial. Qed.
Print Assumptions C11_one_node_partial.

(** With the same nodes in y and z, polynomials of degree < M, N, N are reproduced at every point. *)
Theorem C11_exact_partial : forall K x y z xs ys F c, points K x -> points K y -> points K z -> NoDup xs -> NoDup ys ->
  has_shape F [length xs; length ys; length ys] ->
  (forall m n p, (m < length xs)%nat -> (n < length ys)%nat -> (p < length ys)%nat ->
     fget F [m; n; p] = poly3 (length xs) (length ys) (length ys) c (at_ xs m) (at_ ys n) (at_ ys p)) ->
  exists v, interpolate_lagrange_3D x y z xs ys ys F = Ok v /\
    forall k, (k < K)%nat -> value v k = poly3 (length xs) (length ys) (length ys) c (value x k) (value y k) (value z k).
Proof. exact LInterp.c11_exact_partial. Qed.
Print Assumptions C11_exact_partial.

(** Hypotheses of the partial theorems: two y nodes, two z nodes equal to them. *)
Example C11_ex : NoDup [0; 5] /\ NoDup [1; 4; 2] /\ (exists rest, [1; 4; 2] = [1; 4] ++ rest) /\
  has_shape (NdArray [2; 3; 2]%nat (fun ijk => match ijk with [i; j; k] => INR i + 10 * INR j + 100 * INR k | _ => 0 end))
    [length [0; 5]; length [1; 4; 2]; length [1; 4]] /\
  exists v, interpolate_lagrange_3D (Scalar 5) (Scalar 2) (Scalar 4) [0; 5] [1; 4; 2] [1; 4]
    (NdArray [2; 3; 2]%nat (fun ijk => match ijk with [i; j; k] => INR i + 10 * INR j + 100 * INR k | _ => 0 end)) = Ok v /\
    value v 0 = 121.
Proof. exact LInterp.c11_ex. Qed.

(** The property fails for one node per direction: three points, one value. *)
Theorem C12_length_refuted : exists (x y : list R) xs ys F, length x = 3%nat /\ length y = 3%nat /\
  has_shape F [length xs; length ys] /\ xs <> [] /\ ys <> [] /\
  interpolate_lagrange_2D (Array x) (Array y) xs ys F = Ok (Scalar 5).
Proof. exact LInterp.c12_length_refuted. Qed.
Print Assumptions C12_length_refuted.

(** The same in 3-D. *)
Theorem C12_length_3D_refuted : exists (x y z : list R) xs ys zs F, length x = 3%nat /\ length y = 3%nat /\ length z = 3%nat /\
  has_shape F [length xs; length ys; length zs] /\ xs <> [] /\ ys <> [] /\ zs <> [] /\
  interpolate_lagrange_3D (Array x) (Array y) (Array z) xs ys zs F = Ok (Scalar 5).
Proof. exact LInterp.c12_length_3D_refuted. Qed.
Print Assumptions C12_length_3D_refuted.

(** What holds: as soon as one direction has two different nodes (and the other has a node) the result is an
    array of length K.  Missing: one node (value) in every direction. *)
Theorem C12_length_partial : forall (x y : list R) xs ys F v, length x = length y ->
  interpolate_lagrange_2D (Array x) (Array y) xs ys F = Ok v ->
  ((exists l, v = Array l /\ length l = length x) <-> (two_nodes xs /\ ys <> []) \/ (two_nodes ys /\ xs <> [])).
Proof. exact LInterp.c12_length_partial. Qed.
Print Assumptions C12_length_partial.

(** In 3-D two different nodes in x or in y are enough. *)
Theorem C12_length_3D_partial : forall (x y z : list R) xs ys zs F v, length y = length x -> length z = length x ->
  zs <> [] -> (two_nodes xs /\ ys <> []) \/ (two_nodes ys /\ xs <> []) ->
  interpolate_lagrange_3D (Array x) (Array y) (Array z) xs ys zs F = Ok v ->
  exists l, v = Array l /\ length l = length x.
Proof. exact LInterp.c12_length_3D_partial. Qed.
Print Assumptions C12_length_3D_partial.

(** Entry k depends on point k only: two calls with a point in common give the same value there. *)
Theorem C12_pointwise : forall K K' x y x' y' xs ys F v v' k k', points K x -> points K y -> points K' x' -> points K' y' ->
  interpolate_lagrange_2D x y xs ys F = Ok v -> interpolate_lagrange_2D x' y' xs ys F = Ok v' ->
  (k < K)%nat -> (k' < K')%nat -> value x k = value x' k' -> value y k = value y' k' -> value v k = value v' k'.
Proof. exact LInterp.c12_pointwise. Qed.
Print Assumptions C12_pointwise.

Theorem C12_pointwise_3D : forall K K' x y z x' y' z' xs ys zs F v v' k k', points K x -> points K y -> points K z ->
  points K' x' -> points K' y' -> points K' z' ->
  interpolate_lagrange_3D x y z xs ys zs F = Ok v -> interpolate_lagrange_3D x' y' z' xs ys zs F = Ok v' ->
  (k < K)%nat -> (k' < K')%nat -> value x k = value x' k' -> value y k = value y' k' -> value z k = value z' k' -> value v k = value v' k'.
Proof. exact LInterp.c12_pointwise_3D. Qed.
Print Assumptions C12_pointwise_3D.

(** Three points on two by one nodes: an array of length 3. *)
Example C12_ex : exists v, two_nodes [0; 1] /\
  interpolate_lagrange_2D (Array [0; 1; 2]) (Array [7; 8; 9]) [0; 1] [5] (NdArray [2; 1]%nat (fun _ => 3)) = Ok v /\
  exists l, v = Array l /\ length l = 3%nat.
Proof. exact LInterp.c12_ex. Qed.

(** A field of another shape raises AssertionError whatever the points are; a field of the right shape raises
    nothing if the coordinates have the same length (or are numbers). *)
Theorem C13_2D : forall x y xs ys F,
  (shape F <> [length xs; length ys] -> interpolate_lagrange_2D x y xs ys F = Raise AssertionError) /\
  (shape F = [length xs; length ys] -> forall K, points K x -> points K y -> exists v, interpolate_lagrange_2D x y xs ys F = Ok v).
Proof. exact LInterp.c13_2D. Qed.
Print Assumptions C13_2D.

(** The same in 3-D. *)
Theorem C13_3D : forall x y z xs ys zs F,
  (shape F <> [length xs; length ys; length zs] -> interpolate_lagrange_3D x y z xs ys zs F = Raise AssertionError) /\
  (shape F = [length xs; length ys; length zs] -> forall K, points K x -> points K y -> points K z ->
     exists v, interpolate_lagrange_3D x y z xs ys zs F = Ok v).
Proof. exact LInterp.c13_3D. Qed.
Print Assumptions C13_3D.

(** A 2 by 2 field for 3 by 2 nodes, and a one-dimensional field. *)
Example C13_ex :
  interpolate_lagrange_2D (Scalar 0) (Scalar 0) [0; 1; 2] [0; 1] (NdArray [2; 2]%nat (fun _ => 0)) = Raise AssertionError /\
  interpolate_lagrange_2D (Scalar 0) (Scalar 0) [0; 1; 2] [0; 1] (NdArray [3]%nat (fun _ => 0)) = Raise AssertionError.
Proof. exact LInterp.c13_ex. Qed.
