(** Properties proved in LKG.v, generated from it by tools/mkprops.py.
    Nothing but statements: each proof is one lemma of that file. *)
From Coq Require Import ZArith Reals List Bool Arith Permutation.
From Verif Require Import Num Py Mesh Utils CalcK0 CalcKG Spec SpecK0 SpecKG Ex ExK0.
From Verif Require LKG.
Import ListNotations.
Local Open Scope R_scope.

(** kG is symmetric, of the size of d (rounded down to a multiple of 5), and acts on w only: on any
    mesh on which calc_kG returns (symmetry: if no smoothing domain is degenerate). *)
Theorem C40_symmetric : forall (m : mesh R) pfn d KG, calc_kG d m pfn = Ok KG ->
  mdim KG = (length d / 5 * 5)%nat /\
  ((forall k e, In (k, e) (edges m) -> eAc e <> Some 0) -> symmetric KG) /\
  forall i j, mentry KG i j <> 0 -> (i mod 5 = 2 /\ j mod 5 = 2)%nat.
Proof. exact LKG.c40_symmetric. Qed.
Print Assumptions C40_symmetric.

(** kG is the work of the membrane forces N = A em + B eb of d: sum over the edges, with
    the stored integration points and areas. *)
Theorem C41_work : forall m m' pfn d, prepared_from m m' -> props_complete m pfn ->
  length d = (length (nodes m) * 5)%nat ->
  exists KG, calc_kG d m' pfn = Ok KG /\ mdim KG = (length (nodes m) * 5)%nat /\
    forall u v, form KG u v = Sum (stored_work m pfn (vec_of d) u v) (edges m').
Proof. exact LKG.c41_work. Qed.
Print Assumptions C41_work.

(** The same with the gradients as averages over the triangles on the edge. *)
Theorem C41_average : forall m m' pfn d, prepared_from m m' -> props_complete m pfn ->
  length d = (length (nodes m) * 5)%nat ->
  exists KG, calc_kG d m' pfn = Ok KG /\ mdim KG = (length (nodes m) * 5)%nat /\
    forall u v, form KG u v = kG_energy m pfn (vec_of d) u v.
Proof. exact LKG.c41_average. Qed.
Print Assumptions C41_average.

(** Any of the two property sources in calc_k0 followed by any of the two in calc_kG. *)
Example C41_work_ex : forall pfn, (exists m', prepared_from ex_mesh m') /\ props_complete ex_mesh pfn /\
  length (list_of 30 ex_lin) = (length (nodes ex_mesh) * 5)%nat.
Proof. exact LKG.c41_work_ex. Qed.

(** kG is linear in the static solution. *)
Theorem C42_linear : forall m m' pfn d d1 d2 a b, prepared_from m m' -> props_complete m pfn ->
  length d = (length (nodes m) * 5)%nat -> length d1 = length d -> length d2 = length d ->
  (forall i, vec_of d i = a * vec_of d1 i + b * vec_of d2 i) ->
  exists KG KG1 KG2, calc_kG d m' pfn = Ok KG /\ calc_kG d1 m' pfn = Ok KG1 /\ calc_kG d2 m' pfn = Ok KG2 /\
    is_lin KG a KG1 b KG2.
Proof. exact LKG.c42_linear. Qed.
Print Assumptions C42_linear.

Example C42_linear_ex : let d1 := list_of 30 ex_lin in let d2 := list_of 30 ex_rot in
  let d := list_of 30 (fun i => 2 * ex_lin i + 3 * ex_rot i) in
  forall i, vec_of d i = 2 * vec_of d1 i + 3 * vec_of d2 i.
Proof. exact LKG.c42_linear_ex. Qed.

(** A rigid motion d gives kG = 0; and for every d the deflection w = constant (with any
    values of the other components) is mapped to zero. *)
Theorem C43_rigid : forall m m' pfn d, prepared_from m m' -> props_complete m pfn ->
  length d = (length (nodes m) * 5)%nat ->
  exists KG, calc_kG d m' pfn = Ok KG /\
    (rigid m (vec_of d) -> forall i j, (i < mdim KG)%nat -> (j < mdim KG)%nat -> mentry KG i j = 0) /\
    (forall u a, (forall n, In n (node_keys m) -> comp m u 2 n = a) ->
       forall i, (i < mdim KG)%nat -> mulv KG u i = 0).
Proof. exact LKG.c43_rigid. Qed.
Print Assumptions C43_rigid.

Example C43_rigid_ex : rigid ex_mesh (vec_of (list_of 30 ex_rot)).
Proof. exact LKG.c43_rigid_ex. Qed.

(** Uniform membrane force: for d affine in x and y and one property the membrane force of
    every edge is the exact one, and for affine w the energy is the area of the plate times
    the work density. *)
Theorem C44_uniform : forall m m' pfn d p a b c, prepared_from m m' -> props_complete m pfn ->
  length d = (length (nodes m) * 5)%nat -> all_props m (fun q => q = p) ->
  affine_field m (vec_of d) a b c ->
  let N := membrane (pA p) (pB p) (affine_strain b c) in
  exists KG, calc_kG d m' pfn = Ok KG /\
    (forall k e, In (k, e) (edges m') ->
       membrane (edge_stiffness m pfn pA k) (edge_stiffness m pfn pB k) (edge_strain m e (stored_area e) (vec_of d)) = N) /\
    forall u v wu gx gy wv hx hy, affine_w m u wu gx gy -> affine_w m v wv hx hy ->
      form KG u v = total_area m * work N gx gy hx hy.
Proof. exact LKG.c44_uniform. Qed.
Print Assumptions C44_uniform.

Example C44_uniform_ex : (exists m', prepared_from ex_one m') /\ all_props ex_one (fun q => q = ex_prop 2) /\
  exists a b c, affine_field ex_one (vec_of (list_of 30 ex_lin)) a b c /\ affine_strain b c = Strain 1 3 (2 + 5) 0 4 (6 + 0).
Proof. exact LKG.c44_uniform_ex. Qed.

(** The index that completes the four node positions of an edge with one triangle has no
    effect: with any node index (for k0 also counted from the end), possibly a different one
    for each edge, the matrices are the same. *)
Theorem C45_dummy_k0 : forall m pfn, valid m pfn -> exists m' K, calc_k0 m pfn = (m', Ok K) /\
  let assemble dummy := k0_assemble_dummy dummy m' pfn (edges m') (zeros (length (nodes m) * 5)) in
  assemble (fun _ => (-1)%Z) = Ok K /\
  forall dummy, (forall k, - Z.of_nat (length (nodes m)) <= dummy k < Z.of_nat (length (nodes m)))%Z ->
    exists K', assemble dummy = Ok K' /\ meq K K'.
Proof. exact LKG.c45_dummy_k0. Qed.
Print Assumptions C45_dummy_k0.

Theorem C45_dummy_kG : forall m m' pfn d, prepared_from m m' -> props_complete m pfn ->
  length d = (length (nodes m) * 5)%nat ->
  let assemble dummy := kG_assemble_dummy dummy m' pfn d (edges m') (zeros (length d / 5 * 5)) in
  exists KG, calc_kG d m' pfn = Ok KG /\ assemble (fun _ => 0%Z) = Ok KG /\
  forall dummy, (forall k, 0 <= dummy k < Z.of_nat (length (nodes m)))%Z ->
    exists K', assemble dummy = Ok K' /\ meq KG K'.
Proof. exact LKG.c45_dummy_kG. Qed.
Print Assumptions C45_dummy_kG.

(** the plate of the examples has four edges with one triangle, among them edges with the first node *)
Example C45_dummy_k0_ex : forall pfn, valid ex_mesh pfn /\
  map fst (filter (fun kl => Nat.eqb (snd kl) 1) (map (fun k => (k, length (tris_on ex_mesh k))) (edge_keys ex_mesh)))
  = [(1, 2); (2, 3); (3, 4); (1, 4)]%nat.
Proof. exact LKG.c45_dummy_k0_ex. Qed.

(** calc_kG returns on a concrete plate with non-degenerate domains, and the matrix is not zero *)
Example C40_symmetric_ex : forall pfn, exists m' KG, calc_kG (list_of 30 ex_lin) m' pfn = Ok KG /\ mdim KG = 30%nat /\
  (forall k e, In (k, e) (edges m') -> eAc e <> Some 0) /\ exists u, form KG u u <> 0.
Proof. exact LKG.c40_symmetric_ex. Qed.
