(** Properties proved in LEq.v, generated from it by tools/mkprops.py.
    Nothing but statements: each proof is one lemma of that file. *)
From Coq Require Import ZArith Reals List Bool Arith Permutation.
From Verif Require Import Num Py Mesh Utils CalcK0 CalcKG Spec SpecK0 SpecKG SpecEq Ex ExK0.
From Verif Require LEq.
Import ListNotations.
Local Open Scope R_scope.

(** Equilibrium: on a plate of one laminate with displacements that are affine in x and y the
    nodal forces of k0 are those of the constant forces and moments acting on the boundary,
    half of each boundary edge to each of its ends; nothing acts on w. *)
Theorem C58_equilibrium : forall m pfn p, valid m pfn -> all_props m (fun q => q = p) ->
  exists m' K, calc_k0 m pfn = (m', Ok K) /\
  forall u a b d n L, affine_field m u a b d -> In n (node_keys m) ->
    (forall k, In k (boundary_at m n) -> outward m k (L k)) ->
    let N := forces p (affine_strain b d) in let M := moments p (affine_strain b d) in
    mulv K u (rank m n * 5 + 0) = edge_load_x m L N n /\
    mulv K u (rank m n * 5 + 1) = edge_load_y m L N n /\
    mulv K u (rank m n * 5 + 2) = 0 /\
    mulv K u (rank m n * 5 + 3) = edge_load_x m L M n /\
    mulv K u (rank m n * 5 + 4) = edge_load_y m L M n.
Proof. exact LEq.c58_equilibrium. Qed.
Print Assumptions C58_equilibrium.

(** the four boundary edges of the plate have outward normals; node 2 is at the corner (4, 0) *)
Example C58_equilibrium_ex : exists L, (forall n k, In k (boundary_at ex_one n) -> outward ex_one k (L k)) /\
  boundary_at ex_one 2 = [(1, 2); (2, 3)]%nat /\ fst (L (2, 3)%nat) = 3.
Proof. exact LEq.c58_equilibrium_ex. Qed.

(** The patch test: in a node in the interior of such a plate the nodal forces vanish. *)
Theorem C58_patch : forall m pfn p, valid m pfn -> all_props m (fun q => q = p) ->
  exists m' K, calc_k0 m pfn = (m', Ok K) /\
  forall u a b d n c, affine_field m u a b d -> In n (node_keys m) -> interior m n -> (c < 5)%nat ->
    mulv K u (rank m n * 5 + c) = 0.
Proof. exact LEq.c58_patch. Qed.
Print Assumptions C58_patch.

(** node 5 is in the interior of the plate *)
Example C58_patch_ex : forall pfn, valid ex_one pfn /\ all_props ex_one (fun q => q = ex_prop 2) /\ interior ex_one 5 /\
  exists a b d, affine_field ex_one ex_lin a b d /\ affine_strain b d = Strain 1 3 (2 + 5) 0 4 (6 + 0).
Proof. exact LEq.c58_patch_ex. Qed.

(** The same for kG: with constant membrane forces N and a deflection w that is affine in x
    and y the nodal forces of kG are those of N (the slope of w) on the boundary, and vanish in
    the interior. *)
Theorem C59_equilibrium : forall m m' pfn dd p a b c, prepared_from m m' -> props_complete m pfn ->
  length dd = (length (nodes m) * 5)%nat -> all_props m (fun q => q = p) -> affine_field m (vec_of dd) a b c ->
  let N := membrane (pA p) (pB p) (affine_strain b c) in
  exists KG, calc_kG dd m' pfn = Ok KG /\
  forall u w gx gy n L, affine_w m u w gx gy -> In n (node_keys m) ->
    (forall k, In k (boundary_at m n) -> outward m k (L k)) ->
    mulv KG u (rank m n * 5 + 2) =
      Sum (fun k => (fst (L k) * (vx N * gx + vz N * gy) + snd (L k) * (vz N * gx + vy N * gy)) / 2) (boundary_at m n) /\
    (interior m n -> mulv KG u (rank m n * 5 + 2) = 0).
Proof. exact LEq.c59_equilibrium. Qed.
Print Assumptions C59_equilibrium.

Example C59_equilibrium_ex : (exists m', prepared_from ex_one m') /\ all_props ex_one (fun q => q = ex_prop 2) /\
  (exists a b c, affine_field ex_one (vec_of (list_of 30 ex_lin)) a b c /\ affine_strain b c = Strain 1 3 (2 + 5) 0 4 (6 + 0)) /\
  interior ex_one 5.
Proof. exact LEq.c59_equilibrium_ex. Qed.
