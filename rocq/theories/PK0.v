(** Properties proved in LK0.v, generated from it by tools/mkprops.py.
    Nothing but statements: each proof is one lemma of that file. *)
From Coq Require Import ZArith Reals List Bool Arith Permutation.
From Verif Require Import Num Py Mesh Utils CalcK0 Ops Spec SpecRead SpecK0 Ex ExK0.
From Verif Require LK0.
Import ListNotations.
Local Open Scope R_scope.

(** Smoothing domains tile the plate: after calc_k0 each edge stores a positive area, one
    third of the areas of the triangles on it, and these areas add up to the area of the
    plate. *)
Theorem C16_tiling : forall m pfn, valid m pfn -> exists m' K, calc_k0 m pfn = (m', Ok K) /\
  (forall k e, In (k, e) (edges m') -> exists A, eAc e = Some A /\ 0 < A /\
     A = Sum (tarea m) (tris_on m k) / 3) /\
  Sum (fun ke => stored_area (snd ke)) (edges m') = total_area m.
Proof. exact LK0.c16_tiling. Qed.
Print Assumptions C16_tiling.

(** The hypothesis is met by a concrete plate of area 12, for both property sources. *)
Example C16_tiling_ex : forall pfn, valid ex_mesh pfn /\ total_area ex_mesh = 12.
Proof. exact LK0.c16_tiling_ex. Qed.

(** Integration points describe the closed outward boundary of the smoothing domains. *)
Theorem C17_boundary : forall m pfn, valid m pfn -> exists m' K, calc_k0 m pfn = (m', Ok K) /\
  edge_keys m' = edge_keys m /\ forall k e, In (k, e) (edges m') -> domain_ok m k e.
Proof. exact LK0.c17_boundary. Qed.
Print Assumptions C17_boundary.

(** The plate has edges with one and with two triangles. *)
Example C17_boundary_ex : forall pfn, valid ex_mesh pfn /\
  map (fun k => length (tris_on ex_mesh k)) (edge_keys ex_mesh) = [1; 2; 2; 1; 2; 1; 2; 1]%nat.
Proof. exact LK0.c17_boundary_ex. Qed.

(** Numbering: on any mesh whatsoever, if calc_k0 returns, the nodes have the indices
    0 .. n-1 in dictionary order and the matrix is 5n x 5n. *)
Theorem C18_numbering : forall (T : Type) (NT : Num T) (m : mesh T) pfn (m' : mesh T) K, calc_k0 m pfn = (m', Ok K) ->
  node_keys m' = node_keys m /\
  map (fun kn => nindex (snd kn)) (nodes m') = map Some (seq 0 (length (nodes m))) /\
  mdim K = (length (nodes m) * 5)%nat.
Proof. exact LK0.c18_numbering. Qed.
Print Assumptions C18_numbering.

Example C18_numbering_ex : forall pfn, exists m' K, calc_k0 ex_mesh pfn = (m', Ok K) /\ mdim K = 30%nat.
Proof. exact LK0.c18_numbering_ex. Qed.

(** k0 is the smoothed strain energy: the sum over the edges of the area of the smoothing
    domain times the product of the strains with the laminate stiffness of the edge, the
    strains being the boundary integrals of the displacements over the stored
    integration points. *)
Theorem C19_energy : forall m pfn, valid m pfn -> exists m' K, calc_k0 m pfn = (m', Ok K) /\
  forall u v, form K u v =
    Sum (fun ke => let Ac := stored_area (snd ke) in
           Ac * dens (edge_stiffness m pfn pA (fst ke)) (edge_stiffness m pfn pB (fst ke))
                     (edge_stiffness m pfn pD (fst ke))
                     (edge_strain m (snd ke) Ac u) (edge_strain m (snd ke) Ac v)) (edges m').
Proof. exact LK0.c19_energy. Qed.
Print Assumptions C19_energy.

(** The same with the strains as averages over the triangles on the edge, and calc_k0
    changes none of the data of the mesh. *)
Theorem C19_average : forall m pfn, valid m pfn -> exists m' K, calc_k0 m pfn = (m', Ok K) /\
  (forall u v, form K u v = k0_energy m pfn u v) /\ same_data m m'.
Proof. exact LK0.c19_average. Qed.
Print Assumptions C19_average.

(** k0 is symmetric, on any mesh whatsoever on which calc_k0 returns and none of the
    smoothing domains is degenerate (numpy would divide by zero), for any A, B, D. *)
Theorem C20_symmetric : forall (m : mesh R) pfn m' K, calc_k0 m pfn = (m', Ok K) ->
  (forall k e, In (k, e) (edges m') -> eAc e <> Some 0) -> symmetric K.
Proof. exact LK0.c20_symmetric. Qed.
Print Assumptions C20_symmetric.

Example C20_symmetric_ex : forall pfn, exists m' K, calc_k0 ex_mesh pfn = (m', Ok K) /\
  (forall k e, In (k, e) (edges m') -> eAc e <> Some 0).
Proof. exact LK0.c20_symmetric_ex. Qed.

(** k0 is positive semi-definite if all the laminate matrices are. *)
Theorem C21_psd : forall m pfn, valid m pfn -> all_props m psd -> exists m' K, calc_k0 m pfn = (m', Ok K) /\
  forall u, 0 <= form K u u.
Proof. exact LK0.c21_psd. Qed.
Print Assumptions C21_psd.

Example C21_psd_ex : forall pfn, valid ex_mesh pfn /\ all_props ex_mesh psd.
Proof. exact LK0.c21_psd_ex. Qed.

(** Rigid body motions are in the null space of k0. *)
Theorem C22_rigid : forall m pfn, valid m pfn -> exists m' K, calc_k0 m pfn = (m', Ok K) /\
  forall u, rigid m u -> forall i, (i < mdim K)%nat -> mulv K u i = 0.
Proof. exact LK0.c22_rigid. Qed.
Print Assumptions C22_rigid.

(** a rotation about (1, 1) together with an arbitrary w *)
Example C22_rigid_ex : forall pfn, valid ex_mesh pfn /\ rigid ex_mesh ex_rot.
Proof. exact LK0.c22_rigid_ex. Qed.

(** Constant strain: for displacements that are affine in x and y the strain of every edge
    is the exact constant strain; with one property for the whole plate the energy is the
    area of the plate times the energy density. *)
Theorem C23_constant_strain : forall m pfn, valid m pfn -> exists m' K, calc_k0 m pfn = (m', Ok K) /\
  (forall u a b d, affine_field m u a b d -> forall k e, In (k, e) (edges m') ->
     edge_strain m e (stored_area e) u = affine_strain b d) /\
  (forall p, all_props m (fun q => q = p) ->
   forall u a b d u' a' b' d', affine_field m u a b d -> affine_field m u' a' b' d' ->
     form K u u' = total_area m * dens (pA p) (pB p) (pD p) (affine_strain b d) (affine_strain b' d')).
Proof. exact LK0.c23_constant_strain. Qed.
Print Assumptions C23_constant_strain.

(** one laminate on the whole plate and a field with non-zero strain and curvature *)
Example C23_constant_strain_ex : forall pfn, valid ex_one pfn /\ all_props ex_one (fun q => q = ex_prop 2) /\
  exists a b d, affine_field ex_one ex_lin a b d /\ affine_strain b d = Strain 1 3 (2 + 5) 0 4 (6 + 0).
Proof. exact LK0.c23_constant_strain_ex. Qed.

(** Missing properties are rejected with ValueError and the mesh is left unchanged; if no
    property is missing calc_k0 returns (on a mesh of at least one node in which every
    edge has one or two triangles, two triangles on an edge not being twins). *)
Theorem C24_missing_properties : forall (T : Type) (NT : Num T) (m : mesh T) pfn, wf_mesh m ->
  (~ props_complete m pfn -> calc_k0 m pfn = (m, Raise ValueError)) /\
  (props_complete m pfn -> nodes m <> [] -> manifold m -> ~ has_twins m ->
   exists (m' : mesh T) K, calc_k0 m pfn = (m', Ok K)).
Proof. exact LK0.c24_missing_properties. Qed.
Print Assumptions C24_missing_properties.

(** the plate before properties are assigned, and after *)
Example C24_missing_properties_ex : forall pfn, wf_mesh ex_read /\ ~ props_complete ex_read pfn /\
  wf_mesh ex_mesh /\ props_complete ex_mesh pfn.
Proof. exact LK0.c24_missing_properties_ex. Qed.

(** NotImplementedError is raised exactly if some edge has three or more triangles. *)
Theorem C25_non_manifold : forall (T : Type) (NT : Num T) (m : mesh T) pfn, wf_mesh m -> props_complete m pfn ->
  (snd (calc_k0 m pfn) = Raise NotImplementedError <->
   exists k, In k (edge_keys m) /\ (3 <= length (tris_on m k))%nat).
Proof. exact LK0.c25_non_manifold. Qed.
Print Assumptions C25_non_manifold.

Example C25_non_manifold_ex : forall pfn, wf_mesh ex_three /\ props_complete ex_three pfn /\
  In (1, 2)%nat (edge_keys ex_three) /\ length (tris_on ex_three (1, 2)%nat) = 3%nat.
Proof. exact LK0.c25_non_manifold_ex. Qed.

(** k0 couples only vertices of the triangles on a common edge, does not touch w, and has
    zero rows for nodes that belong to no triangle. *)
Theorem C26_sparsity : forall m pfn, valid m pfn -> exists m' K, calc_k0 m pfn = (m', Ok K) /\
  (forall n n' c c', In n (node_keys m) -> In n' (node_keys m) -> (c < 5)%nat -> (c' < 5)%nat ->
   mentry K (rank m n * 5 + c) (rank m n' * 5 + c') <> 0 ->
   c <> 2%nat /\ c' <> 2%nat /\ exists k, In k (edge_keys m) /\ on_domain m k n /\ on_domain m k n') /\
  (forall n c j, In n (node_keys m) -> (c < 5)%nat -> (j < mdim K)%nat ->
   (forall t, In t (trias_of m) -> ~ vertex t n) ->
   mentry K (rank m n * 5 + c) j = 0 /\ mentry K j (rank m n * 5 + c) = 0).
Proof. exact LK0.c26_sparsity. Qed.
Print Assumptions C26_sparsity.

(** In any arithmetic (also in that of the computer): an entry that no edge reaches is the
    zero that np.zeros wrote. *)
Theorem C26_any_arithmetic : forall (T : Type) (NT : Num T) (m : mesh T) pfn (m' : mesh T) K, wf_mesh m ->
  calc_k0 m pfn = (m', Ok K) ->
  forall n n' c c', In n (node_keys m) -> In n' (node_keys m) -> (c < 5)%nat -> (c' < 5)%nat ->
  (forall k, In k (edge_keys m) -> ~ (c <> 2%nat /\ c' <> 2%nat /\ reaches m k n /\ reaches m k n')) ->
  mentry K (rank m n * 5 + c) (rank m n' * 5 + c') = nofZ 0.
Proof. exact LK0.c26_any_arithmetic. Qed.
Print Assumptions C26_any_arithmetic.

(** node 6 belongs to no triangle; nodes 1 and 3 share no edge but the domain of (2, 5) *)
Example C26_sparsity_ex : forall pfn, valid ex_mesh pfn /\ In 6%nat (node_keys ex_mesh) /\
  (forall t, In t (trias_of ex_mesh) -> ~ vertex t 6).
Proof. exact LK0.c26_sparsity_ex. Qed.

(** Whatever happened to the mesh before (calc_k0 with either setting, add_k0s, calc_kG,
    property assignments, node moves, also failed calls), the result of calc_k0 is that of
    the mesh on which only the assignments and moves were made. *)
Theorem C27_history : forall (T : Type) (NT : Num T) ops (m : mesh T) pfn,
  snd (calc_k0 (run ops m) pfn) = snd (calc_k0 (run (filter is_assignment ops) m) pfn) /\
  (forall K, snd (calc_k0 (run ops m) pfn) = Ok K ->
     calc_k0 (run ops m) pfn = calc_k0 (run (filter is_assignment ops) m) pfn).
Proof. exact LK0.c27_history. Qed.
Print Assumptions C27_history.

(** In particular a second call returns the same matrix. *)
Theorem C27_twice : forall (T : Type) (NT : Num T) (m : mesh T) pfn pfn',
  snd (calc_k0 (fst (calc_k0 m pfn')) pfn) = snd (calc_k0 m pfn).
Proof. exact LK0.c27_twice. Qed.
Print Assumptions C27_twice.

(** A mesh made by a reader from triangles with distinct vertices is well formed and stays
    so whatever happens to it. *)
Theorem C27_well_formed : forall (T : Type) (NT : Num T) (m : mesh T) ops, reads m -> (forall t, In t (trias_of m) -> distinct t) -> wf_mesh (run ops m).
Proof. exact LK0.c27_well_formed. Qed.
Print Assumptions C27_well_formed.

(** a history with failed and successful calls, assignments and a move *)
Example C27_well_formed_ex : reads ex_read /\ (forall t, In t (trias_of ex_read) -> distinct t) /\
  filter is_assignment (OpCalcK0 true :: ex_ops ++ [OpCalcK0 false; OpMove 5 (V3 2 1 0); OpCalcKG [] true])
  = ex_ops ++ [OpMove 5 (V3 2 1 0)].
Proof. exact LK0.c27_well_formed_ex. Qed.

(** The order of the elements, their ids and the order of their vertices do not matter. *)
Theorem C28_renumbering : forall m m' pfn, valid m pfn -> wf_mesh m' -> same_plate_as m m' ->
  exists m1 K m1' K', calc_k0 m pfn = (m1, Ok K) /\ calc_k0 m' pfn = (m1', Ok K') /\ meq K K'.
Proof. exact LK0.c28_renumbering. Qed.
Print Assumptions C28_renumbering.

(** the same plate with the elements in another order, with other vertex orders *)
Example C28_renumbering_ex : forall pfn, valid ex_mesh pfn /\ wf_mesh ex_mesh2 /\ same_plate_as ex_mesh ex_mesh2 /\
  map eid (trias_of ex_mesh2) = [1; 2; 3; 4]%nat /\ edge_keys ex_mesh2 <> edge_keys ex_mesh.
Proof. exact LK0.c28_renumbering_ex. Qed.

(** k0 is linear in the laminate stiffness: if every property is c times one plus c' times
    another, then so is k0. *)
Theorem C29_linear : forall m np tp np1 tp1 np2 tp2 c c' pfn,
  valid (with_props np tp m) pfn ->
  (forall n, lin_opt c c' (np n) (np1 n) (np2 n)) -> (forall e, lin_opt c c' (tp e) (tp1 e) (tp2 e)) ->
  exists m' K m1 K1 m2 K2,
    calc_k0 (with_props np tp m) pfn = (m', Ok K) /\
    calc_k0 (with_props np1 tp1 m) pfn = (m1, Ok K1) /\
    calc_k0 (with_props np2 tp2 m) pfn = (m2, Ok K2) /\ is_lin K c K1 c' K2.
Proof. exact LK0.c29_linear. Qed.
Print Assumptions C29_linear.

(** different laminates in all nodes and triangles *)
Example C29_linear_ex : forall pfn, let np (n : nat) := Some (ex_prop (2 * INR n + 3 * 5)) in
  valid (with_props np np ex_mesh) pfn /\
  forall n, lin_opt 2 3 (np n) (Some (ex_prop (INR n))) (Some (ex_prop 5)).
Proof. exact LK0.c29_linear_ex. Qed.

(** What calc_k0 does, in any arithmetic, is decided by the connectivity and the
    properties: it returns exactly if all properties are there, there are nodes, every edge
    has at most two triangles and no two elements have the same vertices. *)
Theorem C71_outcome : forall (T : Type) (NT : Num T) (m : mesh T) pfn, wf_mesh m ->
  match snd (calc_k0 m pfn) with
  | Ok K => props_complete m pfn /\ nodes m <> [] /\ manifold m /\ ~ has_twins m /\
      mdim K = (length (nodes m) * 5)%nat
  | Raise ValueError => ~ props_complete m pfn \/ manifold m /\ (nodes m = [] \/ has_twins m)
  | Raise NotImplementedError => props_complete m pfn /\ ~ manifold m
  | Raise _ => False
  end.
Proof. exact LK0.c71_outcome. Qed.
Print Assumptions C71_outcome.

(** the four outcomes *)
Example C71_outcome_ex : forall pfn, wf_mesh ex_mesh /\ (exists K, snd (calc_k0 ex_mesh pfn) = Ok K) /\
  wf_mesh ex_read /\ snd (calc_k0 ex_read pfn) = Raise ValueError /\
  wf_mesh ex_three /\ snd (calc_k0 ex_three pfn) = Raise NotImplementedError /\
  wf_mesh ex_twins /\ snd (calc_k0 ex_twins pfn) = Raise ValueError.
Proof. exact LK0.c71_outcome_ex. Qed.
