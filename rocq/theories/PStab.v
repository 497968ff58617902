(** Properties proved in LStab.v, generated from it by tools/mkprops.py.
    Nothing but statements: each proof is one lemma of that file. *)
From Coq Require Import ZArith Reals List Bool Arith String.
From Verif Require Import Num Py Mesh Utils CalcK0 AddK0s Spec SpecK0 SpecKG SpecK0s SpecStab Ex ExK0 ExK0s ExStab.
From Verif Require LStab.
Import ListNotations.
Local Open Scope R_scope.

(** For positive definite laminates k0 has energy for everything but these displacements: in every
    part of the plate that hangs together over common sides, u and v are a rigid motion in
    the plane, the rotations phi_x and phi_y have the same form, and w is arbitrary. These are also
    the displacements with k0 u = 0. *)
Theorem C64_modes : forall m pfn, valid m pfn -> all_props m pos_def ->
  exists m' K, calc_k0 m pfn = (m', Ok K) /\
  forall u,
    (form K u u = 0 <-> forall t, In t (trias_of m) ->
       plane_motion m (in_part m t) (comp m u 0) (comp m u 1) /\ plane_motion m (in_part m t) (comp m u 3) (comp m u 4)) /\
    (form K u u = 0 <-> forall i, (i < mdim K)%nat -> mulv K u i = 0).
Proof. exact LStab.c64_modes. Qed.
Print Assumptions C64_modes.

Example C64_modes_ex : forall pfn, valid ex_mesh pfn /\ all_props ex_mesh pos_def /\
  (forall t t', In t (trias_of ex_mesh) -> In t' (trias_of ex_mesh) -> linked ex_mesh t t').
Proof. exact LStab.c64_modes_ex. Qed.

(** With a cell-based shear stiffness added, positive definite laminates and positive shear stiffness:
    the only displacements without energy are those in which every part of the plate moves as
    a rigid body: u and v a rigid motion in the plane, phi_x and phi_y constant, and w the plane
    with these slopes (slopes (1 + 1e-15) phi for "cell-based" because of the decimals, C35). Missing
    to the full statement: for "cell-based" every triangle must have a neighbour, for the other method
    some triangle of every part must have a neighbour across from its gap node. *)
Theorem C65_rigid_partial : forall method m pfn alpha mfa, In method cell_methods -> valid m pfn ->
  all_props m pos_def -> all_props m shear_pos -> 0 <= alpha -> braced method m ->
  exists m' K k', calc_k0 m pfn = (m', Ok K) /\ add_k0s lits_src K m' pfn method alpha mfa = (k', Ok tt) /\
  forall u,
    (form k' u u = 0 <-> rigid_parts (1 + literal_error method) m u) /\
    (form k' u u = 0 <-> forall i, (i < mdim k')%nat -> mulv k' u i = 0).
Proof. exact LStab.c65_rigid_partial. Qed.
Print Assumptions C65_rigid_partial.

Example C65_rigid_ex : forall pfn, valid ex_mesh pfn /\ all_props ex_mesh pos_def /\ all_props ex_mesh shear_pos /\
  braced "cell-based" ex_mesh /\ braced "cell-based-no-smoothing" ex_mesh.
Proof. exact LStab.c65_rigid_ex. Qed.

(** Not so for a single triangle: phi = (1/3 - y, x - 1/3) has no energy with "cell-based" ... *)
Theorem C65_lone_refuted : forall alpha mfa, 0 <= alpha ->
  exists m m' K k' u, valid m true /\ all_props m pos_def /\ all_props m shear_pos /\
    calc_k0 m true = (m', Ok K) /\ add_k0s lits_src K m' true "cell-based" alpha mfa = (k', Ok tt) /\
    form k' u u = 0 /\ (forall f, ~ rigid_parts f m u).
Proof. exact LStab.c65_lone_refuted. Qed.
Print Assumptions C65_lone_refuted.

(** ... and for a square of two triangles phi = (- y, x) has none with "cell-based-no-smoothing". *)
Theorem C65_no_smoothing_refuted : forall alpha mfa, 0 <= alpha ->
  exists m m' K k' u, valid m true /\ all_props m pos_def /\ all_props m shear_pos /\
    (forall t, In t (trias_of m) -> has_neighbour m t) /\
    calc_k0 m true = (m', Ok K) /\ add_k0s lits_src K m' true "cell-based-no-smoothing" alpha mfa = (k', Ok tt) /\
    form k' u u = 0 /\ (forall f, ~ rigid_parts f m u).
Proof. exact LStab.c65_no_smoothing_refuted. Qed.
Print Assumptions C65_no_smoothing_refuted.

(** A static problem has exactly one solution: for supports that allow no rigid motion and any loads there is
    one displacement vector that is zero in the supports and whose forces are the loads elsewhere. *)
Theorem C66_unique : forall method m pfn alpha mfa, In method cell_methods -> valid m pfn ->
  all_props m pos_def -> all_props m shear_pos -> 0 <= alpha -> braced method m ->
  exists m' K k', calc_k0 m pfn = (m', Ok K) /\ add_k0s lits_src K m' pfn method alpha mfa = (k', Ok tt) /\
  forall S load, supported (1 + literal_error method) m S ->
  exists d, solves k' S load d /\ forall d', solves k' S load d' -> forall i, (i < List.length (nodes m) * 5)%nat -> d' i = d i.
Proof. exact LStab.c66_unique. Qed.
Print Assumptions C66_unique.

Example C66_unique_ex : forall pfn, valid duo pfn /\ all_props duo pos_def /\ all_props duo shear_pos /\ braced "cell-based" duo /\ in_one_piece duo.
Proof. exact LStab.c66_unique_ex. Qed.

(** Six supports are enough for a plate in one piece: w in three nodes that are not on a line, u and v in
    one node, and in another u (if it has another y) or v (if it has another x). *)
Theorem C66_six : forall f m S a b n1 n2 n3, wf_mesh m -> in_one_piece m -> f <> 0 ->
  In a (node_keys m) -> In b (node_keys m) -> In n1 (node_keys m) -> In n2 (node_keys m) -> In n3 (node_keys m) ->
  apart3 m n1 n2 n3 -> S (dof m n1 2) = true -> S (dof m n2 2) = true -> S (dof m n3 2) = true ->
  S (dof m a 0) = true -> S (dof m a 1) = true ->
  (S (dof m b 0) = true /\ vy (pos m b) <> vy (pos m a) \/ S (dof m b 1) = true /\ vx (pos m b) <> vx (pos m a)) ->
  supported f m S.
Proof. exact LStab.c66_six. Qed.
Print Assumptions C66_six.

Example C66_six_ex : forall f, f <> 0 -> supported f duo (fun i => (i mod 5 <? 3)%nat && (i <? 15)%nat).
Proof. exact LStab.c66_six_ex. Qed.

(** One clamped node and one more node held in the plane are enough too. *)
Theorem C66_clamped : forall f m S a b, wf_mesh m -> in_one_piece m ->
  In a (node_keys m) -> In b (node_keys m) -> (vx (pos m a) <> vx (pos m b) \/ vy (pos m a) <> vy (pos m b)) ->
  (forall c, (c < 5)%nat -> S (dof m a c) = true) -> S (dof m b 0) = true -> S (dof m b 1) = true ->
  supported f m S.
Proof. exact LStab.c66_clamped. Qed.
Print Assumptions C66_clamped.

Example C66_clamped_ex : forall f, supported f duo (fun i => (i <? 7)%nat).
Proof. exact LStab.c66_clamped_ex. Qed.

(** Without [braced] it fails: a single triangle ("cell-based") and the square of two triangles
    ("cell-based-no-smoothing") with u, v and w supported in every node allow no rigid motion, but without load
    rotations that are not zero solve the problem. *)
Theorem C66_unbraced_refuted : forall method alpha mfa, In method cell_methods -> 0 <= alpha ->
  exists m m' K k' d i, valid m true /\ all_props m pos_def /\ all_props m shear_pos /\ in_one_piece m /\
    calc_k0 m true = (m', Ok K) /\ add_k0s lits_src K m' true method alpha mfa = (k', Ok tt) /\
    (forall f, f <> 0 -> supported f m all_hinged) /\ solves k' all_hinged (fun _ => 0) d /\ (i < mdim k')%nat /\ d i <> 0.
Proof. exact LStab.c66_unbraced_refuted. Qed.
Print Assumptions C66_unbraced_refuted.

(** Smoothing never stiffens: in a plate of one laminate with positive semi-definite stiffness the energy of any displacement
    is at most its strain energy in the linear triangles. *)
Theorem C67_softer : forall m pfn p, valid m pfn -> all_props m (fun q => q = p) -> psd p ->
  exists m' K, calc_k0 m pfn = (m', Ok K) /\ forall u, form K u u <= linear_energy m p u.
Proof. exact LStab.c67_softer. Qed.
Print Assumptions C67_softer.

Example C67_softer_ex : forall pfn, valid ex_one pfn /\ all_props ex_one (fun q => q = ex_prop 2) /\ psd (ex_prop 2).
Proof. exact LStab.c67_softer_ex. Qed.
