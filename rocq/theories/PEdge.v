(** Properties proved in LEdge.v, generated from it by tools/mkprops.py.
    Nothing but statements: each proof is one lemma of that file. *)
From Coq Require Import ZArith Reals List Bool Arith String.
From Verif Require Import Num Py Mesh Utils CalcK0 AddK0s Spec SpecK0 SpecKG SpecK0s SpecEdge Ex ExK0 ExK0s.
From Verif Require LEdge.
Import ListNotations.
Local Open Scope R_scope.

(** Edge-based with exact fractions, on a plate whose edges with two triangles start in nodes with y = z: the call adds the
    energy of the discrete shear strains of the edge domains. Missing: the decimals of the code, and plates in other
    positions (refuted below). *)
Theorem C79_energy_partial : forall m m' pfn alpha mfa k, call_ok m m' pfn alpha k -> starts_level m ->
  exists k', add_k0s lits_frac k m' pfn "edge-based" alpha mfa = (k', Ok tt) /\
    adds k k' (fun u v => edge_energy m pfn alpha mfa (strain_edge m u) (strain_edge m v)).
Proof. exact LEdge.c79_energy_partial. Qed.
Print Assumptions C79_energy_partial.

Example C79_energy_partial_ex : forall pfn, let m := move 0 (-1) (two (shear_prop 1 1 1 1)) in
  (exists m', call_ok m m' pfn 2 (zeros 20)) /\ starts_level m /\ exists k t t', In k (edge_keys m) /\ tris_on m k = [t; t'].
Proof. exact LEdge.c79_energy_partial_ex. Qed.

(** With exact fractions and on the same plates: a constant shear strain is reproduced in every domain. *)
Theorem C79_constant_partial : forall m m' pfn alpha mfa k u wx wy px py, call_ok m m' pfn alpha k -> starts_level m ->
  constant_shear m u wx wy px py ->
  exists k', add_k0s lits_frac k m' pfn "edge-based" alpha mfa = (k', Ok tt) /\
    forall v, form k' u v = form k u v + edge_energy m pfn alpha mfa (fun _ => (wx + px, wy + py)) (strain_edge m v).
Proof. exact LEdge.c79_constant_partial. Qed.
Print Assumptions C79_constant_partial.

Example C79_constant_partial_ex : forall pfn, let m := move 0 (-1) (two (shear_prop 1 1 1 1)) in
  (exists m', call_ok m m' pfn 2 (zeros 20)) /\ starts_level m /\ exists u, constant_shear m u 0 1 0 (-1).
Proof. exact LEdge.c79_constant_partial_ex. Qed.

(** With exact fractions, on any plate with positive stiffness: a rigid rotation with a slope in y carries no energy if and
    only if all edges with two triangles start in nodes with y = z. *)
Theorem C79_rotation_partial : forall m m' pfn alpha mfa k u wx wy, call_ok m m' pfn alpha k -> stiff_pos m ->
  constant_shear m u wx wy (- wx) (- wy) -> wy <> 0 ->
  exists k', add_k0s lits_frac k m' pfn "edge-based" alpha mfa = (k', Ok tt) /\
    (form k' u u = form k u u <-> starts_level m).
Proof. exact LEdge.c79_rotation_partial. Qed.
Print Assumptions C79_rotation_partial.

Example C79_rotation_partial_ex : forall pfn h, let m := move 0 h (two (shear_prop 1 1 1 1)) in
  (exists m', call_ok m m' pfn 2 (zeros 20)) /\ stiff_pos m /\ (exists u, constant_shear m u 0 1 (- 0) (- 1)) /\ (starts_level m <-> h = -1).
Proof. exact LEdge.c79_rotation_partial_ex. Qed.

(** The code: there is no bound for the force that a rigid rotation with slope 1 causes; the plate is a unit square of two
    triangles with unit stiffness, moved in y. *)
Theorem C79_rotation_refuted : forall pfn mfa B, exists m m' k' u, call_ok m m' pfn 0 (zeros 20) /\ stiff_pos m /\
  constant_shear m u 0 1 0 (-1) /\ add_k0s lits_src (zeros 20) m' pfn "edge-based" 0 mfa = (k', Ok tt) /\ B < mulv k' u 7.
Proof. exact LEdge.c79_rotation_refuted. Qed.
Print Assumptions C79_rotation_refuted.
