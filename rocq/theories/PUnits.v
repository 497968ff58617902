(** Properties proved in LUnits.v, generated from it by tools/mkprops.py.
    Nothing but statements: each proof is one lemma of that file. *)
From Coq Require Import ZArith Reals List Bool Arith String FunctionalExtensionality.
From Verif Require Import Num Py Mesh Utils CalcK0 CalcKG AddK0s Spec SpecK0 SpecKG SpecK0s SpecStab SpecStat SpecMono SpecUnits Ex ExK0 ExK0s ExStab.
From Verif Require LUnits.
Import ListNotations.
Local Open Scope R_scope.

(** Lengths measured in another unit and forces in another: the matrices of calc_k0, of add_k0s with all three methods and of calc_kG are
    those of the old units, converted. *)
Theorem C94_matrices : forall method m pfn alpha mfa c f, In method methods -> valid m pfn -> thick m -> 0 <= alpha -> 0 < c -> 0 < f ->
  exists m1 K1 k1 m2 K2 k2,
    calc_k0 m pfn = (m1, Ok K1) /\ add_k0s lits_src K1 m1 pfn method alpha mfa = (k1, Ok tt) /\
    calc_k0 (mesh_units c f m) pfn = (m2, Ok K2) /\ add_k0s lits_src K2 m2 pfn method alpha mfa = (k2, Ok tt) /\
    other_units c f K1 K2 /\ other_units c f k1 k2 /\
    forall d d', List.length d = (List.length (nodes m) * 5)%nat -> List.length d' = List.length d -> (forall i, vec_of d' i = dof_unit c i * vec_of d i) ->
      exists G1 G2, calc_kG d m1 pfn = Ok G1 /\ calc_kG d' m2 pfn = Ok G2 /\ other_units c f G1 G2 /\ mdim G1 = mdim k1.
Proof. exact LUnits.c94_matrices. Qed.
Print Assumptions C94_matrices.

(** the square of two triangles, from metres and newtons to millimetres and kilonewtons *)
Example C94_matrices_ex : (forall pfn, valid duo pfn) /\ thick duo /\ pos (mesh_units 1000 (1/1000) duo) 3 = V3 (1000 * 1) (1000 * 1) (1000 * 0) /\
  ph (prop_units 1000 (1/1000) (ex_prop 1)) = 100 /\ m00 (pD (prop_units 1000 (1/1000) (ex_prop 1))) = 20.
Proof. exact LUnits.c94_matrices_ex. Qed.

(** In the new units the same displacements are the solutions for the same loads, and buckling modes and load factors are the same. *)
Theorem C94_answers : forall method m pfn alpha mfa c f, In method methods -> valid m pfn -> thick m -> 0 <= alpha -> 0 < c -> 0 < f ->
  exists m1 K1 k1 m2 K2 k2,
    calc_k0 m pfn = (m1, Ok K1) /\ add_k0s lits_src K1 m1 pfn method alpha mfa = (k1, Ok tt) /\
    calc_k0 (mesh_units c f m) pfn = (m2, Ok K2) /\ add_k0s lits_src K2 m2 pfn method alpha mfa = (k2, Ok tt) /\
    (forall S load d, solves k1 S load d <-> solves k2 S (load_units c f load) (in_units c d)) /\
    forall d d', List.length d = (List.length (nodes m) * 5)%nat -> List.length d' = List.length d -> (forall i, vec_of d' i = dof_unit c i * vec_of d i) ->
      exists G1 G2, calc_kG d m1 pfn = Ok G1 /\ calc_kG d' m2 pfn = Ok G2 /\ forall S,
        (forall a b x y, buckling_mode k1 G1 S a b x y <-> buckling_mode k2 G2 S a b (in_units c x) (in_units c y)) /\
        forall a, critical_factor k1 G1 S a <-> critical_factor k2 G2 S a.
Proof. exact LUnits.c94_answers. Qed.
Print Assumptions C94_answers.

Example C94_answers_ex : forall d, List.length d = 20%nat -> let d' := list_of 20 (in_units 1000 (vec_of d)) in
  List.length d' = List.length d /\ (forall i, vec_of d' i = dof_unit 1000 i * vec_of d i) /\ dof_unit 1000 7 = 1000 /\ dof_unit 1000 9 = 1.
Proof. exact LUnits.c94_answers_ex. Qed.
