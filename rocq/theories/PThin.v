(** Properties proved in LThin.v, generated from it by tools/mkprops.py.
    Nothing but statements: each proof is one lemma of that file. *)
From Coq Require Import ZArith Reals List Bool Arith String FunctionalExtensionality.
From Verif Require Import Num Py Mesh Utils CalcK0 CalcKG AddK0s Spec SpecK0 SpecKG SpecK0s SpecStab SpecStat SpecMono SpecThin Ex ExStab ExThin.
From Verif Require LThin.
Import ListNotations.
Local Open Scope R_scope.

(** With the correction of the shear stiffness by [alpha] > 0 the cell-based methods do not lock when all laminates get
    thinner: k0 scales exactly as the cube of the thickness, with the shear stiffness the matrix is between that and
    (1 + r) times that, with r from the thickness and the sizes of the triangles before, however thin it gets. So the
    work done by loads scaled like the bending stiffness stays between 1 / (1 + r) and 1 times what it was. *)
Theorem C100_thin : forall method m pfn alpha mfa r s, In method cell_methods -> valid m pfn -> all_props m pos_def -> all_props m shear_pos ->
  0 < alpha -> 0 <= r -> thinner m mfa alpha r -> 0 < s <= 1 ->
  exists m1 K1 k1 m2 K2 k2,
    calc_k0 m pfn = (m1, Ok K1) /\ add_k0s lits_src K1 m1 pfn method alpha mfa = (k1, Ok tt) /\
    calc_k0 (mesh_thin s m) pfn = (m2, Ok K2) /\ add_k0s lits_src K2 m2 pfn method alpha mfa = (k2, Ok tt) /\
    mdim k1 = (List.length (nodes m) * 5)%nat /\ mdim k2 = mdim k1 /\
    (forall u v, form K2 (thin_field s u) (thin_field s v) = s ^ 3 * form K1 u v) /\
    (forall u, s ^ 3 * form k1 u u <= form k2 (thin_field s u) (thin_field s u) <= s ^ 3 * ((1 + r) * form k1 u u)) /\
    forall S load d1 d2, solves k1 S load d1 -> solves k2 S (thin_load s load) d2 ->
      / (1 + r) * load_work (mdim k1) load d1 <= load_work (mdim k1) (thin_load s load) d2 / s ^ 3 <= load_work (mdim k1) load d1.
Proof. exact LThin.c100_thin. Qed.
Print Assumptions C100_thin.

Example C100_thin_ex : forall pfn, valid ex_mesh pfn /\ all_props ex_mesh pos_def /\ all_props ex_mesh shear_pos /\ thinner ex_mesh true (3 / 20) (1 / 20).
Proof. exact LThin.c100_thin_ex. Qed.

(** Without the correction ([alpha] = 0) they do lock on a plate whose supports allow no bending without shear strains: the
    work of transverse loads and moments scaled like the bending stiffness goes to zero like the square of the thickness. *)
Theorem C100_locking : forall method m pfn mfa S load, In method cell_methods -> valid m pfn -> all_props m pos_def -> all_props m shear_pos ->
  no_pure_bending method m S -> (forall i, (i mod 5 < 2)%nat -> load i = 0) ->
  exists C, 0 <= C /\ forall s, 0 < s -> exists m2 K2 k2,
    calc_k0 (mesh_thin s m) pfn = (m2, Ok K2) /\ add_k0s lits_src K2 m2 pfn method 0 mfa = (k2, Ok tt) /\
    forall d, solves k2 S (thin_load s load) d -> 0 <= load_work (mdim k2) (thin_load s load) d / s ^ 3 <= C * s ^ 2.
Proof. exact LThin.c100_locking. Qed.
Print Assumptions C100_locking.

Example C100_locking_ex : no_pure_bending "cell-based-no-smoothing" ex_mesh ex_only5 /\ valid ex_mesh false /\ ex_only5 21 = false /\ ex_only5 22 = false.
Proof. exact LThin.c100_locking_ex. Qed.

(** With [alpha] > 0 the critical load factor of the thinner plate, under membrane displacements reduced like the thickness, is between [s] and
    s (1 + r) times the one before, so the critical membrane forces, which are the load factor times forces that go
    with s^2, go with the cube of the thickness, as the bending stiffness does. *)
Theorem C100_buckling : forall method m pfn alpha mfa r s, In method cell_methods -> valid m pfn -> all_props m pos_def -> all_props m shear_pos ->
  braced method m -> 0 < alpha -> 0 <= r -> thinner m mfa alpha r -> 0 < s <= 1 ->
  exists m1 K1 k1 m2 K2 k2,
    calc_k0 m pfn = (m1, Ok K1) /\ add_k0s lits_src K1 m1 pfn method alpha mfa = (k1, Ok tt) /\
    calc_k0 (mesh_thin s m) pfn = (m2, Ok K2) /\ add_k0s lits_src K2 m2 pfn method alpha mfa = (k2, Ok tt) /\
    forall S d d', supported (1 + literal_error method) m S -> List.length d = (List.length (nodes m) * 5)%nat -> List.length d' = List.length d ->
      (forall i, vec_of d' i = thin_field s (vec_of d) i) ->
      exists G1 G2, calc_kG d m1 pfn = Ok G1 /\ calc_kG d' m2 pfn = Ok G2 /\
        (forall u v, form G2 (thin_field s u) (thin_field s v) = s ^ 2 * form G1 u v) /\
        (forall a1, critical_factor k1 G1 S a1 -> exists a2, critical_factor k2 G2 S a2) /\
        (forall a2, critical_factor k2 G2 S a2 -> exists a1, critical_factor k1 G1 S a1 /\ s * a1 <= a2 <= s * ((1 + r) * a1)).
Proof. exact LThin.c100_buckling. Qed.
Print Assumptions C100_buckling.

(** the square of two triangles, which has a critical load factor under compression (C93) *)
Example C100_buckling_ex : forall pfn, valid duo pfn /\ all_props duo pos_def /\ all_props duo shear_pos /\ braced "cell-based" duo /\
  (forall f, supported f duo (fun i => (i <? 7)%nat)) /\ thinner duo false 1 (1 / 100).
Proof. exact LThin.c100_buckling_ex. Qed.
