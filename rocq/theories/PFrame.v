(** Properties proved in LFrame.v, generated from it by tools/mkprops.py.
    Nothing but statements: each proof is one lemma of that file. *)
From Coq Require Import ZArith Reals List Bool Arith Permutation String.
From Verif Require Import Num Py Mesh Utils CalcK0 CalcKG AddK0s Spec SpecK0 SpecKG SpecK0s SpecFrame Ex ExK0 ExK0s ExFrame.
From Verif Require LFrame.
Import ListNotations.
Local Open Scope R_scope.

(** k0 does not depend on the coordinate system: seen from coordinates that are turned or
    reflected, shifted and measured in other units of length (with the laminates given in these
    coordinates), the plate has the same energy for the same displacements. *)
Theorem C60_frame : forall F P m pfn, orthonormal F -> valid m pfn -> all_props m (fun p => same_laminate F p (P p)) ->
  exists m1 m2 K1 K2, calc_k0 m pfn = (m1, Ok K1) /\ calc_k0 (seen_from F P m) pfn = (m2, Ok K2) /\ mdim K2 = mdim K1 /\
  forall u u' v v', turned_field F m u u' -> turned_field F m v v' -> form K2 u' v' = form K1 u v.
Proof. exact LFrame.c60_frame. Qed.
Print Assumptions C60_frame.

(** the plate of Ex.v with its coupled laminates, turned by a quarter; and any plate of laminates
    without preferred direction *)
Example C60_frame_ex : (forall pfn, orthonormal quarter /\ valid ex_mesh pfn /\
    all_props ex_mesh (fun p => same_laminate quarter p (quarter_prop p))) /\
  orthonormal slanted /\ valid (two (iso_prop 1)) true /\ all_props (two (iso_prop 1)) (fun p => same_laminate slanted p p).
Proof. exact LFrame.c60_frame_ex. Qed.

(** In particular a shift of the origin and a change of the unit of length do not change k0 at all. *)
Theorem C60_similar : forall r tx ty tz m pfn, r <> 0 -> valid m pfn ->
  exists m1 m2 K1 K2, calc_k0 m pfn = (m1, Ok K1) /\
  calc_k0 (seen_from (Frame 1 0 0 1 r tx ty tz) (fun p => p) m) pfn = (m2, Ok K2) /\ meq K2 K1.
Proof. exact LFrame.c60_similar. Qed.
Print Assumptions C60_similar.

Example C60_similar_ex : forall pfn, valid ex_mesh pfn /\ pos (seen_from zoom (fun p => p) ex_mesh) 2 = V3 (3 * (1 * 4 + 0 * 0) + 7) (3 * (0 * 4 + 1 * 0) + -3) (0 + 1).
Proof. exact LFrame.c60_similar_ex. Qed.

(** kG of the same state of the plate does not depend on the coordinate system (its entries belong to
    w, which is the same in all of them).  Displacements are measured in the new unit of length, so
    that the strains and with them the membrane forces are those of the given state. *)
Theorem C61_frame : forall F P m m' n' pfn d d', orthonormal F -> prepared_from m m' -> prepared_from (seen_from F P m) n' ->
  props_complete m pfn -> all_props m (fun p => same_forces F p (P p)) ->
  List.length d = (List.length (nodes m) * 5)%nat -> List.length d' = List.length d ->
  turned_field F m (fun i => fscale F * vec_of d i) (vec_of d') ->
  exists KG KG', calc_kG d m' pfn = Ok KG /\ calc_kG d' n' pfn = Ok KG' /\ meq KG' KG.
Proof. exact LFrame.c61_frame. Qed.
Print Assumptions C61_frame.

Example C61_frame_ex : orthonormal quarter /\ (exists m', prepared_from ex_mesh m') /\
  (exists n', prepared_from (seen_from quarter quarter_prop ex_mesh) n') /\ all_props ex_mesh (fun p => same_forces quarter p (quarter_prop p)) /\
  let d' := list_of 30 (field ex_mesh (fun c n => match c with
    | 0%nat => - 2 * comp ex_mesh ex_lin 1 n | 1%nat => 2 * comp ex_mesh ex_lin 0 n | 2%nat => 2 * comp ex_mesh ex_lin 2 n
    | 3%nat => - 2 * comp ex_mesh ex_lin 4 n | _ => 2 * comp ex_mesh ex_lin 3 n end)) in
  turned_field quarter ex_mesh (fun i => fscale quarter * vec_of (list_of 30 ex_lin) i) (vec_of d').
Proof. exact LFrame.c61_frame_ex. Qed.

(** The shear terms of method "cell-based" for laminates without preferred direction do not depend on
    the orientation of the axes, their handedness and the origin. *)
Theorem C62_cell : forall F P m m' n' pfn alpha mfa k, orthonormal F -> fscale F = 1 ->
  call_ok m m' pfn alpha k -> prepared_from (seen_from F P m) n' -> all_props m (fun p => shear_isotropic p /\ same_shear p (P p)) ->
  exists k1 k2, add_k0s lits_src k m' pfn "cell-based" alpha mfa = (k1, Ok tt) /\ add_k0s lits_src k n' pfn "cell-based" alpha mfa = (k2, Ok tt) /\
  mdim k1 = mdim k /\ mdim k2 = mdim k /\
  forall u u' v v', turned_field F m u u' -> turned_field F m v v' -> form k2 u' v' - form k u' v' = form k1 u v - form k u v.
Proof. exact LFrame.c62_cell. Qed.
Print Assumptions C62_cell.

Example C62_cell_ex : orthonormal slanted /\ fscale slanted = 1 /\ proper slanted /\ orthonormal mirror /\
  (forall pfn, exists m', call_ok (two (iso_prop 1)) m' pfn 2 (zeros 20)) /\
  (exists n', prepared_from (seen_from slanted (fun p => p) (two (iso_prop 1))) n') /\
  all_props (two (iso_prop 1)) (fun p => shear_isotropic p /\ same_shear p p).
Proof. exact LFrame.c62_cell_ex. Qed.

(** Without smoothing, the reflection y -> -y of a unit square changes the energy of a displacement
    (a rotation of the second node about x) from zero to something else. *)
Theorem C62_nosmooth_refuted : forall pfn mfa, exists m m' n' k1 k2 u u', call_ok m m' pfn 0 (zeros 20) /\
  prepared_from (seen_from mirror (fun p => p) m) n' /\ all_props m shear_isotropic /\ turned_field mirror m u u' /\
  add_k0s lits_src (zeros 20) m' pfn "cell-based-no-smoothing" 0 mfa = (k1, Ok tt) /\
  add_k0s lits_src (zeros 20) n' pfn "cell-based-no-smoothing" 0 mfa = (k2, Ok tt) /\ form k1 u u = 0 /\ form k2 u' u' = 1/8.
Proof. exact LFrame.c62_nosmooth_refuted. Qed.
Print Assumptions C62_nosmooth_refuted.

(** Without smoothing: the same for axes of the same handedness. Missing: reflections (refuted above). *)
Theorem C62_nosmooth_partial : forall F P m m' n' pfn alpha mfa k, orthonormal F -> fscale F = 1 -> proper F ->
  call_ok m m' pfn alpha k -> prepared_from (seen_from F P m) n' -> all_props m (fun p => shear_isotropic p /\ same_shear p (P p)) ->
  exists k1 k2, add_k0s lits_src k m' pfn "cell-based-no-smoothing" alpha mfa = (k1, Ok tt) /\
  add_k0s lits_src k n' pfn "cell-based-no-smoothing" alpha mfa = (k2, Ok tt) /\
  mdim k1 = mdim k /\ mdim k2 = mdim k /\
  forall u u' v v', turned_field F m u u' -> turned_field F m v v' -> form k2 u' v' - form k u' v' = form k1 u v - form k u v.
Proof. exact LFrame.c62_nosmooth_partial. Qed.
Print Assumptions C62_nosmooth_partial.

Example C62_nosmooth_partial_ex : orthonormal slanted /\ fscale slanted = 1 /\ proper slanted.
Proof. exact LFrame.c62_nosmooth_partial_ex. Qed.

(** add_k0s uses nothing of the laminates but k13, k23, h and E; the cell-based methods nothing of E but
    the diagonal, so a coupling of the two shear directions has no effect. *)
Theorem C63_cell : forall method m np tp np' tp' m1 m2 pfn alpha mfa k, In method cell_methods -> wf_mesh m ->
  (forall n, rel_opt agree_diag (np n) (np' n)) -> (forall e, rel_opt agree_diag (tp e) (tp' e)) ->
  call_ok (with_props np tp m) m1 pfn alpha k -> call_ok (with_props np' tp' m) m2 pfn alpha k ->
  exists k1 k2, add_k0s lits_src k m1 pfn method alpha mfa = (k1, Ok tt) /\ add_k0s lits_src k m2 pfn method alpha mfa = (k2, Ok tt) /\ meq k1 k2.
Proof. exact LFrame.c63_cell. Qed.
Print Assumptions C63_cell.

Theorem C63_edge : forall m np tp np' tp' m1 m2 pfn alpha mfa k, wf_mesh m ->
  (forall n, rel_opt agree_shear (np n) (np' n)) -> (forall e, rel_opt agree_shear (tp e) (tp' e)) ->
  call_ok (with_props np tp m) m1 pfn alpha k -> call_ok (with_props np' tp' m) m2 pfn alpha k ->
  exists k1 k2, add_k0s lits_src k m1 pfn "edge-based" alpha mfa = (k1, Ok tt) /\ add_k0s lits_src k m2 pfn "edge-based" alpha mfa = (k2, Ok tt) /\ meq k1 k2.
Proof. exact LFrame.c63_edge. Qed.
Print Assumptions C63_edge.

(** laminates that differ in A, B, D and, for the cell-based methods, in the coupling terms of E *)
Example C63_cell_ex : let p := shear_prop 1 2 1 1 in
  let q := {| pA := pA (ex_prop 1); pB := pB (ex_prop 1); pD := pD (ex_prop 1); pE := M2 1 7 7 2; ph := 1; pk13 := 1; pk23 := 1 |} in
  agree_diag p q /\ (forall pfn, exists m', call_ok (two p) m' pfn 0 (zeros 20)) /\ (forall pfn, exists m', call_ok (two q) m' pfn 0 (zeros 20)).
Proof. exact LFrame.c63_cell_ex. Qed.

Example C63_edge_ex : let p := shear_prop 1 2 1 1 in
  let q := {| pA := pA (ex_prop 1); pB := pB (ex_prop 1); pD := pD (ex_prop 1); pE := M2 1 0 7 2; ph := 1; pk13 := 1; pk23 := 1 |} in
  agree_shear p q /\ (forall pfn, exists m', call_ok (two p) m' pfn 0 (zeros 20)) /\ (forall pfn, exists m', call_ok (two q) m' pfn 0 (zeros 20)).
Proof. exact LFrame.c63_edge_ex. Qed.
