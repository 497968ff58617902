(** Properties proved in LK0s.v, generated from it by tools/mkprops.py.
    Nothing but statements: each proof is one lemma of that file. *)
From Coq Require Import ZArith Reals List Bool Arith Permutation String.
From Verif Require Import Num Py Mesh Utils CalcK0 AddK0s Spec SpecK0 SpecKG SpecK0s Ex ExK0 ExK0s.
From Verif Require LK0s.
Import ListNotations.
Local Open Scope R_scope.

(** Every other string: ValueError, the matrix is left as it was. *)
Theorem C30_unknown : forall (T : Type) (NT : Num T) L method (m : mesh T) k pfn alpha mfa, ~ In method methods ->
  add_k0s L k m pfn method alpha mfa = (k, Raise ValueError).
Proof. exact LK0s.c30_unknown. Qed.
Print Assumptions C30_unknown.

Example C30_unknown_ex : ~ In "cell_based"%string methods /\ ~ In ""%string methods /\ ~ In "Cell-based"%string methods.
Proof. exact LK0s.c30_unknown_ex. Qed.

(** The three methods succeed after calc_k0. *)
Theorem C30_known : forall method m m' k pfn alpha mfa, In method methods -> call_ok m m' pfn alpha k ->
  exists k', add_k0s lits_src k m' pfn method alpha mfa = (k', Ok tt).
Proof. exact LK0s.c30_known. Qed.
Print Assumptions C30_known.

Example C30_known_ex : forall pfn, exists m', call_ok ex_mesh m' pfn 2 (zeros 30).
Proof. exact LK0s.c30_known_ex. Qed.

(** On any mesh, with any outcome (also an exception half way): the call adds to k0 a matrix D that
    is the same for every k0 of that size, that is zero in the rows and columns of u and v, and that couples
    only nodes of a common element or edge. *)
Theorem C31_increment : forall (m : mesh R) pfn method alpha mfa n, exists D r, forall k, mdim k = n ->
  exists k', add_k0s lits_src k m pfn method alpha mfa = (k', r) /\ mdim k' = n /\
    (forall i j, mentry k' i j = mentry k i j + D i j) /\
    forall i j, D i j <> 0 -> (2 <= i mod 5 /\ 2 <= j mod 5)%nat /\ coupled m method (i / 5) (j / 5).
Proof. exact LK0s.c31_increment. Qed.
Print Assumptions C31_increment.

(** After calc_k0: a changed entry belongs to two nodes of a common triangle, or, edge-based, of the
    triangles on a common edge. *)
Theorem C31_coupling : forall method m m' k k' r pfn alpha mfa, prepared_from m m' ->
  add_k0s lits_src k m' pfn method alpha mfa = (k', r) -> forall i j, mentry k' i j <> mentry k i j ->
  exists a b, nth_node m a (i / 5) /\ nth_node m b (j / 5) /\
    ((In method cell_methods /\ exists t, In t (trias_of m) /\ vertex t a /\ vertex t b) \/
     (method = "edge-based"%string /\ exists x, In x (edge_keys m) /\ on_domain m x a /\ on_domain m x b)).
Proof. exact LK0s.c31_coupling. Qed.
Print Assumptions C31_coupling.

Example C31_coupling_ex : forall pfn method mfa, In method methods -> exists m' k', prepared_from ex_mesh m' /\
  add_k0s lits_src (zeros 30) m' pfn method 2 mfa = (k', Ok tt).
Proof. exact LK0s.c31_coupling_ex. Qed.

(** The added matrix is the one of the shear energy: sum over the triangles of area, correction factor,
    and product of the discrete shear strains with the shear stiffness; it is symmetric, and for
    non-negative shear stiffness positive semi-definite. *)
Theorem C32_energy : forall method m m' pfn alpha mfa k, In method cell_methods -> call_ok m m' pfn alpha k ->
  exists k', add_k0s lits_src k m' pfn method alpha mfa = (k', Ok tt) /\ mdim k' = mdim k /\
    (forall u v, form k' u v - form k u v = shear_energy (method_strain method m) m pfn alpha mfa u v) /\
    (forall i j, (i < mdim k)%nat -> (j < mdim k)%nat -> mentry k' i j - mentry k i j = mentry k' j i - mentry k j i) /\
    (stiff m -> forall u, form k u u <= form k' u u).
Proof. exact LK0s.c32_energy. Qed.
Print Assumptions C32_energy.

Example C32_energy_ex : (forall pfn, exists m', call_ok ex_mesh m' pfn 2 (zeros 30)) /\ stiff ex_mesh.
Proof. exact LK0s.c32_energy_ex. Qed.

(** A translation in w is mapped to zero by the added matrix. *)
Theorem C33_translation : forall method m m' pfn alpha mfa k u, In method cell_methods -> call_ok m m' pfn alpha k -> w_translation m u ->
  exists k', add_k0s lits_src k m' pfn method alpha mfa = (k', Ok tt) /\ forall i, (i < mdim k)%nat -> mulv k' u i = mulv k u i.
Proof. exact LK0s.c33_translation. Qed.
Print Assumptions C33_translation.

Example C33_translation_ex : (forall pfn, exists m', call_ok ex_mesh m' pfn 2 (zeros 30)) /\ w_translation ex_mesh ex_lift.
Proof. exact LK0s.c33_translation_ex. Qed.

(** A rotation w = t x + s y (+ constant), phi_x = -t, phi_y = -s: mapped to zero without smoothing; with
    smoothing to what a constant shear strain (t, s) gives, times -10^-15. *)
Theorem C33_rotation : forall method m m' pfn alpha mfa k u t s, In method cell_methods -> call_ok m m' pfn alpha k ->
  constant_shear m u t s (- t) (- s) ->
  exists k', add_k0s lits_src k m' pfn method alpha mfa = (k', Ok tt) /\
    (forall v, form k' v u - form k v u = - literal_error method * shear_work (method_strain method m) m pfn alpha mfa t s v) /\
    (method = "cell-based-no-smoothing"%string -> forall i, (i < mdim k)%nat -> mulv k' u i = mulv k u i).
Proof. exact LK0s.c33_rotation. Qed.
Print Assumptions C33_rotation.

Example C33_rotation_ex : (forall pfn, exists m', call_ok ex_mesh m' pfn 2 (zeros 30)) /\ constant_shear ex_mesh ex_tilt 2 (-3) (- 2) (- -3).
Proof. exact LK0s.c33_rotation_ex. Qed.

(** w affine and constant rotations: the added matrix gives the work of the constant shear strain
    (wx + px, wy + py), with an error of 10^-15 (px, py) for the method with smoothing. *)
Theorem C34_constant : forall method m m' pfn alpha mfa k u wx wy px py, In method cell_methods -> call_ok m m' pfn alpha k ->
  constant_shear m u wx wy px py -> let err := literal_error method in
  exists k', add_k0s lits_src k m' pfn method alpha mfa = (k', Ok tt) /\
    forall v, form k' v u - form k v u
      = shear_work (method_strain method m) m pfn alpha mfa (wx + (1 + err) * px) (wy + (1 + err) * py) v.
Proof. exact LK0s.c34_constant. Qed.
Print Assumptions C34_constant.

Example C34_constant_ex : (forall pfn, exists m', call_ok ex_mesh m' pfn 2 (zeros 30)) /\ constant_shear ex_mesh ex_shear 2 (-3) 5 7.
Proof. exact LK0s.c34_constant_ex. Qed.

(** The same laminate everywhere and alpha = 0: the energy of two such fields is the area of the plate times
    the product of the strains with diag (k23 E00, k13 E11). *)
Theorem C34_uniform : forall method m m' pfn mfa k p u wx wy px py v vx vy qx qy, In method cell_methods -> call_ok m m' pfn 0 k ->
  all_props m (fun q => q = p) -> constant_shear m u wx wy px py -> constant_shear m v vx vy qx qy -> let err := literal_error method in
  exists k', add_k0s lits_src k m' pfn method 0 mfa = (k', Ok tt) /\
    form k' u v - form k u v = total_area m *
      (pk23 p * e00 (pE p) * (wx + (1 + err) * px) * (vx + (1 + err) * qx) + pk13 p * e11 (pE p) * (wy + (1 + err) * py) * (vy + (1 + err) * qy)).
Proof. exact LK0s.c34_uniform. Qed.
Print Assumptions C34_uniform.

Example C34_uniform_ex : forall pfn, let m := two (shear_prop 2 3 (5/6) (4/5)) in (exists m', call_ok m m' pfn 0 (zeros 20)) /\
  all_props m (fun q => q = shear_prop 2 3 (5/6) (4/5)) /\
  constant_shear m (field m (fun c n => match c with 2%nat => affine m 1 2 (-3) n | 3%nat => 5 | 4%nat => 7 | _ => 0 end)) 2 (-3) 5 7.
Proof. exact LK0s.c34_uniform_ex. Qed.

(** With smoothing: element order, element ids and the order of the vertices of each element have no effect. *)
Theorem C35_cell_based : forall m1 m2 m1' m2' pfn alpha mfa k, same_plate_as m1 m2 -> call_ok m1 m1' pfn alpha k -> prepared_from m2 m2' ->
  exists k1 k2, add_k0s lits_src k m1' pfn "cell-based" alpha mfa = (k1, Ok tt) /\
                add_k0s lits_src k m2' pfn "cell-based" alpha mfa = (k2, Ok tt) /\ meq k1 k2.
Proof. exact LK0s.c35_cell_based. Qed.
Print Assumptions C35_cell_based.

Example C35_cell_based_ex : forall pfn, same_plate_as ex_mesh ex_mesh2 /\ (exists m', call_ok ex_mesh m' pfn 2 (zeros 30)) /\ exists m2', prepared_from ex_mesh2 m2'.
Proof. exact LK0s.c35_cell_based_ex. Qed.

(** Without smoothing the order matters: the triangle (0,0), (1,0), (0,1) and the same triangle beginning
    with the second node give different matrices. *)
Theorem C35_no_smoothing_refuted : forall pfn mfa, exists m1 m2 m1' m2' k1 k2,
  same_plate_as m1 m2 /\ call_ok m1 m1' pfn 0 (zeros 15) /\ call_ok m2 m2' pfn 0 (zeros 15) /\
  add_k0s lits_src (zeros 15) m1' pfn "cell-based-no-smoothing" 0 mfa = (k1, Ok tt) /\
  add_k0s lits_src (zeros 15) m2' pfn "cell-based-no-smoothing" 0 mfa = (k2, Ok tt) /\ mentry k1 13 13 <> mentry k2 13 13.
Proof. exact LK0s.c35_no_smoothing_refuted. Qed.
Print Assumptions C35_no_smoothing_refuted.

(** Without smoothing, if the third vertex of every element is kept. Missing: the other orders (refuted above). *)
Theorem C35_no_smoothing_partial : forall m1 m2 m1' m2' pfn alpha mfa k, same_order_as m1 m2 -> call_ok m1 m1' pfn alpha k -> prepared_from m2 m2' ->
  exists k1 k2, add_k0s lits_src k m1' pfn "cell-based-no-smoothing" alpha mfa = (k1, Ok tt) /\
                add_k0s lits_src k m2' pfn "cell-based-no-smoothing" alpha mfa = (k2, Ok tt) /\ meq k1 k2.
Proof. exact LK0s.c35_no_smoothing_partial. Qed.
Print Assumptions C35_no_smoothing_partial.

(** alpha = 0: the shear stiffness is not corrected. *)
Theorem C36_cell_zero : forall method m m' pfn mfa k, In method cell_methods -> call_ok m m' pfn 0 k ->
  exists k', add_k0s lits_src k m' pfn method 0 mfa = (k', Ok tt) /\
    forall u v, form k' u v - form k u v = Sum (fun t => let gu := method_strain method m u t in let gv := method_strain method m v t in
      tarea m t * (tria_G44 m pfn t * fst gu * fst gv + tria_G55 m pfn t * snd gu * snd gv)) (trias_of m).
Proof. exact LK0s.c36_cell_zero. Qed.
Print Assumptions C36_cell_zero.

Example C36_cell_zero_ex : forall pfn, exists m', call_ok ex_mesh m' pfn 0 (zeros 30).
Proof. exact LK0s.c36_cell_zero_ex. Qed.

(** The added energy does not increase with alpha and is never negative. *)
Theorem C36_cell_monotone : forall method m m' pfn mfa k a b, In method cell_methods -> call_ok m m' pfn a k -> a <= b -> stiff m ->
  exists ka kb, add_k0s lits_src k m' pfn method a mfa = (ka, Ok tt) /\ add_k0s lits_src k m' pfn method b mfa = (kb, Ok tt) /\
    forall u, form k u u <= form kb u u <= form ka u u.
Proof. exact LK0s.c36_cell_monotone. Qed.
Print Assumptions C36_cell_monotone.

Example C36_cell_monotone_ex : (forall pfn, exists m', call_ok ex_mesh m' pfn 1 (zeros 30)) /\ stiff ex_mesh.
Proof. exact LK0s.c36_cell_monotone_ex. Qed.

(** Edge-based: the forms of the edge domains do not depend on alpha; each is multiplied with the correction factor of its
    domain, which is 1 for alpha = 0. *)
Theorem C36_edge_factor : forall m m' pfn mfa, exists Q, forall alpha k, call_ok m m' pfn alpha k ->
  exists k', add_k0s lits_src k m' pfn "edge-based" alpha mfa = (k', Ok tt) /\
    adds k k' (fun u v => Sum (fun x => corr alpha (edge_val m pfn ph x) (edge_size m mfa x) * Q x u v) (edge_keys m)) /\
    (alpha = 0 -> adds k k' (fun u v => Sum (fun x => Q x u v) (edge_keys m))).
Proof. exact LK0s.c36_edge_factor. Qed.
Print Assumptions C36_edge_factor.

Example C36_edge_factor_ex : forall pfn, exists m', call_ok ex_mesh m' pfn 2 (zeros 30).
Proof. exact LK0s.c36_edge_factor_ex. Qed.

(** Edge-based with the decimals of the code: on a triangle with unit stiffness the energy of some field is negative (the
    size of the rounding errors of the decimals). *)
Theorem C36_edge_refuted : forall pfn mfa, exists m m' k' u, call_ok m m' pfn 0 (zeros 15) /\ stiff_full m /\
  add_k0s lits_src (zeros 15) m' pfn "edge-based" 0 mfa = (k', Ok tt) /\ form k' u u < 0.
Proof. exact LK0s.c36_edge_refuted. Qed.
Print Assumptions C36_edge_refuted.

(** Edge-based with exact fractions in place of the decimals: monotone and never negative. Missing: the decimals (refuted above). *)
Theorem C36_edge_partial : forall m m' pfn mfa k a b, call_ok m m' pfn a k -> a <= b -> stiff_full m ->
  exists ka kb, add_k0s lits_frac k m' pfn "edge-based" a mfa = (ka, Ok tt) /\ add_k0s lits_frac k m' pfn "edge-based" b mfa = (kb, Ok tt) /\
    forall u, form k u u <= form kb u u <= form ka u u.
Proof. exact LK0s.c36_edge_partial. Qed.
Print Assumptions C36_edge_partial.

Example C36_edge_partial_ex : (forall pfn, exists m', call_ok ex_mesh m' pfn 1 (zeros 30)) /\ stiff_full ex_mesh.
Proof. exact LK0s.c36_edge_partial_ex. Qed.

(** The cell-based methods: translating the plate has no effect. *)
Theorem C37_cell : forall method dx dy m m' n' pfn alpha mfa k, In method cell_methods -> call_ok m m' pfn alpha k -> prepared_from (move dx dy m) n' ->
  exists k1 k2, add_k0s lits_src k m' pfn method alpha mfa = (k1, Ok tt) /\ add_k0s lits_src k n' pfn method alpha mfa = (k2, Ok tt) /\ meq k1 k2.
Proof. exact LK0s.c37_cell. Qed.
Print Assumptions C37_cell.

Example C37_cell_ex : forall pfn, (exists m', call_ok ex_mesh m' pfn 2 (zeros 30)) /\ exists n', prepared_from (move 3 (-5) ex_mesh) n'.
Proof. exact LK0s.c37_cell_ex. Qed.

(** Edge-based: translating the plate in y changes the matrix of a unit square of two triangles. *)
Theorem C37_edge_refuted : forall pfn mfa, exists m m' n' k1 k2, call_ok m m' pfn 0 (zeros 20) /\ prepared_from (move 0 1 m) n' /\
  add_k0s lits_src (zeros 20) m' pfn "edge-based" 0 mfa = (k1, Ok tt) /\
  add_k0s lits_src (zeros 20) n' pfn "edge-based" 0 mfa = (k2, Ok tt) /\ mentry k1 7 7 <> mentry k2 7 7.
Proof. exact LK0s.c37_edge_refuted. Qed.
Print Assumptions C37_edge_refuted.

(** Edge-based: translating the plate in x has no effect. Missing: translations in y (refuted above). *)
Theorem C37_edge_partial : forall dx m m' n' pfn alpha mfa k, call_ok m m' pfn alpha k -> prepared_from (move dx 0 m) n' ->
  exists k1 k2, add_k0s lits_src k m' pfn "edge-based" alpha mfa = (k1, Ok tt) /\ add_k0s lits_src k n' pfn "edge-based" alpha mfa = (k2, Ok tt) /\ meq k1 k2.
Proof. exact LK0s.c37_edge_partial. Qed.
Print Assumptions C37_edge_partial.

Example C37_edge_partial_ex : forall pfn, (exists m', call_ok ex_mesh m' pfn 2 (zeros 30)) /\ exists n', prepared_from (move 3 0 ex_mesh) n'.
Proof. exact LK0s.c37_edge_partial_ex. Qed.

(** The cell-based methods pair k13 with E11 and k23 with E00: without E11 the value of k13 has no effect, without E00 that of k23. *)
Theorem C38_cell : forall method differ m np tp np' tp' m1 m2 pfn alpha mfa k, In method cell_methods -> wf_mesh m ->
  differ = differ_k13 \/ differ = differ_k23 ->
  (forall n, rel_opt differ (np n) (np' n)) -> (forall e, rel_opt differ (tp e) (tp' e)) ->
  call_ok (with_props np tp m) m1 pfn alpha k -> call_ok (with_props np' tp' m) m2 pfn alpha k ->
  exists k1 k2, add_k0s lits_src k m1 pfn method alpha mfa = (k1, Ok tt) /\ add_k0s lits_src k m2 pfn method alpha mfa = (k2, Ok tt) /\ meq k1 k2.
Proof. exact LK0s.c38_cell. Qed.
Print Assumptions C38_cell.

Example C38_cell_ex : forall pfn, (exists m', call_ok (two (shear_prop 1 0 1 1)) m' pfn 0 (zeros 20)) /\
  (exists m', call_ok (two (shear_prop 1 0 2 1)) m' pfn 0 (zeros 20)) /\ differ_k13 (shear_prop 1 0 1 1) (shear_prop 1 0 2 1) /\
  differ_k23 (shear_prop 0 1 1 1) (shear_prop 0 1 1 2).
Proof. exact LK0s.c38_cell_ex. Qed.

(** Edge-based: the same two laminates give different matrices (interior edges pair k13 with E00). *)
Theorem C38_edge_refuted : forall pfn mfa, exists p q m1 m2 k1 k2, differ_k13 p q /\
  call_ok (two p) m1 pfn 0 (zeros 20) /\ call_ok (two q) m2 pfn 0 (zeros 20) /\
  add_k0s lits_src (zeros 20) m1 pfn "edge-based" 0 mfa = (k1, Ok tt) /\
  add_k0s lits_src (zeros 20) m2 pfn "edge-based" 0 mfa = (k2, Ok tt) /\ mentry k1 8 8 <> mentry k2 8 8.
Proof. exact LK0s.c38_edge_refuted. Qed.
Print Assumptions C38_edge_refuted.

(** Edge-based with exact fractions in place of the decimals: symmetric, and zero for translations in w.
    Missing: the decimals of the code (refuted below). *)
Theorem C39_edge_partial : forall m m' pfn alpha mfa k, call_ok m m' pfn alpha k ->
  exists k', add_k0s lits_frac k m' pfn "edge-based" alpha mfa = (k', Ok tt) /\
    (forall i j, (i < mdim k)%nat -> (j < mdim k)%nat -> mentry k' i j - mentry k i j = mentry k' j i - mentry k j i) /\
    forall u, w_translation m u -> forall i, (i < mdim k)%nat -> mulv k' u i = mulv k u i.
Proof. exact LK0s.c39_edge_partial. Qed.
Print Assumptions C39_edge_partial.

Example C39_edge_partial_ex : (forall pfn, exists m', call_ok ex_mesh m' pfn 2 (zeros 30)) /\ w_translation ex_mesh ex_lift.
Proof. exact LK0s.c39_edge_partial_ex. Qed.

(** With the decimals of the code the added matrix of a triangle is not symmetric (the entries differ by
    0.166666666666667^2 - 0.0277777777777778), and a translation in w gives a force (of 8 * 10^-30). *)
Theorem C39_edge_refuted : forall pfn mfa, exists m m' k', call_ok m m' pfn 0 (zeros 15) /\
  add_k0s lits_src (zeros 15) m' pfn "edge-based" 0 mfa = (k', Ok tt) /\ mentry k' 7 8 <> mentry k' 8 7 /\
  exists u, w_translation m u /\ mulv k' u 2 <> 0.
Proof. exact LK0s.c39_edge_refuted. Qed.
Print Assumptions C39_edge_refuted.
