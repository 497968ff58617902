(** Properties proved in LMindlin.v, generated from it by tools/mkprops.py.
    Nothing but statements: each proof is one lemma of that file. *)
From Coq Require Import ZArith Reals List Bool Arith Psatz String.
From Verif Require Import Num Py Mesh Utils CalcK0 AddK0s Spec SpecK0 SpecK0s SpecStab SpecStat SpecConv SpecSol SpecSol2 SpecKorn Ex ExK0 ExK0s ExGrid ExGrid2 ExMindlin.
From Verif Require LMindlin.
Import ListNotations.
Local Open Scope R_scope.

(** The solution of a static problem with a cell-based shear method: if the loads belong to a smooth motion F that
    respects the supports, the energy of the difference to F in the nodes and the integrals of the squares of the errors of
    strains and shear strains are bounded by a multiple of the square of the mesh size h, of delta, by which the loads miss
    those of F, and of the error of the constant 1/3 as written in the code.  The factor depends on the bounds only, not on
    mesh, supports, laminate, motion or options.  The loads work on the rotations the method uses. *)
Theorem C101_strains : forall kappa c lam mu th alpha M s b, 0 < kappa -> 0 <= c -> 0 < lam -> 0 < mu -> 0 < th -> 0 <= alpha -> 0 <= M -> 0 <= s -> 0 <= b ->
  exists C, 0 <= C /\ forall method mfa Om m pfn p h Q F u S load delta, In method cell_methods ->
    mindlin_plate Om m pfn p h kappa Q c lam mu th -> 0 < h <= 1 -> 16 * alpha * (h * h) <= th * th -> 0 <= delta <= 1 ->
    mindlin_motion Om m M s b F u -> admissible (List.length (nodes m) * 5) S u -> mindlin_loads (test_shear method m) m p S Q F delta load ->
    exists m' K k', calc_k0 m pfn = (m', Ok K) /\ add_k0s lits_src K m' pfn method alpha mfa = (k', Ok tt) /\
      forall d, solves k' S load d -> let e := C * (h + delta + third_error method) ^ 2 * total_area m in
        form k' (fun i => 1 * d i + -1 * u i) (fun i => 1 * d i + -1 * u i) <= e /\ strain_error m Q F d <= e /\ shear_error method m Q F d <= e.
Proof. exact LMindlin.c101_strains. Qed.
Print Assumptions C101_strains.

(** The same for loads that work on the displacements themselves (linear in every triangle), in plates whose supports
    satisfy Korn's inequality for the rotations. *)
Theorem C101_natural : forall kappa c lam mu th alpha M s b CK, 0 < kappa -> 0 <= c -> 0 < lam -> 0 < mu -> 0 < th -> 0 <= alpha -> 0 <= M -> 0 <= s -> 0 <= b -> 0 <= CK ->
  exists C, 0 <= C /\ forall method mfa Om m pfn p h Q F u S load delta, In method cell_methods ->
    mindlin_plate Om m pfn p h kappa Q c lam mu th -> 0 < h <= 1 -> 16 * alpha * (h * h) <= th * th -> 0 <= delta <= 1 ->
    mindlin_motion Om m M s b F u -> admissible (List.length (nodes m) * 5) S u -> mindlin_loads (tria_shear m) m p S Q F delta load -> korn CK m S ->
    exists m' K k', calc_k0 m pfn = (m', Ok K) /\ add_k0s lits_src K m' pfn method alpha mfa = (k', Ok tt) /\
      forall d, solves k' S load d -> let e := C * (h + delta + third_error method) ^ 2 * total_area m in
        form k' (fun i => 1 * d i + -1 * u i) (fun i => 1 * d i + -1 * u i) <= e /\ strain_error m Q F d <= e /\ shear_error method m Q F d <= e.
Proof. exact LMindlin.c101_natural. Qed.
Print Assumptions C101_natural.

(** Plates whose supports hold the rotations along the boundary satisfy Korn's inequality, with a constant that depends on
    the width of the plate only: the solutions of all of them converge. *)
Theorem C101_korn : forall m pfn S X, valid m pfn -> held [3; 4]%nat m S -> in_strip X m -> korn (2 + 8 * (X * X)) m S.
Proof. exact LMindlin.c101_korn. Qed.
Print Assumptions C101_korn.

(** Every motion has such loads, of both kinds, without any error. *)
Theorem C101_loads : forall m pfn p S Q F method, valid m pfn ->
  (exists load, mindlin_loads (test_shear method m) m p S Q F 0 load) /\ (exists load, mindlin_loads (tria_shear m) m p S Q F 0 load).
Proof. exact LMindlin.c101_loads. Qed.
Print Assumptions C101_loads.

(** The unit square cut into 2 n^2 triangles, held along its boundary, with loads that belong to a dome; there are meshes of
    this kind of every size, and all of them have a solution. *)
Example C101_strains_ex : forall h0 pfn, 0 < h0 -> exists h m Q load, 0 < h <= h0 /\ h <= 1 /\ 16 * 1 * (h * h) <= 1 / 10 * (1 / 10) /\ let p := ex_prop 1 in let u := sampled m dome in
  mindlin_plate unit_square m pfn p h (1 / 2) Q 20 1 4 (1 / 10) /\ mindlin_motion unit_square m 4 2 2 dome u /\ admissible (List.length (nodes m) * 5) (framed m) u /\
  mindlin_loads (test_shear "cell-based" m) m p (framed m) Q dome 0 load /\ total_area m = 1 /\
  exists m' K k', calc_k0 m pfn = (m', Ok K) /\ add_k0s lits_src K m' pfn "cell-based" 1 false = (k', Ok tt) /\ exists d, solves k' (framed m) load d.
Proof. exact LMindlin.c101_strains_ex. Qed.

(** Its supports satisfy Korn's inequality. *)
Example C101_natural_ex : forall h0 pfn, 0 < h0 -> exists h m Q load, 0 < h <= h0 /\ h <= 1 /\ 16 * 1 * (h * h) <= 1 / 10 * (1 / 10) /\ let p := ex_prop 1 in let u := sampled m dome in
  mindlin_plate unit_square m pfn p h (1 / 2) Q 20 1 4 (1 / 10) /\ mindlin_motion unit_square m 4 2 2 dome u /\ admissible (List.length (nodes m) * 5) (framed m) u /\
  mindlin_loads (tria_shear m) m p (framed m) Q dome 0 load /\ korn 4 m (framed m) /\ total_area m = 1 /\
  exists m' K k', calc_k0 m pfn = (m', Ok K) /\ add_k0s lits_src K m' pfn "cell-based" 1 false = (k', Ok tt) /\ exists d, solves k' (framed m) load d.
Proof. exact LMindlin.c101_natural_ex. Qed.

Example C101_korn_ex : forall n pfn, (0 < n)%nat -> let m := grid_mesh n in valid m pfn /\ held [3; 4]%nat m (framed m) /\ in_strip (1 / 2) m.
Proof. exact LMindlin.c101_korn_ex. Qed.

Example C101_loads_ex : forall n pfn, (0 < n)%nat -> valid (grid_mesh n) pfn.
Proof. exact LMindlin.c101_loads_ex. Qed.

(** The displacements and rotations of a plate whose supports hold all degrees of freedom along the boundary: if the loads
    belong to a smooth motion F that respects the supports, the integral of the squares of their errors is bounded by a
    multiple of the square of the mesh size h, of delta, by which the loads miss those of F, and of the error of the
    constant 1/3 as written in the code.  The factor depends on the bounds and the width of the plate only. *)
Theorem C102_displacements : forall kappa c lam mu th alpha M s b X, 0 < kappa -> 0 <= c -> 0 < lam -> 0 < mu -> 0 < th -> 0 <= alpha -> 0 <= M -> 0 <= s -> 0 <= b ->
  exists C, 0 <= C /\ forall method mfa Om m pfn p h Q F u S load delta, In method cell_methods ->
    mindlin_plate Om m pfn p h kappa Q c lam mu th -> 0 < h <= 1 -> 16 * alpha * (h * h) <= th * th -> 0 <= delta <= 1 ->
    mindlin_motion Om m M s b F u -> admissible (List.length (nodes m) * 5) S u -> mindlin_loads (tria_shear m) m p S Q F delta load ->
    held [0; 1; 2; 3; 4]%nat m S -> in_strip X m ->
    exists m' K k', calc_k0 m pfn = (m', Ok K) /\ add_k0s lits_src K m' pfn method alpha mfa = (k', Ok tt) /\
      forall d, solves k' S load d -> disp_error m Q F d <= C * (h + delta + third_error method) ^ 2 * total_area m.
Proof. exact LMindlin.c102_displacements. Qed.
Print Assumptions C102_displacements.

(** The problem of C101: its displacements converge. *)
Example C102_displacements_ex : forall h0 pfn, 0 < h0 -> exists h m Q load, 0 < h <= h0 /\ h <= 1 /\ 16 * 1 * (h * h) <= 1 / 10 * (1 / 10) /\ let p := ex_prop 1 in let u := sampled m dome in
  mindlin_plate unit_square m pfn p h (1 / 2) Q 20 1 4 (1 / 10) /\ mindlin_motion unit_square m 4 2 2 dome u /\ admissible (List.length (nodes m) * 5) (framed m) u /\
  mindlin_loads (tria_shear m) m p (framed m) Q dome 0 load /\ held [0; 1; 2; 3; 4]%nat m (framed m) /\ in_strip (1 / 2) m /\ total_area m = 1 /\
  exists m' K k', calc_k0 m pfn = (m', Ok K) /\ add_k0s lits_src K m' pfn "cell-based" 1 false = (k', Ok tt) /\ exists d, solves k' (framed m) load d.
Proof. exact LMindlin.c102_displacements_ex. Qed.

(** So the displacements of such plates converge under mesh refinement, except for the error of the constant 1/3 in the
    code: for every eps, in all meshes that are fine enough the mean square of the error is at most eps plus a multiple of
    the square of that error (which is 0 for the method "cell-based-no-smoothing"). *)
Theorem C102_convergence : forall kappa c lam mu th alpha M s b X, 0 < kappa -> 0 <= c -> 0 < lam -> 0 < mu -> 0 < th -> 0 <= alpha -> 0 <= M -> 0 <= s -> 0 <= b ->
  exists C, 0 <= C /\ forall eps, 0 < eps -> exists h1, 0 < h1 /\ forall method mfa Om m pfn p h Q F u S load delta, In method cell_methods ->
    mindlin_plate Om m pfn p h kappa Q c lam mu th -> 0 < h <= h1 -> 0 <= delta <= h1 ->
    mindlin_motion Om m M s b F u -> admissible (List.length (nodes m) * 5) S u -> mindlin_loads (tria_shear m) m p S Q F delta load ->
    held [0; 1; 2; 3; 4]%nat m S -> in_strip X m ->
    exists m' K k', calc_k0 m pfn = (m', Ok K) /\ add_k0s lits_src K m' pfn method alpha mfa = (k', Ok tt) /\
      forall d, solves k' S load d -> disp_error m Q F d <= (eps + C * third_error method ^ 2) * total_area m.
Proof. exact LMindlin.c102_convergence. Qed.
Print Assumptions C102_convergence.

Example C102_convergence_ex : third_error "cell-based-no-smoothing" = 0 /\ 0 <= third_error "cell-based" <= 1 / 1000000000000000 /\
  forall h1 pfn, 0 < h1 -> exists h m Q load, 0 < h <= h1 /\ let p := ex_prop 1 in let u := sampled m dome in
    mindlin_plate unit_square m pfn p h (1 / 2) Q 20 1 4 (1 / 10) /\ mindlin_motion unit_square m 4 2 2 dome u /\ admissible (List.length (nodes m) * 5) (framed m) u /\
    mindlin_loads (tria_shear m) m p (framed m) Q dome 0 load /\ held [0; 1; 2; 3; 4]%nat m (framed m) /\ in_strip (1 / 2) m.
Proof. exact LMindlin.c102_convergence_ex. Qed.
