(** Properties proved in LRound2.v, generated from it by tools/mkprops.py.
    Nothing but statements: each proof is one lemma of that file. *)
From Coq Require Import ZArith Reals List Bool Arith QArith Qreals String.
From Verif Require Import Num Float Py Mesh Utils CalcK0 AddK0s Spec SpecK0 SpecK0s SpecRound SpecRound2 ExFloat.
From Verif Require LRound2.
Import ListNotations.
Local Open Scope R_scope.

(** add_k0s with a cell-based method in doubles, compared with add_k0s in exact arithmetic on the plate with the same data: whatever
    matrix it is added to, both succeed, the entries in doubles are finite, and entry (i, j) differs by at most the difference before
    and the rounding errors of the c triangles that have the nodes of row i and column j. *)
Theorem C86_error : forall (m : mesh double) pfn pfn' method alpha mfa h rho kappa s m' K0 M' R0,
  valid (mesh_val m) pfn -> k0_scale m h rho kappa s -> shear_scale m s alpha -> props_complete (mesh_val m) pfn' -> In method cell_methods ->
  calc_k0 m pfn = (m', Ok K0) -> calc_k0 (mesh_val m) pfn = (M', Ok R0) ->
  forall (k : matrix double) (K : matrix R) (e x : nat -> nat -> R) n, n = (List.length (nodes m) * 5)%nat -> mdim k = n -> mdim K = n ->
  (forall i j, (i < n)%nat -> (j < n)%nat -> finite (mentry k i j) /\ Rabs (val (mentry k i j) - mentry K i j) <= e i j /\
    Rabs (mentry K i j) + e i j <= x i j /\ x i j <= 2 ^ 500) ->
  exists k' K', add_k0s lits_src k m' pfn' method alpha mfa = (k', Ok tt) /\ add_k0s lits_src K M' pfn' method (val alpha) mfa = (K', Ok tt) /\
    mdim k' = n /\ mdim K' = n /\
    forall i j, (i < n)%nat -> (j < n)%nat -> finite (mentry k' i j) /\
      Rabs (val (mentry k' i j) - mentry K' i j) <= e i j + shear_bound m method h rho kappa s (x i j) i j.
Proof. exact LRound2.c86_error. Qed.
Print Assumptions C86_error.

(** calc_k0 followed by add_k0s. *)
Theorem C86_plate : forall (m : mesh double) pfn pfn' method alpha mfa h rho kappa s,
  valid (mesh_val m) pfn -> k0_scale m h rho kappa s -> shear_scale m s alpha -> props_complete (mesh_val m) pfn' -> In method cell_methods ->
  exists m' k0 k M' K0 K, calc_k0 m pfn = (m', Ok k0) /\ add_k0s lits_src k0 m' pfn' method alpha mfa = (k, Ok tt) /\
    calc_k0 (mesh_val m) pfn = (M', Ok K0) /\ add_k0s lits_src K0 M' pfn' method (val alpha) mfa = (K, Ok tt) /\
    mdim k = (List.length (nodes m) * 5)%nat /\ mdim K = (List.length (nodes m) * 5)%nat /\
    forall i j, (i < List.length (nodes m) * 5)%nat -> (j < List.length (nodes m) * 5)%nat ->
      finite (mentry k i j) /\ Rabs (val (mentry k i j) - mentry K i j) <= plate_bound m method h rho kappa s i j.
Proof. exact LRound2.c86_plate. Qed.
Print Assumptions C86_plate.

(** The energies of the matrix in doubles are the smoothed energy of the membrane and bending strains and the shear energy of exact
    arithmetic, up to rounding errors. *)
Theorem C86_energy : forall (m : mesh double) pfn pfn' method alpha mfa h rho kappa s,
  valid (mesh_val m) pfn -> k0_scale m h rho kappa s -> shear_scale m s alpha -> props_complete (mesh_val m) pfn' -> In method cell_methods ->
  exists m' k0 k, calc_k0 m pfn = (m', Ok k0) /\ add_k0s lits_src k0 m' pfn' method alpha mfa = (k, Ok tt) /\
    forall u v, Rabs (form (matrix_val k) u v - (k0_energy (mesh_val m) pfn u v + shear_energy (method_strain method (mesh_val m)) (mesh_val m) pfn' (val alpha) mfa u v))
      <= Sum (fun i => Sum (fun j => Rabs (u i) * plate_bound m method h rho kappa s i j * Rabs (v j)) (seq 0 (mdim k))) (seq 0 (mdim k)).
Proof. exact LRound2.c86_energy. Qed.
Print Assumptions C86_energy.

(** The plate of C81 with alpha = 2: an error of at most 1/100000 is added to the stiffness of the deflections of node 1. *)
Example C86_plate_ex : forall pfn pfn' method, In method cell_methods -> valid (mesh_val fwarped) pfn /\ k0_scale fwarped 4 4 2 64 /\ shear_scale fwarped 64 (dz 2) /\
  props_complete (mesh_val fwarped) pfn' /\ shear_bound fwarped method 4 4 2 64 (k0_size fwarped 4 64 2 2 + k0_bound fwarped 4 2 64 2 2) 2 2 <= / 200000.
Proof. exact LRound2.c86_plate_ex. Qed.

(** The shear stiffness alone, added to a matrix of zeros, and to a matrix of thirds in doubles. *)
Example C86_error_ex : forall pfn pfn', exists m' K0 M' R0, valid (mesh_val fwarped) pfn /\ k0_scale fwarped 4 4 2 64 /\ shear_scale fwarped 64 (dz 2) /\ props_complete (mesh_val fwarped) pfn' /\
  calc_k0 fwarped pfn = (m', Ok K0) /\ calc_k0 (mesh_val fwarped) pfn = (M', Ok R0) /\
  (forall i j, finite (mentry (@zeros double NumF 20) i j) /\ Rabs (val (mentry (@zeros double NumF 20) i j) - mentry (@zeros R NumR 20) i j) <= 0 /\ Rabs (mentry (@zeros R NumR 20) i j) + 0 <= 0 /\ 0 <= 2 ^ 500) /\
  (forall i j, let k := Matrix 20 (fun _ _ => ndiv (dz 1) (dz 3)) in let K := Matrix 20 (fun _ _ => 1 / 3) in
    finite (mentry k i j) /\ Rabs (val (mentry k i j) - mentry K i j) <= roundoff /\ Rabs (mentry K i j) + roundoff <= 1 /\ 1 <= 2 ^ 500).
Proof. exact LRound2.c86_error_ex. Qed.
