(** Properties proved in LRound4.v, generated from it by tools/mkprops.py.
    Nothing but statements: each proof is one lemma of that file. *)
From Coq Require Import ZArith Reals List Bool Arith QArith Qreals String.
From Verif Require Import Num Float Py Mesh Utils CalcK0 AddK0s Spec SpecK0 SpecKG SpecK0s SpecEdge SpecRound SpecRound2 SpecRound4 ExFloat ExLevel.
From Verif Require LRound4.
Import ListNotations.
Local Open Scope R_scope.

(** add_k0s with the edge-based method in doubles, compared with add_k0s in exact arithmetic on the plate with the same data: whatever
    matrix it is added to, both succeed, the entries in doubles are finite, and entry (i, j) differs by at most the difference before
    and the rounding errors of the c edges whose domains have the nodes of row i and column j. *)
Theorem C88_error : forall (m : mesh double) pfn pfn' alpha mfa h rho kappa s m' K0 M' R0,
  valid (mesh_val m) pfn -> k0_scale m h rho kappa s -> shear_scale m s alpha -> edge_fine m h rho s -> props_complete (mesh_val m) pfn' ->
  calc_k0 m pfn = (m', Ok K0) -> calc_k0 (mesh_val m) pfn = (M', Ok R0) ->
  forall (k : matrix double) (K : matrix R) (e x : nat -> nat -> R) n, n = (List.length (nodes m) * 5)%nat -> mdim k = n -> mdim K = n ->
  (forall i j, (i < n)%nat -> (j < n)%nat -> finite (mentry k i j) /\ Rabs (val (mentry k i j) - mentry K i j) <= e i j /\
    Rabs (mentry K i j) + e i j <= x i j /\ x i j <= 2 ^ 500) ->
  exists k' K', add_k0s lits_src k m' pfn' "edge-based" alpha mfa = (k', Ok tt) /\ add_k0s lits_src K M' pfn' "edge-based" (val alpha) mfa = (K', Ok tt) /\
    mdim k' = n /\ mdim K' = n /\
    forall i j, (i < n)%nat -> (j < n)%nat -> finite (mentry k' i j) /\
      Rabs (val (mentry k' i j) - mentry K' i j) <= e i j + edge_bound m h rho kappa s (x i j) i j.
Proof. exact LRound4.c88_error. Qed.
Print Assumptions C88_error.

(** calc_k0 followed by the edge-based method. *)
Theorem C88_plate : forall (m : mesh double) pfn pfn' alpha mfa h rho kappa s,
  valid (mesh_val m) pfn -> k0_scale m h rho kappa s -> shear_scale m s alpha -> edge_fine m h rho s -> props_complete (mesh_val m) pfn' ->
  exists m' k0 k M' K0 K, calc_k0 m pfn = (m', Ok k0) /\ add_k0s lits_src k0 m' pfn' "edge-based" alpha mfa = (k, Ok tt) /\
    calc_k0 (mesh_val m) pfn = (M', Ok K0) /\ add_k0s lits_src K0 M' pfn' "edge-based" (val alpha) mfa = (K, Ok tt) /\
    mdim k = (List.length (nodes m) * 5)%nat /\ mdim K = (List.length (nodes m) * 5)%nat /\
    forall i j, (i < List.length (nodes m) * 5)%nat -> (j < List.length (nodes m) * 5)%nat ->
      finite (mentry k i j) /\ Rabs (val (mentry k i j) - mentry K i j) <= plate_edge_bound m h rho kappa s i j.
Proof. exact LRound4.c88_plate. Qed.
Print Assumptions C88_plate.

(** The energies of the matrix in doubles, on plates whose interior edges start at a node with y = z: the smoothed energy of the
    membrane and bending strains and the energy of the discrete shear strains (C79), up to the rounding errors and the truncated decimals
    of the code (C80). *)
Theorem C88_energy : forall (m : mesh double) pfn pfn' alpha mfa h rho kappa s h' rho' c e,
  valid (mesh_val m) pfn -> k0_scale m h rho kappa s -> shear_scale m s alpha -> edge_fine m h rho s -> props_complete (mesh_val m) pfn' ->
  edge_scale (mesh_val m) h' rho' c e -> starts_level (mesh_val m) ->
  exists m' k0 k, calc_k0 m pfn = (m', Ok k0) /\ add_k0s lits_src k0 m' pfn' "edge-based" alpha mfa = (k, Ok tt) /\
    forall U V u v, field_scale (mesh_val m) h' U u -> field_scale (mesh_val m) h' V v ->
      Rabs (form (matrix_val k) u v - (k0_energy (mesh_val m) pfn u v +
        edge_energy (mesh_val m) pfn' (val alpha) mfa (strain_edge (mesh_val m) u) (strain_edge (mesh_val m) v)))
      <= Sum (fun i => Sum (fun j => Rabs (u i) * plate_edge_bound m h rho kappa s i j * Rabs (v j)) (seq 0 (mdim k))) (seq 0 (mdim k)) +
         decimals_error (mesh_val m) rho' c e U V.
Proof. exact LRound4.c88_energy. Qed.
Print Assumptions C88_energy.

(** On any plate, up to the same errors: the added stiffness is symmetric. *)
Theorem C88_symmetric : forall (m : mesh double) pfn pfn' alpha mfa h rho kappa s h' rho' c e,
  valid (mesh_val m) pfn -> k0_scale m h rho kappa s -> shear_scale m s alpha -> edge_fine m h rho s -> props_complete (mesh_val m) pfn' ->
  edge_scale (mesh_val m) h' rho' c e ->
  exists m' k0 k, calc_k0 m pfn = (m', Ok k0) /\ add_k0s lits_src k0 m' pfn' "edge-based" alpha mfa = (k, Ok tt) /\
    forall U V u v, field_scale (mesh_val m) h' U u -> field_scale (mesh_val m) h' V v ->
      Rabs (form (matrix_val k) u v - form (matrix_val k) v u)
      <= Sum (fun i => Sum (fun j => Rabs (u i) * plate_edge_bound m h rho kappa s i j * Rabs (v j)) (seq 0 (mdim k))) (seq 0 (mdim k)) +
         Sum (fun i => Sum (fun j => Rabs (v i) * plate_edge_bound m h rho kappa s i j * Rabs (u j)) (seq 0 (mdim k))) (seq 0 (mdim k)) +
         2 * decimals_error (mesh_val m) rho' c e U V.
Proof. exact LRound4.c88_symmetric. Qed.
Print Assumptions C88_symmetric.

(** The plate of C81 at the height y = z of its third node, with alpha = 2: an error of at most 1/1000 is added to the stiffness of the
    deflections of node 1. *)
Example C88_plate_ex : forall pfn pfn', valid (mesh_val flevel) pfn /\ k0_scale flevel 4 4 2 64 /\ shear_scale flevel 64 (dz 2) /\ edge_fine flevel 4 4 64 /\
  props_complete (mesh_val flevel) pfn' /\ edge_bound flevel 4 4 2 64 (k0_size flevel 4 64 2 2 + k0_bound flevel 4 2 64 2 2) 2 2 <= / 1000.
Proof. exact LRound4.c88_plate_ex. Qed.

(** The shear stiffness alone, added to a matrix of zeros, and to a matrix of thirds in doubles. *)
Example C88_error_ex : forall pfn pfn', exists m' K0 M' R0, valid (mesh_val flevel) pfn /\ k0_scale flevel 4 4 2 64 /\ shear_scale flevel 64 (dz 2) /\ edge_fine flevel 4 4 64 /\ props_complete (mesh_val flevel) pfn' /\
  calc_k0 flevel pfn = (m', Ok K0) /\ calc_k0 (mesh_val flevel) pfn = (M', Ok R0) /\
  (forall i j, finite (mentry (@zeros double NumF 20) i j) /\ Rabs (val (mentry (@zeros double NumF 20) i j) - mentry (@zeros R NumR 20) i j) <= 0 /\ Rabs (mentry (@zeros R NumR 20) i j) + 0 <= 0 /\ 0 <= 2 ^ 500) /\
  (forall i j, let k := Matrix 20 (fun _ _ => ndiv (dz 1) (dz 3)) in let K := Matrix 20 (fun _ _ => 1 / 3) in
    finite (mentry k i j) /\ Rabs (val (mentry k i j) - mentry K i j) <= roundoff /\ Rabs (mentry K i j) + roundoff <= 1 /\ 1 <= 2 ^ 500).
Proof. exact LRound4.c88_error_ex. Qed.

(** Deflections of 1 with rotations of 1/4: the truncated decimals contribute at most 1/10^7. *)
Example C88_energy_ex : forall pfn pfn', valid (mesh_val flevel) pfn /\ k0_scale flevel 4 4 2 64 /\ shear_scale flevel 64 (dz 2) /\ edge_fine flevel 4 4 64 /\
  props_complete (mesh_val flevel) pfn' /\ edge_scale (mesh_val flevel) 4 9 1 18 /\ starts_level (mesh_val flevel) /\
  (exists u, field_scale (mesh_val flevel) 4 1 u /\ comp (mesh_val flevel) u 2 3 = 1 /\ comp (mesh_val flevel) u 4 3 = 1 / 4) /\
  decimals_error (mesh_val flevel) 9 1 18 1 1 <= / 10000000.
Proof. exact LRound4.c88_energy_ex. Qed.

Example C88_symmetric_ex : forall pfn pfn', valid (mesh_val flevel) pfn /\ k0_scale flevel 4 4 2 64 /\ shear_scale flevel 64 (dz 2) /\ edge_fine flevel 4 4 64 /\
  props_complete (mesh_val flevel) pfn' /\ edge_scale (mesh_val flevel) 4 9 1 18 /\ exists u, field_scale (mesh_val flevel) 4 1 u /\ comp (mesh_val flevel) u 2 3 = 1 /\ comp (mesh_val flevel) u 4 3 = 1 / 4.
Proof. exact LRound4.c88_symmetric_ex. Qed.
