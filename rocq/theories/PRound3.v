(** Properties proved in LRound3.v, generated from it by tools/mkprops.py.
    Nothing but statements: each proof is one lemma of that file. *)
From Coq Require Import ZArith Reals List Bool Arith SpecFloat.
From Verif Require Import Num Float Py Mesh Utils CalcK0 CalcKG Spec SpecK0 SpecKG SpecRound SpecRound3 ExFloat.
From Verif Require LRound3.
Import ListNotations.
Local Open Scope R_scope.

(** calc_kG after calc_k0 in doubles, compared with both in exact arithmetic on the plate and the displacements with the same values:
    all succeed, the entries in doubles are finite, and entry (i, j) differs by at most 2^30 c^2 kappa 2^-53 rho^4 s w, where c is the
    number of edges whose domain has the nodes of row i and column j. Entries outside of the rows and columns of w are zero. *)
Theorem C87_error : forall (m : mesh double) pfn pfn' d h rho kappa s w, valid (mesh_val m) pfn -> k0_scale m h rho kappa s -> kG_scale m h s w d ->
  props_complete (mesh_val m) pfn' -> length d = (length (nodes m) * 5)%nat ->
  exists m' K G M' KR GR, calc_k0 m pfn = (m', Ok K) /\ calc_kG d m' pfn' = Ok G /\
    calc_k0 (mesh_val m) pfn = (M', Ok KR) /\ calc_kG (map val d) M' pfn' = Ok GR /\
    mdim G = (length (nodes m) * 5)%nat /\ mdim GR = (length (nodes m) * 5)%nat /\
    forall i j, (i < length (nodes m) * 5)%nat -> (j < length (nodes m) * 5)%nat ->
      finite (mentry G i j) /\ Rabs (val (mentry G i j) - mentry GR i j) <= kG_bound m rho kappa s w i j.
Proof. exact LRound3.c87_error. Qed.
Print Assumptions C87_error.

(** The matrix in doubles is symmetric up to twice that bound. *)
Theorem C87_symmetric : forall (m : mesh double) pfn pfn' d h rho kappa s w, valid (mesh_val m) pfn -> k0_scale m h rho kappa s -> kG_scale m h s w d ->
  props_complete (mesh_val m) pfn' -> length d = (length (nodes m) * 5)%nat ->
  exists m' K G, calc_k0 m pfn = (m', Ok K) /\ calc_kG d m' pfn' = Ok G /\ forall i j, (i < mdim G)%nat -> (j < mdim G)%nat ->
    Rabs (val (mentry G i j) - val (mentry G j i)) <= 2 * kG_bound m rho kappa s w i j.
Proof. exact LRound3.c87_symmetric. Qed.
Print Assumptions C87_symmetric.

(** The work of the membrane forces by the matrix in doubles is that of exact arithmetic up to rounding errors. *)
Theorem C87_work : forall (m : mesh double) pfn pfn' d h rho kappa s w, valid (mesh_val m) pfn -> k0_scale m h rho kappa s -> kG_scale m h s w d ->
  props_complete (mesh_val m) pfn' -> length d = (length (nodes m) * 5)%nat ->
  exists m' K G, calc_k0 m pfn = (m', Ok K) /\ calc_kG d m' pfn' = Ok G /\ forall u v,
    Rabs (form (matrix_val G) u v - kG_energy (mesh_val m) pfn' (vec_of (map val d)) u v)
    <= Sum (fun i => Sum (fun j => Rabs (u i) * kG_bound m rho kappa s w i j * Rabs (v j)) (seq 0 (mdim G))) (seq 0 (mdim G)).
Proof. exact LRound3.c87_work. Qed.
Print Assumptions C87_work.

(** A rigid motion prestresses nothing up to rounding errors. *)
Theorem C87_rigid : forall (m : mesh double) pfn pfn' d h rho kappa s w, valid (mesh_val m) pfn -> k0_scale m h rho kappa s -> kG_scale m h s w d ->
  props_complete (mesh_val m) pfn' -> length d = (length (nodes m) * 5)%nat -> rigid (mesh_val m) (vec_of (map val d)) ->
  exists m' K G, calc_k0 m pfn = (m', Ok K) /\ calc_kG d m' pfn' = Ok G /\ forall i j, (i < mdim G)%nat -> (j < mdim G)%nat ->
    Rabs (val (mentry G i j)) <= kG_bound m rho kappa s w i j.
Proof. exact LRound3.c87_rigid. Qed.
Print Assumptions C87_rigid.

(** The two triangles of the examples of C81 with displacements of up to 118/1024: no entry is off by more than 1/300. *)
Example C87_error_ex : forall pfn pfn', valid (mesh_val fwarped) pfn /\ k0_scale fwarped 4 4 2 64 /\ kG_scale fwarped 4 64 (/ 32) fsmall /\
  props_complete (mesh_val fwarped) pfn' /\ length fsmall = (length (nodes fwarped) * 5)%nat /\ kG_bound fwarped 4 2 64 (/ 32) 2 2 <= / 300.
Proof. exact LRound3.c87_error_ex. Qed.

(** The same plate turned in its plane. *)
Example C87_rigid_ex : forall pfn pfn', valid (mesh_val fwarped) pfn /\ k0_scale fwarped 4 4 2 64 /\ kG_scale fwarped 4 64 2 fturn /\
  props_complete (mesh_val fwarped) pfn' /\ length fturn = (length (nodes fwarped) * 5)%nat /\ rigid (mesh_val fwarped) (vec_of (map val fturn)).
Proof. exact LRound3.c87_rigid_ex. Qed.
