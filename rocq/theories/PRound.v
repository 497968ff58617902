(** Properties proved in LRound.v, generated from it by tools/mkprops.py.
    Nothing but statements: each proof is one lemma of that file. *)
From Coq Require Import ZArith Reals List Bool Arith.
From Verif Require Import Num Float Py Mesh Utils CalcK0 Spec SpecK0 SpecRound ExFloat.
From Verif Require LRound.
Import ListNotations.
Local Open Scope R_scope.

(** calc_k0 in doubles, compared with calc_k0 in exact arithmetic on the plate with the same coordinates and stiffnesses: both
    return a matrix, the entries in doubles are finite, and entry (i, j) differs by at most 2^20 c^2 kappa 2^-53 rho^3 s, where c is
    the number of edges whose domain has the nodes of row i and column j. In particular both are zero if there is no such edge. *)
Theorem C81_error : forall (m : mesh double) pfn h rho kappa s, valid (mesh_val m) pfn -> k0_scale m h rho kappa s ->
  exists m' K M' KR, calc_k0 m pfn = (m', Ok K) /\ calc_k0 (mesh_val m) pfn = (M', Ok KR) /\
    mdim K = (List.length (nodes m) * 5)%nat /\ mdim KR = (List.length (nodes m) * 5)%nat /\
    forall i j, (i < List.length (nodes m) * 5)%nat -> (j < List.length (nodes m) * 5)%nat ->
      finite (mentry K i j) /\ Rabs (val (mentry K i j) - mentry KR i j) <= k0_bound m rho kappa s i j.
Proof. exact LRound.c81_error. Qed.
Print Assumptions C81_error.

(** The matrix in doubles is symmetric up to twice that bound (exact symmetry is refuted, C72). *)
Theorem C81_symmetric : forall (m : mesh double) pfn h rho kappa s, valid (mesh_val m) pfn -> k0_scale m h rho kappa s ->
  exists m' K, calc_k0 m pfn = (m', Ok K) /\ forall i j, (i < mdim K)%nat -> (j < mdim K)%nat ->
    Rabs (val (mentry K i j) - val (mentry K j i)) <= 2 * k0_bound m rho kappa s i j.
Proof. exact LRound.c81_symmetric. Qed.
Print Assumptions C81_symmetric.

(** The energies of the matrix in doubles are those of exact arithmetic up to rounding errors. *)
Theorem C81_energy : forall (m : mesh double) pfn h rho kappa s, valid (mesh_val m) pfn -> k0_scale m h rho kappa s ->
  exists m' K, calc_k0 m pfn = (m', Ok K) /\ forall u v,
    Rabs (form (matrix_val K) u v - k0_energy (mesh_val m) pfn u v)
    <= Sum (fun i => Sum (fun j => Rabs (u i) * k0_bound m rho kappa s i j * Rabs (v j)) (seq 0 (mdim K))) (seq 0 (mdim K)).
Proof. exact LRound.c81_energy. Qed.
Print Assumptions C81_energy.

(** A rigid motion is free of nodal forces up to rounding errors. *)
Theorem C81_rigid : forall (m : mesh double) pfn h rho kappa s, valid (mesh_val m) pfn -> k0_scale m h rho kappa s ->
  exists m' K, calc_k0 m pfn = (m', Ok K) /\ forall u, rigid (mesh_val m) u -> forall i, (i < mdim K)%nat ->
    Rabs (mulv (matrix_val K) u i) <= Sum (fun j => k0_bound m rho kappa s i j * Rabs (u j)) (seq 0 (mdim K)).
Proof. exact LRound.c81_rigid. Qed.
Print Assumptions C81_rigid.

(** A plate of two triangles whose coordinates are no exact doubles (1/7, 37/9, ...), with stiffnesses of up to 60. *)
Example C81_error_ex : forall pfn, valid (mesh_val fwarped) pfn /\ k0_scale fwarped 4 4 2 64 /\ k0_bound fwarped 4 2 64 0 0 <= / 40000.
Proof. exact LRound.c81_error_ex. Qed.

(** On this plate, a rotation in the plane by 2 with the translation (2, -2). *)
Example C81_rigid_ex : forall pfn, valid (mesh_val fwarped) pfn /\ k0_scale fwarped 4 4 2 64 /\
  rigid (mesh_val fwarped) (field (mesh_val fwarped) (fun c n => match c with
    | 0%nat => 2 - 2 * vy (pos (mesh_val fwarped) n) | 1%nat => -2 + 2 * vx (pos (mesh_val fwarped) n) | _ => 7 end)).
Proof. exact LRound.c81_rigid_ex. Qed.
