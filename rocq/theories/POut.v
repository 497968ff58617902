(** Properties proved in LOut.v, generated from it by tools/mkprops.py.
    Nothing but statements: each proof is one lemma of that file. *)
From Coq Require Import ZArith String List Bool Arith.
From Verif Require Import Num Float Py Mesh Utils CalcK0 CalcKG AddK0s Ops Spec SpecRead SpecK0 SpecK0s ExFloat.
From Verif Require LOut.
Import ListNotations.

(** In double precision the matrix of calc_k0 is not exactly symmetric. *)
Theorem C72_k0_refuted : exists (m m0 : mesh double) ops m' pfn K i j, reads m0 /\ m = run ops m0 /\
  calc_k0 m pfn = (m', Ok K) /\ i < mdim K /\ j < mdim K /\ mentry K i j <> mentry K j i.
Proof. exact LOut.c72_k0_refuted. Qed.
Print Assumptions C72_k0_refuted.

(** What add_k0s adds to a zero matrix is not exactly symmetric either, for any method. *)
Theorem C72_add_refuted : forall method, In method methods ->
  exists (m m0 : mesh double) ops m' pfn K k i j, reads m0 /\ m = run ops m0 /\ calc_k0 m pfn = (m', Ok K) /\
  add_k0s lits_src (zeros (mdim K)) m' pfn method (nofZ 1) false = (k, Ok tt) /\
  i < mdim k /\ j < mdim k /\ mentry k i j <> mentry k j i.
Proof. exact LOut.c72_add_refuted. Qed.
Print Assumptions C72_add_refuted.

(** nor is the matrix of calc_kG *)
Theorem C72_kG_refuted : exists (m m0 : mesh double) ops m' pfn K d KG i j, reads m0 /\ m = run ops m0 /\
  calc_k0 m pfn = (m', Ok K) /\ List.length d = mdim K /\ calc_kG d m' pfn = Ok KG /\
  i < mdim KG /\ j < mdim KG /\ mentry KG i j <> mentry KG j i.
Proof. exact LOut.c72_kG_refuted. Qed.
Print Assumptions C72_kG_refuted.

(** Once calc_k0 has returned, and after any assignments, add_k0s and calc_kG succeed in any
    arithmetic, provided the properties asked for are there and the arrays are large enough. *)
Theorem C73_progress : forall (T : Type) (NT : Num T) (m m' : mesh T) pfn K ops pfn', wf_mesh m ->
  calc_k0 m pfn = (m', Ok K) -> forallb is_assignment ops = true -> props_complete (run ops m') pfn' ->
  (forall L method k alpha mfa, In method methods -> mdim K <= mdim k ->
     exists k', add_k0s L k (run ops m') pfn' method alpha mfa = (k', Ok tt) /\ mdim k' = mdim k) /\
  (forall d, mdim K <= List.length d -> exists KG, calc_kG d (run ops m') pfn' = Ok KG /\ mdim KG = List.length d / 5 * 5).
Proof. exact LOut.c73_progress. Qed.
Print Assumptions C73_progress.

(** doubles; the move is an assignment after calc_k0 *)
Example C73_progress_ex : wf_mesh fmesh /\ forallb is_assignment fmove = true /\
  exists m' K, calc_k0 fmesh false = (m', Ok K) /\ props_complete (run fmove m') true /\ props_complete (run fmove m') false.
Proof. exact LOut.c73_progress_ex. Qed.

(** On a mesh that has elements and has not been through calc_k0, add_k0s and calc_kG raise an
    exception, whatever has been assigned, and add_k0s leaves the matrix as it is. *)
Theorem C74_order : forall (T : Type) (NT : Num T) (m : mesh T) ops, reads m -> (forall t, In t (trias_of m) -> distinct t) ->
  elements m <> [] -> (forall b, ~ In (OpCalcK0 b) ops) ->
  (forall L method k pfn alpha mfa, exists e, add_k0s L k (run ops m) pfn method alpha mfa = (k, Raise e)) /\
  (forall d pfn, exists e, calc_kG d (run ops m) pfn = Raise e).
Proof. exact LOut.c74_order. Qed.
Print Assumptions C74_order.

(** all properties assigned and the nodes moved *)
Example C74_order_ex : reads fread /\ (forall t, In t (trias_of fread) -> distinct t) /\ elements fread <> [] /\
  (forall b, ~ In (OpCalcK0 b) (fops ++ fmoves)) /\
  add_k0s lits_src (zeros 20) (run (fops ++ fmoves) fread) true "cell-based"%string (nofZ 1) false = (zeros 20, Raise TypeError) /\
  add_k0s lits_src (zeros 20) (run (fops ++ fmoves) fread) true "edge-based"%string (nofZ 1) false = (zeros 20, Raise AttributeError) /\
  calc_kG fdisp (run (fops ++ fmoves) fread) true = Raise ValueError.
Proof. exact LOut.c74_order_ex. Qed.

(** After calc_k0 and any assignments, moved nodes included, the cell-based methods add what
    they would add after another calc_k0. *)
Theorem C75_cell : forall (T : Type) (NT : Num T) (m m' m2 : mesh T) pfn K ops pfn2 K2, calc_k0 m pfn = (m', Ok K) ->
  forallb is_assignment ops = true -> calc_k0 (run ops m') pfn2 = (m2, Ok K2) ->
  forall L method k b alpha mfa, In method cell_methods ->
  add_k0s L k (run ops m') b method alpha mfa = add_k0s L k m2 b method alpha mfa.
Proof. exact LOut.c75_cell. Qed.
Print Assumptions C75_cell.

Example C75_cell_ex : exists m' K m2 K2, calc_k0 fmesh false = (m', Ok K) /\
  forallb is_assignment fmove = true /\ calc_k0 (run fmove m') false = (m2, Ok K2).
Proof. exact LOut.c75_cell_ex. Qed.

(** The method "edge-based" and calc_kG use the domains of the last calc_k0: after a node has
    been moved they silently return something else than after a new calc_k0. *)
Theorem C75_edge_refuted : exists (m m' m2 : mesh double) pfn K ops K2 k k2 i j, wf_mesh m /\ calc_k0 m pfn = (m', Ok K) /\
  forallb is_assignment ops = true /\ calc_k0 (run ops m') pfn = (m2, Ok K2) /\
  add_k0s lits_src (zeros (mdim K)) (run ops m') pfn "edge-based"%string (nofZ 1) false = (k, Ok tt) /\
  add_k0s lits_src (zeros (mdim K)) m2 pfn "edge-based"%string (nofZ 1) false = (k2, Ok tt) /\ mentry k i j <> mentry k2 i j.
Proof. exact LOut.c75_edge_refuted. Qed.
Print Assumptions C75_edge_refuted.

Theorem C75_kG_refuted : exists (m m' m2 : mesh double) pfn K ops K2 d k k2 i j, wf_mesh m /\ calc_k0 m pfn = (m', Ok K) /\
  forallb is_assignment ops = true /\ calc_k0 (run ops m') pfn = (m2, Ok K2) /\ List.length d = mdim K /\
  calc_kG d (run ops m') pfn = Ok k /\ calc_kG d m2 pfn = Ok k2 /\ mentry k i j <> mentry k2 i j.
Proof. exact LOut.c75_kG_refuted. Qed.
Print Assumptions C75_kG_refuted.
