(** Properties proved in LLocal.v, generated from it by tools/mkprops.py.
    Nothing but statements: each proof is one lemma of that file. *)
From Coq Require Import ZArith Reals List Bool Arith String.
From Verif Require Import Num Py Mesh Utils CalcK0 CalcKG AddK0s Ops Spec SpecK0 SpecKG SpecK0s SpecLocal Ex ExK0 ExK0s ExLocal.
From Verif Require LLocal.
Import ListNotations.
Local Open Scope R_scope.

(** The entries of k0 for two nodes depend only on the smoothing domains that have both nodes: two plates that agree there,
    whatever else they contain and however their nodes are numbered, have the same entries. *)
Theorem C99_k0 : forall m1 m2 pfn a b, valid m1 pfn -> valid m2 pfn -> In a (node_keys m1) -> In a (node_keys m2) -> In b (node_keys m1) -> In b (node_keys m2) ->
  same_coupling m1 m2 a b ->
  exists n1 K1 n2 K2, calc_k0 m1 pfn = (n1, Ok K1) /\ calc_k0 m2 pfn = (n2, Ok K2) /\ forall c c', (c < 5)%nat -> (c' < 5)%nat ->
    mentry K1 (rank m1 a * 5 + c) (rank m1 b * 5 + c') = mentry K2 (rank m2 a * 5 + c) (rank m2 b * 5 + c').
Proof. exact LLocal.c99_k0. Qed.
Print Assumptions C99_k0.

(** The same of kG, if the displacements agree on these domains. *)
Theorem C99_kG : forall m1 m2 n1 n2 pfn a b d1 d2, prepared_from m1 n1 -> prepared_from m2 n2 -> props_complete m1 pfn -> props_complete m2 pfn ->
  In a (node_keys m1) -> In a (node_keys m2) -> In b (node_keys m1) -> In b (node_keys m2) -> same_coupling m1 m2 a b ->
  List.length d1 = (List.length (nodes m1) * 5)%nat -> List.length d2 = (List.length (nodes m2) * 5)%nat ->
  (forall k n i, couples m1 k a b -> on_domain m1 k n -> (i < 5)%nat -> comp m1 (vec_of d1) i n = comp m2 (vec_of d2) i n) ->
  exists G1 G2, calc_kG d1 n1 pfn = Ok G1 /\ calc_kG d2 n2 pfn = Ok G2 /\ forall c c', (c < 5)%nat -> (c' < 5)%nat ->
    mentry G1 (rank m1 a * 5 + c) (rank m1 b * 5 + c') = mentry G2 (rank m2 a * 5 + c) (rank m2 b * 5 + c').
Proof. exact LLocal.c99_kG. Qed.
Print Assumptions C99_kG.

(** What the cell-based methods of add_k0s add to the entries for two nodes depends only on the triangles with both nodes. *)
Theorem C99_shear : forall method m1 m2 n1 n2 pfn alpha mfa k1 k2 a b, In method cell_methods -> call_ok m1 n1 pfn alpha k1 -> call_ok m2 n2 pfn alpha k2 ->
  In a (node_keys m1) -> In a (node_keys m2) -> In b (node_keys m1) -> In b (node_keys m2) -> same_trias m1 m2 a b ->
  exists k1' k2', add_k0s lits_src k1 n1 pfn method alpha mfa = (k1', Ok tt) /\ add_k0s lits_src k2 n2 pfn method alpha mfa = (k2', Ok tt) /\
    forall c c', (c < 5)%nat -> (c' < 5)%nat -> let i1 := (rank m1 a * 5 + c)%nat in let j1 := (rank m1 b * 5 + c')%nat in let i2 := (rank m2 a * 5 + c)%nat in let j2 := (rank m2 b * 5 + c')%nat in
      mentry k1' i1 j1 - mentry k1 i1 j1 = mentry k2' i2 j2 - mentry k2 i2 j2.
Proof. exact LLocal.c99_shear. Qed.
Print Assumptions C99_shear.

(** The laminate of one triangle of a plate is changed; two nodes that are not on a common domain with it. *)
Example C99_k0_ex : forall c pfn, let m1 := ex_patch 1 in let m2 := ex_patch c in valid m1 pfn /\ valid m2 pfn /\
  In 1%nat (node_keys m1) /\ In 1%nat (node_keys m2) /\ In 2%nat (node_keys m1) /\ In 2%nat (node_keys m2) /\ same_coupling m1 m2 1 2 /\
  couples m1 (1, 2)%nat 1 2 /\ (c <> 1 -> map tprop (trias_of m1) <> map tprop (trias_of m2)).
Proof. exact LLocal.c99_k0_ex. Qed.

Example C99_kG_ex : forall c pfn, let m1 := ex_patch 1 in let m2 := ex_patch c in let d := list_of 30 ex_lin in
  (exists n1, prepared_from m1 n1) /\ (exists n2, prepared_from m2 n2) /\ props_complete m1 pfn /\ props_complete m2 pfn /\
  List.length d = (List.length (nodes m1) * 5)%nat /\ List.length d = (List.length (nodes m2) * 5)%nat /\
  forall k n i, couples m1 k 1 2 -> on_domain m1 k n -> (i < 5)%nat -> comp m1 (vec_of d) i n = comp m2 (vec_of d) i n.
Proof. exact LLocal.c99_kG_ex. Qed.

Example C99_shear_ex : forall c pfn alpha, 0 <= alpha -> (exists n1, call_ok (ex_patch 1) n1 pfn alpha (zeros 30)) /\ (exists n2, call_ok (ex_patch c) n2 pfn alpha (zeros 30)) /\
  same_trias (ex_patch 1) (ex_patch c) 1 2 /\ trias_with (ex_patch 1) 1 2 <> [].
Proof. exact LLocal.c99_shear_ex. Qed.
