(** Properties proved in LEdgeOps.v, generated from it by tools/mkprops.py.
    Nothing but statements: each proof is one lemma of that file. *)
From Coq Require Import Reals ZArith List Bool Arith Ascii String.
From Verif Require Import Num Py Mesh Utils Pow2mul Mprint EdgeOps Spec SpecK0 SpecK0s Ex0.
From Verif Require LEdgeOps.
Import ListNotations.
Local Open Scope list_scope.

(** Two edges of a mesh with the same text are the same. *)
Theorem C85_names : forall (T : Type) (NT : Num T) (m : mesh T) k e k' e', wf_mesh m -> In (k, e) (edges m) -> In (k', e') (edges m) ->
  edge_str e = edge_str e' -> k = k' /\ e = e'.
Proof. exact LEdgeOps.c85_names. Qed.
Print Assumptions C85_names.

(** The midpoint: half way between the ends, and the centroid of every triangle on the edge lies at two thirds of
    the way from the third vertex to it. *)
Theorem C85_mid : forall (m : mesh R) k e, wf_mesh m -> In (k, e) (edges m) -> exists p,
  edge_getMid m e = Ok p /\
  (let half (f : vec3 R -> R) := (f p = (f (pos m (fst k)) + f (pos m (snd k))) / 2)%R in half vx /\ half vy /\ half vz) /\
  (forall n, n = fst k \/ n = snd k -> sqrt (dot (vsub p (pos m n)) (vsub p (pos m n))) = (dist m (fst k) (snd k) / 2)%R) /\
  forall t, In t (tris_on m k) -> let q := pos m (third t k) in
    let at_two_thirds (f : vec3 R -> R) := (f (centroid m t) = f q + 2 / 3 * (f p - f q))%R in at_two_thirds vx /\ at_two_thirds vy /\ at_two_thirds vz.
Proof. exact LEdgeOps.c85_mid. Qed.
Print Assumptions C85_mid.

(** The edge between the second and the fifth node of the example. *)
Example C85_ex : wf_mesh ex_read /\ exists e, In ((2, 5), e) (edges ex_read) /\ edge_str e = txt "Edge (2, 5)" /\
  edge_getMid ex_read e = Ok (V3 (5 / 2) (1 / 2) 0)%R.
Proof. exact LEdgeOps.c85_ex. Qed.
