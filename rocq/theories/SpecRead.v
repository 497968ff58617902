(** Notions used to state the properties of the readers. *)
From Coq Require Import ZArith Reals List Bool Arith Permutation.
From Verif Require Import Num Py Mesh Spec.
Import ListNotations.

(** a point with two or three coordinates *)
Definition pt_ok {T} (pt : list T) : Prop := length pt = 2%nat \/ length pt = 3%nat.

(** the input point [pt] is the point [p] of space *)
Definition pt_at {T} {N : Num T} (pt : list T) (p : vec3 T) : Prop :=
  (pt = [vx p; vy p] /\ vz p = (#0)%num) \/ pt = [vx p; vy p; vz p].

(** an index into a list of [N] points, from the front (0 .. N-1) or, as everywhere in
    Python, from the back (-1 .. -N), and the id of the node it means *)
Definition idx_ok (N : nat) (i : Z) : Prop := (- Z.of_nat N <= i < Z.of_nat N)%Z.
Definition point_id (N : nat) (i : Z) : nat :=
  Z.to_nat (if (0 <=? i)%Z then i + 1 else i + Z.of_nat N + 1).
Definition simplex_ok (N : nat) (s : list Z) : Prop := length s = 3%nat /\ Forall (idx_ok N) s.

(** a triangle with three different vertices *)
Definition distinct {T} (t : tria T) : Prop := tn1 t <> tn2 t /\ tn2 t <> tn3 t /\ tn3 t <> tn1 t.

(** a and b are the ends of one of the three sides of [t] *)
Definition joins {T} (t : tria T) (a b : nat) : Prop :=
  let l := [(tn1 t, tn2 t); (tn2 t, tn3 t); (tn3 t, tn1 t)] in In (a, b) l \/ In (b, a) l.

(** node ids of a card *)
Definition card_ids (c : card) : list nat := match c with Ctria3 i j k => [i; j; k] | Other => [] end.

(** a mesh returned by one of the readers *)
Inductive reads {T} {N : Num T} : mesh T -> Prop :=
| reads_delaunay : forall points simplices m,
    read_delaunay points simplices = Ok m -> reads m
| reads_deck : forall grids cards m,
    NoDup (map fst grids) -> NoDup (map fst cards) ->
    read_mesh grids cards = Ok m -> reads m.

(** number of edges with [n] triangles *)
Definition edges_with {T} (m : mesh T) (n : nat) : nat :=
  length (filter (fun ke => Nat.eqb (length (etrias (snd ke))) n) (edges m)).
