(** Properties proved in LRead.v, generated from it by tools/mkprops.py.
    Nothing but statements: each proof is one lemma of that file. *)
From Coq Require Import ZArith Reals List Bool Arith Permutation.
From Verif Require Import Num Py Mesh Spec SpecRead Ex0.
From Verif Require LRead.
Import ListNotations.

(** read_delaunay accepts exactly the inputs whose points have two or three coordinates
    and whose simplices have three entries that index a point.  Then node k+1 is point k
    and element t+1 is simplex t. *)
Theorem C01_read_delaunay : forall (T : Type) (NT : Num T) (points : list (list T)) simplices,
  ((exists m, read_delaunay points simplices = Ok m) <->
   (Forall pt_ok points /\ Forall (simplex_ok (length points)) simplices)) /\
  forall m, read_delaunay points simplices = Ok m ->
    length (nodes m) = length points /\
    (forall k pt, nth_error points k = Some pt -> exists nd,
       nth_error (nodes m) k = Some (S k, nd) /\ nid nd = S k /\ pt_at pt (nxyz nd)) /\
    length (elements m) = length simplices /\
    (forall t s, nth_error simplices t = Some s -> exists i1 i2 i3 tr,
       s = [i1; i2; i3] /\ nth_error (elements m) t = Some (S t, tr) /\ eid tr = S t /\
       tn1 tr = point_id (length points) i1 /\ tn2 tr = point_id (length points) i2 /\
       tn3 tr = point_id (length points) i3).
Proof. exact LRead.c01_read_delaunay. Qed.
Print Assumptions C01_read_delaunay.

(** five accepted 2-D and 3-D points and simplices, one with a negative index; a simplex that
    names a missing point, one with four vertices and a point with one coordinate are rejected *)
Example C01_read_delaunay_ex :
  read_delaunay ex_points ex_simplices = Ok ex_read /\
  ~ simplex_ok 6 [0; 1; 6]%Z /\ ~ simplex_ok 6 [0; 1; 2; 3]%Z /\ ~ pt_ok [1%R].
Proof. exact LRead.c01_read_delaunay_ex. Qed.

(** The keys of mesh.edges are the sides of the triangles, without repetition and in
    increasing order of the two ids. *)
Theorem C02_edges_are_sides : forall (T : Type) (NT : Num T) (m : mesh T), reads m ->
  NoDup (edge_keys m) /\
  (forall a b, In (a, b) (edge_keys m) <->
     (a <= b)%nat /\ exists t, In t (trias_of m) /\ joins t a b) /\
  (forall k e, In (k, e) (edges m) -> (en1 e, en2 e) = k).
Proof. exact LRead.c02_edges_are_sides. Qed.
Print Assumptions C02_edges_are_sides.

Example C02_edges_are_sides_ex : reads ex_read /\
  edge_keys ex_read = [(1, 2); (2, 5); (1, 5); (2, 3); (3, 5); (3, 4); (4, 5); (1, 4)]%nat.
Proof. exact LRead.c02_edges_are_sides_ex. Qed.

(** edge.trias is the list, in element order, of the triangles that have both ends of
    the edge as vertices. *)
Theorem C03_edge_trias : forall (T : Type) (NT : Num T) (m : mesh T), reads m -> (forall t, In t (trias_of m) -> distinct t) ->
  forall k e, In (k, e) (edges m) ->
    etrias e = map eid (filter (fun t => is_vertex (fst k) t && is_vertex (snd k) t) (trias_of m)) /\
    NoDup (etrias e).
Proof. exact LRead.c03_edge_trias. Qed.
Print Assumptions C03_edge_trias.

Example C03_edge_trias_ex : reads ex_read /\ (forall t, In t (trias_of ex_read) -> distinct t) /\
  map (fun ke => etrias (snd ke)) (edges ex_read) = [[1]; [1; 2]; [1; 4]; [2]; [2; 3]; [3]; [3; 4]; [4]]%nat.
Proof. exact LRead.c03_edge_trias_ex. Qed.

(** tria.edges has exactly the three sides, node.edges exactly the edges that end in the
    node, node.trias exactly the ids of the triangles at the node. *)
Theorem C04_back_references : forall (T : Type) (NT : Num T) (m : mesh T), reads m -> (forall t, In t (trias_of m) -> distinct t) ->
  (forall t, In t (trias_of m) -> NoDup (tedges t) /\ length (tedges t) = 3%nat /\
     forall a b, In (a, b) (tedges t) <-> (a <= b)%nat /\ joins t a b) /\
  (forall n nd, In (n, nd) (nodes m) ->
     NoDup (nedges nd) /\ (forall a b, In (a, b) (nedges nd) <-> In (a, b) (edge_keys m) /\ (n = a \/ n = b)) /\
     NoDup (ntrias nd) /\ (forall e, In e (ntrias nd) <-> exists t, In t (trias_of m) /\ eid t = e /\ vertex t n)).
Proof. exact LRead.c04_back_references. Qed.
Print Assumptions C04_back_references.

Example C04_back_references_ex : reads ex_read /\ (forall t, In t (trias_of ex_read) -> distinct t) /\
  map (fun kn => ntrias (snd kn)) (nodes ex_read) = [[1; 4]; [1; 2]; [2; 3]; [3; 4]; [1; 2; 3; 4]; []]%nat.
Proof. exact LRead.c04_back_references_ex. Qed.

(** Summed over the edges the triangles are counted three times; with one or two
    triangles per edge this is 3 T = B + 2 I. *)
Theorem C05_side_count : forall (T : Type) (NT : Num T) (m : mesh T), reads m ->
  list_sum (map (fun ke => length (etrias (snd ke))) (edges m)) = (3 * length (elements m))%nat /\
  ((forall k e, In (k, e) (edges m) -> (length (etrias e) <= 2)%nat) ->
   (3 * length (elements m) = edges_with m 1 + 2 * edges_with m 2)%nat).
Proof. exact LRead.c05_side_count. Qed.
Print Assumptions C05_side_count.

Example C05_side_count_ex : reads ex_read /\
  (length (elements ex_read) = 4 /\ edges_with ex_read 1 = 4 /\ edges_with ex_read 2 = 4)%nat.
Proof. exact LRead.c05_side_count_ex. Qed.

(** A deck with grids 1..N and elements 1..T in order is read to the same mesh as the
    points and simplices given to read_delaunay. *)
Theorem C06_readers_agree : forall (T : Type) (NT : Num T) (points : list (list T)) ps simplices,
  Forall2 pt_at points ps ->
  Forall (fun s => length s = 3%nat /\ Forall (fun i => (0 <= i < Z.of_nat (length points))%Z) s) simplices ->
  read_mesh (combine (seq 1 (length ps)) ps)
            (combine (seq 1 (length simplices))
                     (map (fun s => Ctria3 (Z.to_nat (nth 0 s 0%Z) + 1) (Z.to_nat (nth 1 s 0%Z) + 1)
                                           (Z.to_nat (nth 2 s 0%Z) + 1)) simplices))
  = read_delaunay points simplices.
Proof. exact LRead.c06_readers_agree. Qed.
Print Assumptions C06_readers_agree.

Example C06_readers_agree_ex :
  Forall2 pt_at [[0; 0]; [4; 0]; [4; 3; 0]]%R [V3 0 0 0; V3 4 0 0; V3 4 3 0]%R /\
  Forall (fun s => length s = 3%nat /\ Forall (fun i => (0 <= i < 3)%Z) s) [[0; 1; 2]]%Z.
Proof. exact LRead.c06_readers_agree_ex. Qed.

(** The vertex order inside the simplices influences neither the set of edges nor the
    triangles on an edge. *)
Theorem C06_vertex_order : forall (T : Type) (NT : Num T) (points : list (list T)) ss ss' m m',
  Forall2 (@Permutation Z) ss ss' ->
  read_delaunay points ss = Ok m -> read_delaunay points ss' = Ok m' ->
  (forall k, In k (edge_keys m) <-> In k (edge_keys m')) /\
  (forall k e e', In (k, e) (edges m) -> In (k, e') (edges m') -> etrias e = etrias e').
Proof. exact LRead.c06_vertex_order. Qed.
Print Assumptions C06_vertex_order.

Example C06_vertex_order_ex : Forall2 (@Permutation Z) ex_simplices [[4; 0; 1]; [1; 2; 4]; [2; 3; 4]; [0; 3; -2]]%Z.
Proof. exact LRead.c06_vertex_order_ex. Qed.

(** A deck with an element of another type is rejected; a deck of CTRIA3 elements whose
    grids exist is read. *)
Theorem C07_triangles_only : forall (T : Type) (NT : Num T) (grids : list (nat * vec3 T)) cards,
  NoDup (map fst grids) -> NoDup (map fst cards) ->
  (In Other (map snd cards) -> read_mesh grids cards = Raise NotImplementedError) /\
  (~ In Other (map snd cards) ->
   (forall c n, In c (map snd cards) -> In n (card_ids c) -> In n (map fst grids)) ->
   exists m, read_mesh grids cards = Ok m /\
     (forall n nd, In (n, nd) (nodes m) -> nid nd = n /\ In (n, nxyz nd) grids) /\
     (forall e t, In (e, t) (elements m) -> eid t = e /\ In (e, Ctria3 (tn1 t) (tn2 t) (tn3 t)) cards) /\
     map fst (nodes m) = map fst grids /\ map fst (elements m) = map fst cards).
Proof. exact LRead.c07_triangles_only. Qed.
Print Assumptions C07_triangles_only.

Example C07_triangles_only_ex : NoDup (map fst ex_grids) /\ NoDup (map fst ex_cards) /\ ~ In Other (map snd ex_cards) /\
  (forall c n, In c (map snd ex_cards) -> In n (card_ids c) -> In n (map fst ex_grids)).
Proof. exact LRead.c07_triangles_only_ex. Qed.
