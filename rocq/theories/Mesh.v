(** Meshes and the two readers, meshless/espim/read_mesh.py and classes.py.

    Python objects refer to each other by reference.  In the model nodes,
    triangles and edges live in the three dictionaries of the mesh and refer to
    each other by key: a node by its id, a triangle by its element id, an edge by
    its pair of node ids.  (In the code each object is stored in exactly one of
    these dictionaries under that key.) *)
From Coq Require Import ZArith List Bool Arith.
From Verif Require Import Num Py.
Import ListNotations.

Section Mesh.
  Context {T : Type} {N : Num T}.
  Local Open Scope num_scope.

  Record vec3 : Type := V3 { vx : T; vy : T; vz : T }.

  (** 3x3 and 2x2 arrays of a laminate *)
  Record mat3 : Type := M3 { m00 : T; m01 : T; m02 : T;
                             m10 : T; m11 : T; m12 : T;
                             m20 : T; m21 : T; m22 : T }.
  Record mat2 : Type := M2 { e00 : T; e01 : T; e10 : T; e11 : T }.

  (** The attributes of a [composites] laminate read by the code
      (plate2d_calc_k0.py:206-229, plate2d_add_k0s_*.py). *)
  Record prop : Type := Prop_ {
    pA : mat3; pB : mat3; pD : mat3;
    pE : mat2; ph : T; pk13 : T; pk23 : T }.

  (** pyNastran GRID with the attributes set in read_mesh.py:27-31,98-102.
      [nindex = None] is the initial value [set()]. *)
  Record node : Type := Node {
    nid : nat; nxyz : vec3; nprop : option prop; nindex : option nat;
    nedges : list (nat * nat);   (* set of edges *)
    ntrias : list nat }.         (* set of element ids *)

  (** pyNastran CTRIA3 with the attributes set in read_mesh.py:36-37,112-117. *)
  Record tria : Type := Tria {
    eid : nat; tn1 : nat; tn2 : nat; tn3 : nat;
    tprop : option prop; tedges : list (nat * nat) }.

  (** classes.py:1-16, IntegrationPoint *)
  Record ipt : Type := Ipt {
    ipxyz : vec3; iptria : nat; ipn1 : nat; ipn2 : nat; ipn3 : nat;
    ipf1 : T; ipf2 : T; ipf3 : T; ipnx : T; ipny : T; ipnz : T; iple : T }.

  (** classes.py:19-30, Edge.  [en1 = n1.nid], [en2 = n2.nid]. *)
  Record edge : Type := Edge {
    en1 : nat; en2 : nat; etrias : list nat;
    esdomain : list vec3; eipts : list ipt; eAc : option T;
    eother1 : option nat; eother2 : option nat }.

  (** classes.py:20-30, Edge.__init__ *)
  Definition new_edge (n1 n2 : nat) : edge :=
    {| en1 := n1; en2 := n2; etrias := []; esdomain := []; eipts := [];
       eAc := None; eother1 := None; eother2 := None |}.

  Record mesh : Type := Mesh {
    nodes : list (nat * node);
    elements : list (nat * tria);
    edges : list ((nat * nat) * edge) }.

  Definition get_node (m : mesh) (n : nat) : res node :=
    get_or KeyError (dget Nat.eqb n (nodes m)).
  Definition get_tria (m : mesh) (e : nat) : res tria :=
    get_or KeyError (dget Nat.eqb e (elements m)).

  (** tria.node_ids *)
  Definition node_ids (t : tria) : list nat := [tn1 t; tn2 t; tn3 t].

  (** [tuple(sorted([a, b]))] *)
  Definition sorted_pair (a b : nat) : nat * nat := if a <=? b then (a, b) else (b, a).

  (** pyNastran CTRIA3.get_edge_ids, called in read_mesh.py:45 and 123 *)
  Definition get_edge_ids (t : tria) : list (nat * nat) :=
    [sorted_pair (tn1 t) (tn2 t); sorted_pair (tn2 t) (tn3 t); sorted_pair (tn3 t) (tn1 t)].

  (** read_mesh.py:43-46 and 121-124: edges_ids[edge_id].append(tria) *)
  Definition collect_edges (trias : list tria) : list ((nat * nat) * list nat) :=
    fold_left
      (fun d t => fold_left (fun d k => dappend pair_eqb k (eid t) d) (get_edge_ids t) d)
      trias [].

  Definition add_node_edge (k : nat * nat) (n : node) : node :=
    {| nid := nid n; nxyz := nxyz n; nprop := nprop n; nindex := nindex n;
       nedges := sadd pair_eqb k (nedges n); ntrias := ntrias n |}.
  Definition add_node_tria (e : nat) (n : node) : node :=
    {| nid := nid n; nxyz := nxyz n; nprop := nprop n; nindex := nindex n;
       nedges := nedges n; ntrias := sadd Nat.eqb e (ntrias n) |}.
  Definition add_tria_edge (k : nat * nat) (t : tria) : tria :=
    {| eid := eid t; tn1 := tn1 t; tn2 := tn2 t; tn3 := tn3 t;
       tprop := tprop t; tedges := tedges t ++ [k] |}.

  (** read_mesh.py:48-53 and 125-130, body of the loop over edges_ids.items().
      A missing node id raises KeyError. *)
  Definition make_edge (it : (nat * nat) * list nat) (m : mesh) : res mesh :=
    let '((n1, n2), e_trias) := it in
    let! _ := get_node m n1 in
    let! _ := get_node m n2 in
    let e := new_edge n1 n2 in
    let e := {| en1 := en1 e; en2 := en2 e; etrias := e_trias; esdomain := esdomain e;
                eipts := eipts e; eAc := eAc e; eother1 := eother1 e; eother2 := eother2 e |} in
    Ok {| nodes := dupd Nat.eqb n2 (add_node_edge (n1, n2))
                     (dupd Nat.eqb n1 (add_node_edge (n1, n2)) (nodes m));
          elements := elements m;
          edges := dset pair_eqb (n1, n2) e (edges m) |}.

  Fixpoint make_edges (l : list ((nat * nat) * list nat)) (m : mesh) : res mesh :=
    match l with
    | [] => Ok m
    | it :: l' => let! m' := make_edge it m in make_edges l' m'
    end.

  (** read_mesh.py:54-56 and 131-133: tria.edges.append(edge) *)
  Definition link_trias (m : mesh) : mesh :=
    {| nodes := nodes m;
       elements :=
         fold_left
           (fun els ke =>
              fold_left (fun els t => dupd Nat.eqb t (add_tria_edge (fst ke)) els)
                        (etrias (snd ke)) els)
           (edges m) (elements m);
       edges := edges m |}.

  (** read_mesh.py:57-59 and 134-136: mesh.nodes[nid].trias.add(tria.eid) *)
  Definition link_node (te : nat) (n : nat) (m : mesh) : res mesh :=
    let! _ := get_node m n in
    Ok {| nodes := dupd Nat.eqb n (add_node_tria te) (nodes m);
          elements := elements m; edges := edges m |}.

  Definition link_nodes1 (t : tria) (m : mesh) : res mesh :=
    let! m := link_node (eid t) (tn1 t) m in
    let! m := link_node (eid t) (tn2 t) m in
    link_node (eid t) (tn3 t) m.

  Fixpoint link_nodes (ts : list tria) (m : mesh) : res mesh :=
    match ts with
    | [] => Ok m
    | t :: ts' => let! m' := link_nodes1 t m in link_nodes ts' m'
    end.

  (** The part both readers share: read_mesh.py:42-61 and 120-137. *)
  Definition finish_mesh (nds : list (nat * node)) (els : list (nat * tria)) : res mesh :=
    let trias := map snd els in
    let! m := make_edges (collect_edges trias)
                {| nodes := nds; elements := els; edges := [] |} in
    link_nodes trias (link_trias m).

  Definition new_node (n : nat) (p : vec3) : node :=
    {| nid := n; nxyz := p; nprop := None; nindex := None; nedges := []; ntrias := [] |}.
  Definition new_tria (e a b c : nat) : tria :=
    {| eid := e; tn1 := a; tn2 := b; tn3 := c; tprop := None; tedges := [] |}.

  (** read_mesh.py:94-98.  A point of length 2 is padded with z = 0.; pyNastran's
      GRID asserts that there are three coordinates. *)
  Definition point_xyz (pt : list T) : res vec3 :=
    match pt with
    | [a; b] => Ok (V3 a b (#0))
    | [a; b; c] => Ok (V3 a b c)
    | _ => Raise AssertionError
    end.

  (** read_mesh.py:92-104, loop over points; [k] is the value of nid *)
  Fixpoint read_points (k : nat) (pts : list (list T)) : res (list (nat * node)) :=
    match pts with
    | [] => Ok []
    | pt :: pts' =>
        let! p := point_xyz pt in
        let! rest := read_points (S k) pts' in
        Ok ((S k, new_node (S k) p) :: rest)
    end.

  (** read_mesh.py:105-119, loop over tri.simplices; [k] is the value of eid.
      Unpacking a simplex that does not have three entries raises ValueError;
      nodes[i] is list indexing, negative indices count from the end. *)
  Fixpoint read_simplices (nds : list node) (k : nat) (ts : list (list Z))
    : res (list (nat * tria)) :=
    match ts with
    | [] => Ok []
    | s :: ts' =>
        match s with
        | [i1; i2; i3] =>
            let! a := py_get nds i1 in
            let! b := py_get nds i2 in
            let! c := py_get nds i3 in
            let! rest := read_simplices nds (S k) ts' in
            Ok ((S k, new_tria (S k) (nid a) (nid b) (nid c)) :: rest)
        | _ => Raise ValueError
        end
    end.

  (** read_mesh.py:66-139 *)
  Definition read_delaunay (points : list (list T)) (simplices : list (list Z)) : res mesh :=
    let! nds := read_points 0 points in
    let! els := read_simplices (map snd nds) 0 simplices in
    finish_mesh nds els.

  (** A parsed deck, as returned by pyNastran's read_bdf: grids and elements in
      dictionary order.  [Other] is any element type but CTRIA3. *)
  Inductive card : Type :=
  | Ctria3 (a b c : nat)
  | Other.

  (** read_mesh.py:33-41 *)
  Fixpoint read_cards (cards : list (nat * card)) : res (list (nat * tria)) :=
    match cards with
    | [] => Ok []
    | (e, Ctria3 a b c) :: cards' =>
        let! rest := read_cards cards' in Ok ((e, new_tria e a b c) :: rest)
    | (_, Other) :: _ => Raise NotImplementedError
    end.

  (** read_mesh.py:10-63, after [read_bdf] *)
  Definition read_mesh (grids : list (nat * vec3)) (cards : list (nat * card)) : res mesh :=
    let! els := read_cards cards in
    finish_mesh (map (fun g => (fst g, new_node (fst g) (snd g))) grids) els.
End Mesh.
Arguments vec3 T : clear implicits.
Arguments mat3 T : clear implicits.
Arguments mat2 T : clear implicits.
Arguments prop T : clear implicits.
Arguments node T : clear implicits.
Arguments tria T : clear implicits.
Arguments ipt T : clear implicits.
Arguments edge T : clear implicits.
Arguments mesh T : clear implicits.
Arguments Other : clear implicits.
