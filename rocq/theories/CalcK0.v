(** meshless/espim/plate2d_calc_k0.py *)
From Coq Require Import ZArith List Bool Arith.
From Verif Require Import Num Py Mesh Utils GenK0.
Import ListNotations.

Section CalcK0.
  Context {T : Type} {N : Num T}.
  Local Open Scope num_scope.

  (** ** Property check, plate2d_calc_k0.py:33-42 *)

  Definition is_none {A} (o : option A) : bool :=
    match o with None => true | Some _ => false end.

  (** The objects of edge.nodes / edge.trias are found by key; a missing key
      (impossible for a mesh made by the readers) raises KeyError. *)
  Definition check_edge (m : mesh T) (prop_from_node : bool) (e : edge T) : res unit :=
    if prop_from_node then
      let! n1 := get_node m (en1 e) in
      if is_none (nprop n1) then Raise ValueError else
      let! n2 := get_node m (en2 e) in
      if is_none (nprop n2) then Raise ValueError else Ok tt
    else
      let fix go (l : list nat) : res unit :=
        match l with
        | [] => Ok tt
        | t :: l' =>
            let! tr := get_tria m t in
            if is_none (tprop tr) then Raise ValueError else go l'
        end in
      go (etrias e).

  Fixpoint check_edges (m : mesh T) (pfn : bool) (es : list ((nat * nat) * edge T)) : res unit :=
    match es with
    | [] => Ok tt
    | (_, e) :: es' => let! _ := check_edge m pfn e in check_edges m pfn es'
    end.

  (** ** Smoothing domain of an edge, plate2d_calc_k0.py:44-114 *)

  (** [(set(tria.node_ids) - set(edge.node_ids)).pop()]; [pop] on an empty set
      raises KeyError.  (The set has at most one element, since the edge is a side
      of the triangle; the model takes the first.) *)
  Definition othernode_id (t : tria T) (e : edge T) : res nat :=
    match sdiff Nat.eqb (sset Nat.eqb (node_ids t)) (sset Nat.eqb [en1 e; en2 e]) with
    | [] => Raise KeyError
    | x :: _ => Ok x
    end.

  (** classes.py:4-16 with lines 74-80 (82-87, 90-95, 97-102, 104-109) of
      plate2d_calc_k0.py: [vec] is tmpvec, also the vector whose length is le. *)
  Definition make_ipt (t : nat) (n1 n2 n3 : node T) (f1 f2 f3 : T) (vec : vec3 T) : ipt T :=
    let nrm := unitvec (cross vec ZGLOBAL) in
    {| ipxyz := vadd (vadd (vscale f1 (nxyz n1)) (vscale f2 (nxyz n2))) (vscale f3 (nxyz n3));
       iptria := t; ipn1 := nid n1; ipn2 := nid n2; ipn3 := nid n3;
       ipf1 := f1; ipf2 := f2; ipf3 := f3;
       ipnx := vx nrm; ipny := vy nrm; ipnz := vz nrm; iple := norm vec |}.

  Definition set_others (e : edge T) (o1 o2 : option nat) : edge T :=
    {| en1 := en1 e; en2 := en2 e; etrias := etrias e; esdomain := esdomain e;
       eipts := eipts e; eAc := eAc e; eother1 := o1; eother2 := o2 |}.
  Definition set_domain (e : edge T) (sd : list (vec3 T)) (ips : list (ipt T)) (Ac : T) : edge T :=
    {| en1 := en1 e; en2 := en2 e; etrias := etrias e; esdomain := sd;
       eipts := ips; eAc := Some Ac; eother1 := eother1 e; eother2 := eother2 e |}.

  (** lines 70-72: exchange the end nodes to get outward normals *)
  Definition orient_k0 (mid1 : vec3 T) (node1 node2 : node T) : node T * node T :=
    if dot (cross (vsub mid1 (nxyz node2)) (vsub (nxyz node1) (nxyz node2))) ZGLOBAL <? #0
    then (node2, node1) else (node1, node2).

  (** lines 74-95 *)
  Definition domain1 (t1 : nat) (mid1 : vec3 T) (node1 node2 o1 : node T)
    : list (vec3 T) * list (ipt T) :=
    ([nxyz node1; mid1; nxyz node2; nxyz node1],
     [make_ipt t1 node1 node2 o1 (#2/#3) (#1/#6) (#1/#6) (vsub (nxyz node1) mid1);
      make_ipt t1 node1 node2 o1 (#1/#6) (#2/#3) (#1/#6) (vsub mid1 (nxyz node2));
      make_ipt t1 node1 node2 o1 (#1/#2) (#1/#2) (#0) (vsub (nxyz node2) (nxyz node1))]).

  (** lines 74-87 and 97-109 *)
  Definition domain2 (t1 t2 : nat) (mid1 mid2 : vec3 T) (node1 node2 o1 o2 : node T)
    : list (vec3 T) * list (ipt T) :=
    ([nxyz node1; mid1; nxyz node2; mid2; nxyz node1],
     [make_ipt t1 node1 node2 o1 (#2/#3) (#1/#6) (#1/#6) (vsub (nxyz node1) mid1);
      make_ipt t1 node1 node2 o1 (#1/#6) (#2/#3) (#1/#6) (vsub mid1 (nxyz node2));
      make_ipt t2 node1 node2 o2 (#1/#6) (#2/#3) (#1/#6) (vsub (nxyz node2) mid2);
      make_ipt t2 node1 node2 o2 (#2/#3) (#1/#6) (#1/#6) (vsub mid2 (nxyz node1))]).

  (** lines 44-62: othernodes and mids.  Returns the data of the triangles. *)
  Definition edge_trias_data (m : mesh T) (e : edge T)
    : res ((nat * node T * vec3 T) * option (nat * node T * vec3 T)) :=
    match etrias e with
    | [t1] =>
        let! tr1 := get_tria m t1 in
        let! oid1 := othernode_id tr1 e in
        let! o1 := get_node m oid1 in
        let! mid1 := getMid m tr1 in
        Ok ((t1, o1, mid1), None)
    | [t1; t2] =>
        let! tr1 := get_tria m t1 in
        let! tr2 := get_tria m t2 in
        let! oid1 := othernode_id tr1 e in
        let! oid2 := othernode_id tr2 e in
        let! o1 := get_node m oid1 in
        let! o2 := get_node m oid2 in
        let! mid1 := getMid m tr1 in
        let! mid2 := getMid m tr2 in
        Ok ((t1, o1, mid1), Some (t2, o2, mid2))
    | _ => Raise NotImplementedError
    end.

  (** lines 44-114, body of the loop over the edges.  Simplification: if the body
      raises, an assignment to edge.othernode1 made just before is not kept. *)
  Definition setup_edge (m : mesh T) (e : edge T) : res (edge T) :=
    let! td := edge_trias_data m e in
    let! nd1 := get_node m (en1 e) in
    let! nd2 := get_node m (en2 e) in
    match td with
    | ((t1, o1, mid1), None) =>
        let (node1, node2) := orient_k0 mid1 nd1 nd2 in
        let (sd, ips) := domain1 t1 mid1 node1 node2 o1 in
        let! Ac := area_of_points sd in
        Ok (set_domain (set_others e (Some (nid o1)) None) sd ips Ac)
    | ((t1, o1, mid1), Some (t2, o2, mid2)) =>
        let (node1, node2) := orient_k0 mid1 nd1 nd2 in
        let (sd, ips) := domain2 t1 t2 mid1 mid2 node1 node2 o1 o2 in
        let! Ac := area_of_points sd in
        Ok (set_domain (set_others e (Some (nid o1)) (Some (nid o2))) sd ips Ac)
    end.

  (** line 44: the loop.  Edges set up before an exception stay set up. *)
  Fixpoint setup_edges (m : mesh T) (es : list ((nat * nat) * edge T))
    : list ((nat * nat) * edge T) * res unit :=
    match es with
    | [] => ([], Ok tt)
    | (k, e) :: es' =>
        match setup_edge m e with
        | Raise x => ((k, e) :: es', Raise x)
        | Ok e' => let (es'', r) := setup_edges m es' in ((k, e') :: es'', r)
        end
    end.

  (** ** Numbering, plate2d_calc_k0.py:116-131 *)

  Definition set_index (i : nat) (n : node T) : node T :=
    {| nid := nid n; nxyz := nxyz n; nprop := nprop n; nindex := Some i;
       nedges := nedges n; ntrias := ntrias n |}.

  (** lines 128-129; sort_ind is [0, 1, ...], see line 127 *)
  Fixpoint number_nodes (i : nat) (nds : list (nat * node T)) : list (nat * node T) :=
    match nds with
    | [] => []
    | (k, n) :: nds' => (k, set_index i n) :: number_nodes (S i) nds'
    end.

  (** ** Assembly, plate2d_calc_k0.py:137-508 *)

  (** [node.index], used as a number or as a dictionary key: the initial value
      [set()] raises TypeError in both uses. *)
  Definition get_index (m : mesh T) (n : nat) : res Z :=
    let! nd := get_node m n in
    match nindex nd with Some i => Ok (Z.of_nat i) | None => Raise TypeError end.

  (** lines 153-157: indices.add(...) for every integration point *)
  Fixpoint ipt_indices (m : mesh T) (ips : list (ipt T)) (s : list Z) : res (list Z) :=
    match ips with
    | [] => Ok s
    | p :: ips' =>
        let! i1 := get_index m (ipn1 p) in
        let! i2 := get_index m (ipn2 p) in
        let! i3 := get_index m (ipn3 p) in
        ipt_indices m ips' (sadd Z.eqb i3 (sadd Z.eqb i2 (sadd Z.eqb i1 s)))
    end.

  (** lines 153-162 (plate2d_calc_kG.py:54-63 with dummy = 0): the sorted node
      indices of the domain, completed by the dummy index if there are three
      integration points; unpacking into four names raises ValueError otherwise. *)
  Definition domain_indices (m : mesh T) (dummy : Z) (ips : list (ipt T)) : res (list Z) :=
    let! s := ipt_indices m ips [] in
    let indices := zsorted s ++ (if Nat.eqb (length ips) 3 then [dummy] else []) in
    if Nat.eqb (length indices) 4 then Ok indices else Raise ValueError.

  (** line 161: position of each index; for a repeated index the last one *)
  Fixpoint enum_pos (i : nat) (l : list Z) (d : list (Z * nat)) : list (Z * nat) :=
    match l with
    | [] => d
    | a :: l' => enum_pos (S i) l' (dset Z.eqb a i d)
    end.
  Definition indexpos (indices : list Z) : list (Z * nat) := enum_pos 0 indices [].

  (** One row of the matrix f and the segment data nx, ny, le, lines 163-204. *)
  Record seg : Type := Seg { s_nx : T; s_ny : T; s_le : T; s_f : list T }.

  (** lines 168-173 (175-180, 182-187, 194-199) *)
  Definition ipt_row (m : mesh T) (pos : list (Z * nat)) (p : ipt T) : res seg :=
    let! j1 := get_index m (ipn1 p) in
    let! j2 := get_index m (ipn2 p) in
    let! j3 := get_index m (ipn3 p) in
    let! p1 := get_or KeyError (dget Z.eqb j1 pos) in
    let! p2 := get_or KeyError (dget Z.eqb j2 pos) in
    let! p3 := get_or KeyError (dget Z.eqb j3 pos) in
    let f := [#0; #0; #0; #0] in
    let f := lset p1 (ipf1 p) f in
    let f := lset p2 (ipf2 p) f in
    let f := lset p3 (ipf3 p) f in
    Ok {| s_nx := ipnx p; s_ny := ipny p; s_le := iple p; s_f := f |}.

  (** lines 189-192 *)
  Definition dummy_row : seg :=
    {| s_nx := #0; s_ny := #0; s_le := #0; s_f := [#0; #0; #0; #0] |}.

  (** lines 163-204: the four rows.  Less than three integration points:
      IndexError; more than four: the rest is not used. *)
  Definition ipt_rows (m : mesh T) (pos : list (Z * nat)) (ips : list (ipt T))
    : res (seg * seg * seg * seg) :=
    match ips with
    | p1 :: p2 :: p3 :: rest =>
        let! r1 := ipt_row m pos p1 in
        let! r2 := ipt_row m pos p2 in
        let! r3 := ipt_row m pos p3 in
        match rest with
        | [] => Ok (r1, r2, r3, dummy_row)
        | p4 :: _ => let! r4 := ipt_row m pos p4 in Ok (r1, r2, r3, r4)
        end
    | _ => Raise IndexError
    end.

  (** lines 139-151: [(tria1, Ac1)] and, for two triangles, [(tria2, Ac2)] *)
  Definition edge_areas (m : mesh T) (e : edge T)
    : res ((tria T * T) * option (tria T * T)) :=
    match etrias e with
    | [] => Raise IndexError
    | t1 :: rest =>
        let! tr1 := get_tria m t1 in
        let! mid1 := getMid m tr1 in
        let! nd1 := get_node m (en1 e) in
        let! nd2 := get_node m (en2 e) in
        let! Ac1 := area_of_points [mid1; nxyz nd2; nxyz nd1] in
        match rest with
        | [] => Ok ((tr1, Ac1), None)
        | [t2] =>
            let! tr2 := get_tria m t2 in
            let! mid2 := getMid m tr2 in
            let! Ac2 := area_of_points [mid2; nxyz nd1; nxyz nd2] in
            Ok ((tr1, Ac1), Some (tr2, Ac2))
        | _ => Raise RuntimeError
        end
    end.

  Definition node_prop (m : mesh T) (n : nat) : res (prop T) :=
    let! nd := get_node m n in get_or AttributeError (nprop nd).

  (** edge.othernode1.prop; othernode1 is None before calc_k0 *)
  Definition other_prop (m : mesh T) (o : option nat) : res (prop T) :=
    let! n := get_or AttributeError o in node_prop m n.

  (** One of A, B, D of an edge, lines 206-229.  [sel] selects the array. *)
  Definition comb3 (sel : prop T -> mat3 T) (pn1 pn2 po1 : prop T) : mat3 T :=
    m3add (m3add (m3scale (#4/#9) (sel pn1)) (m3scale (#4/#9) (sel pn2)))
          (m3scale (#1/#9) (sel po1)).
  Definition comb4 (sel : prop T -> mat3 T) (pn1 pn2 po1 po2 : prop T) : mat3 T :=
    m3add (m3add (m3add (m3scale (#5/#12) (sel pn1)) (m3scale (#5/#12) (sel pn2)))
                 (m3scale (#1/#12) (sel po1)))
          (m3scale (#1/#12) (sel po2)).
  Definition combA (sel : prop T -> mat3 T) (Ac1 Ac2 Ac : T) (p1 p2 : prop T) : mat3 T :=
    m3divs (m3add (m3scale Ac1 (sel p1)) (m3scale Ac2 (sel p2))) Ac.

  (** lines 206-229: a function that gives A, B and D for the three selectors *)
  Definition edge_ABD (m : mesh T) (pfn : bool) (e : edge T) (Ac : T)
    (ta : (tria T * T) * option (tria T * T)) : res ((prop T -> mat3 T) -> mat3 T) :=
    if pfn then
      let! pn1 := node_prop m (en1 e) in
      let! pn2 := node_prop m (en2 e) in
      let! po1 := other_prop m (eother1 e) in
      match snd ta with
      | None => Ok (fun sel => comb3 sel pn1 pn2 po1)
      | Some _ =>
          let! po2 := other_prop m (eother2 e) in
          Ok (fun sel => comb4 sel pn1 pn2 po1 po2)
      end
    else
      let! p1 := get_or AttributeError (tprop (fst (fst ta))) in
      match snd ta with
      | None => Ok (fun sel => sel p1)
      | Some (tr2, Ac2) =>
          let! p2 := get_or AttributeError (tprop tr2) in
          Ok (fun sel => combA sel (snd (fst ta)) Ac2 Ac p1 p2)
      end.

  Definition nth0 (i : nat) (l : list T) : T := nth i l (#0).

  (** lines 253-508 with the unpacking of lines 162, 201-204 and 231-250 *)
  Definition k0_updates (ix : list Z) (Ac : T) (A B D : mat3 T) (rows : seg * seg * seg * seg)
    : list (Z * Z * T) :=
    let '(r1, r2, r3, r4) := rows in
    k0_entries (nth 0 ix 0%Z) (nth 1 ix 0%Z) (nth 2 ix 0%Z) (nth 3 ix 0%Z) Ac
      (m00 A) (m01 A) (m02 A) (m11 A) (m12 A) (m22 A)
      (m00 B) (m01 B) (m02 B) (m11 B) (m12 B) (m22 B)
      (m00 D) (m01 D) (m02 D) (m11 D) (m12 D) (m22 D)
      (s_nx r1) (s_ny r1) (s_le r1) (s_nx r2) (s_ny r2) (s_le r2)
      (s_nx r3) (s_ny r3) (s_le r3) (s_nx r4) (s_ny r4) (s_le r4)
      (nth0 0 (s_f r1)) (nth0 1 (s_f r1)) (nth0 2 (s_f r1)) (nth0 3 (s_f r1))
      (nth0 0 (s_f r2)) (nth0 1 (s_f r2)) (nth0 2 (s_f r2)) (nth0 3 (s_f r2))
      (nth0 0 (s_f r3)) (nth0 1 (s_f r3)) (nth0 2 (s_f r3)) (nth0 3 (s_f r3))
      (nth0 0 (s_f r4)) (nth0 1 (s_f r4)) (nth0 2 (s_f r4)) (nth0 3 (s_f r4)).

  (** lines 137-508, body of the loop *)
  Definition k0_edge (m : mesh T) (pfn : bool) (e : edge T) : res (list (Z * Z * T)) :=
    let! ta := edge_areas m e in
    let! ix := domain_indices m (-1)%Z (eipts e) in
    let! rows := ipt_rows m (indexpos ix) (eipts e) in
    let! Ac := get_or TypeError (eAc e) in
    let! abd := edge_ABD m pfn e Ac ta in
    Ok (k0_updates ix Ac (abd pA) (abd pB) (abd pD) rows).

  (** lines 137-508; k0 is local, so it is lost if an exception is raised *)
  Fixpoint k0_assemble (m : mesh T) (pfn : bool) (es : list ((nat * nat) * edge T))
    (k : matrix T) : res (matrix T) :=
    match es with
    | [] => Ok k
    | (_, e) :: es' =>
        let! us := k0_edge m pfn e in
        match mupdates us k with
        | (k', Ok _) => k0_assemble m pfn es' k'
        | (_, Raise x) => Raise x
        end
    end.

  (** plate2d_calc_k0.py:11-511.  The mesh is modified in place: the first
      component is the mesh after the call, also if the call raises. *)
  Definition calc_k0 (m : mesh T) (pfn : bool) : mesh T * res (matrix T) :=
    match check_edges m pfn (edges m) with
    | Raise x => (m, Raise x)
    | Ok _ =>
        let (es, r) := setup_edges m (edges m) in
        let m1 := {| nodes := nodes m; elements := elements m; edges := es |} in
        match r with
        | Raise x => (m1, Raise x)
        | Ok _ =>
            match nodes m with
            | [] => (m1, Raise ValueError)     (* line 124, min of an empty array *)
            | _ :: _ =>
                let m2 := {| nodes := number_nodes 0 (nodes m);
                             elements := elements m; edges := es |} in
                (m2, k0_assemble m2 pfn es (zeros (length (nodes m) * 5)))
            end
        end
    end.
End CalcK0.
Arguments seg T : clear implicits.
