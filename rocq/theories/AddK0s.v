(** meshless/espim/plate2d_add_k0s*.py *)
From Coq Require Import ZArith List Bool Arith String.
From Verif Require Import Num Py Mesh Utils CalcK0 GenCell GenCellNS GenEdgeB GenEdgeI.
Import ListNotations.

Section AddK0s.
  Context {T : Type} {N : Num T}.
  (** the decimal literals of the entries; the code is [L := lits_src] *)
  Variable L : lits T.
  Local Open Scope num_scope.

  (** k13, k23, E and h of an element or edge domain *)
  Record shear : Type := Shear { sk13 : T; sk23 : T; sE : mat2 T; sh : T }.

  Definition shear_of (p : prop T) : shear :=
    {| sk13 := pk13 p; sk23 := pk23 p; sE := pE p; sh := ph p |}.

  Definition lin3 (w1 w2 w3 : T) (a b c : T) : T := w1 * a + w2 * b + w3 * c.
  Definition lin4 (w1 w2 w3 w4 : T) (a b c d : T) : T := w1 * a + w2 * b + w3 * c + w4 * d.

  (** plate2d_add_k0s_cell_based.py:67-70 (weights 1/3), _no_smoothing.py:34-37
      (1/3), _edge_based.py:35-38 (4/9, 4/9, 1/9) *)
  Definition shear3 (w1 w2 w3 : T) (p1 p2 p3 : prop T) : shear :=
    {| sk13 := lin3 w1 w2 w3 (pk13 p1) (pk13 p2) (pk13 p3);
       sk23 := lin3 w1 w2 w3 (pk23 p1) (pk23 p2) (pk23 p3);
       sE := m2add (m2add (m2scale w1 (pE p1)) (m2scale w2 (pE p2))) (m2scale w3 (pE p3));
       sh := lin3 w1 w2 w3 (ph p1) (ph p2) (ph p3) |}.

  (** plate2d_add_k0s_edge_based.py:183-186 *)
  Definition shear4 (w1 w2 w3 w4 : T) (p1 p2 p3 p4 : prop T) : shear :=
    {| sk13 := lin4 w1 w2 w3 w4 (pk13 p1) (pk13 p2) (pk13 p3) (pk13 p4);
       sk23 := lin4 w1 w2 w3 w4 (pk23 p1) (pk23 p2) (pk23 p3) (pk23 p4);
       sE := m2add (m2add (m2add (m2scale w1 (pE p1)) (m2scale w2 (pE p2)))
                          (m2scale w3 (pE p3))) (m2scale w4 (pE p4));
       sh := lin4 w1 w2 w3 w4 (ph p1) (ph p2) (ph p3) (ph p4) |}.

  (** plate2d_add_k0s_edge_based.py:191-194 *)
  Definition shearA (Ac1 Ac2 Ac : T) (p1 p2 : prop T) : shear :=
    {| sk13 := (Ac1 * pk13 p1 + Ac2 * pk13 p2) / Ac;
       sk23 := (Ac1 * pk23 p1 + Ac2 * pk23 p2) / Ac;
       sE := m2divs (m2add (m2scale Ac1 (pE p1)) (m2scale Ac2 (pE p2))) Ac;
       sh := (Ac1 * ph p1 + Ac2 * ph p2) / Ac |}.

  Definition sq (a : T) : T := a * a.

  (** [factor] and the corrected E44, E45, E55 of
      plate2d_add_k0s_cell_based.py:76-88 (also _no_smoothing.py:44-56 and
      _edge_based.py:45-57) *)
  Definition shear_stiffness (s : shear) (alpha maxl : T) : T * T * T :=
    let E44 := sk23 s * e00 (sE s) in
    let E45 := #0 in
    let E55 := sk13 s * e11 (sE s) in
    let factor := alpha * sq maxl / sq (sh s) in
    let E44 := #1 / (#1 + factor) * E44 in
    let E55 := #1 / (#1 + factor) * E55 in
    (E44, E45, E55).

  (** plate2d_add_k0s_edge_based.py:196-198 and 205-207 *)
  Definition shear_stiffness_int (s : shear) (alpha maxl : T) : T * T * T :=
    let E44 := sk13 s * e00 (sE s) in
    let E45 := nmin2 (sk13 s) (sk23 s) * e01 (sE s) in
    let E55 := sk23 s * e11 (sE s) in
    let f := sq (sh s) / (sq (sh s) + alpha * sq maxl) in
    (f * E44, f * E45, f * E55).

  (** Python [max] of a list; ValueError if empty *)
  Definition pymax (l : list T) : res T :=
    match l with [] => Raise ValueError | a :: l' => Ok (nmaxl a l') end.

  Definition edge_length (m : mesh T) (k : nat * nat) : res T :=
    let! a := get_node m (fst k) in
    let! b := get_node m (snd k) in
    Ok (norm (vsub (nxyz a) (nxyz b))).

  (** plate2d_add_k0s_cell_based.py:80-83, _no_smoothing.py:48-51 *)
  Definition maxl_tria (m : mesh T) (t : tria T) (Ac : T) (maxl_from_area : bool) : res T :=
    if maxl_from_area then Ok (nsqrt Ac)
    else let! ls := mapM (edge_length m) (tedges t) in pymax ls.

  (** plate2d_add_k0s_cell_based.py:63-75, _no_smoothing.py:30-42 *)
  Definition tria_shear (pfn : bool) (t : tria T) (n1 n2 n3 : node T) : res shear :=
    if pfn then
      let! p1 := get_or AttributeError (nprop n1) in
      let! p2 := get_or AttributeError (nprop n2) in
      let! p3 := get_or AttributeError (nprop n3) in
      Ok (shear3 (#1/#3) (#1/#3) (#1/#3) p1 p2 p3)
    else
      let! p := get_or AttributeError (tprop t) in Ok (shear_of p).

  (** node.index used in an arithmetic expression *)
  Definition node_index (n : node T) : res Z :=
    match nindex n with Some i => Ok (Z.of_nat i) | None => Raise TypeError end.

  (** plate2d_add_k0s_cell_based.py:22-23 *)
  Definition orient_cell (mid : vec3 T) (n1 n2 n3 : node T) : node T * node T * node T :=
    if dot (cross (vsub (nxyz n1) mid) (vsub (nxyz n2) mid)) ZGLOBAL <? #0
    then (n2, n1, n3) else (n1, n2, n3).

  (** plate2d_add_k0s_cell_based.py:13-174, body of the loop *)
  Definition cell_tria (m : mesh T) (pfn : bool) (alpha : T) (mfa : bool) (t : tria T)
    : res (list (Z * Z * T)) :=
    let! nd1 := get_node m (tn1 t) in
    let! nd2 := get_node m (tn2 t) in
    let! nd3 := get_node m (tn3 t) in
    let! mid := getMid m t in
    let '(n1, n2, n3) := orient_cell mid nd1 nd2 nd3 in
    let! Ac := get_area m t in
    let a1 := vx (nxyz n1) - vx mid in
    let b1 := vy (nxyz n1) - vy mid in
    let c1 := vx (nxyz n2) - vx mid in
    let d1 := vy (nxyz n2) - vy mid in
    let! Ac1 := area_of_points [mid; nxyz n1; nxyz n2] in
    let a2 := vx (nxyz n2) - vx mid in
    let b2 := vy (nxyz n2) - vy mid in
    let c2 := vx (nxyz n3) - vx mid in
    let d2 := vy (nxyz n3) - vy mid in
    let! Ac2 := area_of_points [mid; nxyz n2; nxyz n3] in
    let a3 := vx (nxyz n3) - vx mid in
    let b3 := vy (nxyz n3) - vy mid in
    let c3 := vx (nxyz n1) - vx mid in
    let d3 := vy (nxyz n1) - vy mid in
    let! Ac3 := area_of_points [mid; nxyz n3; nxyz n1] in
    let! s := tria_shear pfn t n1 n2 n3 in
    let! maxl := maxl_tria m t Ac mfa in
    let '(E44, E45, E55) := shear_stiffness s alpha maxl in
    let! i1 := node_index n1 in
    let! i2 := node_index n2 in
    let! i3 := node_index n3 in
    Ok (cell_entries L i1 i2 i3 Ac Ac1 Ac2 Ac3 E44 E45 E55
          a1 b1 c1 d1 a2 b2 c2 d2 a3 b3 c3 d3).

  (** plate2d_add_k0s_cell_based_no_smoothing.py:17-18 *)
  Definition orient_cellns (n1 n2 n3 : node T) : node T * node T * node T :=
    if dot (cross (vsub (nxyz n2) (nxyz n1)) (vsub (nxyz n3) (nxyz n1))) ZGLOBAL <? #0
    then (n2, n1, n3) else (n1, n2, n3).

  (** plate2d_add_k0s_cell_based_no_smoothing.py:12-142, body of the loop *)
  Definition cellns_tria (m : mesh T) (pfn : bool) (alpha : T) (mfa : bool) (t : tria T)
    : res (list (Z * Z * T)) :=
    let! nd1 := get_node m (tn1 t) in
    let! nd2 := get_node m (tn2 t) in
    let! nd3 := get_node m (tn3 t) in
    let '(n1, n2, n3) := orient_cellns nd1 nd2 nd3 in
    let! Ac := get_area m t in
    let a1 := vx (nxyz n2) - vx (nxyz n1) in
    let b1 := vy (nxyz n2) - vy (nxyz n1) in
    let c1 := vx (nxyz n3) - vx (nxyz n1) in
    let d1 := vy (nxyz n3) - vy (nxyz n1) in
    let! s := tria_shear pfn t n1 n2 n3 in
    let! maxl := maxl_tria m t Ac mfa in
    let '(E44, E45, E55) := shear_stiffness s alpha maxl in
    let! i1 := node_index n1 in
    let! i2 := node_index n2 in
    let! i3 := node_index n3 in
    Ok (cellns_entries i1 i2 i3 Ac E44 E45 E55 a1 b1 c1 d1).

  (** edge.othernode1; None before calc_k0, then any attribute access raises
      AttributeError *)
  Definition other_node (m : mesh T) (o : option nat) : res (node T) :=
    let! n := get_or AttributeError o in get_node m n.

  (** plate2d_add_k0s_edge_based.py:12-139 *)
  Definition boundary_edge (m : mesh T) (pfn : bool) (alpha : T) (mfa : bool)
    (e : edge T) (tr1 : tria T) (n1 n2 : node T) : res (list (Z * Z * T)) :=
    let! mid1 := getMid m tr1 in
    let! o1 := other_node m (eother1 e) in
    let! Ac := get_or TypeError (eAc e) in
    let a1 := vx (nxyz n1) - vx mid1 in
    let b1 := vy (nxyz n1) - vy mid1 in
    let c1 := vx (nxyz n2) - vx mid1 in
    let d1 := vy (nxyz n2) - vy mid1 in
    let! s :=
      if pfn then
        let! p1 := get_or AttributeError (nprop n1) in
        let! p2 := get_or AttributeError (nprop n2) in
        let! po1 := get_or AttributeError (nprop o1) in
        Ok (shear3 (#4/#9) (#4/#9) (#1/#9) p1 p2 po1)
      else let! p := get_or AttributeError (tprop tr1) in Ok (shear_of p) in
    let! maxl := if mfa then Ok (nsqrt Ac) else pymax (map iple (eipts e)) in
    let '(E44, E45, E55) := shear_stiffness s alpha maxl in
    let! i1 := node_index n1 in
    let! i2 := node_index n2 in
    let! i3 := node_index o1 in
    Ok (edgeb_entries L i1 i2 i3 Ac E44 E45 E55 a1 b1 c1 d1).

  (** plate2d_add_k0s_edge_based.py:142-352.  Line 160 reads
      [x1, y1, y1 = n1.xyz]: the third coordinate ends up in y1, and b1 of line 163
      is [z1 - ymid1]. *)
  Definition interior_edge (m : mesh T) (pfn : bool) (alpha : T) (mfa : bool)
    (e : edge T) (tr1 tr2 : tria T) (n1 n2 : node T) : res (list (Z * Z * T)) :=
    let! mid1 := getMid m tr1 in
    let! mid2 := getMid m tr2 in
    let! o1 := other_node m (eother1 e) in
    let! o2 := other_node m (eother2 e) in
    let! Ac := get_or TypeError (eAc e) in
    let! Ac1 := area_of_points [mid1; nxyz n1; nxyz n2] in
    let a1 := vx (nxyz n1) - vx mid1 in
    let b1 := vz (nxyz n1) - vy mid1 in
    let c1 := vx (nxyz n2) - vx mid1 in
    let d1 := vy (nxyz n2) - vy mid1 in
    let! Ac2 := area_of_points [nxyz n1; mid2; nxyz n2] in
    let a2 := vx mid2 - vx (nxyz n1) in
    let b2 := vy mid2 - vy (nxyz n1) in
    let c2 := vx (nxyz n2) - vx (nxyz n1) in
    let d2 := vy (nxyz n2) - vy (nxyz n1) in
    let! s :=
      if pfn then
        let! p1 := get_or AttributeError (nprop n1) in
        let! p2 := get_or AttributeError (nprop n2) in
        let! po1 := get_or AttributeError (nprop o1) in
        let! po2 := get_or AttributeError (nprop o2) in
        Ok (shear4 (#5/#12) (#5/#12) (#1/#12) (#1/#12) p1 p2 po1 po2)
      else
        let! p1 := get_or AttributeError (tprop tr1) in
        let! p2 := get_or AttributeError (tprop tr2) in
        Ok (shearA Ac1 Ac2 Ac p1 p2) in
    let! maxl :=
      if mfa then Ok (nsqrt Ac)
      else
        let! lm := pymax (map iple (eipts e)) in
        let! le := edge_length m (en1 e, en2 e) in
        Ok (nmax2 lm le) in
    let '(E44, E45, E55) := shear_stiffness_int s alpha maxl in
    let! i1 := node_index n1 in
    let! i2 := node_index n2 in
    let! i3 := node_index o1 in
    let! i4 := node_index o2 in
    Ok (edgei_entries L i1 i2 i3 i4 Ac Ac1 Ac2 E44 E45 E55 a1 b1 c1 d1 a2 b2 c2 d2).

  (** plate2d_add_k0s_edge_based.py:361-362 *)
  Definition orient_edge (mid1 : vec3 T) (n1 n2 : node T) : node T * node T :=
    if dot (cross (vsub (nxyz n2) (nxyz n1)) (vsub mid1 (nxyz n1))) ZGLOBAL <? #0
    then (n2, n1) else (n1, n2).

  (** plate2d_add_k0s_edge_based.py:357-368, body of the loop *)
  Definition edge_shear (m : mesh T) (pfn : bool) (alpha : T) (mfa : bool) (e : edge T)
    : res (list (Z * Z * T)) :=
    let! nd1 := get_node m (en1 e) in
    let! nd2 := get_node m (en2 e) in
    match etrias e with
    | [] => Raise IndexError
    | t1 :: rest =>
        let! tr1 := get_tria m t1 in
        let! mid1 := getMid m tr1 in
        let (n1, n2) := orient_edge mid1 nd1 nd2 in
        match rest with
        | [] => boundary_edge m pfn alpha mfa e tr1 n1 n2
        | [t2] =>
            let! tr2 := get_tria m t2 in
            interior_edge m pfn alpha mfa e tr1 tr2 n1 n2
        | _ => Raise NotImplementedError
        end
    end.

  (** The loops: k0 is modified in place, statement by statement.  What was added
      before an exception stays. *)
  Definition add_body {X} (f : X -> res (list (Z * Z * T))) (x : X) (k : matrix T)
    : matrix T * res unit :=
    match f x with
    | Ok us => mupdates us k
    | Raise e => (k, Raise e)
    end.

  (** plate2d_add_k0s_cell_based.py:10-177 *)
  Definition add_k0s_cell (k : matrix T) (m : mesh T) (pfn : bool) (alpha : T) (mfa : bool) :=
    for_each (add_body (cell_tria m pfn alpha mfa)) (map snd (elements m)) k.
  (** plate2d_add_k0s_cell_based_no_smoothing.py:9-145 *)
  Definition add_k0s_cellns (k : matrix T) (m : mesh T) (pfn : bool) (alpha : T) (mfa : bool) :=
    for_each (add_body (cellns_tria m pfn alpha mfa)) (map snd (elements m)) k.
  (** plate2d_add_k0s_edge_based.py:355-371 *)
  Definition add_k0s_edge (k : matrix T) (m : mesh T) (pfn : bool) (alpha : T) (mfa : bool) :=
    for_each (add_body (edge_shear m pfn alpha mfa)) (map snd (edges m)) k.

  (** plate2d_add_k0s.py:5-46.  First component: the matrix k0 after the call
      (k0 is modified in place and also returned). *)
  Definition add_k0s (k : matrix T) (m : mesh T) (pfn : bool) (method : string)
    (alpha : T) (mfa : bool) : matrix T * res unit :=
    if String.eqb method "cell-based" then add_k0s_cell k m pfn alpha mfa
    else if String.eqb method "cell-based-no-smoothing" then add_k0s_cellns k m pfn alpha mfa
    else if String.eqb method "edge-based" then add_k0s_edge k m pfn alpha mfa
    else (k, Raise ValueError).
End AddK0s.
Arguments shear T : clear implicits.
