(** Notions used to state the properties of add_k0s. *)
From Coq Require Import ZArith Reals List Bool Arith String Permutation.
From Verif Require Import Num Py Mesh Utils CalcK0 AddK0s Spec SpecK0 SpecKG.
Import ListNotations.
Local Open Scope R_scope.

(** ** Discrete shear strains *)

(** a point of the plate: position, deflection w, rotations phi_x and phi_y *)
Record pt : Type := Pt { ptx : R; pty : R; ptw : R; ptfx : R; ptfy : R }.

Definition at_node (m : mesh R) (u : nat -> R) (n : nat) : pt :=
  Pt (vx (pos m n)) (vy (pos m n)) (comp m u 2 n) (comp m u 3 n) (comp m u 4 n).

(** shear gap from [p] to [q]: the integral of the shear strain over the segment, for
    linear rotations *)
Definition gap (p q : pt) : R :=
  ptw q - ptw p + (ptfx p + ptfx q) / 2 * (ptx q - ptx p) + (ptfy p + ptfy q) / 2 * (pty q - pty p).

(** twice the signed area *)
Definition pdet (p q r : pt) : R :=
  (ptx q - ptx p) * (pty r - pty p) - (ptx r - ptx p) * (pty q - pty p).

(** shear strain of the triangle with the shear gaps measured from [p]: the gradient of
    the linear function with the values 0, gap p q, gap p r in the corners *)
Definition dsg (p q r : pt) : R * R :=
  ((gap p q * (pty r - pty p) - gap p r * (pty q - pty p)) / pdet p q r,
   (gap p r * (ptx q - ptx p) - gap p q * (ptx r - ptx p)) / pdet p q r).

(** the centroid; the field there is [third] times the sum of the values in the corners
    ([third] is 1/3; the code has twice the decimal 0.166666666666667) *)
Definition center (third : R) (p q r : pt) : pt :=
  Pt ((ptx p + ptx q + ptx r) / 3) ((pty p + pty q + pty r) / 3)
     (third * (ptw p + ptw q + ptw r)) (third * (ptfx p + ptfx q + ptfx r)) (third * (ptfy p + ptfy q + ptfy r)).

Definition parea (p q r : pt) : R := Rabs (pdet p q r) / 2.

(** mean over the three triangles (centroid, corner, corner) *)
Definition cell_shear (third : R) (p q r : pt) : R * R :=
  let c := center third p q r in
  ((parea c p q * fst (dsg c p q) + parea c q r * fst (dsg c q r) + parea c r p * fst (dsg c r p)) / parea p q r,
   (parea c p q * snd (dsg c p q) + parea c q r * snd (dsg c q r) + parea c r p * snd (dsg c r p)) / parea p q r).

(** shear strain of the element [t], method "cell-based" *)
Definition strain_cell (third : R) (m : mesh R) (u : nat -> R) (t : tria R) : R * R :=
  cell_shear third (at_node m u (tn1 t)) (at_node m u (tn2 t)) (at_node m u (tn3 t)).

(** method "cell-based-no-smoothing": gaps from the first node of the anticlockwise triangle
    (a clockwise one is turned by exchanging the first two nodes) *)
Definition strain_ns (m : mesh R) (u : nat -> R) (t : tria R) : R * R :=
  let p := at_node m u (tn1 t) in let q := at_node m u (tn2 t) in let r := at_node m u (tn3 t) in
  if Rlt_dec (tdet m t) 0 then dsg q p r else dsg p q r.

(** ** Shear stiffness of an element *)

Definition pval (f : prop R -> R) (o : option (prop R)) : R := match o with Some p => f p | None => 0 end.

(** the quantity [f] of the laminate of an element: mean of its nodes, or that of the element *)
Definition tria_val (m : mesh R) (pfn : bool) (f : prop R -> R) (t : tria R) : R :=
  if pfn then (pval f (nodeprop m (tn1 t)) + pval f (nodeprop m (tn2 t)) + pval f (nodeprop m (tn3 t))) / 3
  else pval f (tprop t).

(** uncorrected stiffness against the first and the second shear strain *)
Definition tria_G44 (m : mesh R) (pfn : bool) (t : tria R) : R :=
  tria_val m pfn pk23 t * tria_val m pfn (fun p => e00 (pE p)) t.
Definition tria_G55 (m : mesh R) (pfn : bool) (t : tria R) : R :=
  tria_val m pfn pk13 t * tria_val m pfn (fun p => e11 (pE p)) t.

Definition dist (m : mesh R) (a b : nat) : R :=
  sqrt ((vx (pos m a) - vx (pos m b)) * (vx (pos m a) - vx (pos m b))
        + (vy (pos m a) - vy (pos m b)) * (vy (pos m a) - vy (pos m b))
        + (vz (pos m a) - vz (pos m b)) * (vz (pos m a) - vz (pos m b))).

(** size of an element: square root of its area or longest side *)
Definition tria_size (m : mesh R) (mfa : bool) (t : tria R) : R :=
  if mfa then sqrt (tarea m t)
  else Rmax (dist m (tn1 t) (tn2 t)) (Rmax (dist m (tn2 t) (tn3 t)) (dist m (tn3 t) (tn1 t))).

(** correction factor *)
Definition corr (alpha h l : R) : R := (h * h) / (h * h + alpha * (l * l)).

(** energy of the shear strains [g] of [u] and of [v] *)
Definition shear_energy (g : (nat -> R) -> tria R -> R * R) (m : mesh R) (pfn : bool) (alpha : R) (mfa : bool)
  (u v : nat -> R) : R :=
  Sum (fun t => tarea m t * corr alpha (tria_val m pfn ph t) (tria_size m mfa t) *
         (tria_G44 m pfn t * fst (g u t) * fst (g v t) + tria_G55 m pfn t * snd (g u t) * snd (g v t)))
      (trias_of m).

(** the thickness of all laminates is positive *)
Definition thick (m : mesh R) : Prop := all_props m (fun p => 0 < ph p).
(** no negative shear stiffness *)
Definition stiff (m : mesh R) : Prop :=
  all_props m (fun p => 0 <= pk13 p /\ 0 <= pk23 p /\ 0 <= e00 (pE p) /\ 0 <= e11 (pE p)).

(** ** What a call adds *)

(** [k'] is [k] plus a matrix with the bilinear form [f] *)
Definition adds (k k' : matrix R) (f : (nat -> R) -> (nat -> R) -> R) : Prop :=
  mdim k' = mdim k /\ forall u v, form k' u v = form k u v + f u v.

(** the node [n] has the index [i] *)
Definition has_index (m : mesh R) (n i : nat) : Prop :=
  exists nd, dget Nat.eqb n (nodes m) = Some nd /\ nindex nd = Some i.

(** [i] and [j] are indices of vertices of one element *)
Definition share_element (m : mesh R) (i j : nat) : Prop :=
  exists t a b, In t (trias_of m) /\ vertex t a /\ vertex t b /\ has_index m a i /\ has_index m b j.

(** [i] and [j] are indices of nodes of one edge or of the nodes opposite to it *)
Definition of_edge (e : edge R) (n : nat) : Prop :=
  n = en1 e \/ n = en2 e \/ eother1 e = Some n \/ eother2 e = Some n.
Definition share_edge (m : mesh R) (i j : nat) : Prop :=
  exists k e a b, In (k, e) (edges m) /\ of_edge e a /\ of_edge e b /\ has_index m a i /\ has_index m b j.

Definition coupled (m : mesh R) (method : string) (i j : nat) : Prop :=
  if String.eqb method "edge-based" then share_edge m i j else share_element m i j.

Definition methods : list string := ["cell-based"%string; "cell-based-no-smoothing"%string; "edge-based"%string].

(** ** Edge domains *)

Definition vdist (p q : vec3 R) : R :=
  sqrt ((vx p - vx q) * (vx p - vx q) + (vy p - vy q) * (vy p - vy q) + (vz p - vz q) * (vz p - vz q)).

(** the quantity [f] of the laminate of the smoothing domain of the edge [k]: weighted
    values of the nodes, or mean over the triangles on the edge *)
Definition edge_val (m : mesh R) (pfn : bool) (f : prop R -> R) (k : nat * nat) : R :=
  let at_n n := pval f (nodeprop m n) in
  match tris_on m k with
  | [t] => if pfn then (4 * at_n (fst k) + 4 * at_n (snd k) + at_n (third t k)) / 9 else pval f (tprop t)
  | [t; t'] =>
      if pfn then (5 * at_n (fst k) + 5 * at_n (snd k) + at_n (third t k) + at_n (third t' k)) / 12
      else (tarea m t * pval f (tprop t) + tarea m t' * pval f (tprop t')) / (tarea m t + tarea m t')
  | _ => 0
  end.

(** size of the domain: square root of its area, or longest distance of a centroid of a
    triangle on the edge to an end of the edge, or length of the edge *)
Definition edge_size (m : mesh R) (mfa : bool) (k : nat * nat) : R :=
  if mfa then sqrt (dom_area m k)
  else
    let p := pos m (fst k) in let q := pos m (snd k) in
    fold_right (fun t x => Rmax (vdist p (centroid m t)) (Rmax (vdist q (centroid m t)) x)) (vdist p q) (tris_on m k).

(** uncorrected stiffness of the domain as used by the code: E44, E45, E55 *)
Definition edge_G (m : mesh R) (pfn : bool) (k : nat * nat) : R * R * R :=
  let v := fun f => edge_val m pfn f k in
  match tris_on m k with
  | [t] => (v pk23 * v (fun p => e00 (pE p)), 0, v pk13 * v (fun p => e11 (pE p)))
  | _ => (v pk13 * v (fun p => e00 (pE p)), Rmin (v pk13) (v pk23) * v (fun p => e01 (pE p)), v pk23 * v (fun p => e11 (pE p)))
  end.

(** ** Translation *)

(** the same mesh with all nodes moved by (dx, dy) *)
Definition shift (dx dy : R) (p : vec3 R) : vec3 R := V3 (vx p + dx) (vy p + dy) (vz p).
Definition move (dx dy : R) (m : mesh R) : mesh R :=
  {| nodes := map (fun kn => (fst kn, {| nid := nid (snd kn); nxyz := shift dx dy (nxyz (snd kn));
                 nprop := nprop (snd kn); nindex := nindex (snd kn);
                 nedges := nedges (snd kn); ntrias := ntrias (snd kn) |})) (nodes m);
     elements := elements m; edges := edges m |}.

(** ** More on displacements and laminates *)

(** deflection [w = c + wx x + wy y] and constant rotations: constant shear strain
    (wx + px, wy + py) *)
Definition constant_shear (m : mesh R) (u : nat -> R) (wx wy px py : R) : Prop :=
  exists c, forall n, In n (node_keys m) -> comp m u 2 n = affine m c wx wy n /\ comp m u 3 n = px /\ comp m u 4 n = py.

(** translation in w; the values of u and v are of no importance *)
Definition w_translation (m : mesh R) (u : nat -> R) : Prop := constant_shear m u 0 0 0 0.

(** the stiffness matrices E are positive semi-definite and the shear correction factors
    not negative *)
Definition stiff_full (m : mesh R) : Prop :=
  all_props m (fun p => 0 <= pk13 p /\ 0 <= pk23 p /\
    forall x y, 0 <= e00 (pE p) * x * x + 2 * e01 (pE p) * x * y + e11 (pE p) * y * y).

(** two laminates that have no shear stiffness in the second direction and differ at most
    in the factor k13; or in the first direction and k23 *)
Definition differ_k13 (p q : prop R) : Prop :=
  e01 (pE p) = 0 /\ e11 (pE p) = 0 /\ pE p = pE q /\ ph p = ph q /\ pk23 p = pk23 q.
Definition differ_k23 (p q : prop R) : Prop :=
  e01 (pE p) = 0 /\ e00 (pE p) = 0 /\ pE p = pE q /\ ph p = ph q /\ pk13 p = pk13 q.
Definition rel_opt (P : prop R -> prop R -> Prop) (o o' : option (prop R)) : Prop :=
  match o, o' with Some p, Some q => P p q | None, None => True | _, _ => False end.

(** energy of a constant shear strain (gx, gy) and the shear strains [g] of [v] *)
Definition shear_work (g : (nat -> R) -> tria R -> R * R) (m : mesh R) (pfn : bool) (alpha : R) (mfa : bool)
  (gx gy : R) (v : nat -> R) : R :=
  Sum (fun t => tarea m t * corr alpha (tria_val m pfn ph t) (tria_size m mfa t) *
         (tria_G44 m pfn t * gx * fst (g v t) + tria_G55 m pfn t * gy * snd (g v t)))
      (trias_of m).

(** twice the decimal 0.166666666666667 of the code *)
Definition code_third : R := 2 * (166666666666667 / 1000000000000000).

(** same triangle up to the order of the first two vertices *)
Definition same_order (t t' : tria R) : Prop :=
  tprop t = tprop t' /\ tn3 t = tn3 t' /\ ((tn1 t = tn1 t' /\ tn2 t = tn2 t') \/ (tn1 t = tn2 t' /\ tn2 t = tn1 t')).
Definition same_order_as (m m' : mesh R) : Prop :=
  same_plate_as m m' /\ exists ts, Permutation (trias_of m) ts /\ Forall2 same_order ts (trias_of m').

(** ** Calls *)

Definition cell_methods : list string := ["cell-based"%string; "cell-based-no-smoothing"%string].
(** shear strains of the two cell-based methods *)
Definition method_strain (method : string) (m : mesh R) : (nat -> R) -> tria R -> R * R :=
  if String.eqb method "cell-based" then strain_cell code_third m else strain_ns m.

(** [m'] is the plate [m] after calc_k0, the laminates that add_k0s needs are assigned and have
    a thickness, alpha is not negative, and the matrix has the size of k0 *)
Record call_ok (m m' : mesh R) (pfn : bool) (alpha : R) (k : matrix R) : Prop := {
  co_prepared : prepared_from m m';
  co_props : props_complete m pfn;
  co_thick : thick m;
  co_alpha : 0 <= alpha;
  co_dim : mdim k = (List.length (nodes m) * 5)%nat
}.
(** the node [n] is the [i]-th of the mesh *)
Definition nth_node (m : mesh R) (n i : nat) : Prop := nth_error (node_keys m) i = Some n.

(** relative error of the rotations at the centroid due to the decimal 0.166666666666667 (3/2 of the
    error of [code_third]): the shear strain of a constant field is (wx + (1 + err) px, wy + (1 + err) py) *)
Definition literal_error (method : string) : R :=
  if String.eqb method "cell-based" then 1 / 1000000000000000 else 0.
