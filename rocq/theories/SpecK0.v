(** Notions used to state the properties of calc_k0. *)
From Coq Require Import ZArith Reals List Bool Arith Permutation.
From Verif Require Import Num Py Mesh Utils Spec.
Import ListNotations.
Local Open Scope R_scope.

(** A plate on which calc_k0 is used: made by the readers, flat, without degenerate
    triangles, with all the properties that are needed. *)
Record valid (m : mesh R) (prop_from_node : bool) : Prop := {
  va_wf : wf_mesh m;
  va_plate : plate m;
  va_props : props_complete m prop_from_node;
  va_nodes : nodes m <> []
}.

(** Nothing of the input data differs: same nodes in the same order with the same
    coordinates and properties, same triangles, same edges. *)
Record same_data (m m' : mesh R) : Prop := {
  sd_keys : node_keys m' = node_keys m;
  sd_pos : forall n, pos m' n = pos m n;
  sd_prop : forall n, nodeprop m' n = nodeprop m n;
  sd_elements : elements m' = elements m;
  sd_edges : edge_keys m' = edge_keys m;
  sd_trias : map (fun ke => etrias (snd ke)) (edges m') = map (fun ke => etrias (snd ke)) (edges m)
}.

(** ** Boundary of a smoothing domain *)

Definition centroid (m : mesh R) (t : tria R) : vec3 R :=
  let p1 := pos m (tn1 t) in let p2 := pos m (tn2 t) in let p3 := pos m (tn3 t) in
  V3 ((vx p1 + vx p2 + vx p3) / 3) ((vy p1 + vy p2 + vy p3) / 3) ((vz p1 + vz p2 + vz p3) / 3).

(** consecutive pairs of a list *)
Definition segments {A} (l : list A) : list (A * A) := combine l (tl l).

(** The integration point [p] belongs to the segment from [a] to [b] of the boundary
    of the smoothing domain of edge [k]. *)
Record ipt_on (m : mesh R) (k : nat * nat) (a b : vec3 R) (p : ipt R) : Prop := {
  (* in the middle of the segment *)
  io_x : vx (ipxyz p) = (vx a + vx b) / 2;
  io_y : vy (ipxyz p) = (vy a + vy b) / 2;
  io_z : vz (ipxyz p) = (vz a + vz b) / 2;
  (* the weights add up to one and reproduce the position of the point *)
  io_weights : ipf1 p + ipf2 p + ipf3 p = 1;
  io_wx : vx (ipxyz p) = ipf1 p * vx (pos m (ipn1 p)) + ipf2 p * vx (pos m (ipn2 p)) + ipf3 p * vx (pos m (ipn3 p));
  io_wy : vy (ipxyz p) = ipf1 p * vy (pos m (ipn1 p)) + ipf2 p * vy (pos m (ipn2 p)) + ipf3 p * vy (pos m (ipn3 p));
  (* unit normal and length *)
  io_unit : ipnx p * ipnx p + ipny p * ipny p = 1;
  io_nz : ipnz p = 0;
  io_perp : ipnx p * (vx b - vx a) + ipny p * (vy b - vy a) = 0;
  io_le : 0 < iple p /\ iple p * iple p = (vx b - vx a) * (vx b - vx a) + (vy b - vy a) * (vy b - vy a);
  (* the segment is a side of the triangle (end, end, centroid of one of the triangles
     of the edge), the normal points away from the third corner; the nodes of the
     point are those of this triangle of the mesh *)
  io_out : exists t c, In t (tris_on m k) /\ eid t = iptria p /\
    Permutation [ipn1 p; ipn2 p; ipn3 p] [tn1 t; tn2 t; tn3 t] /\
    Permutation [a; b; c] [pos m (fst k); pos m (snd k); centroid m t] /\
    ipnx p * (vx c - vx a) + ipny p * (vy c - vy a) < 0
}.

(** The smoothing domain of an edge: its corners in order, beginning and ending in the
    same end of the edge, one integration point per segment, and vanishing sum of
    the outward normals. *)
Record domain_ok (m : mesh R) (k : nat * nat) (e : edge R) : Prop := {
  do_corners : exists t1 ts a b, tris_on m k = t1 :: ts /\ Permutation [a; b] [fst k; snd k] /\
    esdomain e = pos m a :: centroid m t1 :: pos m b :: map (centroid m) ts ++ [pos m a];
  do_ipts : Forall2 (fun ab p => ipt_on m k (fst ab) (snd ab) p) (segments (esdomain e)) (eipts e);
  do_closed_x : Sum (fun p => iple p * ipnx p) (eipts e) = 0;
  do_closed_y : Sum (fun p => iple p * ipny p) (eipts e) = 0
}.

(** value of the nodal field [q] in an integration point, and the integral of the field
    times the outward normal over the boundary: one point per segment *)
Definition ip_value (q : nat -> R) (p : ipt R) : R :=
  ipf1 p * q (ipn1 p) + ipf2 p * q (ipn2 p) + ipf3 p * q (ipn3 p).
Definition bint_x (e : edge R) (q : nat -> R) : R := Sum (fun p => iple p * ipnx p * ip_value q p) (eipts e).
Definition bint_y (e : edge R) (q : nat -> R) : R := Sum (fun p => iple p * ipny p * ip_value q p) (eipts e).

(** ** Displacement fields *)

(** [u] is the field that gives component [c] the value [q c n] in node [n] *)
Definition field_is (m : mesh R) (u : nat -> R) (q : nat -> nat -> R) : Prop :=
  forall c n, (c < 5)%nat -> In n (node_keys m) -> comp m u c n = q c n.

(** [f] is the affine function [a + b x + c y] of the position of the node *)
Definition affine (m : mesh R) (a b c : R) (n : nat) : R :=
  a + b * vx (pos m n) + c * vy (pos m n).

(** ** Stiffness *)

(** The 6x6 matrix [[A, B], [B, D]] (upper triangles of the 3x3 blocks) is positive
    semi-definite. *)
Definition psd (p : prop R) : Prop :=
  forall e, 0 <= dens (pA p) (pB p) (pD p) e e.

(** every property of the mesh satisfies [P] *)
Definition all_props (m : mesh R) (P : prop R -> Prop) : Prop :=
  (forall n p, nodeprop m n = Some p -> P p) /\
  (forall t p, In t (trias_of m) -> tprop t = Some p -> P p).

(** nodes [a] and [b] are vertices of the triangles on edge [k] *)
Definition on_domain {T} (m : mesh T) (k : nat * nat) (n : nat) : Prop :=
  exists t, In t (tris_on m k) /\ vertex t n.

(** edge [k] contributes to node [n]: a vertex of its triangles or, if there is only one
    triangle, the last node, whose index is that of the place-holder -1 *)
Definition reaches {T} (m : mesh T) (k : nat * nat) (n : nat) : Prop :=
  on_domain m k n \/ length (tris_on m k) = 1%nat /\ S (rank m n) = length (nodes m).

(** every edge has at most two triangles *)
Definition manifold {T} (m : mesh T) : Prop :=
  forall k, In k (edge_keys m) -> (length (tris_on m k) <= 2)%nat.

(** two elements have the same three vertices *)
Definition has_twins {T} (m : mesh T) : Prop :=
  exists t1 t2, In t1 (trias_of m) /\ In t2 (trias_of m) /\ eid t1 <> eid t2 /\
    forall n, vertex t1 n <-> vertex t2 n.

(** ** Changing the properties of a mesh *)

(** [m] with property [np n] in every node [n] and [tp e] in every element [e] *)
Definition with_props (np tp : nat -> option (prop R)) (m : mesh R) : mesh R :=
  {| nodes := map (fun kn => (fst kn, {| nid := nid (snd kn); nxyz := nxyz (snd kn);
                 nprop := np (fst kn); nindex := nindex (snd kn);
                 nedges := nedges (snd kn); ntrias := ntrias (snd kn) |})) (nodes m);
     elements := map (fun kt => (fst kt, {| eid := eid (snd kt); tn1 := tn1 (snd kt); tn2 := tn2 (snd kt);
                 tn3 := tn3 (snd kt); tprop := tp (fst kt); tedges := tedges (snd kt) |}))
                 (elements m);
     edges := edges m |}.

(** [c X + c' Y], entry by entry *)
Definition lin3 (c c' : R) (X Y : mat3 R) : mat3 R :=
  M3 (c * m00 X + c' * m00 Y) (c * m01 X + c' * m01 Y) (c * m02 X + c' * m02 Y)
     (c * m10 X + c' * m10 Y) (c * m11 X + c' * m11 Y) (c * m12 X + c' * m12 Y)
     (c * m20 X + c' * m20 Y) (c * m21 X + c' * m21 Y) (c * m22 X + c' * m22 Y).

(** the laminate stiffness of [p] is [c] times that of [p1] plus [c'] times that of [p2] *)
Definition lin_prop (c c' : R) (p p1 p2 : prop R) : Prop :=
  pA p = lin3 c c' (pA p1) (pA p2) /\ pB p = lin3 c c' (pB p1) (pB p2) /\ pD p = lin3 c c' (pD p1) (pD p2).

(** the same for two assigned properties, or none of them assigned *)
Definition lin_opt (c c' : R) (o o1 o2 : option (prop R)) : Prop :=
  match o, o1, o2 with
  | Some p, Some p1, Some p2 => lin_prop c c' p p1 p2
  | None, None, None => True
  | _, _, _ => False
  end.

(** ** Renumbering *)

(** the same triangle up to the order of its vertices *)
Definition same_tria (t t' : tria R) : Prop :=
  Permutation [tn1 t; tn2 t; tn3 t] [tn1 t'; tn2 t'; tn3 t'] /\ tprop t = tprop t'.

(** the same nodes (in the same order) and the same triangles up to element order,
    element ids and vertex order *)
Record same_plate_as (m m' : mesh R) : Prop := {
  sp_keys : node_keys m' = node_keys m;
  sp_pos : forall n, pos m' n = pos m n;
  sp_prop : forall n, nodeprop m' n = nodeprop m n;
  sp_trias : exists ts, Permutation (trias_of m) ts /\ Forall2 same_tria ts (trias_of m')
}.

(** linear combination of matrices *)
Definition is_lin (k : matrix R) (c : R) (k1 : matrix R) (c' : R) (k2 : matrix R) : Prop :=
  mdim k = mdim k1 /\ mdim k = mdim k2 /\
  forall i j, (i < mdim k)%nat -> (j < mdim k)%nat -> mentry k i j = c * mentry k1 i j + c' * mentry k2 i j.

(** ** Strains of an edge from its stored integration points *)

(** boundary integrals of the displacement components divided by the area of the domain *)
Definition edge_strain (m : mesh R) (e : edge R) (Ac : R) (u : nat -> R) : strain := {|
  exx := bint_x e (comp m u 0) / Ac;
  eyy := bint_y e (comp m u 1) / Ac;
  exy := bint_y e (comp m u 0) / Ac + bint_x e (comp m u 1) / Ac;
  kxx := bint_x e (comp m u 3) / Ac;
  kyy := bint_y e (comp m u 4) / Ac;
  kxy := bint_y e (comp m u 3) / Ac + bint_x e (comp m u 4) / Ac |}.

(** area of the smoothing domain as stored in the edge (0 if not yet known) *)
Definition stored_area (e : edge R) : R := match eAc e with Some A => A | None => 0 end.

(** [u] is affine in the position in the components u, v, phi_x, phi_y (any w):
    component [c] is [a c + b c * x + d c * y] *)
Definition affine_field (m : mesh R) (u : nat -> R) (a b d : nat -> R) : Prop :=
  forall c n, (c < 5)%nat -> c <> 2%nat -> In n (node_keys m) -> comp m u c n = affine m (a c) (b c) (d c) n.

(** its strain *)
Definition affine_strain (b d : nat -> R) : strain :=
  Strain (b 0%nat) (d 1%nat) (d 0%nat + b 1%nat) (b 3%nat) (d 4%nat) (d 3%nat + b 4%nat).

(** a rigid motion: in-plane translation (tx, ty) and rotation th, any w, constant rotations *)
Definition rigid (m : mesh R) (u : nat -> R) : Prop :=
  exists tx ty th px py, forall n, In n (node_keys m) ->
    comp m u 0 n = tx - th * vy (pos m n) /\ comp m u 1 n = ty + th * vx (pos m n) /\
    comp m u 3 n = px /\ comp m u 4 n = py.

(** the displacement vector with component [c] equal to [q c n] in node [n] *)
Definition field (m : mesh R) (q : nat -> nat -> R) (i : nat) : R :=
  q (i mod 5)%nat (nth (i / 5) (node_keys m) 0%nat).
