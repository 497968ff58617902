(** Notions used to state the properties.  Nothing here refers to how the code
    computes: meshes are looked at through their dictionaries, matrices through the
    bilinear form [u^T K v], displacements through the value of each degree of
    freedom in each node. *)
From Coq Require Import ZArith Reals List Bool Arith Lra.
From Verif Require Import Num Py Mesh Utils.
Import ListNotations.
Local Open Scope R_scope.

(** ** Sums *)

Definition rsum (l : list R) : R := fold_right Rplus 0 l.
Definition Sum {A} (f : A -> R) (l : list A) : R := rsum (map f l).

(** ** Matrices as bilinear forms *)

(** [u^T K v] *)
Definition form (k : matrix R) (u v : nat -> R) : R :=
  Sum (fun i => Sum (fun j => u i * mentry k i j * v j) (seq 0 (mdim k))) (seq 0 (mdim k)).

(** row [i] of [K v] *)
Definition mulv (k : matrix R) (v : nat -> R) (i : nat) : R :=
  Sum (fun j => mentry k i j * v j) (seq 0 (mdim k)).

Definition symmetric (k : matrix R) : Prop :=
  forall i j, (i < mdim k)%nat -> (j < mdim k)%nat -> mentry k i j = mentry k j i.

(** equality of matrices *)
Definition meq (k1 k2 : matrix R) : Prop :=
  mdim k1 = mdim k2 /\
  forall i j, (i < mdim k1)%nat -> (j < mdim k1)%nat -> mentry k1 i j = mentry k2 i j.

(** ** Geometry in the plane *)

(** twice the signed area of the triangle p q r *)
Definition det2 (p q r : vec3 R) : R :=
  (vx q - vx p) * (vy r - vy p) - (vx r - vx p) * (vy q - vy p).

(** ** Meshes

    What does not depend on numbers is stated for coordinates of any type [T]. *)

(** node ids in dictionary order *)
Definition node_keys {T} (m : mesh T) : list nat := map fst (nodes m).
Definition trias_of {T} (m : mesh T) : list (tria T) := map snd (elements m).
Definition edge_keys {T} (m : mesh T) : list (nat * nat) := map fst (edges m).

(** position of a node (the origin if there is no such node) *)
Definition pos (m : mesh R) (n : nat) : vec3 R :=
  match dget Nat.eqb n (nodes m) with Some nd => nxyz nd | None => V3 0 0 0 end.

(** property of a node *)
Definition nodeprop {T} (m : mesh T) (n : nat) : option (prop T) :=
  match dget Nat.eqb n (nodes m) with Some nd => nprop nd | None => None end.

(** position of [a] in a list *)
Fixpoint index_in (a : nat) (l : list nat) : nat :=
  match l with
  | [] => 0
  | b :: l' => if Nat.eqb a b then 0 else S (index_in a l')
  end.

(** number of a node, 0 .. n-1, in dictionary order *)
Definition rank {T} (m : mesh T) (n : nat) : nat := index_in n (node_keys m).

(** component [c] (0: u, 1: v, 2: w, 3: phi_x, 4: phi_y) of a displacement vector
    in a node *)
Definition comp (m : mesh R) (u : nat -> R) (c : nat) (n : nat) : R :=
  u (rank m n * 5 + c)%nat.

Definition vertex {T} (t : tria T) (n : nat) : Prop := n = tn1 t \/ n = tn2 t \/ n = tn3 t.
Definition is_vertex {T} (n : nat) (t : tria T) : bool :=
  Nat.eqb n (tn1 t) || Nat.eqb n (tn2 t) || Nat.eqb n (tn3 t).

(** the triangles that have both [a] and [b] as vertices, in element order *)
Definition tris_on {T} (m : mesh T) (k : nat * nat) : list (tria T) :=
  filter (fun t => is_vertex (fst k) t && is_vertex (snd k) t) (trias_of m).

(** twice the signed area, the area, and the gradient of the linear interpolant of
    the nodal field [q] on a triangle *)
Definition tdet (m : mesh R) (t : tria R) : R :=
  det2 (pos m (tn1 t)) (pos m (tn2 t)) (pos m (tn3 t)).
Definition tarea (m : mesh R) (t : tria R) : R := Rabs (tdet m t) / 2.
Definition tgx (m : mesh R) (t : tria R) (q : nat -> R) : R :=
  ((q (tn2 t) - q (tn1 t)) * (vy (pos m (tn3 t)) - vy (pos m (tn1 t)))
   - (q (tn3 t) - q (tn1 t)) * (vy (pos m (tn2 t)) - vy (pos m (tn1 t)))) / tdet m t.
Definition tgy (m : mesh R) (t : tria R) (q : nat -> R) : R :=
  ((q (tn3 t) - q (tn1 t)) * (vx (pos m (tn2 t)) - vx (pos m (tn1 t)))
   - (q (tn2 t) - q (tn1 t)) * (vx (pos m (tn3 t)) - vx (pos m (tn1 t)))) / tdet m t.

Definition total_area (m : mesh R) : R := Sum (tarea m) (trias_of m).

(** the vertex of [t] that is neither [a] nor [b] *)
Definition third {T} (t : tria T) (k : nat * nat) : nat :=
  let inside n := Nat.eqb n (fst k) || Nat.eqb n (snd k) in
  if negb (inside (tn1 t)) then tn1 t else if negb (inside (tn2 t)) then tn2 t else tn3 t.

(** the three sides of a triangle as ordered pairs *)
Definition sides {T} (t : tria T) : list (nat * nat) :=
  [(Nat.min (tn1 t) (tn2 t), Nat.max (tn1 t) (tn2 t));
   (Nat.min (tn2 t) (tn3 t), Nat.max (tn2 t) (tn3 t));
   (Nat.min (tn3 t) (tn1 t), Nat.max (tn3 t) (tn1 t))].

(** A mesh as the two readers make it, whatever happened to it afterwards
    (properties assigned, nodes moved, matrices calculated): dictionaries without
    double keys, triangles with three distinct existing vertices, [edges] = the sides
    of the triangles, [edge.trias] = the triangles on the edge in element order,
    [tria.edges] = the three sides. *)
Record wf_mesh {T} (m : mesh T) : Prop := {
  wf_nodes : NoDup (node_keys m);
  wf_nid : forall k n, In (k, n) (nodes m) -> nid n = k;
  wf_elements : NoDup (map fst (elements m));
  wf_eid : forall k t, In (k, t) (elements m) -> eid t = k;
  wf_distinct : forall t, In t (trias_of m) ->
    tn1 t <> tn2 t /\ tn2 t <> tn3 t /\ tn3 t <> tn1 t;
  wf_vertices : forall t n, In t (trias_of m) -> vertex t n -> In n (node_keys m);
  wf_edges : NoDup (edge_keys m);
  wf_edge_ends : forall k e, In (k, e) (edges m) -> (en1 e, en2 e) = k /\ (fst k < snd k)%nat;
  wf_edge_keys : forall k, In k (edge_keys m) <-> exists t, In t (trias_of m) /\ In k (sides t);
  wf_edge_trias : forall k e, In (k, e) (edges m) -> etrias e = map eid (tris_on m k);
  wf_tria_edges : forall t, In t (trias_of m) ->
    forall k, In k (tedges t) <-> In k (sides t);
  wf_tria_edges_nodup : forall t, In t (trias_of m) -> NoDup (tedges t)
}.

(** A plate: flat, no degenerate triangle, at most two triangles on an edge and
    these on different sides of it. *)
Record plate (m : mesh R) : Prop := {
  pl_flat : exists z, forall n, In n (node_keys m) -> vz (pos m n) = z;
  pl_nondeg : forall t, In t (trias_of m) -> tdet m t <> 0;
  pl_two : forall k, In k (edge_keys m) -> (length (tris_on m k) <= 2)%nat;
  pl_sides : forall k t1 t2, In k (edge_keys m) -> tris_on m k = [t1; t2] ->
    det2 (pos m (fst k)) (pos m (snd k)) (pos m (third t1 k))
    * det2 (pos m (fst k)) (pos m (snd k)) (pos m (third t2 k)) < 0
}.

(** every property that is asked for has been assigned *)
Definition props_complete {T} (m : mesh T) (prop_from_node : bool) : Prop :=
  if prop_from_node
  then forall k, In k (edge_keys m) -> nodeprop m (fst k) <> None /\ nodeprop m (snd k) <> None
  else forall t, In t (trias_of m) -> tprop t <> None.

(** ** Smoothed strains *)

(** area of the smoothing domain of an edge: one third of the triangles on it *)
Definition dom_area (m : mesh R) (k : nat * nat) : R := Sum (tarea m) (tris_on m k) / 3.

(** gradient of a nodal field averaged over the smoothing domain *)
Definition sgx (m : mesh R) (k : nat * nat) (q : nat -> R) : R :=
  Sum (fun t => tarea m t * tgx m t q) (tris_on m k) / Sum (tarea m) (tris_on m k).
Definition sgy (m : mesh R) (k : nat * nat) (q : nat -> R) : R :=
  Sum (fun t => tarea m t * tgy m t q) (tris_on m k) / Sum (tarea m) (tris_on m k).

(** membrane and bending strains *)
Record strain : Type := Strain { exx : R; eyy : R; exy : R; kxx : R; kyy : R; kxy : R }.

Definition smoothed_strain (m : mesh R) (u : nat -> R) (k : nat * nat) : strain := {|
  exx := sgx m k (comp m u 0);
  eyy := sgy m k (comp m u 1);
  exy := sgy m k (comp m u 0) + sgx m k (comp m u 1);
  kxx := sgx m k (comp m u 3);
  kyy := sgy m k (comp m u 4);
  kxy := sgy m k (comp m u 3) + sgx m k (comp m u 4) |}.

(** [x^T M y] for the symmetric 3x3 matrix whose upper triangle is that of [M] *)
Definition quad3 (M : mat3 R) (x1 x2 x3 y1 y2 y3 : R) : R :=
  m00 M * x1 * y1 + m11 M * x2 * y2 + m22 M * x3 * y3
  + m01 M * (x1 * y2 + x2 * y1) + m02 M * (x1 * y3 + x3 * y1) + m12 M * (x2 * y3 + x3 * y2).

(** energy density: product of two strains with [[A, B], [B, D]] *)
Definition dens (A B D : mat3 R) (e f : strain) : R :=
  quad3 A (exx e) (eyy e) (exy e) (exx f) (eyy f) (exy f)
  + quad3 B (exx e) (eyy e) (exy e) (kxx f) (kyy f) (kxy f)
  + quad3 B (kxx e) (kyy e) (kxy e) (exx f) (eyy f) (exy f)
  + quad3 D (kxx e) (kyy e) (kxy e) (kxx f) (kyy f) (kxy f).

(** ** The laminate stiffness of an edge *)

Definition zero3 : mat3 R := M3 0 0 0 0 0 0 0 0 0.
Definition getp (sel : prop R -> mat3 R) (o : option (prop R)) : mat3 R :=
  match o with Some p => sel p | None => zero3 end.

(** entrywise weighted mean of matrices *)
Definition wsum3 {A} (w : A -> R) (M : A -> mat3 R) (l : list A) : mat3 R :=
  let S g := Sum (fun a => w a * g (M a)) l / Sum w l in
  M3 (S m00) (S m01) (S m02) (S m10) (S m11) (S m12) (S m20) (S m21) (S m22).

(** Properties from nodes: the mean over the corners of the smoothing domain (the
    two end nodes and the centroids of the triangles); in a centroid the mean of the
    three vertices. *)
Definition node_stiffness (m : mesh R) (sel : prop R -> mat3 R) (k : nat * nat) : mat3 R :=
  let M n := getp sel (nodeprop m n) in
  let cent t := wsum3 (fun _ => 1) M [tn1 t; tn2 t; tn3 t] in
  wsum3 (fun _ => 1) (fun X => X) (M (fst k) :: M (snd k) :: map cent (tris_on m k)).

(** Properties from triangles: the mean over the triangles weighted by their area. *)
Definition tria_stiffness (m : mesh R) (sel : prop R -> mat3 R) (k : nat * nat) : mat3 R :=
  wsum3 (tarea m) (fun t => getp sel (tprop t)) (tris_on m k).

Definition edge_stiffness (m : mesh R) (prop_from_node : bool) (sel : prop R -> mat3 R)
  (k : nat * nat) : mat3 R :=
  if prop_from_node then node_stiffness m sel k else tria_stiffness m sel k.

(** The energy of the whole plate. *)
Definition k0_energy (m : mesh R) (pfn : bool) (u v : nat -> R) : R :=
  Sum (fun k => dom_area m k *
         dens (edge_stiffness m pfn pA k) (edge_stiffness m pfn pB k) (edge_stiffness m pfn pD k)
              (smoothed_strain m u k) (smoothed_strain m v k)) (edge_keys m).
