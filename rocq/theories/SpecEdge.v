(** Notions used to state what the edge-based shear stiffness measures. *)
From Coq Require Import ZArith Reals List Bool Arith.
From Verif Require Import Num Py Mesh Utils CalcK0 AddK0s Spec SpecK0 SpecKG SpecK0s.
Import ListNotations.
Local Open Scope R_scope.

(** the ends of the edge [k] in the order in which the first triangle on it lies to the left *)
Definition edge_ends (m : mesh R) (k : nat * nat) : nat * nat :=
  match tris_on m k with
  | t :: _ => if Rlt_dec 0 (det2 (pos m (fst k)) (pos m (snd k)) (pos m (third t k))) then k else (snd k, fst k)
  | [] => k
  end.

(** shear strain of the smoothing domain of the edge: the domain consists of the triangles
    (centroid, end, end), one for each triangle on the edge; the shear gaps are measured from
    the centroid in the first and from the first end in the second; area-weighted mean *)
Definition strain_edge (m : mesh R) (u : nat -> R) (k : nat * nat) : R * R :=
  let p := at_node m u (fst (edge_ends m k)) in
  let q := at_node m u (snd (edge_ends m k)) in
  let c t := center (1/3) p q (at_node m u (third t k)) in
  match tris_on m k with
  | [t] => dsg (c t) p q
  | [t; t'] =>
      let g := dsg (c t) p q in let g' := dsg p (c t') q in
      ((tarea m t * fst g + tarea m t' * fst g') / (tarea m t + tarea m t'),
       (tarea m t * snd g + tarea m t' * snd g') / (tarea m t + tarea m t'))
  | _ => (0, 0)
  end.

(** energy of the shear strains [g] and [g'] of the domains *)
Definition edge_energy (m : mesh R) (pfn : bool) (alpha : R) (mfa : bool) (g g' : nat * nat -> R * R) : R :=
  Sum (fun k => dom_area m k * corr alpha (edge_val m pfn ph k) (edge_size m mfa k) *
         (let '(G44, G45, G55) := edge_G m pfn k in
          G44 * fst (g k) * fst (g' k) + G45 * (fst (g k) * snd (g' k) + snd (g k) * fst (g' k)) + G55 * snd (g k) * snd (g' k)))
      (edge_keys m).

(** every edge with two triangles starts in a node whose y is equal to its z *)
Definition starts_level (m : mesh R) : Prop :=
  forall k t t', In k (edge_keys m) -> tris_on m k = [t; t'] ->
    vy (pos m (fst (edge_ends m k))) = vz (pos m (fst (edge_ends m k))).

(** the stiffness matrices E are positive definite and the shear correction factors positive *)
Definition stiff_pos (m : mesh R) : Prop :=
  all_props m (fun p => 0 < pk13 p /\ 0 < pk23 p /\
    forall x y, x <> 0 \/ y <> 0 -> 0 < e00 (pE p) * x * x + 2 * e01 (pE p) * x * y + e11 (pE p) * y * y).

(** ** Scales *)

(** [h] is at least the distances in x and in y of two vertices of a triangle, and of the z of one to the y of another
    (the code confuses them); the triangles have at least the area 3 h^2 / rho; shear correction factors are at most [c] and
    stiffnesses at most [e] *)
Record edge_scale (m : mesh R) (h rho c e : R) : Prop := {
  es_h : 0 < h;
  es_rho : 1 <= rho;
  es_c : 0 <= c;
  es_e : 0 <= e;
  es_near : forall t p q, In t (trias_of m) -> vertex t p -> vertex t q ->
    Rabs (vx (pos m p) - vx (pos m q)) <= h /\ Rabs (vy (pos m p) - vy (pos m q)) <= h /\ Rabs (vz (pos m p) - vy (pos m q)) <= h;
  es_fat : forall t, In t (trias_of m) -> 3 * (h * h) <= rho * tarea m t;
  es_factor : all_props m (fun p => Rabs (pk13 p) <= c /\ Rabs (pk23 p) <= c);
  es_stiff : all_props m (fun p => Rabs (e00 (pE p)) <= e /\ Rabs (e01 (pE p)) <= e /\ Rabs (e11 (pE p)) <= e)
}.

(** deflections, and rotations times [h], are at most [U] *)
Definition field_scale (m : mesh R) (h U : R) (u : nat -> R) : Prop :=
  forall n, In n (node_keys m) -> Rabs (comp m u 2 n) <= U /\ h * Rabs (comp m u 3 n) <= U /\ h * Rabs (comp m u 4 n) <= U.

(** effect of the decimals of the code on u^T k v, for fields of size U and V *)
Definition decimals_error (m : mesh R) (rho c e U V : R) : R :=
  11 / 10000000000000 * (c * e) * (rho * rho * rho) * (U * V) * INR (List.length (edge_keys m)).
