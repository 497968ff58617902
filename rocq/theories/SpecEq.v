(** Notions used to state equilibrium properties of the matrices. *)
From Coq Require Import Reals List Bool Arith.
From Verif Require Import Num Py Mesh Utils Spec SpecK0.
Import ListNotations.
Local Open Scope R_scope.

(** the boundary edges (one triangle) that end in the node [n] *)
Definition boundary_at (m : mesh R) (n : nat) : list (nat * nat) :=
  filter (fun k => (Nat.eqb n (fst k) || Nat.eqb n (snd k)) && Nat.eqb (length (tris_on m k)) 1) (edge_keys m).

(** every edge that ends in [n] lies between two triangles *)
Definition interior (m : mesh R) (n : nat) : Prop :=
  forall k, In k (edge_keys m) -> n = fst k \/ n = snd k -> length (tris_on m k) = 2%nat.

(** [l] is the outward normal of the boundary edge [k] times the length of the edge:
    perpendicular to the edge, as long as the edge, and pointing away from the third
    vertex of the triangle *)
Record outward (m : mesh R) (k : nat * nat) (l : R * R) : Prop := {
  ow_perp : fst l * (vx (pos m (snd k)) - vx (pos m (fst k))) + snd l * (vy (pos m (snd k)) - vy (pos m (fst k))) = 0;
  ow_length : fst l * fst l + snd l * snd l =
    (vx (pos m (snd k)) - vx (pos m (fst k))) * (vx (pos m (snd k)) - vx (pos m (fst k)))
    + (vy (pos m (snd k)) - vy (pos m (fst k))) * (vy (pos m (snd k)) - vy (pos m (fst k)));
  ow_out : forall t, In t (tris_on m k) ->
    fst l * (vx (pos m (third t k)) - vx (pos m (fst k))) + snd l * (vy (pos m (third t k)) - vy (pos m (fst k))) < 0
}.

(** forces and moments of a laminate: [N = A e + B k], [M = B e + D k] with the symmetric
    matrices whose upper triangles are those of A, B, D; (xx, yy, xy) *)
Definition smul3 (M : mat3 R) (x y z : R) : vec3 R :=
  V3 (m00 M * x + m01 M * y + m02 M * z) (m01 M * x + m11 M * y + m12 M * z) (m02 M * x + m12 M * y + m22 M * z).
Definition plus3 (a b : vec3 R) : vec3 R := V3 (vx a + vx b) (vy a + vy b) (vz a + vz b).
Definition forces (p : prop R) (s : strain) : vec3 R :=
  plus3 (smul3 (pA p) (exx s) (eyy s) (exy s)) (smul3 (pB p) (kxx s) (kyy s) (kxy s)).
Definition moments (p : prop R) (s : strain) : vec3 R :=
  plus3 (smul3 (pB p) (exx s) (eyy s) (exy s)) (smul3 (pD p) (kxx s) (kyy s) (kxy s)).

(** half of the resultant over the boundary edges at [n], i.e. the part of each edge that
    belongs to this end: x and y direction *)
Definition edge_load_x (m : mesh R) (L : nat * nat -> R * R) (N : vec3 R) (n : nat) : R :=
  Sum (fun k => (fst (L k) * vx N + snd (L k) * vz N) / 2) (boundary_at m n).
Definition edge_load_y (m : mesh R) (L : nat * nat -> R * R) (N : vec3 R) (n : nat) : R :=
  Sum (fun k => (fst (L k) * vz N + snd (L k) * vy N) / 2) (boundary_at m n).
