(** Notions used to state which displacements have no energy, and when a static problem
    has one solution. *)
From Coq Require Import Reals List Bool Arith String.
From Verif Require Import Num Py Mesh Utils Spec SpecK0 SpecK0s.
Import ListNotations.
Local Open Scope R_scope.

(** ** Parts of a plate *)

(** [t'] is reached from [t] by going from triangle to triangle over common sides *)
Inductive linked (m : mesh R) (t : tria R) : tria R -> Prop :=
| linked_self : linked m t t
| linked_next : forall t1 t2 k, linked m t t1 -> In k (edge_keys m) ->
    In t1 (tris_on m k) -> In t2 (tris_on m k) -> linked m t t2.

(** the nodes of the part of the plate that hangs together with [t] *)
Definition in_part (m : mesh R) (t : tria R) (n : nat) : Prop := exists t', linked m t t' /\ vertex t' n.

(** the plate consists of one part and has no loose nodes *)
Definition in_one_piece (m : mesh R) : Prop :=
  exists t, In t (trias_of m) /\ forall n, In n (node_keys m) -> in_part m t n.

(** [t] has a neighbour *)
Definition has_neighbour (m : mesh R) (t : tria R) : Prop :=
  exists k t', In k (edge_keys m) /\ In t (tris_on m k) /\ In t' (tris_on m k) /\ t' <> t.

(** the node from which "cell-based-no-smoothing" measures the shear gaps of [t] *)
Definition gap_node (m : mesh R) (t : tria R) : nat := if Rlt_dec (tdet m t) 0 then tn2 t else tn1 t.
(** in every part of the plate some triangle has a neighbour across the side that does not contain
    its gap node *)
Definition gaps_spread (m : mesh R) : Prop :=
  forall t, In t (trias_of m) -> exists t1 t2 k, linked m t t1 /\ In k (edge_keys m) /\
    In t1 (tris_on m k) /\ In t2 (tris_on m k) /\ t2 <> t1 /\ gap_node m t1 <> fst k /\ gap_node m t1 <> snd k.

(** ** Stiffness *)

(** [[A, B], [B, D]] is positive definite *)
Definition pos_def (p : prop R) : Prop :=
  forall e, e <> Strain 0 0 0 0 0 0 -> 0 < dens (pA p) (pB p) (pD p) e e.
(** positive shear stiffness and thickness *)
Definition shear_pos (p : prop R) : Prop :=
  0 < ph p /\ 0 < pk13 p /\ 0 < pk23 p /\ 0 < e00 (pE p) /\ 0 < e11 (pE p).

(** ** Motions without strain *)

(** on the nodes [P] the pair of fields (a, b) is a translation (tx, ty) and a rotation th
    in the plane *)
Definition plane_motion (m : mesh R) (P : nat -> Prop) (a b : nat -> R) : Prop :=
  exists tx ty th, forall n, P n -> a n = tx - th * vy (pos m n) /\ b n = ty + th * vx (pos m n).

(** on the nodes [P]: constant rotations (px, py) and the deflection that goes with them,
    [w = c - f (px x + py y)]; [f = 1] for a rigid motion *)
Definition tilting (f : R) (m : mesh R) (P : nat -> Prop) (u : nat -> R) : Prop :=
  exists c px py, forall n, P n ->
    comp m u 2 n = c - f * (px * vx (pos m n) + py * vy (pos m n)) /\ comp m u 3 n = px /\ comp m u 4 n = py.

(** every part of the plate moves as a rigid body; with [f] in place of 1 see [tilting] *)
Definition rigid_parts (f : R) (m : mesh R) (u : nat -> R) : Prop :=
  forall t, In t (trias_of m) ->
    plane_motion m (in_part m t) (comp m u 0) (comp m u 1) /\ tilting f m (in_part m t) u.

(** ** Static problems *)

(** [d] is zero in the supported degrees of freedom [S] and in all others the forces of [K] are
    the loads [load] *)
Definition solves (K : matrix R) (S : nat -> bool) (load d : nat -> R) : Prop :=
  forall i, (i < mdim K)%nat -> if S i then d i = 0 else mulv K d i = load i.

(** the supports allow no rigid motion *)
Definition supported (f : R) (m : mesh R) (S : nat -> bool) : Prop :=
  forall u, rigid_parts f m u -> (forall i, (i < List.length (nodes m) * 5)%nat -> S i = true -> u i = 0) ->
  forall i, (i < List.length (nodes m) * 5)%nat -> u i = 0.

(** not on a straight line *)
Definition apart3 (m : mesh R) (a b c : nat) : Prop := det2 (pos m a) (pos m b) (pos m c) <> 0.

(** the number of the degree of freedom [c] of node [n] *)
Definition dof (m : mesh R) (n c : nat) : nat := (rank m n * 5 + c)%nat.

(** ** Energy of the linear triangles *)

Definition tria_strain (m : mesh R) (u : nat -> R) (t : tria R) : strain := {|
  exx := tgx m t (comp m u 0);
  eyy := tgy m t (comp m u 1);
  exy := tgy m t (comp m u 0) + tgx m t (comp m u 1);
  kxx := tgx m t (comp m u 3);
  kyy := tgy m t (comp m u 4);
  kxy := tgy m t (comp m u 3) + tgx m t (comp m u 4) |}.

(** strain energy of the displacement that is linear in every triangle, laminate [p] *)
Definition linear_energy (m : mesh R) (p : prop R) (u : nat -> R) : R :=
  Sum (fun t => tarea m t * dens (pA p) (pB p) (pD p) (tria_strain m u t) (tria_strain m u t)) (trias_of m).

(** what keeps the rotations from a twist (phi_x, phi_y) = (- s y, s x) *)
Definition braced (method : string) (m : mesh R) : Prop :=
  if String.eqb method "cell-based" then forall t, In t (trias_of m) -> has_neighbour m t else gaps_spread m.

(** u, v and w are supported in every node *)
Definition all_hinged (i : nat) : bool := (i mod 5 <? 3)%nat.
