(** Notions used to state how far the strains of a solution are from those of a smooth motion. *)
From Coq Require Import Reals List Bool Arith String.
From Verif Require Import Num Py Mesh Utils Spec SpecK0 SpecK0s SpecStab SpecStat SpecConv.
Import ListNotations.
Local Open Scope R_scope.

(** sum of the squares *)
Definition strain_sq (e : strain) : R :=
  exx e * exx e + eyy e * eyy e + exy e * exy e + kxx e * kxx e + kyy e * kyy e + kxy e * kxy e.
Definition strain_minus (e f : strain) : strain :=
  Strain (exx e - exx f) (eyy e - eyy f) (exy e - exy f) (kxx e - kxx f) (kyy e - kyy f) (kxy e - kxy f).
(** no component of [e] is farther than [d] from that of [f] *)
Definition strain_near (d : R) (e f : strain) : Prop :=
  Rabs (exx e - exx f) <= d /\ Rabs (eyy e - eyy f) <= d /\ Rabs (exy e - exy f) <= d /\
  Rabs (kxx e - kxx f) <= d /\ Rabs (kyy e - kyy f) <= d /\ Rabs (kxy e - kxy f) <= d.

(** integral over the plate of the square of the strains of the displacement that is linear in every triangle *)
Definition strains_sq (m : mesh R) (u : nat -> R) : R := Sum (fun t => tarea m t * strain_sq (tria_strain m u t)) (trias_of m).

(** the stiffness of the laminate is at least [lam] *)
Definition stiffness_ge (lam : R) (p : prop R) : Prop := forall e, lam * strain_sq e <= dens (pA p) (pB p) (pD p) e e.

(** the coordinates of the vertices of a triangle differ by at most some h, and its area is at least [kappa] h^2 *)
Definition shapely (kappa : R) (m : mesh R) : Prop := forall t, In t (trias_of m) -> exists h, 0 < h /\
  (forall a b, vertex t a -> vertex t b -> Rabs (vx (pos m a) - vx (pos m b)) <= h /\ Rabs (vy (pos m a) - vy (pos m b)) <= h) /\
  kappa * (h * h) <= tarea m t.

(** The nodal loads belong to the motion [F]: on every displacement that respects the supports they do the work of
    stresses whose strains [st t], constant in every triangle, are within [delta] of those of [F] in the point [Q t] of the
    triangle.  (For the equilibrium state F of the plate these are the mean strains of F in the triangles.) *)
Definition loads_of (m : mesh R) (p : prop R) (S : nat -> bool) (Q : tria R -> R * R) (F : motion) (delta : R) (load : nat -> R) : Prop :=
  exists st, (forall t, In t (trias_of m) -> strain_near delta (st t) (true_strain F (Q t))) /\
    forall v, admissible (List.length (nodes m) * 5) S v ->
      load_work (List.length (nodes m) * 5) load v =
      Sum (fun t => tarea m t * dens (pA p) (pB p) (pD p) (st t) (tria_strain m v t)) (trias_of m).

(** integral of the square of the difference between the strains of the displacement [d] and those of the motion [F] *)
Definition strain_error (m : mesh R) (Q : tria R -> R * R) (F : motion) (d : nat -> R) : R :=
  Sum (fun t => tarea m t * strain_sq (strain_minus (tria_strain m d t) (true_strain F (Q t)))) (trias_of m).
