(** Notions used to state consistency: smooth fields sampled in the nodes of a fine mesh. *)
From Coq Require Import ZArith Reals List Bool Arith String.
From Verif Require Import Num Py Mesh Utils CalcK0 Spec SpecK0 SpecKG SpecK0s.
Import ListNotations.
Local Open Scope R_scope.

(** a function of the plane with its partial derivatives *)
Record scalar : Type := Scalar { fval : R -> R -> R; fdx : R -> R -> R; fdy : R -> R -> R }.

(** In the region [Om] the remainder of first order is at most [M] times the square of the distance (true of
    every function with continuous second derivatives on a compact convex region), and the partial derivatives
    are bounded by [s]. *)
Definition smooth (Om : R * R -> Prop) (M s : R) (f : scalar) : Prop :=
  (forall x y x' y', Om (x, y) -> Om (x', y') ->
     Rabs (fval f x' y' - (fval f x y + fdx f x y * (x' - x) + fdy f x y * (y' - y)))
     <= M * ((x' - x) * (x' - x) + (y' - y) * (y' - y))) /\
  (forall x y, Om (x, y) -> Rabs (fdx f x y) <= s /\ Rabs (fdy f x y) <= s).

(** the motion of a plate: displacements u, v, w and rotations phi_x, phi_y *)
Record motion : Type := Motion { fu : scalar; fv : scalar; fw : scalar; ffx : scalar; ffy : scalar }.
Definition motion_smooth (Om : R * R -> Prop) (M s : R) (F : motion) : Prop :=
  smooth Om M s (fu F) /\ smooth Om M s (fv F) /\ smooth Om M s (fw F) /\ smooth Om M s (ffx F) /\ smooth Om M s (ffy F).

(** the displacement vector [u] has the values of the motion in the nodes *)
Definition samples (m : mesh R) (F : motion) (u : nat -> R) : Prop := forall n, In n (node_keys m) ->
  let x := vx (pos m n) in let y := vy (pos m n) in
  comp m u 0 n = fval (fu F) x y /\ comp m u 1 n = fval (fv F) x y /\ comp m u 2 n = fval (fw F) x y /\
  comp m u 3 n = fval (ffx F) x y /\ comp m u 4 n = fval (ffy F) x y.

(** strains and curvatures of the motion in a point *)
Definition true_strain (F : motion) (p : R * R) : strain := let (x, y) := p in {|
  exx := fdx (fu F) x y; eyy := fdy (fv F) x y; exy := fdy (fu F) x y + fdx (fv F) x y;
  kxx := fdx (ffx F) x y; kyy := fdy (ffy F) x y; kxy := fdy (ffx F) x y + fdx (ffy F) x y |}.

(** [n] is not farther than [h] from [p], in both directions *)
Definition near (m : mesh R) (h : R) (p : R * R) (n : nat) : Prop :=
  Rabs (vx (pos m n) - fst p) <= h /\ Rabs (vy (pos m n) - snd p) <= h.

(** A mesh of size [h] of the region [Om] with a point [P k] for every edge: nodes and points are in the region,
    the vertices around the smoothing domain of the edge [k] are not farther than [h] from the point [P k], and
    the area of a triangle is at least [kappa] h^2. *)
Definition fine (Om : R * R -> Prop) (m : mesh R) (h kappa : R) (P : nat * nat -> R * R) : Prop :=
  (forall n, In n (node_keys m) -> Om (vx (pos m n), vy (pos m n))) /\ (forall k, In k (edge_keys m) -> Om (P k)) /\
  (forall k n, In k (edge_keys m) -> on_domain m k n -> near m h (P k) n) /\
  (forall t, In t (trias_of m) -> kappa * (h * h) <= tarea m t).

(** the entries of A, B, D are bounded by [c] *)
Definition mat3_bounded (c : R) (M : mat3 R) : Prop :=
  Rabs (m00 M) <= c /\ Rabs (m01 M) <= c /\ Rabs (m02 M) <= c /\ Rabs (m10 M) <= c /\ Rabs (m11 M) <= c /\
  Rabs (m12 M) <= c /\ Rabs (m20 M) <= c /\ Rabs (m21 M) <= c /\ Rabs (m22 M) <= c.
Definition bounded (c : R) (m : mesh R) : Prop :=
  all_props m (fun p => mat3_bounded c (pA p) /\ mat3_bounded c (pB p) /\ mat3_bounded c (pD p)).

(** Riemann sum of the energy density of the motion: areas of the smoothing domains times the density in the
    points [P k] *)
Definition riemann_energy (m : mesh R) (pfn : bool) (P : nat * nat -> R * R) (F : motion) : R :=
  Sum (fun k => dom_area m k *
         dens (edge_stiffness m pfn pA k) (edge_stiffness m pfn pB k) (edge_stiffness m pfn pD k)
              (true_strain F (P k)) (true_strain F (P k))) (edge_keys m).

(** Riemann sum of the work of the membrane forces of the motion [F] on the slopes of the motion [G] *)
Definition riemann_work (m : mesh R) (pfn : bool) (P : nat * nat -> R * R) (F G : motion) : R :=
  Sum (fun k => let (x, y) := P k in dom_area m k *
         work (membrane (edge_stiffness m pfn pA k) (edge_stiffness m pfn pB k) (true_strain F (P k)))
              (fdx (fw G) x y) (fdy (fw G) x y) (fdx (fw G) x y) (fdy (fw G) x y)) (edge_keys m).

(** ** Shear *)

(** shear strains of the motion in a point *)
Definition true_shear (F : motion) (p : R * R) : R * R := let (x, y) := p in
  (fdx (fw F) x y + fval (ffx F) x y, fdy (fw F) x y + fval (ffy F) x y).

(** the rotations are bounded by [b] *)
Definition rotations_le (Om : R * R -> Prop) (b : R) (F : motion) : Prop :=
  forall x y, Om (x, y) -> Rabs (fval (ffx F) x y) <= b /\ Rabs (fval (ffy F) x y) <= b.

(** as [fine], with a point for every triangle *)
Definition fine_trias (Om : R * R -> Prop) (m : mesh R) (h kappa : R) (P : tria R -> R * R) : Prop :=
  (forall n, In n (node_keys m) -> Om (vx (pos m n), vy (pos m n))) /\
  (forall t, In t (trias_of m) -> Om (P t) /\ (forall n, vertex t n -> near m h (P t) n) /\ kappa * (h * h) <= tarea m t).

(** shear correction factors and shear moduli bounded by [c], thickness at least [th] *)
Definition shear_bounded (c th : R) (m : mesh R) : Prop :=
  all_props m (fun p => Rabs (pk13 p) <= c /\ Rabs (pk23 p) <= c /\ Rabs (e00 (pE p)) <= c /\ Rabs (e11 (pE p)) <= c /\ th <= ph p).

(** Riemann sum of the energy density of the shear strains *)
Definition riemann_shear (m : mesh R) (pfn : bool) (P : tria R -> R * R) (F : motion) : R :=
  Sum (fun t => let g := true_shear F (P t) in
         tarea m t * (tria_G44 m pfn t * fst g * fst g + tria_G55 m pfn t * snd g * snd g)) (trias_of m).

(** how far the weight of the corners in the centroid, as written in the code, is from 1/3 *)
Definition third_error (method : string) : R := if String.eqb method "cell-based" then Rabs (code_third - 1 / 3) else 0.
