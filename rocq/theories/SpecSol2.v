(** Notions used to state how far the shear strains of a solution are from those of a smooth motion. *)
From Coq Require Import Reals List Bool Arith String.
From Verif Require Import Num Py Mesh Utils Spec SpecK0 SpecK0s SpecStab SpecStat SpecConv SpecSol.
Import ListNotations.
Local Open Scope R_scope.

(** mean of a nodal quantity over the linear triangle *)
Definition tmean (t : tria R) (q : nat -> R) : R := (q (tn1 t) + q (tn2 t) + q (tn3 t)) / 3.

(** mean over the triangle of the shear strains of the displacement that is linear in it: slope plus rotation *)
Definition tria_shear (m : mesh R) (v : nat -> R) (t : tria R) : R * R :=
  (tgx m t (comp m v 2) + tmean t (comp m v 3), tgy m t (comp m v 2) + tmean t (comp m v 4)).

(** the same with the rotation the methods use: times 1 + [literal_error] at the centroid, or at the node the gaps start from *)
Definition test_shear (method : string) (m : mesh R) (v : nat -> R) (t : tria R) : R * R :=
  if String.eqb method "cell-based"
  then (tgx m t (comp m v 2) + (1 + literal_error method) * tmean t (comp m v 3),
        tgy m t (comp m v 2) + (1 + literal_error method) * tmean t (comp m v 4))
  else (tgx m t (comp m v 2) + comp m v 3 (gap_node m t), tgy m t (comp m v 2) + comp m v 4 (gap_node m t)).

(** the shear stiffness of the laminate is at least [mu] *)
Definition shear_ge (mu : R) (p : prop R) : Prop := mu <= pk23 p * e00 (pE p) /\ mu <= pk13 p * e11 (pE p).

(** The nodal loads belong to the motion [F] as a Mindlin plate: on every displacement that respects the supports they do the
    work of stresses and transverse forces whose strains [st t] and shear strains [sh t], constant in every triangle, are within
    [delta] of those of [F] in the point [Q t]; [test] are the shear strains of the displacement. *)
Definition mindlin_loads (test : (nat -> R) -> tria R -> R * R) (m : mesh R) (p : prop R) (S : nat -> bool) (Q : tria R -> R * R) (F : motion)
  (delta : R) (load : nat -> R) : Prop :=
  exists st sh, (forall t, In t (trias_of m) -> strain_near delta (st t) (true_strain F (Q t)) /\
      Rabs (fst (sh t) - fst (true_shear F (Q t))) <= delta /\ Rabs (snd (sh t) - snd (true_shear F (Q t))) <= delta) /\
    forall v, admissible (List.length (nodes m) * 5) S v ->
      load_work (List.length (nodes m) * 5) load v =
      Sum (fun t => tarea m t * (dens (pA p) (pB p) (pD p) (st t) (tria_strain m v t) +
             (pk23 p * e00 (pE p) * fst (sh t) * fst (test v t) + pk13 p * e11 (pE p) * snd (sh t) * snd (test v t)))) (trias_of m).

(** integral of the square of the difference between the shear strains of the displacement [d] and those of the motion [F] *)
Definition shear_error (method : string) (m : mesh R) (Q : tria R -> R * R) (F : motion) (d : nat -> R) : R :=
  Sum (fun t => tarea m t * ((fst (method_strain method m d t) - fst (true_shear F (Q t))) ^ 2 +
                             (snd (method_strain method m d t) - snd (true_shear F (Q t))) ^ 2)) (trias_of m).

(** Korn's inequality for the rotations, with the constant [CK]: rotations that respect the supports, and their gradients, are
    bounded by the strains in the mean square *)
Definition korn (CK : R) (m : mesh R) (S : nat -> bool) : Prop :=
  forall v, admissible (List.length (nodes m) * 5) S v ->
    Sum (fun t => tarea m t * (tmean t (comp m v 3) ^ 2 + tmean t (comp m v 4) ^ 2 +
      (tgx m t (comp m v 3) ^ 2 + tgy m t (comp m v 3) ^ 2 + tgx m t (comp m v 4) ^ 2 + tgy m t (comp m v 4) ^ 2))) (trias_of m)
    <= CK * strains_sq m v.

(** a plate of one laminate [p], stiff enough and bounded, in a mesh of size [h] of the region [Om] *)
Definition mindlin_plate (Om : R * R -> Prop) (m : mesh R) (pfn : bool) (p : prop R) (h kappa : R) (Q : tria R -> R * R) (c lam mu th : R) : Prop :=
  valid m pfn /\ all_props m (fun q => q = p) /\ shear_pos p /\ stiffness_ge lam p /\ shear_ge mu p /\
  mat3_bounded c (pA p) /\ mat3_bounded c (pB p) /\ mat3_bounded c (pD p) /\ shear_bounded c th m /\ fine_trias Om m h kappa Q.

(** a smooth motion with the values [u] in the nodes *)
Definition mindlin_motion (Om : R * R -> Prop) (m : mesh R) (M s b : R) (F : motion) (u : nat -> R) : Prop :=
  motion_smooth Om M s F /\ rotations_le Om b F /\ samples m F u.
