(** Notions used to state what happens when a plate gets thin. *)
From Coq Require Import Reals List Bool Arith String.
From Verif Require Import Num Py Mesh Utils Spec SpecK0 SpecK0s SpecStat SpecUnits.
Import ListNotations.
Local Open Scope R_scope.

(** the laminate with all plies [s] times as thick: A and E are proportional to the thickness, B to its square, D to its cube *)
Definition prop_thin (s : R) (p : prop R) : prop R :=
  {| pA := scale3 s (pA p); pB := scale3 (s ^ 2) (pB p); pD := scale3 (s ^ 3) (pD p); pE := scale2 s (pE p);
     ph := s * ph p; pk13 := pk13 p; pk23 := pk23 p |}.

(** the plate with all laminates [s] times as thick *)
Definition mesh_thin (s : R) (m : mesh R) : mesh R :=
  {| nodes := map (fun kn => (fst kn, {| nid := nid (snd kn); nxyz := nxyz (snd kn);
                 nprop := option_map (prop_thin s) (nprop (snd kn)); nindex := nindex (snd kn);
                 nedges := nedges (snd kn); ntrias := ntrias (snd kn) |})) (nodes m);
     elements := map (fun kt => (fst kt, {| eid := eid (snd kt); tn1 := tn1 (snd kt); tn2 := tn2 (snd kt);
                 tn3 := tn3 (snd kt); tprop := option_map (prop_thin s) (tprop (snd kt)); tedges := tedges (snd kt) |}))
                 (elements m);
     edges := edges m |}.

(** u and v are [s] times as large, w and the rotations as they are *)
Definition thin_field (s : R) (u : nat -> R) (i : nat) : R := (if (i mod 5 <? 2)%nat then s else 1) * u i.
(** transverse loads and moments as the cube of the thickness, like the bending stiffness; loads in the plane as the square *)
Definition thin_load (s : R) (load : nat -> R) (i : nat) : R := (if (i mod 5 <? 2)%nat then s ^ 2 else s ^ 3) * load i.

(** no laminate is thicker than [h], and no triangle is so small that h^2 > r alpha l^2 for its size l *)
Definition thinner (m : mesh R) (mfa : bool) (alpha r : R) : Prop :=
  exists h, all_props m (fun p => ph p <= h) /\ forall t, In t (trias_of m) -> h * h <= r * (alpha * (tria_size m mfa t * tria_size m mfa t)).

(** supports that also hold u and v everywhere *)
Definition in_plane (S : nat -> bool) (i : nat) : bool := (S i || (i mod 5 <? 2)%nat)%bool.
(** the supports allow no w and rotations without shear strains *)
Definition no_pure_bending (method : string) (m : mesh R) (S : nat -> bool) : Prop :=
  forall u, admissible (List.length (nodes m) * 5) (in_plane S) u ->
  (forall t, In t (trias_of m) -> method_strain method m u t = (0, 0)) -> forall i, (i < List.length (nodes m) * 5)%nat -> u i = 0.
