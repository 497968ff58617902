(** Notions used to state that the results do not depend on the units of measurement. *)
From Coq Require Import Reals List Bool Arith.
From Verif Require Import Num Py Mesh Utils Spec SpecK0 SpecKG.
Import ListNotations.
Local Open Scope R_scope.

(** The unit of length becomes 1/c and the unit of force 1/f of the old one: lengths are multiplied by [c], forces by [f]. *)
Definition scale3 (s : R) (a : mat3 R) : mat3 R :=
  M3 (s * m00 a) (s * m01 a) (s * m02 a) (s * m10 a) (s * m11 a) (s * m12 a) (s * m20 a) (s * m21 a) (s * m22 a).
Definition scale2 (s : R) (a : mat2 R) : mat2 R := M2 (s * e00 a) (s * e01 a) (s * e10 a) (s * e11 a).
Definition scale_pos (c : R) (p : vec3 R) : vec3 R := V3 (c * vx p) (c * vy p) (c * vz p).

(** A and E are forces per length, B forces, D forces times lengths *)
Definition prop_units (c f : R) (p : prop R) : prop R :=
  {| pA := scale3 (f / c) (pA p); pB := scale3 f (pB p); pD := scale3 (f * c) (pD p); pE := scale2 (f / c) (pE p);
     ph := c * ph p; pk13 := pk13 p; pk23 := pk23 p |}.

(** the same plate in the new units *)
Definition mesh_units (c f : R) (m : mesh R) : mesh R :=
  {| nodes := map (fun kn => (fst kn, {| nid := nid (snd kn); nxyz := scale_pos c (nxyz (snd kn));
                 nprop := option_map (prop_units c f) (nprop (snd kn)); nindex := nindex (snd kn);
                 nedges := nedges (snd kn); ntrias := ntrias (snd kn) |})) (nodes m);
     elements := map (fun kt => (fst kt, {| eid := eid (snd kt); tn1 := tn1 (snd kt); tn2 := tn2 (snd kt);
                 tn3 := tn3 (snd kt); tprop := option_map (prop_units c f) (tprop (snd kt)); tedges := tedges (snd kt) |}))
                 (elements m);
     edges := edges m |}.

(** u, v, w are lengths, the rotations numbers *)
Definition dof_unit (c : R) (i : nat) : R := if (i mod 5 <? 3)%nat then c else 1.
Definition in_units (c : R) (u : nat -> R) (i : nat) : R := dof_unit c i * u i.
(** forces belong to u, v, w, moments to the rotations *)
Definition load_units (c f : R) (load : nat -> R) (i : nat) : R := (if (i mod 5 <? 3)%nat then f else f * c) * load i.

(** [k'] is [k] in the new units: energies are forces times lengths *)
Definition other_units (c f : R) (k k' : matrix R) : Prop :=
  mdim k' = mdim k /\
  forall i j, (i < mdim k)%nat -> (j < mdim k)%nat -> dof_unit c i * dof_unit c j * mentry k' i j = f * c * mentry k i j.
