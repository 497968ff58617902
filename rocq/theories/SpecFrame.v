(** Notions used to state that results do not depend on the coordinate system. *)
From Coq Require Import Reals List Bool Arith.
From Verif Require Import Num Py Mesh Utils Spec SpecK0 CalcK0 CalcKG SpecKG.
Import ListNotations.
Local Open Scope R_scope.

(** A change of coordinates in the plane: the 2x2 matrix [[xx, xy], [yx, yy]], a factor of
    length, and a translation. *)
Record frame : Type := Frame { fxx : R; fxy : R; fyx : R; fyy : R; fscale : R; ftx : R; fty : R; ftz : R }.

(** the matrix is a rotation or a reflection, the factor is not zero *)
Definition orthonormal (F : frame) : Prop :=
  fxx F * fxx F + fyx F * fyx F = 1 /\ fxy F * fxy F + fyy F * fyy F = 1 /\
  fxx F * fxy F + fyx F * fyy F = 0 /\ fscale F <> 0.
(** a rotation *)
Definition proper (F : frame) : Prop := 0 < fxx F * fyy F - fxy F * fyx F.

Definition turn_x (F : frame) (x y : R) : R := fxx F * x + fxy F * y.
Definition turn_y (F : frame) (x y : R) : R := fyx F * x + fyy F * y.

(** the new coordinates of a point *)
Definition place (F : frame) (p : vec3 R) : vec3 R :=
  V3 (fscale F * turn_x F (vx p) (vy p) + ftx F) (fscale F * turn_y F (vx p) (vy p) + fty F) (vz p + ftz F).

(** the mesh in the new coordinates, with the laminates given there by [P] *)
Definition seen_from (F : frame) (P : prop R -> prop R) (m : mesh R) : mesh R :=
  {| nodes := map (fun kn => (fst kn, {| nid := nid (snd kn); nxyz := place F (nxyz (snd kn));
                 nprop := option_map P (nprop (snd kn)); nindex := nindex (snd kn);
                 nedges := nedges (snd kn); ntrias := ntrias (snd kn) |})) (nodes m);
     elements := map (fun kt => (fst kt, {| eid := eid (snd kt); tn1 := tn1 (snd kt); tn2 := tn2 (snd kt);
                 tn3 := tn3 (snd kt); tprop := option_map P (tprop (snd kt)); tedges := tedges (snd kt) |}))
                 (elements m);
     edges := edges m |}.

(** [u'] is the displacement [u] in the new coordinates: the vectors (u, v) and
    (phi_x, phi_y) are turned, w is the same *)
Definition turned_field (F : frame) (m : mesh R) (u u' : nat -> R) : Prop :=
  forall n, In n (node_keys m) ->
    comp m u' 0 n = turn_x F (comp m u 0 n) (comp m u 1 n) /\ comp m u' 1 n = turn_y F (comp m u 0 n) (comp m u 1 n) /\
    comp m u' 2 n = comp m u 2 n /\
    comp m u' 3 n = turn_x F (comp m u 3 n) (comp m u 4 n) /\ comp m u' 4 n = turn_y F (comp m u 3 n) (comp m u 4 n).

(** the strain tensor [[xx, xy/2], [xy/2, yy]] (xy is the engineering shear strain) and the tensor
    of forces [[xx, xy], [xy, yy]] in the new coordinates: Q T Q^T *)
Definition turn_xx (F : frame) (xx yy xy : R) : R := fxx F * fxx F * xx + fxy F * fxy F * yy + 2 * (fxx F * fxy F) * xy.
Definition turn_yy (F : frame) (xx yy xy : R) : R := fyx F * fyx F * xx + fyy F * fyy F * yy + 2 * (fyx F * fyy F) * xy.
Definition turn_xy (F : frame) (xx yy xy : R) : R :=
  fxx F * fyx F * xx + fxy F * fyy F * yy + (fxx F * fyy F + fxy F * fyx F) * xy.
Definition turn_strain (F : frame) (s : strain) : strain := Strain
  (turn_xx F (exx s) (eyy s) (exy s / 2)) (turn_yy F (exx s) (eyy s) (exy s / 2)) (2 * turn_xy F (exx s) (eyy s) (exy s / 2))
  (turn_xx F (kxx s) (kyy s) (kxy s / 2)) (turn_yy F (kxx s) (kyy s) (kxy s / 2)) (2 * turn_xy F (kxx s) (kyy s) (kxy s / 2)).
Definition turn_force (F : frame) (N : vec3 R) : vec3 R :=
  V3 (turn_xx F (vx N) (vy N) (vz N)) (turn_yy F (vx N) (vy N) (vz N)) (turn_xy F (vx N) (vy N) (vz N)).

(** [q] is the laminate [p] in the new coordinates: the turned strains have the same energy *)
Definition same_laminate (F : frame) (p q : prop R) : Prop :=
  forall e f, dens (pA q) (pB q) (pD q) (turn_strain F e) (turn_strain F f) = dens (pA p) (pB p) (pD p) e f.

(** the turned strains give the turned membrane forces *)
Definition same_forces (F : frame) (p q : prop R) : Prop :=
  forall s, membrane (pA q) (pB q) (turn_strain F s) = turn_force F (membrane (pA p) (pB p) s).

(** the transverse shear stiffness is the same in all directions *)
Definition shear_isotropic (p : prop R) : Prop := pk13 p = pk23 p /\ e00 (pE p) = e11 (pE p).
Definition same_shear (p q : prop R) : Prop := pk13 q = pk13 p /\ pk23 q = pk23 p /\ pE q = pE p /\ ph q = ph p.

(** laminates that agree in all the transverse shear data, or in all but the coupling terms of E *)
Definition agree_diag (p q : prop R) : Prop :=
  pk13 p = pk13 q /\ pk23 p = pk23 q /\ ph p = ph q /\ e00 (pE p) = e00 (pE q) /\ e11 (pE p) = e11 (pE q).
Definition agree_shear (p q : prop R) : Prop := agree_diag p q /\ e01 (pE p) = e01 (pE q).
