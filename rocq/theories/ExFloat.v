(** Meshes in double precision. *)
From Coq Require Import ZArith List.
From Verif Require Import Num Py Mesh CalcK0 Ops Float.
Import ListNotations.
Local Open Scope num_scope.

Definition dz (z : Z) : double := nofZ z.

(** a laminate with coupling, scaled by [c] *)
Definition fprop (c : double) : prop double := {|
  pA := M3 (#10 * c) (#3 * c) c (#3 * c) (#8 * c) c c c (#4 * c);
  pB := M3 c (#0) (#0) (#0) c (#0) (#0) (#0) c;
  pD := M3 (#20 * c) (#6 * c) (#2 * c) (#6 * c) (#16 * c) (#2 * c) (#2 * c) (#2 * c) (#8 * c);
  pE := M2 (#5 * c) (#0) (#0) (#6 * c); ph := #1 / #10; pk13 := #5 / #6; pk23 := #4 / #5 |}.

(** a 4 x 3 rectangle cut into two triangles *)
Definition fpoints : list (list double) := [[dz 0; dz 0]; [dz 4; dz 0]; [dz 4; dz 3]; [dz 0; dz 3]].
Definition fsimplices : list (list Z) := [[0; 1; 2]; [0; 2; 3]]%Z.
Definition fread : mesh double := Eval vm_compute in
  match read_delaunay fpoints fsimplices with Ok m => m | Raise _ => {| nodes := []; elements := []; edges := [] |} end.
Definition fops : list (op double) :=
  [OpTriaProp 1 (Some (fprop (dz 1))); OpTriaProp 2 (Some (fprop (dz 2)));
   OpNodeProp 1 (Some (fprop (dz 1))); OpNodeProp 2 (Some (fprop (dz 2)));
   OpNodeProp 3 (Some (fprop (dz 3))); OpNodeProp 4 (Some (fprop (dz 1)))].
Definition fmesh : mesh double := Eval vm_compute in run fops fread.

(** the nodes moved to positions that are not exact *)
Definition fmoves : list (op double) :=
  [OpMove 1 (V3 (#1 / #7) (#1 / #9) (#0)); OpMove 2 (V3 (#37 / #9) (#1 / #11) (#0));
   OpMove 3 (V3 (#41 / #10) (#10 / #3) (#0)); OpMove 4 (V3 (#3 / #11) (#22 / #7) (#0))].
Definition fwarped : mesh double := Eval vm_compute in run fmoves fmesh.

(** a displacement *)
Definition fdisp : list double := map (fun i => dz (Z.of_nat (i * i) - 7) / #3) (seq 0 20).
(** one node moved after calc_k0 *)
Definition fmove : list (op double) := [OpMove 3 (V3 (#5) (#3) (#0))].

(** the meshes after calc_k0 *)
Definition fk0 : mesh double := Eval vm_compute in fst (calc_k0 fmesh false).
Definition fwk0 : mesh double := Eval vm_compute in fst (calc_k0 fwarped false).
Definition fmk0 : mesh double := Eval vm_compute in fst (calc_k0 (run fmove fk0) false).

(** Small displacements of that plate. *)
Definition fsmall : list double := map (fun x => x / #1024)%num fdisp.

(** A rotation in the plane of that plate, its double-precision coordinates turned by the angle 1 of the linear theory. *)
Definition fturn : list double := flat_map (fun n => [- vy (nxyz (snd n)); vx (nxyz (snd n)); #5; #7; #7])%num (nodes fwarped).
