(** The real values of doubles. *)
From Coq Require Import ZArith Reals List Bool Arith Floats.SpecFloat.
From Verif Require Import Num Float Py Mesh Utils Spec.
Import ListNotations.
Local Open Scope R_scope.

(** the number a finite double stands for *)
Definition val (x : double) : R :=
  match x with
  | S754_finite s m e => (if s then -1 else 1) * (IZR (Zpos m) * powerRZ 2 e)
  | _ => 0
  end.

(** a number of the format: mantissa and exponent in range, neither an infinity nor NaN *)
Definition finite (x : double) : Prop :=
  match x with
  | S754_zero _ => True
  | S754_finite _ m e => bounded 53 1024 m e = true
  | _ => False
  end.

(** unit roundoff 2^-53 *)
Definition roundoff : R := / 9007199254740992.

(** ** The mesh over the reals that a mesh of doubles stands for *)
Definition vec_val (v : vec3 double) : vec3 R := V3 (val (vx v)) (val (vy v)) (val (vz v)).
Definition mat3_val (a : mat3 double) : mat3 R :=
  M3 (val (m00 a)) (val (m01 a)) (val (m02 a)) (val (m10 a)) (val (m11 a)) (val (m12 a)) (val (m20 a)) (val (m21 a)) (val (m22 a)).
Definition mat2_val (a : mat2 double) : mat2 R := M2 (val (e00 a)) (val (e01 a)) (val (e10 a)) (val (e11 a)).
Definition prop_val (p : prop double) : prop R :=
  {| pA := mat3_val (pA p); pB := mat3_val (pB p); pD := mat3_val (pD p); pE := mat2_val (pE p);
     ph := val (ph p); pk13 := val (pk13 p); pk23 := val (pk23 p) |}.
Definition node_val (n : node double) : node R :=
  {| nid := nid n; nxyz := vec_val (nxyz n); nprop := option_map prop_val (nprop n); nindex := nindex n;
     nedges := nedges n; ntrias := ntrias n |}.
Definition tria_val (t : tria double) : tria R :=
  {| eid := eid t; tn1 := tn1 t; tn2 := tn2 t; tn3 := tn3 t; tprop := option_map prop_val (tprop t); tedges := tedges t |}.
Definition ipt_val (p : ipt double) : ipt R :=
  {| ipxyz := vec_val (ipxyz p); iptria := iptria p; ipn1 := ipn1 p; ipn2 := ipn2 p; ipn3 := ipn3 p;
     ipf1 := val (ipf1 p); ipf2 := val (ipf2 p); ipf3 := val (ipf3 p);
     ipnx := val (ipnx p); ipny := val (ipny p); ipnz := val (ipnz p); iple := val (iple p) |}.
Definition edge_val (e : edge double) : edge R :=
  {| en1 := en1 e; en2 := en2 e; etrias := etrias e; esdomain := map vec_val (esdomain e);
     eipts := map ipt_val (eipts e); eAc := option_map val (eAc e); eother1 := eother1 e; eother2 := eother2 e |}.
Definition mesh_val (m : mesh double) : mesh R :=
  {| nodes := map (fun x => (fst x, node_val (snd x))) (nodes m);
     elements := map (fun x => (fst x, tria_val (snd x))) (elements m);
     edges := map (fun x => (fst x, edge_val (snd x))) (edges m) |}.

(** ** Scales of a plate *)

(** entries of the laminate stiffness used by calc_k0 *)
Definition mat3_upper {T} (a : mat3 T) : list T := [m00 a; m01 a; m02 a; m11 a; m12 a; m22 a].
Definition prop_entries {T} (p : prop T) : list T := mat3_upper (pA p) ++ mat3_upper (pB p) ++ mat3_upper (pD p).

(** [h]: largest difference of coordinates in a triangle; [rho]: h^2 is at most rho times the area;
    [kappa h]: largest coordinate; [s]: largest entry of a laminate stiffness *)
Record k0_scale (m : mesh double) (h rho kappa s : R) : Prop := {
  ks_coords : forall n nd, In (n, nd) (nodes m) -> forall x, In x [vx (nxyz nd); vy (nxyz nd); vz (nxyz nd)] ->
    finite x /\ Rabs (val x) <= kappa * h;
  ks_size : forall t a b, In t (trias_of m) -> vertex t a -> vertex t b ->
    Rabs (vx (pos (mesh_val m) a) - vx (pos (mesh_val m) b)) <= h /\ Rabs (vy (pos (mesh_val m) a) - vy (pos (mesh_val m) b)) <= h;
  ks_fat : forall t, In t (trias_of (mesh_val m)) -> h * h <= rho * tarea (mesh_val m) t;
  ks_stiff : forall p, (exists n, nodeprop m n = Some p) \/ (exists t, In t (trias_of m) /\ tprop t = Some p) ->
    forall x, In x (prop_entries p) -> finite x /\ Rabs (val x) <= s;
  ks_rho : 1 <= rho;
  ks_kappa : 1 <= kappa;
  ks_small : kappa * roundoff * (rho * rho) <= / 1048576;                       (* 2^-20 *)
  ks_h : / 18446744073709551616 <= h /\ kappa * h <= 18446744073709551616;      (* 2^-64, 2^64 *)
  ks_s : / 18446744073709551616 <= s <= 18446744073709551616;
  ks_edges : (Z.of_nat (length (edges m)) <= 4294967296)%Z                      (* 2^32 *)
}.

(** number of the edges whose domain has the nodes [a] and [b] *)
Definition shared {T} (m : mesh T) (a b : nat) : nat :=
  length (filter (fun k => existsb (is_vertex a) (tris_on m k) && existsb (is_vertex b) (tris_on m k)) (edge_keys m)).

(** the node of row [i] *)
Definition node_at {T} (m : mesh T) (i : nat) : nat := nth (i / 5) (node_keys m) 0%nat.
(** bound of the error of entry (i, j) of calc_k0 *)
Definition k0_bound {T} (m : mesh T) (rho kappa s : R) (i j : nat) : R :=
  1048576 * (kappa * roundoff) * (rho * rho * rho) * s * (INR (shared m (node_at m i) (node_at m j)))^2.
(** the exact values of a matrix of doubles *)
Definition matrix_val (k : matrix double) : matrix R := Matrix (mdim k) (fun i j => val (mentry k i j)).
