(** Scales of the transverse shear of a plate of doubles. *)
From Coq Require Import ZArith Reals List Bool Arith String.
From Verif Require Import Num Float Py Mesh Utils Spec SpecRound.
Import ListNotations.
Local Open Scope R_scope.

(** what add_k0s reads besides the mesh: shear correction factors of at most 1, shear stiffnesses of at most [s], thicknesses and
    alpha neither extremely small nor extremely large (alpha may be 0) *)
Record shear_scale (m : mesh double) (s : R) (alpha : double) : Prop := {
  ss_props : forall p, (exists n, nodeprop m n = Some p) \/ (exists t, In t (trias_of m) /\ tprop t = Some p) ->
    (forall x, In x [pk13 p; pk23 p] -> finite x /\ Rabs (val x) <= 1) /\
    (forall x, In x [e00 (pE p); e11 (pE p)] -> finite x /\ Rabs (val x) <= s) /\
    finite (ph p) /\ / 18446744073709551616 <= val (ph p) <= 18446744073709551616;                      (* 2^-64, 2^64 *)
  ss_alpha : finite alpha /\ (val alpha = 0 \/ / 18446744073709551616 <= val alpha <= 18446744073709551616);
  ss_elements : (Z.of_nat (List.length (elements m)) <= 4294967296)%Z                                   (* 2^32 *)
}.

(** number of the triangles with the nodes [a] and [b] *)
Definition common {T} (m : mesh T) (a b : nat) : nat :=
  List.length (filter (fun t => is_vertex a t && is_vertex b t) (trias_of m)).

(** number of rotations among row [i] and column [j] *)
Definition rotations (i j : nat) : nat := ((if 3 <=? i mod 5 then 1 else 0) + (if 3 <=? j mod 5 then 1 else 0))%nat.

(** bound of the error that the method adds to an entry that is at most [x] before *)
Definition shear_bound {T} (m : mesh T) (method : string) (h rho kappa s x : R) (i j : nat) : R :=
  let c := INR (common m (node_at m i) (node_at m j)) in
  (if String.eqb method "cell-based" then 262144 * (kappa * roundoff) * (rho * rho * rho * rho)
   else 4096 * (kappa * roundoff) * (rho * rho)) * s * h ^ rotations i j * c ^ 2 + 2 * c * roundoff * x.

(** bound of the entries of calc_k0 in exact arithmetic *)
Definition k0_size {T} (m : mesh T) (rho s : R) (i j : nat) : R := 864 * (rho * rho) * s * INR (shared m (node_at m i) (node_at m j)).
(** bound of the error of calc_k0 followed by add_k0s *)
Definition plate_bound {T} (m : mesh T) (method : string) (h rho kappa s : R) (i j : nat) : R :=
  k0_bound m rho kappa s i j + shear_bound m method h rho kappa s (k0_size m rho s i j + k0_bound m rho kappa s i j) i j.
