(** Scales of the arguments of calc_kG. *)
From Coq Require Import ZArith Reals List Bool Arith.
From Verif Require Import Num Float Py Mesh Utils Spec SpecRound.
Import ListNotations.
Local Open Scope R_scope.

Definition mat3_all {T} (a : mat3 T) : list T := [m00 a; m01 a; m02 a; m10 a; m11 a; m12 a; m20 a; m21 a; m22 a].

(** [w h]: largest entry of the displacement vector; calc_kG reads all nine entries of A and B *)
Record kG_scale (m : mesh double) (h s w : R) (d : list double) : Prop := {
  kg_stiff : forall p, (exists n, nodeprop m n = Some p) \/ (exists t, In t (trias_of m) /\ tprop t = Some p) ->
    forall x, In x (mat3_all (pA p) ++ mat3_all (pB p)) -> finite x /\ Rabs (val x) <= s;
  kg_d : forall x, In x d -> finite x /\ Rabs (val x) <= w * h;
  kg_w : / 18446744073709551616 <= w <= 18446744073709551616;            (* 2^-64, 2^64 *)
  kg_sw : / 18446744073709551616 <= s * w <= 18446744073709551616
}.

(** bound of the error of entry (i, j) of calc_kG: only rows and columns of w are filled *)
Definition kG_bound {T} (m : mesh T) (rho kappa s w : R) (i j : nat) : R :=
  if (Nat.eqb (i mod 5) 2 && Nat.eqb (j mod 5) 2)%bool
  then 1073741824 * (kappa * roundoff) * (rho * rho * rho * rho) * (s * w) * (INR (shared m (node_at m i) (node_at m j)))^2
  else 0.
