(** A laminate with more bending stiffness. *)
From Coq Require Import Reals List.
From Verif Require Import Num Py Mesh Spec Ex.
Local Open Scope R_scope.

(** ex_prop 1 with twice the bending stiffness and more shear stiffness in one direction *)
Definition ex_bend : prop R :=
  let p := ex_prop 1 in let d := pD p in
  {| pA := pA p; pB := pB p; pD := M3 (2 * m00 d) (2 * m01 d) (2 * m02 d) (2 * m10 d) (2 * m11 d) (2 * m12 d) (2 * m20 d) (2 * m21 d) (2 * m22 d);
     pE := M2 (e00 (pE p) + 1) (e01 (pE p)) (e10 (pE p)) (e11 (pE p)); ph := ph p; pk13 := pk13 p; pk23 := pk23 p |}.
