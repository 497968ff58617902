(** Generated by tools/gen_updates.py from
    meshless/espim/plate2d_add_k0s_edge_based.py, lines 59-139 (81 statements).
    Do not edit.  One element (row, column, increment) per statement, in source order;
    right hand sides verbatim. *)
From Coq Require Import ZArith List.
From Verif Require Import Num.
Import ListNotations.

Section Gen.
  Context {T : Type} {N : Num T}.
  Declare Scope gen_scope.
  Delimit Scope gen_scope with gen.
  Local Notation "a + b" := (@nadd T N a b) : gen_scope.
  Local Notation "a - b" := (@nsub T N a b) : gen_scope.
  Local Notation "a * b" := (@nmul T N a b) : gen_scope.
  Local Notation "a / b" := (@ndiv T N a b) : gen_scope.
  Local Notation "- a" := (@nopp T N a) : gen_scope.
  Local Notation "# k" := (@nofZ T N k%Z) (at level 1, format "# k") : gen_scope.
  Local Notation U i a j b e := ((i * 5 + a)%Z, (j * 5 + b)%Z, e%gen) (only parsing).

  (** meshless/espim/plate2d_add_k0s_edge_based.py:59-139 *)
  Definition edgeb_entries (L : lits T) (i1 i2 i3 : Z)
    (Ac E44 E45 E55 a1 b1 c1 d1 : T) : list (Z * Z * T) := [
    (* 59 *) U i1 2 i1 2 ((-c1/(#2*Ac) + (l6 L)*(-a1 + c1)/Ac)*(Ac*E45*(d1/(#2*Ac) + (l6 L)*(b1 - d1)/Ac) + Ac*E55*(-c1/(#2*Ac) + (l6 L)*(-a1 + c1)/Ac)) + (d1/(#2*Ac) + (l6 L)*(b1 - d1)/Ac)*(Ac*E44*(d1/(#2*Ac) + (l6 L)*(b1 - d1)/Ac) + Ac*E45*(-c1/(#2*Ac) + (l6 L)*(-a1 + c1)/Ac)));
    (* 60 *) U i1 2 i1 3 (((l6 L) + a1*d1/(#4*Ac))*(Ac*E44*(d1/(#2*Ac) + (l6 L)*(b1 - d1)/Ac) + Ac*E45*(-c1/(#2*Ac) + (l6 L)*(-a1 + c1)/Ac)) - a1*c1*(Ac*E45*(d1/(#2*Ac) + (l6 L)*(b1 - d1)/Ac) + Ac*E55*(-c1/(#2*Ac) + (l6 L)*(-a1 + c1)/Ac))/(#4*Ac));
    (* 61 *) U i1 2 i1 4 (((l6 L) - b1*c1/(#4*Ac))*(Ac*E45*(d1/(#2*Ac) + (l6 L)*(b1 - d1)/Ac) + Ac*E55*(-c1/(#2*Ac) + (l6 L)*(-a1 + c1)/Ac)) + b1*d1*(Ac*E44*(d1/(#2*Ac) + (l6 L)*(b1 - d1)/Ac) + Ac*E45*(-c1/(#2*Ac) + (l6 L)*(-a1 + c1)/Ac))/(#4*Ac));
    (* 62 *) U i1 2 i2 2 ((a1/(#2*Ac) + (l6 L)*(-a1 + c1)/Ac)*(Ac*E45*(d1/(#2*Ac) + (l6 L)*(b1 - d1)/Ac) + Ac*E55*(-c1/(#2*Ac) + (l6 L)*(-a1 + c1)/Ac)) + (-b1/(#2*Ac) + (l6 L)*(b1 - d1)/Ac)*(Ac*E44*(d1/(#2*Ac) + (l6 L)*(b1 - d1)/Ac) + Ac*E45*(-c1/(#2*Ac) + (l6 L)*(-a1 + c1)/Ac)));
    (* 63 *) U i1 2 i2 3 (((l6 L) - b1*c1/(#4*Ac))*(Ac*E44*(d1/(#2*Ac) + (l6 L)*(b1 - d1)/Ac) + Ac*E45*(-c1/(#2*Ac) + (l6 L)*(-a1 + c1)/Ac)) + a1*c1*(Ac*E45*(d1/(#2*Ac) + (l6 L)*(b1 - d1)/Ac) + Ac*E55*(-c1/(#2*Ac) + (l6 L)*(-a1 + c1)/Ac))/(#4*Ac));
    (* 64 *) U i1 2 i2 4 (((l6 L) + a1*d1/(#4*Ac))*(Ac*E45*(d1/(#2*Ac) + (l6 L)*(b1 - d1)/Ac) + Ac*E55*(-c1/(#2*Ac) + (l6 L)*(-a1 + c1)/Ac)) - b1*d1*(Ac*E44*(d1/(#2*Ac) + (l6 L)*(b1 - d1)/Ac) + Ac*E45*(-c1/(#2*Ac) + (l6 L)*(-a1 + c1)/Ac))/(#4*Ac));
    (* 65 *) U i1 2 i3 2 ((l6 L)*(-a1 + c1)*(Ac*E45*(d1/(#2*Ac) + (l6 L)*(b1 - d1)/Ac) + Ac*E55*(-c1/(#2*Ac) + (l6 L)*(-a1 + c1)/Ac))/Ac + (l6 L)*(b1 - d1)*(Ac*E44*(d1/(#2*Ac) + (l6 L)*(b1 - d1)/Ac) + Ac*E45*(-c1/(#2*Ac) + (l6 L)*(-a1 + c1)/Ac))/Ac);
    (* 66 *) U i1 2 i3 3 ((l6 L)*Ac*E44*(d1/(#2*Ac) + (l6 L)*(b1 - d1)/Ac) + (l6 L)*Ac*E45*(-c1/(#2*Ac) + (l6 L)*(-a1 + c1)/Ac));
    (* 67 *) U i1 2 i3 4 ((l6 L)*Ac*E45*(d1/(#2*Ac) + (l6 L)*(b1 - d1)/Ac) + (l6 L)*Ac*E55*(-c1/(#2*Ac) + (l6 L)*(-a1 + c1)/Ac));
    (* 68 *) U i1 3 i1 2 ((-c1/(#2*Ac) + (l6 L)*(-a1 + c1)/Ac)*(Ac*E45*((l6 L) + a1*d1/(#4*Ac)) - E55*a1*c1/#4) + (d1/(#2*Ac) + (l6 L)*(b1 - d1)/Ac)*(Ac*E44*((l6 L) + a1*d1/(#4*Ac)) - E45*a1*c1/#4));
    (* 69 *) U i1 3 i1 3 (((l6 L) + a1*d1/(#4*Ac))*(Ac*E44*((l6 L) + a1*d1/(#4*Ac)) - E45*a1*c1/#4) - a1*c1*(Ac*E45*((l6 L) + a1*d1/(#4*Ac)) - E55*a1*c1/#4)/(#4*Ac));
    (* 70 *) U i1 3 i1 4 (((l6 L) - b1*c1/(#4*Ac))*(Ac*E45*((l6 L) + a1*d1/(#4*Ac)) - E55*a1*c1/#4) + b1*d1*(Ac*E44*((l6 L) + a1*d1/(#4*Ac)) - E45*a1*c1/#4)/(#4*Ac));
    (* 71 *) U i1 3 i2 2 ((a1/(#2*Ac) + (l6 L)*(-a1 + c1)/Ac)*(Ac*E45*((l6 L) + a1*d1/(#4*Ac)) - E55*a1*c1/#4) + (-b1/(#2*Ac) + (l6 L)*(b1 - d1)/Ac)*(Ac*E44*((l6 L) + a1*d1/(#4*Ac)) - E45*a1*c1/#4));
    (* 72 *) U i1 3 i2 3 (((l6 L) - b1*c1/(#4*Ac))*(Ac*E44*((l6 L) + a1*d1/(#4*Ac)) - E45*a1*c1/#4) + a1*c1*(Ac*E45*((l6 L) + a1*d1/(#4*Ac)) - E55*a1*c1/#4)/(#4*Ac));
    (* 73 *) U i1 3 i2 4 (((l6 L) + a1*d1/(#4*Ac))*(Ac*E45*((l6 L) + a1*d1/(#4*Ac)) - E55*a1*c1/#4) - b1*d1*(Ac*E44*((l6 L) + a1*d1/(#4*Ac)) - E45*a1*c1/#4)/(#4*Ac));
    (* 74 *) U i1 3 i3 2 ((l6 L)*(-a1 + c1)*(Ac*E45*((l6 L) + a1*d1/(#4*Ac)) - E55*a1*c1/#4)/Ac + (l6 L)*(b1 - d1)*(Ac*E44*((l6 L) + a1*d1/(#4*Ac)) - E45*a1*c1/#4)/Ac);
    (* 75 *) U i1 3 i3 3 ((l6 L)*Ac*E44*((l6 L) + a1*d1/(#4*Ac)) - (l24 L)*E45*a1*c1);
    (* 76 *) U i1 3 i3 4 ((l6 L)*Ac*E45*((l6 L) + a1*d1/(#4*Ac)) - (l24 L)*E55*a1*c1);
    (* 77 *) U i1 4 i1 2 ((-c1/(#2*Ac) + (l6 L)*(-a1 + c1)/Ac)*(Ac*E55*((l6 L) - b1*c1/(#4*Ac)) + E45*b1*d1/#4) + (d1/(#2*Ac) + (l6 L)*(b1 - d1)/Ac)*(Ac*E45*((l6 L) - b1*c1/(#4*Ac)) + E44*b1*d1/#4));
    (* 78 *) U i1 4 i1 3 (((l6 L) + a1*d1/(#4*Ac))*(Ac*E45*((l6 L) - b1*c1/(#4*Ac)) + E44*b1*d1/#4) - a1*c1*(Ac*E55*((l6 L) - b1*c1/(#4*Ac)) + E45*b1*d1/#4)/(#4*Ac));
    (* 79 *) U i1 4 i1 4 (((l6 L) - b1*c1/(#4*Ac))*(Ac*E55*((l6 L) - b1*c1/(#4*Ac)) + E45*b1*d1/#4) + b1*d1*(Ac*E45*((l6 L) - b1*c1/(#4*Ac)) + E44*b1*d1/#4)/(#4*Ac));
    (* 80 *) U i1 4 i2 2 ((a1/(#2*Ac) + (l6 L)*(-a1 + c1)/Ac)*(Ac*E55*((l6 L) - b1*c1/(#4*Ac)) + E45*b1*d1/#4) + (-b1/(#2*Ac) + (l6 L)*(b1 - d1)/Ac)*(Ac*E45*((l6 L) - b1*c1/(#4*Ac)) + E44*b1*d1/#4));
    (* 81 *) U i1 4 i2 3 (((l6 L) - b1*c1/(#4*Ac))*(Ac*E45*((l6 L) - b1*c1/(#4*Ac)) + E44*b1*d1/#4) + a1*c1*(Ac*E55*((l6 L) - b1*c1/(#4*Ac)) + E45*b1*d1/#4)/(#4*Ac));
    (* 82 *) U i1 4 i2 4 (((l6 L) + a1*d1/(#4*Ac))*(Ac*E55*((l6 L) - b1*c1/(#4*Ac)) + E45*b1*d1/#4) - b1*d1*(Ac*E45*((l6 L) - b1*c1/(#4*Ac)) + E44*b1*d1/#4)/(#4*Ac));
    (* 83 *) U i1 4 i3 2 ((l6 L)*(-a1 + c1)*(Ac*E55*((l6 L) - b1*c1/(#4*Ac)) + E45*b1*d1/#4)/Ac + (l6 L)*(b1 - d1)*(Ac*E45*((l6 L) - b1*c1/(#4*Ac)) + E44*b1*d1/#4)/Ac);
    (* 84 *) U i1 4 i3 3 ((l6 L)*Ac*E45*((l6 L) - b1*c1/(#4*Ac)) + (l24 L)*E44*b1*d1);
    (* 85 *) U i1 4 i3 4 ((l6 L)*Ac*E55*((l6 L) - b1*c1/(#4*Ac)) + (l24 L)*E45*b1*d1);
    (* 86 *) U i2 2 i1 2 ((-c1/(#2*Ac) + (l6 L)*(-a1 + c1)/Ac)*(Ac*E45*(-b1/(#2*Ac) + (l6 L)*(b1 - d1)/Ac) + Ac*E55*(a1/(#2*Ac) + (l6 L)*(-a1 + c1)/Ac)) + (d1/(#2*Ac) + (l6 L)*(b1 - d1)/Ac)*(Ac*E44*(-b1/(#2*Ac) + (l6 L)*(b1 - d1)/Ac) + Ac*E45*(a1/(#2*Ac) + (l6 L)*(-a1 + c1)/Ac)));
    (* 87 *) U i2 2 i1 3 (((l6 L) + a1*d1/(#4*Ac))*(Ac*E44*(-b1/(#2*Ac) + (l6 L)*(b1 - d1)/Ac) + Ac*E45*(a1/(#2*Ac) + (l6 L)*(-a1 + c1)/Ac)) - a1*c1*(Ac*E45*(-b1/(#2*Ac) + (l6 L)*(b1 - d1)/Ac) + Ac*E55*(a1/(#2*Ac) + (l6 L)*(-a1 + c1)/Ac))/(#4*Ac));
    (* 88 *) U i2 2 i1 4 (((l6 L) - b1*c1/(#4*Ac))*(Ac*E45*(-b1/(#2*Ac) + (l6 L)*(b1 - d1)/Ac) + Ac*E55*(a1/(#2*Ac) + (l6 L)*(-a1 + c1)/Ac)) + b1*d1*(Ac*E44*(-b1/(#2*Ac) + (l6 L)*(b1 - d1)/Ac) + Ac*E45*(a1/(#2*Ac) + (l6 L)*(-a1 + c1)/Ac))/(#4*Ac));
    (* 89 *) U i2 2 i2 2 ((a1/(#2*Ac) + (l6 L)*(-a1 + c1)/Ac)*(Ac*E45*(-b1/(#2*Ac) + (l6 L)*(b1 - d1)/Ac) + Ac*E55*(a1/(#2*Ac) + (l6 L)*(-a1 + c1)/Ac)) + (-b1/(#2*Ac) + (l6 L)*(b1 - d1)/Ac)*(Ac*E44*(-b1/(#2*Ac) + (l6 L)*(b1 - d1)/Ac) + Ac*E45*(a1/(#2*Ac) + (l6 L)*(-a1 + c1)/Ac)));
    (* 90 *) U i2 2 i2 3 (((l6 L) - b1*c1/(#4*Ac))*(Ac*E44*(-b1/(#2*Ac) + (l6 L)*(b1 - d1)/Ac) + Ac*E45*(a1/(#2*Ac) + (l6 L)*(-a1 + c1)/Ac)) + a1*c1*(Ac*E45*(-b1/(#2*Ac) + (l6 L)*(b1 - d1)/Ac) + Ac*E55*(a1/(#2*Ac) + (l6 L)*(-a1 + c1)/Ac))/(#4*Ac));
    (* 91 *) U i2 2 i2 4 (((l6 L) + a1*d1/(#4*Ac))*(Ac*E45*(-b1/(#2*Ac) + (l6 L)*(b1 - d1)/Ac) + Ac*E55*(a1/(#2*Ac) + (l6 L)*(-a1 + c1)/Ac)) - b1*d1*(Ac*E44*(-b1/(#2*Ac) + (l6 L)*(b1 - d1)/Ac) + Ac*E45*(a1/(#2*Ac) + (l6 L)*(-a1 + c1)/Ac))/(#4*Ac));
    (* 92 *) U i2 2 i3 2 ((l6 L)*(-a1 + c1)*(Ac*E45*(-b1/(#2*Ac) + (l6 L)*(b1 - d1)/Ac) + Ac*E55*(a1/(#2*Ac) + (l6 L)*(-a1 + c1)/Ac))/Ac + (l6 L)*(b1 - d1)*(Ac*E44*(-b1/(#2*Ac) + (l6 L)*(b1 - d1)/Ac) + Ac*E45*(a1/(#2*Ac) + (l6 L)*(-a1 + c1)/Ac))/Ac);
    (* 93 *) U i2 2 i3 3 ((l6 L)*Ac*E44*(-b1/(#2*Ac) + (l6 L)*(b1 - d1)/Ac) + (l6 L)*Ac*E45*(a1/(#2*Ac) + (l6 L)*(-a1 + c1)/Ac));
    (* 94 *) U i2 2 i3 4 ((l6 L)*Ac*E45*(-b1/(#2*Ac) + (l6 L)*(b1 - d1)/Ac) + (l6 L)*Ac*E55*(a1/(#2*Ac) + (l6 L)*(-a1 + c1)/Ac));
    (* 95 *) U i2 3 i1 2 ((-c1/(#2*Ac) + (l6 L)*(-a1 + c1)/Ac)*(Ac*E45*((l6 L) - b1*c1/(#4*Ac)) + E55*a1*c1/#4) + (d1/(#2*Ac) + (l6 L)*(b1 - d1)/Ac)*(Ac*E44*((l6 L) - b1*c1/(#4*Ac)) + E45*a1*c1/#4));
    (* 96 *) U i2 3 i1 3 (((l6 L) + a1*d1/(#4*Ac))*(Ac*E44*((l6 L) - b1*c1/(#4*Ac)) + E45*a1*c1/#4) - a1*c1*(Ac*E45*((l6 L) - b1*c1/(#4*Ac)) + E55*a1*c1/#4)/(#4*Ac));
    (* 97 *) U i2 3 i1 4 (((l6 L) - b1*c1/(#4*Ac))*(Ac*E45*((l6 L) - b1*c1/(#4*Ac)) + E55*a1*c1/#4) + b1*d1*(Ac*E44*((l6 L) - b1*c1/(#4*Ac)) + E45*a1*c1/#4)/(#4*Ac));
    (* 98 *) U i2 3 i2 2 ((a1/(#2*Ac) + (l6 L)*(-a1 + c1)/Ac)*(Ac*E45*((l6 L) - b1*c1/(#4*Ac)) + E55*a1*c1/#4) + (-b1/(#2*Ac) + (l6 L)*(b1 - d1)/Ac)*(Ac*E44*((l6 L) - b1*c1/(#4*Ac)) + E45*a1*c1/#4));
    (* 99 *) U i2 3 i2 3 (((l6 L) - b1*c1/(#4*Ac))*(Ac*E44*((l6 L) - b1*c1/(#4*Ac)) + E45*a1*c1/#4) + a1*c1*(Ac*E45*((l6 L) - b1*c1/(#4*Ac)) + E55*a1*c1/#4)/(#4*Ac));
    (* 100 *) U i2 3 i2 4 (((l6 L) + a1*d1/(#4*Ac))*(Ac*E45*((l6 L) - b1*c1/(#4*Ac)) + E55*a1*c1/#4) - b1*d1*(Ac*E44*((l6 L) - b1*c1/(#4*Ac)) + E45*a1*c1/#4)/(#4*Ac));
    (* 101 *) U i2 3 i3 2 ((l6 L)*(-a1 + c1)*(Ac*E45*((l6 L) - b1*c1/(#4*Ac)) + E55*a1*c1/#4)/Ac + (l6 L)*(b1 - d1)*(Ac*E44*((l6 L) - b1*c1/(#4*Ac)) + E45*a1*c1/#4)/Ac);
    (* 102 *) U i2 3 i3 3 ((l6 L)*Ac*E44*((l6 L) - b1*c1/(#4*Ac)) + (l24 L)*E45*a1*c1);
    (* 103 *) U i2 3 i3 4 ((l6 L)*Ac*E45*((l6 L) - b1*c1/(#4*Ac)) + (l24 L)*E55*a1*c1);
    (* 104 *) U i2 4 i1 2 ((-c1/(#2*Ac) + (l6 L)*(-a1 + c1)/Ac)*(Ac*E55*((l6 L) + a1*d1/(#4*Ac)) - E45*b1*d1/#4) + (d1/(#2*Ac) + (l6 L)*(b1 - d1)/Ac)*(Ac*E45*((l6 L) + a1*d1/(#4*Ac)) - E44*b1*d1/#4));
    (* 105 *) U i2 4 i1 3 (((l6 L) + a1*d1/(#4*Ac))*(Ac*E45*((l6 L) + a1*d1/(#4*Ac)) - E44*b1*d1/#4) - a1*c1*(Ac*E55*((l6 L) + a1*d1/(#4*Ac)) - E45*b1*d1/#4)/(#4*Ac));
    (* 106 *) U i2 4 i1 4 (((l6 L) - b1*c1/(#4*Ac))*(Ac*E55*((l6 L) + a1*d1/(#4*Ac)) - E45*b1*d1/#4) + b1*d1*(Ac*E45*((l6 L) + a1*d1/(#4*Ac)) - E44*b1*d1/#4)/(#4*Ac));
    (* 107 *) U i2 4 i2 2 ((a1/(#2*Ac) + (l6 L)*(-a1 + c1)/Ac)*(Ac*E55*((l6 L) + a1*d1/(#4*Ac)) - E45*b1*d1/#4) + (-b1/(#2*Ac) + (l6 L)*(b1 - d1)/Ac)*(Ac*E45*((l6 L) + a1*d1/(#4*Ac)) - E44*b1*d1/#4));
    (* 108 *) U i2 4 i2 3 (((l6 L) - b1*c1/(#4*Ac))*(Ac*E45*((l6 L) + a1*d1/(#4*Ac)) - E44*b1*d1/#4) + a1*c1*(Ac*E55*((l6 L) + a1*d1/(#4*Ac)) - E45*b1*d1/#4)/(#4*Ac));
    (* 109 *) U i2 4 i2 4 (((l6 L) + a1*d1/(#4*Ac))*(Ac*E55*((l6 L) + a1*d1/(#4*Ac)) - E45*b1*d1/#4) - b1*d1*(Ac*E45*((l6 L) + a1*d1/(#4*Ac)) - E44*b1*d1/#4)/(#4*Ac));
    (* 110 *) U i2 4 i3 2 ((l6 L)*(-a1 + c1)*(Ac*E55*((l6 L) + a1*d1/(#4*Ac)) - E45*b1*d1/#4)/Ac + (l6 L)*(b1 - d1)*(Ac*E45*((l6 L) + a1*d1/(#4*Ac)) - E44*b1*d1/#4)/Ac);
    (* 111 *) U i2 4 i3 3 ((l6 L)*Ac*E45*((l6 L) + a1*d1/(#4*Ac)) - (l24 L)*E44*b1*d1);
    (* 112 *) U i2 4 i3 4 ((l6 L)*Ac*E55*((l6 L) + a1*d1/(#4*Ac)) - (l24 L)*E45*b1*d1);
    (* 113 *) U i3 2 i1 2 ((-c1/(#2*Ac) + (l6 L)*(-a1 + c1)/Ac)*(E45*((l6 L)*b1 - (l6 L)*d1) + E55*(-(l6 L)*a1 + (l6 L)*c1)) + (d1/(#2*Ac) + (l6 L)*(b1 - d1)/Ac)*(E44*((l6 L)*b1 - (l6 L)*d1) + E45*(-(l6 L)*a1 + (l6 L)*c1)));
    (* 114 *) U i3 2 i1 3 (((l6 L) + a1*d1/(#4*Ac))*(E44*((l6 L)*b1 - (l6 L)*d1) + E45*(-(l6 L)*a1 + (l6 L)*c1)) - a1*c1*(E45*((l6 L)*b1 - (l6 L)*d1) + E55*(-(l6 L)*a1 + (l6 L)*c1))/(#4*Ac));
    (* 115 *) U i3 2 i1 4 (((l6 L) - b1*c1/(#4*Ac))*(E45*((l6 L)*b1 - (l6 L)*d1) + E55*(-(l6 L)*a1 + (l6 L)*c1)) + b1*d1*(E44*((l6 L)*b1 - (l6 L)*d1) + E45*(-(l6 L)*a1 + (l6 L)*c1))/(#4*Ac));
    (* 116 *) U i3 2 i2 2 ((a1/(#2*Ac) + (l6 L)*(-a1 + c1)/Ac)*(E45*((l6 L)*b1 - (l6 L)*d1) + E55*(-(l6 L)*a1 + (l6 L)*c1)) + (-b1/(#2*Ac) + (l6 L)*(b1 - d1)/Ac)*(E44*((l6 L)*b1 - (l6 L)*d1) + E45*(-(l6 L)*a1 + (l6 L)*c1)));
    (* 117 *) U i3 2 i2 3 (((l6 L) - b1*c1/(#4*Ac))*(E44*((l6 L)*b1 - (l6 L)*d1) + E45*(-(l6 L)*a1 + (l6 L)*c1)) + a1*c1*(E45*((l6 L)*b1 - (l6 L)*d1) + E55*(-(l6 L)*a1 + (l6 L)*c1))/(#4*Ac));
    (* 118 *) U i3 2 i2 4 (((l6 L) + a1*d1/(#4*Ac))*(E45*((l6 L)*b1 - (l6 L)*d1) + E55*(-(l6 L)*a1 + (l6 L)*c1)) - b1*d1*(E44*((l6 L)*b1 - (l6 L)*d1) + E45*(-(l6 L)*a1 + (l6 L)*c1))/(#4*Ac));
    (* 119 *) U i3 2 i3 2 ((l6 L)*(-a1 + c1)*(E45*((l6 L)*b1 - (l6 L)*d1) + E55*(-(l6 L)*a1 + (l6 L)*c1))/Ac + (l6 L)*(b1 - d1)*(E44*((l6 L)*b1 - (l6 L)*d1) + E45*(-(l6 L)*a1 + (l6 L)*c1))/Ac);
    (* 120 *) U i3 2 i3 3 ((l6 L)*E44*((l6 L)*b1 - (l6 L)*d1) + (l6 L)*E45*(-(l6 L)*a1 + (l6 L)*c1));
    (* 121 *) U i3 2 i3 4 ((l6 L)*E45*((l6 L)*b1 - (l6 L)*d1) + (l6 L)*E55*(-(l6 L)*a1 + (l6 L)*c1));
    (* 122 *) U i3 3 i1 2 ((l6 L)*Ac*E44*(d1/(#2*Ac) + (l6 L)*(b1 - d1)/Ac) + (l6 L)*Ac*E45*(-c1/(#2*Ac) + (l6 L)*(-a1 + c1)/Ac));
    (* 123 *) U i3 3 i1 3 ((l6 L)*Ac*E44*((l6 L) + a1*d1/(#4*Ac)) - (l24 L)*E45*a1*c1);
    (* 124 *) U i3 3 i1 4 ((l6 L)*Ac*E45*((l6 L) - b1*c1/(#4*Ac)) + (l24 L)*E44*b1*d1);
    (* 125 *) U i3 3 i2 2 ((l6 L)*Ac*E44*(-b1/(#2*Ac) + (l6 L)*(b1 - d1)/Ac) + (l6 L)*Ac*E45*(a1/(#2*Ac) + (l6 L)*(-a1 + c1)/Ac));
    (* 126 *) U i3 3 i2 3 ((l6 L)*Ac*E44*((l6 L) - b1*c1/(#4*Ac)) + (l24 L)*E45*a1*c1);
    (* 127 *) U i3 3 i2 4 ((l6 L)*Ac*E45*((l6 L) + a1*d1/(#4*Ac)) - (l24 L)*E44*b1*d1);
    (* 128 *) U i3 3 i3 2 ((l36 L)*E44*(b1 - d1) + (l36 L)*E45*(-a1 + c1));
    (* 129 *) U i3 3 i3 3 ((l36 L)*Ac*E44);
    (* 130 *) U i3 3 i3 4 ((l36 L)*Ac*E45);
    (* 131 *) U i3 4 i1 2 ((l6 L)*Ac*E45*(d1/(#2*Ac) + (l6 L)*(b1 - d1)/Ac) + (l6 L)*Ac*E55*(-c1/(#2*Ac) + (l6 L)*(-a1 + c1)/Ac));
    (* 132 *) U i3 4 i1 3 ((l6 L)*Ac*E45*((l6 L) + a1*d1/(#4*Ac)) - (l24 L)*E55*a1*c1);
    (* 133 *) U i3 4 i1 4 ((l6 L)*Ac*E55*((l6 L) - b1*c1/(#4*Ac)) + (l24 L)*E45*b1*d1);
    (* 134 *) U i3 4 i2 2 ((l6 L)*Ac*E45*(-b1/(#2*Ac) + (l6 L)*(b1 - d1)/Ac) + (l6 L)*Ac*E55*(a1/(#2*Ac) + (l6 L)*(-a1 + c1)/Ac));
    (* 135 *) U i3 4 i2 3 ((l6 L)*Ac*E45*((l6 L) - b1*c1/(#4*Ac)) + (l24 L)*E55*a1*c1);
    (* 136 *) U i3 4 i2 4 ((l6 L)*Ac*E55*((l6 L) + a1*d1/(#4*Ac)) - (l24 L)*E45*b1*d1);
    (* 137 *) U i3 4 i3 2 ((l36 L)*E45*(b1 - d1) + (l36 L)*E55*(-a1 + c1));
    (* 138 *) U i3 4 i3 3 ((l36 L)*Ac*E45);
    (* 139 *) U i3 4 i3 4 ((l36 L)*Ac*E55)
  ].
End Gen.
