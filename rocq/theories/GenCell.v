(** Generated by tools/gen_updates.py from
    meshless/espim/plate2d_add_k0s_cell_based.py, lines 94-174 (81 statements).
    Do not edit.  One element (row, column, increment) per statement, in source order;
    right hand sides verbatim. *)
From Coq Require Import ZArith List.
From Verif Require Import Num.
Import ListNotations.

Section Gen.
  Context {T : Type} {N : Num T}.
  Declare Scope gen_scope.
  Delimit Scope gen_scope with gen.
  Local Notation "a + b" := (@nadd T N a b) : gen_scope.
  Local Notation "a - b" := (@nsub T N a b) : gen_scope.
  Local Notation "a * b" := (@nmul T N a b) : gen_scope.
  Local Notation "a / b" := (@ndiv T N a b) : gen_scope.
  Local Notation "- a" := (@nopp T N a) : gen_scope.
  Local Notation "# k" := (@nofZ T N k%Z) (at level 1, format "# k") : gen_scope.
  Local Notation U i a j b e := ((i * 5 + a)%Z, (j * 5 + b)%Z, e%gen) (only parsing).

  (** meshless/espim/plate2d_add_k0s_cell_based.py:94-174 *)
  Definition cell_entries (L : lits T) (i1 i2 i3 : Z)
    (Ac Ac1 Ac2 Ac3 E44 E45 E55 a1 b1 c1 d1 a2 b2 c2 d2 a3 b3 c3 d3 : T) : list (Z * Z * T) := [
    (* 94 *) U i1 2 i1 2 ((E44*(Ac1*(d1/(#2*Ac1) + (l6 L)*(b1 - d1)/Ac1) + Ac3*(-b3/(#2*Ac3) + (l6 L)*(b3 - d3)/Ac3) + (l6 L)*b2 - (l6 L)*d2) + E45*(Ac1*(-c1/(#2*Ac1) + (l6 L)*(-a1 + c1)/Ac1) + Ac3*(a3/(#2*Ac3) + (l6 L)*(-a3 + c3)/Ac3) - (l6 L)*a2 + (l6 L)*c2))*(Ac1*(d1/(#2*Ac1) + (l6 L)*(b1 - d1)/Ac1) + Ac3*(-b3/(#2*Ac3) + (l6 L)*(b3 - d3)/Ac3) + (l6 L)*b2 - (l6 L)*d2)/Ac + (E45*(Ac1*(d1/(#2*Ac1) + (l6 L)*(b1 - d1)/Ac1) + Ac3*(-b3/(#2*Ac3) + (l6 L)*(b3 - d3)/Ac3) + (l6 L)*b2 - (l6 L)*d2) + E55*(Ac1*(-c1/(#2*Ac1) + (l6 L)*(-a1 + c1)/Ac1) + Ac3*(a3/(#2*Ac3) + (l6 L)*(-a3 + c3)/Ac3) - (l6 L)*a2 + (l6 L)*c2))*(Ac1*(-c1/(#2*Ac1) + (l6 L)*(-a1 + c1)/Ac1) + Ac3*(a3/(#2*Ac3) + (l6 L)*(-a3 + c3)/Ac3) - (l6 L)*a2 + (l6 L)*c2)/Ac);
    (* 95 *) U i1 2 i1 3 ((E44*(Ac1*(d1/(#2*Ac1) + (l6 L)*(b1 - d1)/Ac1) + Ac3*(-b3/(#2*Ac3) + (l6 L)*(b3 - d3)/Ac3) + (l6 L)*b2 - (l6 L)*d2) + E45*(Ac1*(-c1/(#2*Ac1) + (l6 L)*(-a1 + c1)/Ac1) + Ac3*(a3/(#2*Ac3) + (l6 L)*(-a3 + c3)/Ac3) - (l6 L)*a2 + (l6 L)*c2))*(Ac1*((l6 L) + a1*d1/(#4*Ac1)) + (l6 L)*Ac2 + Ac3*((l6 L) - b3*c3/(#4*Ac3)))/Ac + (E45*(Ac1*(d1/(#2*Ac1) + (l6 L)*(b1 - d1)/Ac1) + Ac3*(-b3/(#2*Ac3) + (l6 L)*(b3 - d3)/Ac3) + (l6 L)*b2 - (l6 L)*d2) + E55*(Ac1*(-c1/(#2*Ac1) + (l6 L)*(-a1 + c1)/Ac1) + Ac3*(a3/(#2*Ac3) + (l6 L)*(-a3 + c3)/Ac3) - (l6 L)*a2 + (l6 L)*c2))*(-a1*c1/#4 + a3*c3/#4)/Ac);
    (* 96 *) U i1 2 i1 4 ((E44*(Ac1*(d1/(#2*Ac1) + (l6 L)*(b1 - d1)/Ac1) + Ac3*(-b3/(#2*Ac3) + (l6 L)*(b3 - d3)/Ac3) + (l6 L)*b2 - (l6 L)*d2) + E45*(Ac1*(-c1/(#2*Ac1) + (l6 L)*(-a1 + c1)/Ac1) + Ac3*(a3/(#2*Ac3) + (l6 L)*(-a3 + c3)/Ac3) - (l6 L)*a2 + (l6 L)*c2))*(b1*d1/#4 - b3*d3/#4)/Ac + (E45*(Ac1*(d1/(#2*Ac1) + (l6 L)*(b1 - d1)/Ac1) + Ac3*(-b3/(#2*Ac3) + (l6 L)*(b3 - d3)/Ac3) + (l6 L)*b2 - (l6 L)*d2) + E55*(Ac1*(-c1/(#2*Ac1) + (l6 L)*(-a1 + c1)/Ac1) + Ac3*(a3/(#2*Ac3) + (l6 L)*(-a3 + c3)/Ac3) - (l6 L)*a2 + (l6 L)*c2))*(Ac1*((l6 L) - b1*c1/(#4*Ac1)) + (l6 L)*Ac2 + Ac3*((l6 L) + a3*d3/(#4*Ac3)))/Ac);
    (* 97 *) U i1 2 i2 2 ((E44*(Ac1*(d1/(#2*Ac1) + (l6 L)*(b1 - d1)/Ac1) + Ac3*(-b3/(#2*Ac3) + (l6 L)*(b3 - d3)/Ac3) + (l6 L)*b2 - (l6 L)*d2) + E45*(Ac1*(-c1/(#2*Ac1) + (l6 L)*(-a1 + c1)/Ac1) + Ac3*(a3/(#2*Ac3) + (l6 L)*(-a3 + c3)/Ac3) - (l6 L)*a2 + (l6 L)*c2))*(Ac1*(-b1/(#2*Ac1) + (l6 L)*(b1 - d1)/Ac1) + Ac2*(d2/(#2*Ac2) + (l6 L)*(b2 - d2)/Ac2) + (l6 L)*b3 - (l6 L)*d3)/Ac + (E45*(Ac1*(d1/(#2*Ac1) + (l6 L)*(b1 - d1)/Ac1) + Ac3*(-b3/(#2*Ac3) + (l6 L)*(b3 - d3)/Ac3) + (l6 L)*b2 - (l6 L)*d2) + E55*(Ac1*(-c1/(#2*Ac1) + (l6 L)*(-a1 + c1)/Ac1) + Ac3*(a3/(#2*Ac3) + (l6 L)*(-a3 + c3)/Ac3) - (l6 L)*a2 + (l6 L)*c2))*(Ac1*(a1/(#2*Ac1) + (l6 L)*(-a1 + c1)/Ac1) + Ac2*(-c2/(#2*Ac2) + (l6 L)*(-a2 + c2)/Ac2) - (l6 L)*a3 + (l6 L)*c3)/Ac);
    (* 98 *) U i1 2 i2 3 ((E44*(Ac1*(d1/(#2*Ac1) + (l6 L)*(b1 - d1)/Ac1) + Ac3*(-b3/(#2*Ac3) + (l6 L)*(b3 - d3)/Ac3) + (l6 L)*b2 - (l6 L)*d2) + E45*(Ac1*(-c1/(#2*Ac1) + (l6 L)*(-a1 + c1)/Ac1) + Ac3*(a3/(#2*Ac3) + (l6 L)*(-a3 + c3)/Ac3) - (l6 L)*a2 + (l6 L)*c2))*(Ac1*((l6 L) - b1*c1/(#4*Ac1)) + Ac2*((l6 L) + a2*d2/(#4*Ac2)) + (l6 L)*Ac3)/Ac + (E45*(Ac1*(d1/(#2*Ac1) + (l6 L)*(b1 - d1)/Ac1) + Ac3*(-b3/(#2*Ac3) + (l6 L)*(b3 - d3)/Ac3) + (l6 L)*b2 - (l6 L)*d2) + E55*(Ac1*(-c1/(#2*Ac1) + (l6 L)*(-a1 + c1)/Ac1) + Ac3*(a3/(#2*Ac3) + (l6 L)*(-a3 + c3)/Ac3) - (l6 L)*a2 + (l6 L)*c2))*(a1*c1/#4 - a2*c2/#4)/Ac);
    (* 99 *) U i1 2 i2 4 ((E44*(Ac1*(d1/(#2*Ac1) + (l6 L)*(b1 - d1)/Ac1) + Ac3*(-b3/(#2*Ac3) + (l6 L)*(b3 - d3)/Ac3) + (l6 L)*b2 - (l6 L)*d2) + E45*(Ac1*(-c1/(#2*Ac1) + (l6 L)*(-a1 + c1)/Ac1) + Ac3*(a3/(#2*Ac3) + (l6 L)*(-a3 + c3)/Ac3) - (l6 L)*a2 + (l6 L)*c2))*(-b1*d1/#4 + b2*d2/#4)/Ac + (E45*(Ac1*(d1/(#2*Ac1) + (l6 L)*(b1 - d1)/Ac1) + Ac3*(-b3/(#2*Ac3) + (l6 L)*(b3 - d3)/Ac3) + (l6 L)*b2 - (l6 L)*d2) + E55*(Ac1*(-c1/(#2*Ac1) + (l6 L)*(-a1 + c1)/Ac1) + Ac3*(a3/(#2*Ac3) + (l6 L)*(-a3 + c3)/Ac3) - (l6 L)*a2 + (l6 L)*c2))*(Ac1*((l6 L) + a1*d1/(#4*Ac1)) + Ac2*((l6 L) - b2*c2/(#4*Ac2)) + (l6 L)*Ac3)/Ac);
    (* 100 *) U i1 2 i3 2 ((E44*(Ac1*(d1/(#2*Ac1) + (l6 L)*(b1 - d1)/Ac1) + Ac3*(-b3/(#2*Ac3) + (l6 L)*(b3 - d3)/Ac3) + (l6 L)*b2 - (l6 L)*d2) + E45*(Ac1*(-c1/(#2*Ac1) + (l6 L)*(-a1 + c1)/Ac1) + Ac3*(a3/(#2*Ac3) + (l6 L)*(-a3 + c3)/Ac3) - (l6 L)*a2 + (l6 L)*c2))*(Ac2*(-b2/(#2*Ac2) + (l6 L)*(b2 - d2)/Ac2) + Ac3*(d3/(#2*Ac3) + (l6 L)*(b3 - d3)/Ac3) + (l6 L)*b1 - (l6 L)*d1)/Ac + (E45*(Ac1*(d1/(#2*Ac1) + (l6 L)*(b1 - d1)/Ac1) + Ac3*(-b3/(#2*Ac3) + (l6 L)*(b3 - d3)/Ac3) + (l6 L)*b2 - (l6 L)*d2) + E55*(Ac1*(-c1/(#2*Ac1) + (l6 L)*(-a1 + c1)/Ac1) + Ac3*(a3/(#2*Ac3) + (l6 L)*(-a3 + c3)/Ac3) - (l6 L)*a2 + (l6 L)*c2))*(Ac2*(a2/(#2*Ac2) + (l6 L)*(-a2 + c2)/Ac2) + Ac3*(-c3/(#2*Ac3) + (l6 L)*(-a3 + c3)/Ac3) - (l6 L)*a1 + (l6 L)*c1)/Ac);
    (* 101 *) U i1 2 i3 3 ((E44*(Ac1*(d1/(#2*Ac1) + (l6 L)*(b1 - d1)/Ac1) + Ac3*(-b3/(#2*Ac3) + (l6 L)*(b3 - d3)/Ac3) + (l6 L)*b2 - (l6 L)*d2) + E45*(Ac1*(-c1/(#2*Ac1) + (l6 L)*(-a1 + c1)/Ac1) + Ac3*(a3/(#2*Ac3) + (l6 L)*(-a3 + c3)/Ac3) - (l6 L)*a2 + (l6 L)*c2))*((l6 L)*Ac1 + Ac2*((l6 L) - b2*c2/(#4*Ac2)) + Ac3*((l6 L) + a3*d3/(#4*Ac3)))/Ac + (E45*(Ac1*(d1/(#2*Ac1) + (l6 L)*(b1 - d1)/Ac1) + Ac3*(-b3/(#2*Ac3) + (l6 L)*(b3 - d3)/Ac3) + (l6 L)*b2 - (l6 L)*d2) + E55*(Ac1*(-c1/(#2*Ac1) + (l6 L)*(-a1 + c1)/Ac1) + Ac3*(a3/(#2*Ac3) + (l6 L)*(-a3 + c3)/Ac3) - (l6 L)*a2 + (l6 L)*c2))*(a2*c2/#4 - a3*c3/#4)/Ac);
    (* 102 *) U i1 2 i3 4 ((E44*(Ac1*(d1/(#2*Ac1) + (l6 L)*(b1 - d1)/Ac1) + Ac3*(-b3/(#2*Ac3) + (l6 L)*(b3 - d3)/Ac3) + (l6 L)*b2 - (l6 L)*d2) + E45*(Ac1*(-c1/(#2*Ac1) + (l6 L)*(-a1 + c1)/Ac1) + Ac3*(a3/(#2*Ac3) + (l6 L)*(-a3 + c3)/Ac3) - (l6 L)*a2 + (l6 L)*c2))*(-b2*d2/#4 + b3*d3/#4)/Ac + (E45*(Ac1*(d1/(#2*Ac1) + (l6 L)*(b1 - d1)/Ac1) + Ac3*(-b3/(#2*Ac3) + (l6 L)*(b3 - d3)/Ac3) + (l6 L)*b2 - (l6 L)*d2) + E55*(Ac1*(-c1/(#2*Ac1) + (l6 L)*(-a1 + c1)/Ac1) + Ac3*(a3/(#2*Ac3) + (l6 L)*(-a3 + c3)/Ac3) - (l6 L)*a2 + (l6 L)*c2))*((l6 L)*Ac1 + Ac2*((l6 L) + a2*d2/(#4*Ac2)) + Ac3*((l6 L) - b3*c3/(#4*Ac3)))/Ac);
    (* 103 *) U i1 3 i1 2 ((E44*(Ac1*((l6 L) + a1*d1/(#4*Ac1)) + (l6 L)*Ac2 + Ac3*((l6 L) - b3*c3/(#4*Ac3))) + E45*(-a1*c1/#4 + a3*c3/#4))*(Ac1*(d1/(#2*Ac1) + (l6 L)*(b1 - d1)/Ac1) + Ac3*(-b3/(#2*Ac3) + (l6 L)*(b3 - d3)/Ac3) + (l6 L)*b2 - (l6 L)*d2)/Ac + (E45*(Ac1*((l6 L) + a1*d1/(#4*Ac1)) + (l6 L)*Ac2 + Ac3*((l6 L) - b3*c3/(#4*Ac3))) + E55*(-a1*c1/#4 + a3*c3/#4))*(Ac1*(-c1/(#2*Ac1) + (l6 L)*(-a1 + c1)/Ac1) + Ac3*(a3/(#2*Ac3) + (l6 L)*(-a3 + c3)/Ac3) - (l6 L)*a2 + (l6 L)*c2)/Ac);
    (* 104 *) U i1 3 i1 3 ((E44*(Ac1*((l6 L) + a1*d1/(#4*Ac1)) + (l6 L)*Ac2 + Ac3*((l6 L) - b3*c3/(#4*Ac3))) + E45*(-a1*c1/#4 + a3*c3/#4))*(Ac1*((l6 L) + a1*d1/(#4*Ac1)) + (l6 L)*Ac2 + Ac3*((l6 L) - b3*c3/(#4*Ac3)))/Ac + (E45*(Ac1*((l6 L) + a1*d1/(#4*Ac1)) + (l6 L)*Ac2 + Ac3*((l6 L) - b3*c3/(#4*Ac3))) + E55*(-a1*c1/#4 + a3*c3/#4))*(-a1*c1/#4 + a3*c3/#4)/Ac);
    (* 105 *) U i1 3 i1 4 ((E44*(Ac1*((l6 L) + a1*d1/(#4*Ac1)) + (l6 L)*Ac2 + Ac3*((l6 L) - b3*c3/(#4*Ac3))) + E45*(-a1*c1/#4 + a3*c3/#4))*(b1*d1/#4 - b3*d3/#4)/Ac + (E45*(Ac1*((l6 L) + a1*d1/(#4*Ac1)) + (l6 L)*Ac2 + Ac3*((l6 L) - b3*c3/(#4*Ac3))) + E55*(-a1*c1/#4 + a3*c3/#4))*(Ac1*((l6 L) - b1*c1/(#4*Ac1)) + (l6 L)*Ac2 + Ac3*((l6 L) + a3*d3/(#4*Ac3)))/Ac);
    (* 106 *) U i1 3 i2 2 ((E44*(Ac1*((l6 L) + a1*d1/(#4*Ac1)) + (l6 L)*Ac2 + Ac3*((l6 L) - b3*c3/(#4*Ac3))) + E45*(-a1*c1/#4 + a3*c3/#4))*(Ac1*(-b1/(#2*Ac1) + (l6 L)*(b1 - d1)/Ac1) + Ac2*(d2/(#2*Ac2) + (l6 L)*(b2 - d2)/Ac2) + (l6 L)*b3 - (l6 L)*d3)/Ac + (E45*(Ac1*((l6 L) + a1*d1/(#4*Ac1)) + (l6 L)*Ac2 + Ac3*((l6 L) - b3*c3/(#4*Ac3))) + E55*(-a1*c1/#4 + a3*c3/#4))*(Ac1*(a1/(#2*Ac1) + (l6 L)*(-a1 + c1)/Ac1) + Ac2*(-c2/(#2*Ac2) + (l6 L)*(-a2 + c2)/Ac2) - (l6 L)*a3 + (l6 L)*c3)/Ac);
    (* 107 *) U i1 3 i2 3 ((E44*(Ac1*((l6 L) + a1*d1/(#4*Ac1)) + (l6 L)*Ac2 + Ac3*((l6 L) - b3*c3/(#4*Ac3))) + E45*(-a1*c1/#4 + a3*c3/#4))*(Ac1*((l6 L) - b1*c1/(#4*Ac1)) + Ac2*((l6 L) + a2*d2/(#4*Ac2)) + (l6 L)*Ac3)/Ac + (E45*(Ac1*((l6 L) + a1*d1/(#4*Ac1)) + (l6 L)*Ac2 + Ac3*((l6 L) - b3*c3/(#4*Ac3))) + E55*(-a1*c1/#4 + a3*c3/#4))*(a1*c1/#4 - a2*c2/#4)/Ac);
    (* 108 *) U i1 3 i2 4 ((E44*(Ac1*((l6 L) + a1*d1/(#4*Ac1)) + (l6 L)*Ac2 + Ac3*((l6 L) - b3*c3/(#4*Ac3))) + E45*(-a1*c1/#4 + a3*c3/#4))*(-b1*d1/#4 + b2*d2/#4)/Ac + (E45*(Ac1*((l6 L) + a1*d1/(#4*Ac1)) + (l6 L)*Ac2 + Ac3*((l6 L) - b3*c3/(#4*Ac3))) + E55*(-a1*c1/#4 + a3*c3/#4))*(Ac1*((l6 L) + a1*d1/(#4*Ac1)) + Ac2*((l6 L) - b2*c2/(#4*Ac2)) + (l6 L)*Ac3)/Ac);
    (* 109 *) U i1 3 i3 2 ((E44*(Ac1*((l6 L) + a1*d1/(#4*Ac1)) + (l6 L)*Ac2 + Ac3*((l6 L) - b3*c3/(#4*Ac3))) + E45*(-a1*c1/#4 + a3*c3/#4))*(Ac2*(-b2/(#2*Ac2) + (l6 L)*(b2 - d2)/Ac2) + Ac3*(d3/(#2*Ac3) + (l6 L)*(b3 - d3)/Ac3) + (l6 L)*b1 - (l6 L)*d1)/Ac + (E45*(Ac1*((l6 L) + a1*d1/(#4*Ac1)) + (l6 L)*Ac2 + Ac3*((l6 L) - b3*c3/(#4*Ac3))) + E55*(-a1*c1/#4 + a3*c3/#4))*(Ac2*(a2/(#2*Ac2) + (l6 L)*(-a2 + c2)/Ac2) + Ac3*(-c3/(#2*Ac3) + (l6 L)*(-a3 + c3)/Ac3) - (l6 L)*a1 + (l6 L)*c1)/Ac);
    (* 110 *) U i1 3 i3 3 ((E44*(Ac1*((l6 L) + a1*d1/(#4*Ac1)) + (l6 L)*Ac2 + Ac3*((l6 L) - b3*c3/(#4*Ac3))) + E45*(-a1*c1/#4 + a3*c3/#4))*((l6 L)*Ac1 + Ac2*((l6 L) - b2*c2/(#4*Ac2)) + Ac3*((l6 L) + a3*d3/(#4*Ac3)))/Ac + (E45*(Ac1*((l6 L) + a1*d1/(#4*Ac1)) + (l6 L)*Ac2 + Ac3*((l6 L) - b3*c3/(#4*Ac3))) + E55*(-a1*c1/#4 + a3*c3/#4))*(a2*c2/#4 - a3*c3/#4)/Ac);
    (* 111 *) U i1 3 i3 4 ((E44*(Ac1*((l6 L) + a1*d1/(#4*Ac1)) + (l6 L)*Ac2 + Ac3*((l6 L) - b3*c3/(#4*Ac3))) + E45*(-a1*c1/#4 + a3*c3/#4))*(-b2*d2/#4 + b3*d3/#4)/Ac + (E45*(Ac1*((l6 L) + a1*d1/(#4*Ac1)) + (l6 L)*Ac2 + Ac3*((l6 L) - b3*c3/(#4*Ac3))) + E55*(-a1*c1/#4 + a3*c3/#4))*((l6 L)*Ac1 + Ac2*((l6 L) + a2*d2/(#4*Ac2)) + Ac3*((l6 L) - b3*c3/(#4*Ac3)))/Ac);
    (* 112 *) U i1 4 i1 2 ((E44*(b1*d1/#4 - b3*d3/#4) + E45*(Ac1*((l6 L) - b1*c1/(#4*Ac1)) + (l6 L)*Ac2 + Ac3*((l6 L) + a3*d3/(#4*Ac3))))*(Ac1*(d1/(#2*Ac1) + (l6 L)*(b1 - d1)/Ac1) + Ac3*(-b3/(#2*Ac3) + (l6 L)*(b3 - d3)/Ac3) + (l6 L)*b2 - (l6 L)*d2)/Ac + (E45*(b1*d1/#4 - b3*d3/#4) + E55*(Ac1*((l6 L) - b1*c1/(#4*Ac1)) + (l6 L)*Ac2 + Ac3*((l6 L) + a3*d3/(#4*Ac3))))*(Ac1*(-c1/(#2*Ac1) + (l6 L)*(-a1 + c1)/Ac1) + Ac3*(a3/(#2*Ac3) + (l6 L)*(-a3 + c3)/Ac3) - (l6 L)*a2 + (l6 L)*c2)/Ac);
    (* 113 *) U i1 4 i1 3 ((E44*(b1*d1/#4 - b3*d3/#4) + E45*(Ac1*((l6 L) - b1*c1/(#4*Ac1)) + (l6 L)*Ac2 + Ac3*((l6 L) + a3*d3/(#4*Ac3))))*(Ac1*((l6 L) + a1*d1/(#4*Ac1)) + (l6 L)*Ac2 + Ac3*((l6 L) - b3*c3/(#4*Ac3)))/Ac + (E45*(b1*d1/#4 - b3*d3/#4) + E55*(Ac1*((l6 L) - b1*c1/(#4*Ac1)) + (l6 L)*Ac2 + Ac3*((l6 L) + a3*d3/(#4*Ac3))))*(-a1*c1/#4 + a3*c3/#4)/Ac);
    (* 114 *) U i1 4 i1 4 ((E44*(b1*d1/#4 - b3*d3/#4) + E45*(Ac1*((l6 L) - b1*c1/(#4*Ac1)) + (l6 L)*Ac2 + Ac3*((l6 L) + a3*d3/(#4*Ac3))))*(b1*d1/#4 - b3*d3/#4)/Ac + (E45*(b1*d1/#4 - b3*d3/#4) + E55*(Ac1*((l6 L) - b1*c1/(#4*Ac1)) + (l6 L)*Ac2 + Ac3*((l6 L) + a3*d3/(#4*Ac3))))*(Ac1*((l6 L) - b1*c1/(#4*Ac1)) + (l6 L)*Ac2 + Ac3*((l6 L) + a3*d3/(#4*Ac3)))/Ac);
    (* 115 *) U i1 4 i2 2 ((E44*(b1*d1/#4 - b3*d3/#4) + E45*(Ac1*((l6 L) - b1*c1/(#4*Ac1)) + (l6 L)*Ac2 + Ac3*((l6 L) + a3*d3/(#4*Ac3))))*(Ac1*(-b1/(#2*Ac1) + (l6 L)*(b1 - d1)/Ac1) + Ac2*(d2/(#2*Ac2) + (l6 L)*(b2 - d2)/Ac2) + (l6 L)*b3 - (l6 L)*d3)/Ac + (E45*(b1*d1/#4 - b3*d3/#4) + E55*(Ac1*((l6 L) - b1*c1/(#4*Ac1)) + (l6 L)*Ac2 + Ac3*((l6 L) + a3*d3/(#4*Ac3))))*(Ac1*(a1/(#2*Ac1) + (l6 L)*(-a1 + c1)/Ac1) + Ac2*(-c2/(#2*Ac2) + (l6 L)*(-a2 + c2)/Ac2) - (l6 L)*a3 + (l6 L)*c3)/Ac);
    (* 116 *) U i1 4 i2 3 ((E44*(b1*d1/#4 - b3*d3/#4) + E45*(Ac1*((l6 L) - b1*c1/(#4*Ac1)) + (l6 L)*Ac2 + Ac3*((l6 L) + a3*d3/(#4*Ac3))))*(Ac1*((l6 L) - b1*c1/(#4*Ac1)) + Ac2*((l6 L) + a2*d2/(#4*Ac2)) + (l6 L)*Ac3)/Ac + (E45*(b1*d1/#4 - b3*d3/#4) + E55*(Ac1*((l6 L) - b1*c1/(#4*Ac1)) + (l6 L)*Ac2 + Ac3*((l6 L) + a3*d3/(#4*Ac3))))*(a1*c1/#4 - a2*c2/#4)/Ac);
    (* 117 *) U i1 4 i2 4 ((E44*(b1*d1/#4 - b3*d3/#4) + E45*(Ac1*((l6 L) - b1*c1/(#4*Ac1)) + (l6 L)*Ac2 + Ac3*((l6 L) + a3*d3/(#4*Ac3))))*(-b1*d1/#4 + b2*d2/#4)/Ac + (E45*(b1*d1/#4 - b3*d3/#4) + E55*(Ac1*((l6 L) - b1*c1/(#4*Ac1)) + (l6 L)*Ac2 + Ac3*((l6 L) + a3*d3/(#4*Ac3))))*(Ac1*((l6 L) + a1*d1/(#4*Ac1)) + Ac2*((l6 L) - b2*c2/(#4*Ac2)) + (l6 L)*Ac3)/Ac);
    (* 118 *) U i1 4 i3 2 ((E44*(b1*d1/#4 - b3*d3/#4) + E45*(Ac1*((l6 L) - b1*c1/(#4*Ac1)) + (l6 L)*Ac2 + Ac3*((l6 L) + a3*d3/(#4*Ac3))))*(Ac2*(-b2/(#2*Ac2) + (l6 L)*(b2 - d2)/Ac2) + Ac3*(d3/(#2*Ac3) + (l6 L)*(b3 - d3)/Ac3) + (l6 L)*b1 - (l6 L)*d1)/Ac + (E45*(b1*d1/#4 - b3*d3/#4) + E55*(Ac1*((l6 L) - b1*c1/(#4*Ac1)) + (l6 L)*Ac2 + Ac3*((l6 L) + a3*d3/(#4*Ac3))))*(Ac2*(a2/(#2*Ac2) + (l6 L)*(-a2 + c2)/Ac2) + Ac3*(-c3/(#2*Ac3) + (l6 L)*(-a3 + c3)/Ac3) - (l6 L)*a1 + (l6 L)*c1)/Ac);
    (* 119 *) U i1 4 i3 3 ((E44*(b1*d1/#4 - b3*d3/#4) + E45*(Ac1*((l6 L) - b1*c1/(#4*Ac1)) + (l6 L)*Ac2 + Ac3*((l6 L) + a3*d3/(#4*Ac3))))*((l6 L)*Ac1 + Ac2*((l6 L) - b2*c2/(#4*Ac2)) + Ac3*((l6 L) + a3*d3/(#4*Ac3)))/Ac + (E45*(b1*d1/#4 - b3*d3/#4) + E55*(Ac1*((l6 L) - b1*c1/(#4*Ac1)) + (l6 L)*Ac2 + Ac3*((l6 L) + a3*d3/(#4*Ac3))))*(a2*c2/#4 - a3*c3/#4)/Ac);
    (* 120 *) U i1 4 i3 4 ((E44*(b1*d1/#4 - b3*d3/#4) + E45*(Ac1*((l6 L) - b1*c1/(#4*Ac1)) + (l6 L)*Ac2 + Ac3*((l6 L) + a3*d3/(#4*Ac3))))*(-b2*d2/#4 + b3*d3/#4)/Ac + (E45*(b1*d1/#4 - b3*d3/#4) + E55*(Ac1*((l6 L) - b1*c1/(#4*Ac1)) + (l6 L)*Ac2 + Ac3*((l6 L) + a3*d3/(#4*Ac3))))*((l6 L)*Ac1 + Ac2*((l6 L) + a2*d2/(#4*Ac2)) + Ac3*((l6 L) - b3*c3/(#4*Ac3)))/Ac);
    (* 121 *) U i2 2 i1 2 ((E44*(Ac1*(-b1/(#2*Ac1) + (l6 L)*(b1 - d1)/Ac1) + Ac2*(d2/(#2*Ac2) + (l6 L)*(b2 - d2)/Ac2) + (l6 L)*b3 - (l6 L)*d3) + E45*(Ac1*(a1/(#2*Ac1) + (l6 L)*(-a1 + c1)/Ac1) + Ac2*(-c2/(#2*Ac2) + (l6 L)*(-a2 + c2)/Ac2) - (l6 L)*a3 + (l6 L)*c3))*(Ac1*(d1/(#2*Ac1) + (l6 L)*(b1 - d1)/Ac1) + Ac3*(-b3/(#2*Ac3) + (l6 L)*(b3 - d3)/Ac3) + (l6 L)*b2 - (l6 L)*d2)/Ac + (E45*(Ac1*(-b1/(#2*Ac1) + (l6 L)*(b1 - d1)/Ac1) + Ac2*(d2/(#2*Ac2) + (l6 L)*(b2 - d2)/Ac2) + (l6 L)*b3 - (l6 L)*d3) + E55*(Ac1*(a1/(#2*Ac1) + (l6 L)*(-a1 + c1)/Ac1) + Ac2*(-c2/(#2*Ac2) + (l6 L)*(-a2 + c2)/Ac2) - (l6 L)*a3 + (l6 L)*c3))*(Ac1*(-c1/(#2*Ac1) + (l6 L)*(-a1 + c1)/Ac1) + Ac3*(a3/(#2*Ac3) + (l6 L)*(-a3 + c3)/Ac3) - (l6 L)*a2 + (l6 L)*c2)/Ac);
    (* 122 *) U i2 2 i1 3 ((E44*(Ac1*(-b1/(#2*Ac1) + (l6 L)*(b1 - d1)/Ac1) + Ac2*(d2/(#2*Ac2) + (l6 L)*(b2 - d2)/Ac2) + (l6 L)*b3 - (l6 L)*d3) + E45*(Ac1*(a1/(#2*Ac1) + (l6 L)*(-a1 + c1)/Ac1) + Ac2*(-c2/(#2*Ac2) + (l6 L)*(-a2 + c2)/Ac2) - (l6 L)*a3 + (l6 L)*c3))*(Ac1*((l6 L) + a1*d1/(#4*Ac1)) + (l6 L)*Ac2 + Ac3*((l6 L) - b3*c3/(#4*Ac3)))/Ac + (E45*(Ac1*(-b1/(#2*Ac1) + (l6 L)*(b1 - d1)/Ac1) + Ac2*(d2/(#2*Ac2) + (l6 L)*(b2 - d2)/Ac2) + (l6 L)*b3 - (l6 L)*d3) + E55*(Ac1*(a1/(#2*Ac1) + (l6 L)*(-a1 + c1)/Ac1) + Ac2*(-c2/(#2*Ac2) + (l6 L)*(-a2 + c2)/Ac2) - (l6 L)*a3 + (l6 L)*c3))*(-a1*c1/#4 + a3*c3/#4)/Ac);
    (* 123 *) U i2 2 i1 4 ((E44*(Ac1*(-b1/(#2*Ac1) + (l6 L)*(b1 - d1)/Ac1) + Ac2*(d2/(#2*Ac2) + (l6 L)*(b2 - d2)/Ac2) + (l6 L)*b3 - (l6 L)*d3) + E45*(Ac1*(a1/(#2*Ac1) + (l6 L)*(-a1 + c1)/Ac1) + Ac2*(-c2/(#2*Ac2) + (l6 L)*(-a2 + c2)/Ac2) - (l6 L)*a3 + (l6 L)*c3))*(b1*d1/#4 - b3*d3/#4)/Ac + (E45*(Ac1*(-b1/(#2*Ac1) + (l6 L)*(b1 - d1)/Ac1) + Ac2*(d2/(#2*Ac2) + (l6 L)*(b2 - d2)/Ac2) + (l6 L)*b3 - (l6 L)*d3) + E55*(Ac1*(a1/(#2*Ac1) + (l6 L)*(-a1 + c1)/Ac1) + Ac2*(-c2/(#2*Ac2) + (l6 L)*(-a2 + c2)/Ac2) - (l6 L)*a3 + (l6 L)*c3))*(Ac1*((l6 L) - b1*c1/(#4*Ac1)) + (l6 L)*Ac2 + Ac3*((l6 L) + a3*d3/(#4*Ac3)))/Ac);
    (* 124 *) U i2 2 i2 2 ((E44*(Ac1*(-b1/(#2*Ac1) + (l6 L)*(b1 - d1)/Ac1) + Ac2*(d2/(#2*Ac2) + (l6 L)*(b2 - d2)/Ac2) + (l6 L)*b3 - (l6 L)*d3) + E45*(Ac1*(a1/(#2*Ac1) + (l6 L)*(-a1 + c1)/Ac1) + Ac2*(-c2/(#2*Ac2) + (l6 L)*(-a2 + c2)/Ac2) - (l6 L)*a3 + (l6 L)*c3))*(Ac1*(-b1/(#2*Ac1) + (l6 L)*(b1 - d1)/Ac1) + Ac2*(d2/(#2*Ac2) + (l6 L)*(b2 - d2)/Ac2) + (l6 L)*b3 - (l6 L)*d3)/Ac + (E45*(Ac1*(-b1/(#2*Ac1) + (l6 L)*(b1 - d1)/Ac1) + Ac2*(d2/(#2*Ac2) + (l6 L)*(b2 - d2)/Ac2) + (l6 L)*b3 - (l6 L)*d3) + E55*(Ac1*(a1/(#2*Ac1) + (l6 L)*(-a1 + c1)/Ac1) + Ac2*(-c2/(#2*Ac2) + (l6 L)*(-a2 + c2)/Ac2) - (l6 L)*a3 + (l6 L)*c3))*(Ac1*(a1/(#2*Ac1) + (l6 L)*(-a1 + c1)/Ac1) + Ac2*(-c2/(#2*Ac2) + (l6 L)*(-a2 + c2)/Ac2) - (l6 L)*a3 + (l6 L)*c3)/Ac);
    (* 125 *) U i2 2 i2 3 ((E44*(Ac1*(-b1/(#2*Ac1) + (l6 L)*(b1 - d1)/Ac1) + Ac2*(d2/(#2*Ac2) + (l6 L)*(b2 - d2)/Ac2) + (l6 L)*b3 - (l6 L)*d3) + E45*(Ac1*(a1/(#2*Ac1) + (l6 L)*(-a1 + c1)/Ac1) + Ac2*(-c2/(#2*Ac2) + (l6 L)*(-a2 + c2)/Ac2) - (l6 L)*a3 + (l6 L)*c3))*(Ac1*((l6 L) - b1*c1/(#4*Ac1)) + Ac2*((l6 L) + a2*d2/(#4*Ac2)) + (l6 L)*Ac3)/Ac + (E45*(Ac1*(-b1/(#2*Ac1) + (l6 L)*(b1 - d1)/Ac1) + Ac2*(d2/(#2*Ac2) + (l6 L)*(b2 - d2)/Ac2) + (l6 L)*b3 - (l6 L)*d3) + E55*(Ac1*(a1/(#2*Ac1) + (l6 L)*(-a1 + c1)/Ac1) + Ac2*(-c2/(#2*Ac2) + (l6 L)*(-a2 + c2)/Ac2) - (l6 L)*a3 + (l6 L)*c3))*(a1*c1/#4 - a2*c2/#4)/Ac);
    (* 126 *) U i2 2 i2 4 ((E44*(Ac1*(-b1/(#2*Ac1) + (l6 L)*(b1 - d1)/Ac1) + Ac2*(d2/(#2*Ac2) + (l6 L)*(b2 - d2)/Ac2) + (l6 L)*b3 - (l6 L)*d3) + E45*(Ac1*(a1/(#2*Ac1) + (l6 L)*(-a1 + c1)/Ac1) + Ac2*(-c2/(#2*Ac2) + (l6 L)*(-a2 + c2)/Ac2) - (l6 L)*a3 + (l6 L)*c3))*(-b1*d1/#4 + b2*d2/#4)/Ac + (E45*(Ac1*(-b1/(#2*Ac1) + (l6 L)*(b1 - d1)/Ac1) + Ac2*(d2/(#2*Ac2) + (l6 L)*(b2 - d2)/Ac2) + (l6 L)*b3 - (l6 L)*d3) + E55*(Ac1*(a1/(#2*Ac1) + (l6 L)*(-a1 + c1)/Ac1) + Ac2*(-c2/(#2*Ac2) + (l6 L)*(-a2 + c2)/Ac2) - (l6 L)*a3 + (l6 L)*c3))*(Ac1*((l6 L) + a1*d1/(#4*Ac1)) + Ac2*((l6 L) - b2*c2/(#4*Ac2)) + (l6 L)*Ac3)/Ac);
    (* 127 *) U i2 2 i3 2 ((E44*(Ac1*(-b1/(#2*Ac1) + (l6 L)*(b1 - d1)/Ac1) + Ac2*(d2/(#2*Ac2) + (l6 L)*(b2 - d2)/Ac2) + (l6 L)*b3 - (l6 L)*d3) + E45*(Ac1*(a1/(#2*Ac1) + (l6 L)*(-a1 + c1)/Ac1) + Ac2*(-c2/(#2*Ac2) + (l6 L)*(-a2 + c2)/Ac2) - (l6 L)*a3 + (l6 L)*c3))*(Ac2*(-b2/(#2*Ac2) + (l6 L)*(b2 - d2)/Ac2) + Ac3*(d3/(#2*Ac3) + (l6 L)*(b3 - d3)/Ac3) + (l6 L)*b1 - (l6 L)*d1)/Ac + (E45*(Ac1*(-b1/(#2*Ac1) + (l6 L)*(b1 - d1)/Ac1) + Ac2*(d2/(#2*Ac2) + (l6 L)*(b2 - d2)/Ac2) + (l6 L)*b3 - (l6 L)*d3) + E55*(Ac1*(a1/(#2*Ac1) + (l6 L)*(-a1 + c1)/Ac1) + Ac2*(-c2/(#2*Ac2) + (l6 L)*(-a2 + c2)/Ac2) - (l6 L)*a3 + (l6 L)*c3))*(Ac2*(a2/(#2*Ac2) + (l6 L)*(-a2 + c2)/Ac2) + Ac3*(-c3/(#2*Ac3) + (l6 L)*(-a3 + c3)/Ac3) - (l6 L)*a1 + (l6 L)*c1)/Ac);
    (* 128 *) U i2 2 i3 3 ((E44*(Ac1*(-b1/(#2*Ac1) + (l6 L)*(b1 - d1)/Ac1) + Ac2*(d2/(#2*Ac2) + (l6 L)*(b2 - d2)/Ac2) + (l6 L)*b3 - (l6 L)*d3) + E45*(Ac1*(a1/(#2*Ac1) + (l6 L)*(-a1 + c1)/Ac1) + Ac2*(-c2/(#2*Ac2) + (l6 L)*(-a2 + c2)/Ac2) - (l6 L)*a3 + (l6 L)*c3))*((l6 L)*Ac1 + Ac2*((l6 L) - b2*c2/(#4*Ac2)) + Ac3*((l6 L) + a3*d3/(#4*Ac3)))/Ac + (E45*(Ac1*(-b1/(#2*Ac1) + (l6 L)*(b1 - d1)/Ac1) + Ac2*(d2/(#2*Ac2) + (l6 L)*(b2 - d2)/Ac2) + (l6 L)*b3 - (l6 L)*d3) + E55*(Ac1*(a1/(#2*Ac1) + (l6 L)*(-a1 + c1)/Ac1) + Ac2*(-c2/(#2*Ac2) + (l6 L)*(-a2 + c2)/Ac2) - (l6 L)*a3 + (l6 L)*c3))*(a2*c2/#4 - a3*c3/#4)/Ac);
    (* 129 *) U i2 2 i3 4 ((E44*(Ac1*(-b1/(#2*Ac1) + (l6 L)*(b1 - d1)/Ac1) + Ac2*(d2/(#2*Ac2) + (l6 L)*(b2 - d2)/Ac2) + (l6 L)*b3 - (l6 L)*d3) + E45*(Ac1*(a1/(#2*Ac1) + (l6 L)*(-a1 + c1)/Ac1) + Ac2*(-c2/(#2*Ac2) + (l6 L)*(-a2 + c2)/Ac2) - (l6 L)*a3 + (l6 L)*c3))*(-b2*d2/#4 + b3*d3/#4)/Ac + (E45*(Ac1*(-b1/(#2*Ac1) + (l6 L)*(b1 - d1)/Ac1) + Ac2*(d2/(#2*Ac2) + (l6 L)*(b2 - d2)/Ac2) + (l6 L)*b3 - (l6 L)*d3) + E55*(Ac1*(a1/(#2*Ac1) + (l6 L)*(-a1 + c1)/Ac1) + Ac2*(-c2/(#2*Ac2) + (l6 L)*(-a2 + c2)/Ac2) - (l6 L)*a3 + (l6 L)*c3))*((l6 L)*Ac1 + Ac2*((l6 L) + a2*d2/(#4*Ac2)) + Ac3*((l6 L) - b3*c3/(#4*Ac3)))/Ac);
    (* 130 *) U i2 3 i1 2 ((E44*(Ac1*((l6 L) - b1*c1/(#4*Ac1)) + Ac2*((l6 L) + a2*d2/(#4*Ac2)) + (l6 L)*Ac3) + E45*(a1*c1/#4 - a2*c2/#4))*(Ac1*(d1/(#2*Ac1) + (l6 L)*(b1 - d1)/Ac1) + Ac3*(-b3/(#2*Ac3) + (l6 L)*(b3 - d3)/Ac3) + (l6 L)*b2 - (l6 L)*d2)/Ac + (E45*(Ac1*((l6 L) - b1*c1/(#4*Ac1)) + Ac2*((l6 L) + a2*d2/(#4*Ac2)) + (l6 L)*Ac3) + E55*(a1*c1/#4 - a2*c2/#4))*(Ac1*(-c1/(#2*Ac1) + (l6 L)*(-a1 + c1)/Ac1) + Ac3*(a3/(#2*Ac3) + (l6 L)*(-a3 + c3)/Ac3) - (l6 L)*a2 + (l6 L)*c2)/Ac);
    (* 131 *) U i2 3 i1 3 ((E44*(Ac1*((l6 L) - b1*c1/(#4*Ac1)) + Ac2*((l6 L) + a2*d2/(#4*Ac2)) + (l6 L)*Ac3) + E45*(a1*c1/#4 - a2*c2/#4))*(Ac1*((l6 L) + a1*d1/(#4*Ac1)) + (l6 L)*Ac2 + Ac3*((l6 L) - b3*c3/(#4*Ac3)))/Ac + (E45*(Ac1*((l6 L) - b1*c1/(#4*Ac1)) + Ac2*((l6 L) + a2*d2/(#4*Ac2)) + (l6 L)*Ac3) + E55*(a1*c1/#4 - a2*c2/#4))*(-a1*c1/#4 + a3*c3/#4)/Ac);
    (* 132 *) U i2 3 i1 4 ((E44*(Ac1*((l6 L) - b1*c1/(#4*Ac1)) + Ac2*((l6 L) + a2*d2/(#4*Ac2)) + (l6 L)*Ac3) + E45*(a1*c1/#4 - a2*c2/#4))*(b1*d1/#4 - b3*d3/#4)/Ac + (E45*(Ac1*((l6 L) - b1*c1/(#4*Ac1)) + Ac2*((l6 L) + a2*d2/(#4*Ac2)) + (l6 L)*Ac3) + E55*(a1*c1/#4 - a2*c2/#4))*(Ac1*((l6 L) - b1*c1/(#4*Ac1)) + (l6 L)*Ac2 + Ac3*((l6 L) + a3*d3/(#4*Ac3)))/Ac);
    (* 133 *) U i2 3 i2 2 ((E44*(Ac1*((l6 L) - b1*c1/(#4*Ac1)) + Ac2*((l6 L) + a2*d2/(#4*Ac2)) + (l6 L)*Ac3) + E45*(a1*c1/#4 - a2*c2/#4))*(Ac1*(-b1/(#2*Ac1) + (l6 L)*(b1 - d1)/Ac1) + Ac2*(d2/(#2*Ac2) + (l6 L)*(b2 - d2)/Ac2) + (l6 L)*b3 - (l6 L)*d3)/Ac + (E45*(Ac1*((l6 L) - b1*c1/(#4*Ac1)) + Ac2*((l6 L) + a2*d2/(#4*Ac2)) + (l6 L)*Ac3) + E55*(a1*c1/#4 - a2*c2/#4))*(Ac1*(a1/(#2*Ac1) + (l6 L)*(-a1 + c1)/Ac1) + Ac2*(-c2/(#2*Ac2) + (l6 L)*(-a2 + c2)/Ac2) - (l6 L)*a3 + (l6 L)*c3)/Ac);
    (* 134 *) U i2 3 i2 3 ((E44*(Ac1*((l6 L) - b1*c1/(#4*Ac1)) + Ac2*((l6 L) + a2*d2/(#4*Ac2)) + (l6 L)*Ac3) + E45*(a1*c1/#4 - a2*c2/#4))*(Ac1*((l6 L) - b1*c1/(#4*Ac1)) + Ac2*((l6 L) + a2*d2/(#4*Ac2)) + (l6 L)*Ac3)/Ac + (E45*(Ac1*((l6 L) - b1*c1/(#4*Ac1)) + Ac2*((l6 L) + a2*d2/(#4*Ac2)) + (l6 L)*Ac3) + E55*(a1*c1/#4 - a2*c2/#4))*(a1*c1/#4 - a2*c2/#4)/Ac);
    (* 135 *) U i2 3 i2 4 ((E44*(Ac1*((l6 L) - b1*c1/(#4*Ac1)) + Ac2*((l6 L) + a2*d2/(#4*Ac2)) + (l6 L)*Ac3) + E45*(a1*c1/#4 - a2*c2/#4))*(-b1*d1/#4 + b2*d2/#4)/Ac + (E45*(Ac1*((l6 L) - b1*c1/(#4*Ac1)) + Ac2*((l6 L) + a2*d2/(#4*Ac2)) + (l6 L)*Ac3) + E55*(a1*c1/#4 - a2*c2/#4))*(Ac1*((l6 L) + a1*d1/(#4*Ac1)) + Ac2*((l6 L) - b2*c2/(#4*Ac2)) + (l6 L)*Ac3)/Ac);
    (* 136 *) U i2 3 i3 2 ((E44*(Ac1*((l6 L) - b1*c1/(#4*Ac1)) + Ac2*((l6 L) + a2*d2/(#4*Ac2)) + (l6 L)*Ac3) + E45*(a1*c1/#4 - a2*c2/#4))*(Ac2*(-b2/(#2*Ac2) + (l6 L)*(b2 - d2)/Ac2) + Ac3*(d3/(#2*Ac3) + (l6 L)*(b3 - d3)/Ac3) + (l6 L)*b1 - (l6 L)*d1)/Ac + (E45*(Ac1*((l6 L) - b1*c1/(#4*Ac1)) + Ac2*((l6 L) + a2*d2/(#4*Ac2)) + (l6 L)*Ac3) + E55*(a1*c1/#4 - a2*c2/#4))*(Ac2*(a2/(#2*Ac2) + (l6 L)*(-a2 + c2)/Ac2) + Ac3*(-c3/(#2*Ac3) + (l6 L)*(-a3 + c3)/Ac3) - (l6 L)*a1 + (l6 L)*c1)/Ac);
    (* 137 *) U i2 3 i3 3 ((E44*(Ac1*((l6 L) - b1*c1/(#4*Ac1)) + Ac2*((l6 L) + a2*d2/(#4*Ac2)) + (l6 L)*Ac3) + E45*(a1*c1/#4 - a2*c2/#4))*((l6 L)*Ac1 + Ac2*((l6 L) - b2*c2/(#4*Ac2)) + Ac3*((l6 L) + a3*d3/(#4*Ac3)))/Ac + (E45*(Ac1*((l6 L) - b1*c1/(#4*Ac1)) + Ac2*((l6 L) + a2*d2/(#4*Ac2)) + (l6 L)*Ac3) + E55*(a1*c1/#4 - a2*c2/#4))*(a2*c2/#4 - a3*c3/#4)/Ac);
    (* 138 *) U i2 3 i3 4 ((E44*(Ac1*((l6 L) - b1*c1/(#4*Ac1)) + Ac2*((l6 L) + a2*d2/(#4*Ac2)) + (l6 L)*Ac3) + E45*(a1*c1/#4 - a2*c2/#4))*(-b2*d2/#4 + b3*d3/#4)/Ac + (E45*(Ac1*((l6 L) - b1*c1/(#4*Ac1)) + Ac2*((l6 L) + a2*d2/(#4*Ac2)) + (l6 L)*Ac3) + E55*(a1*c1/#4 - a2*c2/#4))*((l6 L)*Ac1 + Ac2*((l6 L) + a2*d2/(#4*Ac2)) + Ac3*((l6 L) - b3*c3/(#4*Ac3)))/Ac);
    (* 139 *) U i2 4 i1 2 ((E44*(-b1*d1/#4 + b2*d2/#4) + E45*(Ac1*((l6 L) + a1*d1/(#4*Ac1)) + Ac2*((l6 L) - b2*c2/(#4*Ac2)) + (l6 L)*Ac3))*(Ac1*(d1/(#2*Ac1) + (l6 L)*(b1 - d1)/Ac1) + Ac3*(-b3/(#2*Ac3) + (l6 L)*(b3 - d3)/Ac3) + (l6 L)*b2 - (l6 L)*d2)/Ac + (E45*(-b1*d1/#4 + b2*d2/#4) + E55*(Ac1*((l6 L) + a1*d1/(#4*Ac1)) + Ac2*((l6 L) - b2*c2/(#4*Ac2)) + (l6 L)*Ac3))*(Ac1*(-c1/(#2*Ac1) + (l6 L)*(-a1 + c1)/Ac1) + Ac3*(a3/(#2*Ac3) + (l6 L)*(-a3 + c3)/Ac3) - (l6 L)*a2 + (l6 L)*c2)/Ac);
    (* 140 *) U i2 4 i1 3 ((E44*(-b1*d1/#4 + b2*d2/#4) + E45*(Ac1*((l6 L) + a1*d1/(#4*Ac1)) + Ac2*((l6 L) - b2*c2/(#4*Ac2)) + (l6 L)*Ac3))*(Ac1*((l6 L) + a1*d1/(#4*Ac1)) + (l6 L)*Ac2 + Ac3*((l6 L) - b3*c3/(#4*Ac3)))/Ac + (E45*(-b1*d1/#4 + b2*d2/#4) + E55*(Ac1*((l6 L) + a1*d1/(#4*Ac1)) + Ac2*((l6 L) - b2*c2/(#4*Ac2)) + (l6 L)*Ac3))*(-a1*c1/#4 + a3*c3/#4)/Ac);
    (* 141 *) U i2 4 i1 4 ((E44*(-b1*d1/#4 + b2*d2/#4) + E45*(Ac1*((l6 L) + a1*d1/(#4*Ac1)) + Ac2*((l6 L) - b2*c2/(#4*Ac2)) + (l6 L)*Ac3))*(b1*d1/#4 - b3*d3/#4)/Ac + (E45*(-b1*d1/#4 + b2*d2/#4) + E55*(Ac1*((l6 L) + a1*d1/(#4*Ac1)) + Ac2*((l6 L) - b2*c2/(#4*Ac2)) + (l6 L)*Ac3))*(Ac1*((l6 L) - b1*c1/(#4*Ac1)) + (l6 L)*Ac2 + Ac3*((l6 L) + a3*d3/(#4*Ac3)))/Ac);
    (* 142 *) U i2 4 i2 2 ((E44*(-b1*d1/#4 + b2*d2/#4) + E45*(Ac1*((l6 L) + a1*d1/(#4*Ac1)) + Ac2*((l6 L) - b2*c2/(#4*Ac2)) + (l6 L)*Ac3))*(Ac1*(-b1/(#2*Ac1) + (l6 L)*(b1 - d1)/Ac1) + Ac2*(d2/(#2*Ac2) + (l6 L)*(b2 - d2)/Ac2) + (l6 L)*b3 - (l6 L)*d3)/Ac + (E45*(-b1*d1/#4 + b2*d2/#4) + E55*(Ac1*((l6 L) + a1*d1/(#4*Ac1)) + Ac2*((l6 L) - b2*c2/(#4*Ac2)) + (l6 L)*Ac3))*(Ac1*(a1/(#2*Ac1) + (l6 L)*(-a1 + c1)/Ac1) + Ac2*(-c2/(#2*Ac2) + (l6 L)*(-a2 + c2)/Ac2) - (l6 L)*a3 + (l6 L)*c3)/Ac);
    (* 143 *) U i2 4 i2 3 ((E44*(-b1*d1/#4 + b2*d2/#4) + E45*(Ac1*((l6 L) + a1*d1/(#4*Ac1)) + Ac2*((l6 L) - b2*c2/(#4*Ac2)) + (l6 L)*Ac3))*(Ac1*((l6 L) - b1*c1/(#4*Ac1)) + Ac2*((l6 L) + a2*d2/(#4*Ac2)) + (l6 L)*Ac3)/Ac + (E45*(-b1*d1/#4 + b2*d2/#4) + E55*(Ac1*((l6 L) + a1*d1/(#4*Ac1)) + Ac2*((l6 L) - b2*c2/(#4*Ac2)) + (l6 L)*Ac3))*(a1*c1/#4 - a2*c2/#4)/Ac);
    (* 144 *) U i2 4 i2 4 ((E44*(-b1*d1/#4 + b2*d2/#4) + E45*(Ac1*((l6 L) + a1*d1/(#4*Ac1)) + Ac2*((l6 L) - b2*c2/(#4*Ac2)) + (l6 L)*Ac3))*(-b1*d1/#4 + b2*d2/#4)/Ac + (E45*(-b1*d1/#4 + b2*d2/#4) + E55*(Ac1*((l6 L) + a1*d1/(#4*Ac1)) + Ac2*((l6 L) - b2*c2/(#4*Ac2)) + (l6 L)*Ac3))*(Ac1*((l6 L) + a1*d1/(#4*Ac1)) + Ac2*((l6 L) - b2*c2/(#4*Ac2)) + (l6 L)*Ac3)/Ac);
    (* 145 *) U i2 4 i3 2 ((E44*(-b1*d1/#4 + b2*d2/#4) + E45*(Ac1*((l6 L) + a1*d1/(#4*Ac1)) + Ac2*((l6 L) - b2*c2/(#4*Ac2)) + (l6 L)*Ac3))*(Ac2*(-b2/(#2*Ac2) + (l6 L)*(b2 - d2)/Ac2) + Ac3*(d3/(#2*Ac3) + (l6 L)*(b3 - d3)/Ac3) + (l6 L)*b1 - (l6 L)*d1)/Ac + (E45*(-b1*d1/#4 + b2*d2/#4) + E55*(Ac1*((l6 L) + a1*d1/(#4*Ac1)) + Ac2*((l6 L) - b2*c2/(#4*Ac2)) + (l6 L)*Ac3))*(Ac2*(a2/(#2*Ac2) + (l6 L)*(-a2 + c2)/Ac2) + Ac3*(-c3/(#2*Ac3) + (l6 L)*(-a3 + c3)/Ac3) - (l6 L)*a1 + (l6 L)*c1)/Ac);
    (* 146 *) U i2 4 i3 3 ((E44*(-b1*d1/#4 + b2*d2/#4) + E45*(Ac1*((l6 L) + a1*d1/(#4*Ac1)) + Ac2*((l6 L) - b2*c2/(#4*Ac2)) + (l6 L)*Ac3))*((l6 L)*Ac1 + Ac2*((l6 L) - b2*c2/(#4*Ac2)) + Ac3*((l6 L) + a3*d3/(#4*Ac3)))/Ac + (E45*(-b1*d1/#4 + b2*d2/#4) + E55*(Ac1*((l6 L) + a1*d1/(#4*Ac1)) + Ac2*((l6 L) - b2*c2/(#4*Ac2)) + (l6 L)*Ac3))*(a2*c2/#4 - a3*c3/#4)/Ac);
    (* 147 *) U i2 4 i3 4 ((E44*(-b1*d1/#4 + b2*d2/#4) + E45*(Ac1*((l6 L) + a1*d1/(#4*Ac1)) + Ac2*((l6 L) - b2*c2/(#4*Ac2)) + (l6 L)*Ac3))*(-b2*d2/#4 + b3*d3/#4)/Ac + (E45*(-b1*d1/#4 + b2*d2/#4) + E55*(Ac1*((l6 L) + a1*d1/(#4*Ac1)) + Ac2*((l6 L) - b2*c2/(#4*Ac2)) + (l6 L)*Ac3))*((l6 L)*Ac1 + Ac2*((l6 L) + a2*d2/(#4*Ac2)) + Ac3*((l6 L) - b3*c3/(#4*Ac3)))/Ac);
    (* 148 *) U i3 2 i1 2 ((E44*(Ac2*(-b2/(#2*Ac2) + (l6 L)*(b2 - d2)/Ac2) + Ac3*(d3/(#2*Ac3) + (l6 L)*(b3 - d3)/Ac3) + (l6 L)*b1 - (l6 L)*d1) + E45*(Ac2*(a2/(#2*Ac2) + (l6 L)*(-a2 + c2)/Ac2) + Ac3*(-c3/(#2*Ac3) + (l6 L)*(-a3 + c3)/Ac3) - (l6 L)*a1 + (l6 L)*c1))*(Ac1*(d1/(#2*Ac1) + (l6 L)*(b1 - d1)/Ac1) + Ac3*(-b3/(#2*Ac3) + (l6 L)*(b3 - d3)/Ac3) + (l6 L)*b2 - (l6 L)*d2)/Ac + (E45*(Ac2*(-b2/(#2*Ac2) + (l6 L)*(b2 - d2)/Ac2) + Ac3*(d3/(#2*Ac3) + (l6 L)*(b3 - d3)/Ac3) + (l6 L)*b1 - (l6 L)*d1) + E55*(Ac2*(a2/(#2*Ac2) + (l6 L)*(-a2 + c2)/Ac2) + Ac3*(-c3/(#2*Ac3) + (l6 L)*(-a3 + c3)/Ac3) - (l6 L)*a1 + (l6 L)*c1))*(Ac1*(-c1/(#2*Ac1) + (l6 L)*(-a1 + c1)/Ac1) + Ac3*(a3/(#2*Ac3) + (l6 L)*(-a3 + c3)/Ac3) - (l6 L)*a2 + (l6 L)*c2)/Ac);
    (* 149 *) U i3 2 i1 3 ((E44*(Ac2*(-b2/(#2*Ac2) + (l6 L)*(b2 - d2)/Ac2) + Ac3*(d3/(#2*Ac3) + (l6 L)*(b3 - d3)/Ac3) + (l6 L)*b1 - (l6 L)*d1) + E45*(Ac2*(a2/(#2*Ac2) + (l6 L)*(-a2 + c2)/Ac2) + Ac3*(-c3/(#2*Ac3) + (l6 L)*(-a3 + c3)/Ac3) - (l6 L)*a1 + (l6 L)*c1))*(Ac1*((l6 L) + a1*d1/(#4*Ac1)) + (l6 L)*Ac2 + Ac3*((l6 L) - b3*c3/(#4*Ac3)))/Ac + (E45*(Ac2*(-b2/(#2*Ac2) + (l6 L)*(b2 - d2)/Ac2) + Ac3*(d3/(#2*Ac3) + (l6 L)*(b3 - d3)/Ac3) + (l6 L)*b1 - (l6 L)*d1) + E55*(Ac2*(a2/(#2*Ac2) + (l6 L)*(-a2 + c2)/Ac2) + Ac3*(-c3/(#2*Ac3) + (l6 L)*(-a3 + c3)/Ac3) - (l6 L)*a1 + (l6 L)*c1))*(-a1*c1/#4 + a3*c3/#4)/Ac);
    (* 150 *) U i3 2 i1 4 ((E44*(Ac2*(-b2/(#2*Ac2) + (l6 L)*(b2 - d2)/Ac2) + Ac3*(d3/(#2*Ac3) + (l6 L)*(b3 - d3)/Ac3) + (l6 L)*b1 - (l6 L)*d1) + E45*(Ac2*(a2/(#2*Ac2) + (l6 L)*(-a2 + c2)/Ac2) + Ac3*(-c3/(#2*Ac3) + (l6 L)*(-a3 + c3)/Ac3) - (l6 L)*a1 + (l6 L)*c1))*(b1*d1/#4 - b3*d3/#4)/Ac + (E45*(Ac2*(-b2/(#2*Ac2) + (l6 L)*(b2 - d2)/Ac2) + Ac3*(d3/(#2*Ac3) + (l6 L)*(b3 - d3)/Ac3) + (l6 L)*b1 - (l6 L)*d1) + E55*(Ac2*(a2/(#2*Ac2) + (l6 L)*(-a2 + c2)/Ac2) + Ac3*(-c3/(#2*Ac3) + (l6 L)*(-a3 + c3)/Ac3) - (l6 L)*a1 + (l6 L)*c1))*(Ac1*((l6 L) - b1*c1/(#4*Ac1)) + (l6 L)*Ac2 + Ac3*((l6 L) + a3*d3/(#4*Ac3)))/Ac);
    (* 151 *) U i3 2 i2 2 ((E44*(Ac2*(-b2/(#2*Ac2) + (l6 L)*(b2 - d2)/Ac2) + Ac3*(d3/(#2*Ac3) + (l6 L)*(b3 - d3)/Ac3) + (l6 L)*b1 - (l6 L)*d1) + E45*(Ac2*(a2/(#2*Ac2) + (l6 L)*(-a2 + c2)/Ac2) + Ac3*(-c3/(#2*Ac3) + (l6 L)*(-a3 + c3)/Ac3) - (l6 L)*a1 + (l6 L)*c1))*(Ac1*(-b1/(#2*Ac1) + (l6 L)*(b1 - d1)/Ac1) + Ac2*(d2/(#2*Ac2) + (l6 L)*(b2 - d2)/Ac2) + (l6 L)*b3 - (l6 L)*d3)/Ac + (E45*(Ac2*(-b2/(#2*Ac2) + (l6 L)*(b2 - d2)/Ac2) + Ac3*(d3/(#2*Ac3) + (l6 L)*(b3 - d3)/Ac3) + (l6 L)*b1 - (l6 L)*d1) + E55*(Ac2*(a2/(#2*Ac2) + (l6 L)*(-a2 + c2)/Ac2) + Ac3*(-c3/(#2*Ac3) + (l6 L)*(-a3 + c3)/Ac3) - (l6 L)*a1 + (l6 L)*c1))*(Ac1*(a1/(#2*Ac1) + (l6 L)*(-a1 + c1)/Ac1) + Ac2*(-c2/(#2*Ac2) + (l6 L)*(-a2 + c2)/Ac2) - (l6 L)*a3 + (l6 L)*c3)/Ac);
    (* 152 *) U i3 2 i2 3 ((E44*(Ac2*(-b2/(#2*Ac2) + (l6 L)*(b2 - d2)/Ac2) + Ac3*(d3/(#2*Ac3) + (l6 L)*(b3 - d3)/Ac3) + (l6 L)*b1 - (l6 L)*d1) + E45*(Ac2*(a2/(#2*Ac2) + (l6 L)*(-a2 + c2)/Ac2) + Ac3*(-c3/(#2*Ac3) + (l6 L)*(-a3 + c3)/Ac3) - (l6 L)*a1 + (l6 L)*c1))*(Ac1*((l6 L) - b1*c1/(#4*Ac1)) + Ac2*((l6 L) + a2*d2/(#4*Ac2)) + (l6 L)*Ac3)/Ac + (E45*(Ac2*(-b2/(#2*Ac2) + (l6 L)*(b2 - d2)/Ac2) + Ac3*(d3/(#2*Ac3) + (l6 L)*(b3 - d3)/Ac3) + (l6 L)*b1 - (l6 L)*d1) + E55*(Ac2*(a2/(#2*Ac2) + (l6 L)*(-a2 + c2)/Ac2) + Ac3*(-c3/(#2*Ac3) + (l6 L)*(-a3 + c3)/Ac3) - (l6 L)*a1 + (l6 L)*c1))*(a1*c1/#4 - a2*c2/#4)/Ac);
    (* 153 *) U i3 2 i2 4 ((E44*(Ac2*(-b2/(#2*Ac2) + (l6 L)*(b2 - d2)/Ac2) + Ac3*(d3/(#2*Ac3) + (l6 L)*(b3 - d3)/Ac3) + (l6 L)*b1 - (l6 L)*d1) + E45*(Ac2*(a2/(#2*Ac2) + (l6 L)*(-a2 + c2)/Ac2) + Ac3*(-c3/(#2*Ac3) + (l6 L)*(-a3 + c3)/Ac3) - (l6 L)*a1 + (l6 L)*c1))*(-b1*d1/#4 + b2*d2/#4)/Ac + (E45*(Ac2*(-b2/(#2*Ac2) + (l6 L)*(b2 - d2)/Ac2) + Ac3*(d3/(#2*Ac3) + (l6 L)*(b3 - d3)/Ac3) + (l6 L)*b1 - (l6 L)*d1) + E55*(Ac2*(a2/(#2*Ac2) + (l6 L)*(-a2 + c2)/Ac2) + Ac3*(-c3/(#2*Ac3) + (l6 L)*(-a3 + c3)/Ac3) - (l6 L)*a1 + (l6 L)*c1))*(Ac1*((l6 L) + a1*d1/(#4*Ac1)) + Ac2*((l6 L) - b2*c2/(#4*Ac2)) + (l6 L)*Ac3)/Ac);
    (* 154 *) U i3 2 i3 2 ((E44*(Ac2*(-b2/(#2*Ac2) + (l6 L)*(b2 - d2)/Ac2) + Ac3*(d3/(#2*Ac3) + (l6 L)*(b3 - d3)/Ac3) + (l6 L)*b1 - (l6 L)*d1) + E45*(Ac2*(a2/(#2*Ac2) + (l6 L)*(-a2 + c2)/Ac2) + Ac3*(-c3/(#2*Ac3) + (l6 L)*(-a3 + c3)/Ac3) - (l6 L)*a1 + (l6 L)*c1))*(Ac2*(-b2/(#2*Ac2) + (l6 L)*(b2 - d2)/Ac2) + Ac3*(d3/(#2*Ac3) + (l6 L)*(b3 - d3)/Ac3) + (l6 L)*b1 - (l6 L)*d1)/Ac + (E45*(Ac2*(-b2/(#2*Ac2) + (l6 L)*(b2 - d2)/Ac2) + Ac3*(d3/(#2*Ac3) + (l6 L)*(b3 - d3)/Ac3) + (l6 L)*b1 - (l6 L)*d1) + E55*(Ac2*(a2/(#2*Ac2) + (l6 L)*(-a2 + c2)/Ac2) + Ac3*(-c3/(#2*Ac3) + (l6 L)*(-a3 + c3)/Ac3) - (l6 L)*a1 + (l6 L)*c1))*(Ac2*(a2/(#2*Ac2) + (l6 L)*(-a2 + c2)/Ac2) + Ac3*(-c3/(#2*Ac3) + (l6 L)*(-a3 + c3)/Ac3) - (l6 L)*a1 + (l6 L)*c1)/Ac);
    (* 155 *) U i3 2 i3 3 ((E44*(Ac2*(-b2/(#2*Ac2) + (l6 L)*(b2 - d2)/Ac2) + Ac3*(d3/(#2*Ac3) + (l6 L)*(b3 - d3)/Ac3) + (l6 L)*b1 - (l6 L)*d1) + E45*(Ac2*(a2/(#2*Ac2) + (l6 L)*(-a2 + c2)/Ac2) + Ac3*(-c3/(#2*Ac3) + (l6 L)*(-a3 + c3)/Ac3) - (l6 L)*a1 + (l6 L)*c1))*((l6 L)*Ac1 + Ac2*((l6 L) - b2*c2/(#4*Ac2)) + Ac3*((l6 L) + a3*d3/(#4*Ac3)))/Ac + (E45*(Ac2*(-b2/(#2*Ac2) + (l6 L)*(b2 - d2)/Ac2) + Ac3*(d3/(#2*Ac3) + (l6 L)*(b3 - d3)/Ac3) + (l6 L)*b1 - (l6 L)*d1) + E55*(Ac2*(a2/(#2*Ac2) + (l6 L)*(-a2 + c2)/Ac2) + Ac3*(-c3/(#2*Ac3) + (l6 L)*(-a3 + c3)/Ac3) - (l6 L)*a1 + (l6 L)*c1))*(a2*c2/#4 - a3*c3/#4)/Ac);
    (* 156 *) U i3 2 i3 4 ((E44*(Ac2*(-b2/(#2*Ac2) + (l6 L)*(b2 - d2)/Ac2) + Ac3*(d3/(#2*Ac3) + (l6 L)*(b3 - d3)/Ac3) + (l6 L)*b1 - (l6 L)*d1) + E45*(Ac2*(a2/(#2*Ac2) + (l6 L)*(-a2 + c2)/Ac2) + Ac3*(-c3/(#2*Ac3) + (l6 L)*(-a3 + c3)/Ac3) - (l6 L)*a1 + (l6 L)*c1))*(-b2*d2/#4 + b3*d3/#4)/Ac + (E45*(Ac2*(-b2/(#2*Ac2) + (l6 L)*(b2 - d2)/Ac2) + Ac3*(d3/(#2*Ac3) + (l6 L)*(b3 - d3)/Ac3) + (l6 L)*b1 - (l6 L)*d1) + E55*(Ac2*(a2/(#2*Ac2) + (l6 L)*(-a2 + c2)/Ac2) + Ac3*(-c3/(#2*Ac3) + (l6 L)*(-a3 + c3)/Ac3) - (l6 L)*a1 + (l6 L)*c1))*((l6 L)*Ac1 + Ac2*((l6 L) + a2*d2/(#4*Ac2)) + Ac3*((l6 L) - b3*c3/(#4*Ac3)))/Ac);
    (* 157 *) U i3 3 i1 2 ((E44*((l6 L)*Ac1 + Ac2*((l6 L) - b2*c2/(#4*Ac2)) + Ac3*((l6 L) + a3*d3/(#4*Ac3))) + E45*(a2*c2/#4 - a3*c3/#4))*(Ac1*(d1/(#2*Ac1) + (l6 L)*(b1 - d1)/Ac1) + Ac3*(-b3/(#2*Ac3) + (l6 L)*(b3 - d3)/Ac3) + (l6 L)*b2 - (l6 L)*d2)/Ac + (E45*((l6 L)*Ac1 + Ac2*((l6 L) - b2*c2/(#4*Ac2)) + Ac3*((l6 L) + a3*d3/(#4*Ac3))) + E55*(a2*c2/#4 - a3*c3/#4))*(Ac1*(-c1/(#2*Ac1) + (l6 L)*(-a1 + c1)/Ac1) + Ac3*(a3/(#2*Ac3) + (l6 L)*(-a3 + c3)/Ac3) - (l6 L)*a2 + (l6 L)*c2)/Ac);
    (* 158 *) U i3 3 i1 3 ((E44*((l6 L)*Ac1 + Ac2*((l6 L) - b2*c2/(#4*Ac2)) + Ac3*((l6 L) + a3*d3/(#4*Ac3))) + E45*(a2*c2/#4 - a3*c3/#4))*(Ac1*((l6 L) + a1*d1/(#4*Ac1)) + (l6 L)*Ac2 + Ac3*((l6 L) - b3*c3/(#4*Ac3)))/Ac + (E45*((l6 L)*Ac1 + Ac2*((l6 L) - b2*c2/(#4*Ac2)) + Ac3*((l6 L) + a3*d3/(#4*Ac3))) + E55*(a2*c2/#4 - a3*c3/#4))*(-a1*c1/#4 + a3*c3/#4)/Ac);
    (* 159 *) U i3 3 i1 4 ((E44*((l6 L)*Ac1 + Ac2*((l6 L) - b2*c2/(#4*Ac2)) + Ac3*((l6 L) + a3*d3/(#4*Ac3))) + E45*(a2*c2/#4 - a3*c3/#4))*(b1*d1/#4 - b3*d3/#4)/Ac + (E45*((l6 L)*Ac1 + Ac2*((l6 L) - b2*c2/(#4*Ac2)) + Ac3*((l6 L) + a3*d3/(#4*Ac3))) + E55*(a2*c2/#4 - a3*c3/#4))*(Ac1*((l6 L) - b1*c1/(#4*Ac1)) + (l6 L)*Ac2 + Ac3*((l6 L) + a3*d3/(#4*Ac3)))/Ac);
    (* 160 *) U i3 3 i2 2 ((E44*((l6 L)*Ac1 + Ac2*((l6 L) - b2*c2/(#4*Ac2)) + Ac3*((l6 L) + a3*d3/(#4*Ac3))) + E45*(a2*c2/#4 - a3*c3/#4))*(Ac1*(-b1/(#2*Ac1) + (l6 L)*(b1 - d1)/Ac1) + Ac2*(d2/(#2*Ac2) + (l6 L)*(b2 - d2)/Ac2) + (l6 L)*b3 - (l6 L)*d3)/Ac + (E45*((l6 L)*Ac1 + Ac2*((l6 L) - b2*c2/(#4*Ac2)) + Ac3*((l6 L) + a3*d3/(#4*Ac3))) + E55*(a2*c2/#4 - a3*c3/#4))*(Ac1*(a1/(#2*Ac1) + (l6 L)*(-a1 + c1)/Ac1) + Ac2*(-c2/(#2*Ac2) + (l6 L)*(-a2 + c2)/Ac2) - (l6 L)*a3 + (l6 L)*c3)/Ac);
    (* 161 *) U i3 3 i2 3 ((E44*((l6 L)*Ac1 + Ac2*((l6 L) - b2*c2/(#4*Ac2)) + Ac3*((l6 L) + a3*d3/(#4*Ac3))) + E45*(a2*c2/#4 - a3*c3/#4))*(Ac1*((l6 L) - b1*c1/(#4*Ac1)) + Ac2*((l6 L) + a2*d2/(#4*Ac2)) + (l6 L)*Ac3)/Ac + (E45*((l6 L)*Ac1 + Ac2*((l6 L) - b2*c2/(#4*Ac2)) + Ac3*((l6 L) + a3*d3/(#4*Ac3))) + E55*(a2*c2/#4 - a3*c3/#4))*(a1*c1/#4 - a2*c2/#4)/Ac);
    (* 162 *) U i3 3 i2 4 ((E44*((l6 L)*Ac1 + Ac2*((l6 L) - b2*c2/(#4*Ac2)) + Ac3*((l6 L) + a3*d3/(#4*Ac3))) + E45*(a2*c2/#4 - a3*c3/#4))*(-b1*d1/#4 + b2*d2/#4)/Ac + (E45*((l6 L)*Ac1 + Ac2*((l6 L) - b2*c2/(#4*Ac2)) + Ac3*((l6 L) + a3*d3/(#4*Ac3))) + E55*(a2*c2/#4 - a3*c3/#4))*(Ac1*((l6 L) + a1*d1/(#4*Ac1)) + Ac2*((l6 L) - b2*c2/(#4*Ac2)) + (l6 L)*Ac3)/Ac);
    (* 163 *) U i3 3 i3 2 ((E44*((l6 L)*Ac1 + Ac2*((l6 L) - b2*c2/(#4*Ac2)) + Ac3*((l6 L) + a3*d3/(#4*Ac3))) + E45*(a2*c2/#4 - a3*c3/#4))*(Ac2*(-b2/(#2*Ac2) + (l6 L)*(b2 - d2)/Ac2) + Ac3*(d3/(#2*Ac3) + (l6 L)*(b3 - d3)/Ac3) + (l6 L)*b1 - (l6 L)*d1)/Ac + (E45*((l6 L)*Ac1 + Ac2*((l6 L) - b2*c2/(#4*Ac2)) + Ac3*((l6 L) + a3*d3/(#4*Ac3))) + E55*(a2*c2/#4 - a3*c3/#4))*(Ac2*(a2/(#2*Ac2) + (l6 L)*(-a2 + c2)/Ac2) + Ac3*(-c3/(#2*Ac3) + (l6 L)*(-a3 + c3)/Ac3) - (l6 L)*a1 + (l6 L)*c1)/Ac);
    (* 164 *) U i3 3 i3 3 ((E44*((l6 L)*Ac1 + Ac2*((l6 L) - b2*c2/(#4*Ac2)) + Ac3*((l6 L) + a3*d3/(#4*Ac3))) + E45*(a2*c2/#4 - a3*c3/#4))*((l6 L)*Ac1 + Ac2*((l6 L) - b2*c2/(#4*Ac2)) + Ac3*((l6 L) + a3*d3/(#4*Ac3)))/Ac + (E45*((l6 L)*Ac1 + Ac2*((l6 L) - b2*c2/(#4*Ac2)) + Ac3*((l6 L) + a3*d3/(#4*Ac3))) + E55*(a2*c2/#4 - a3*c3/#4))*(a2*c2/#4 - a3*c3/#4)/Ac);
    (* 165 *) U i3 3 i3 4 ((E44*((l6 L)*Ac1 + Ac2*((l6 L) - b2*c2/(#4*Ac2)) + Ac3*((l6 L) + a3*d3/(#4*Ac3))) + E45*(a2*c2/#4 - a3*c3/#4))*(-b2*d2/#4 + b3*d3/#4)/Ac + (E45*((l6 L)*Ac1 + Ac2*((l6 L) - b2*c2/(#4*Ac2)) + Ac3*((l6 L) + a3*d3/(#4*Ac3))) + E55*(a2*c2/#4 - a3*c3/#4))*((l6 L)*Ac1 + Ac2*((l6 L) + a2*d2/(#4*Ac2)) + Ac3*((l6 L) - b3*c3/(#4*Ac3)))/Ac);
    (* 166 *) U i3 4 i1 2 ((E44*(-b2*d2/#4 + b3*d3/#4) + E45*((l6 L)*Ac1 + Ac2*((l6 L) + a2*d2/(#4*Ac2)) + Ac3*((l6 L) - b3*c3/(#4*Ac3))))*(Ac1*(d1/(#2*Ac1) + (l6 L)*(b1 - d1)/Ac1) + Ac3*(-b3/(#2*Ac3) + (l6 L)*(b3 - d3)/Ac3) + (l6 L)*b2 - (l6 L)*d2)/Ac + (E45*(-b2*d2/#4 + b3*d3/#4) + E55*((l6 L)*Ac1 + Ac2*((l6 L) + a2*d2/(#4*Ac2)) + Ac3*((l6 L) - b3*c3/(#4*Ac3))))*(Ac1*(-c1/(#2*Ac1) + (l6 L)*(-a1 + c1)/Ac1) + Ac3*(a3/(#2*Ac3) + (l6 L)*(-a3 + c3)/Ac3) - (l6 L)*a2 + (l6 L)*c2)/Ac);
    (* 167 *) U i3 4 i1 3 ((E44*(-b2*d2/#4 + b3*d3/#4) + E45*((l6 L)*Ac1 + Ac2*((l6 L) + a2*d2/(#4*Ac2)) + Ac3*((l6 L) - b3*c3/(#4*Ac3))))*(Ac1*((l6 L) + a1*d1/(#4*Ac1)) + (l6 L)*Ac2 + Ac3*((l6 L) - b3*c3/(#4*Ac3)))/Ac + (E45*(-b2*d2/#4 + b3*d3/#4) + E55*((l6 L)*Ac1 + Ac2*((l6 L) + a2*d2/(#4*Ac2)) + Ac3*((l6 L) - b3*c3/(#4*Ac3))))*(-a1*c1/#4 + a3*c3/#4)/Ac);
    (* 168 *) U i3 4 i1 4 ((E44*(-b2*d2/#4 + b3*d3/#4) + E45*((l6 L)*Ac1 + Ac2*((l6 L) + a2*d2/(#4*Ac2)) + Ac3*((l6 L) - b3*c3/(#4*Ac3))))*(b1*d1/#4 - b3*d3/#4)/Ac + (E45*(-b2*d2/#4 + b3*d3/#4) + E55*((l6 L)*Ac1 + Ac2*((l6 L) + a2*d2/(#4*Ac2)) + Ac3*((l6 L) - b3*c3/(#4*Ac3))))*(Ac1*((l6 L) - b1*c1/(#4*Ac1)) + (l6 L)*Ac2 + Ac3*((l6 L) + a3*d3/(#4*Ac3)))/Ac);
    (* 169 *) U i3 4 i2 2 ((E44*(-b2*d2/#4 + b3*d3/#4) + E45*((l6 L)*Ac1 + Ac2*((l6 L) + a2*d2/(#4*Ac2)) + Ac3*((l6 L) - b3*c3/(#4*Ac3))))*(Ac1*(-b1/(#2*Ac1) + (l6 L)*(b1 - d1)/Ac1) + Ac2*(d2/(#2*Ac2) + (l6 L)*(b2 - d2)/Ac2) + (l6 L)*b3 - (l6 L)*d3)/Ac + (E45*(-b2*d2/#4 + b3*d3/#4) + E55*((l6 L)*Ac1 + Ac2*((l6 L) + a2*d2/(#4*Ac2)) + Ac3*((l6 L) - b3*c3/(#4*Ac3))))*(Ac1*(a1/(#2*Ac1) + (l6 L)*(-a1 + c1)/Ac1) + Ac2*(-c2/(#2*Ac2) + (l6 L)*(-a2 + c2)/Ac2) - (l6 L)*a3 + (l6 L)*c3)/Ac);
    (* 170 *) U i3 4 i2 3 ((E44*(-b2*d2/#4 + b3*d3/#4) + E45*((l6 L)*Ac1 + Ac2*((l6 L) + a2*d2/(#4*Ac2)) + Ac3*((l6 L) - b3*c3/(#4*Ac3))))*(Ac1*((l6 L) - b1*c1/(#4*Ac1)) + Ac2*((l6 L) + a2*d2/(#4*Ac2)) + (l6 L)*Ac3)/Ac + (E45*(-b2*d2/#4 + b3*d3/#4) + E55*((l6 L)*Ac1 + Ac2*((l6 L) + a2*d2/(#4*Ac2)) + Ac3*((l6 L) - b3*c3/(#4*Ac3))))*(a1*c1/#4 - a2*c2/#4)/Ac);
    (* 171 *) U i3 4 i2 4 ((E44*(-b2*d2/#4 + b3*d3/#4) + E45*((l6 L)*Ac1 + Ac2*((l6 L) + a2*d2/(#4*Ac2)) + Ac3*((l6 L) - b3*c3/(#4*Ac3))))*(-b1*d1/#4 + b2*d2/#4)/Ac + (E45*(-b2*d2/#4 + b3*d3/#4) + E55*((l6 L)*Ac1 + Ac2*((l6 L) + a2*d2/(#4*Ac2)) + Ac3*((l6 L) - b3*c3/(#4*Ac3))))*(Ac1*((l6 L) + a1*d1/(#4*Ac1)) + Ac2*((l6 L) - b2*c2/(#4*Ac2)) + (l6 L)*Ac3)/Ac);
    (* 172 *) U i3 4 i3 2 ((E44*(-b2*d2/#4 + b3*d3/#4) + E45*((l6 L)*Ac1 + Ac2*((l6 L) + a2*d2/(#4*Ac2)) + Ac3*((l6 L) - b3*c3/(#4*Ac3))))*(Ac2*(-b2/(#2*Ac2) + (l6 L)*(b2 - d2)/Ac2) + Ac3*(d3/(#2*Ac3) + (l6 L)*(b3 - d3)/Ac3) + (l6 L)*b1 - (l6 L)*d1)/Ac + (E45*(-b2*d2/#4 + b3*d3/#4) + E55*((l6 L)*Ac1 + Ac2*((l6 L) + a2*d2/(#4*Ac2)) + Ac3*((l6 L) - b3*c3/(#4*Ac3))))*(Ac2*(a2/(#2*Ac2) + (l6 L)*(-a2 + c2)/Ac2) + Ac3*(-c3/(#2*Ac3) + (l6 L)*(-a3 + c3)/Ac3) - (l6 L)*a1 + (l6 L)*c1)/Ac);
    (* 173 *) U i3 4 i3 3 ((E44*(-b2*d2/#4 + b3*d3/#4) + E45*((l6 L)*Ac1 + Ac2*((l6 L) + a2*d2/(#4*Ac2)) + Ac3*((l6 L) - b3*c3/(#4*Ac3))))*((l6 L)*Ac1 + Ac2*((l6 L) - b2*c2/(#4*Ac2)) + Ac3*((l6 L) + a3*d3/(#4*Ac3)))/Ac + (E45*(-b2*d2/#4 + b3*d3/#4) + E55*((l6 L)*Ac1 + Ac2*((l6 L) + a2*d2/(#4*Ac2)) + Ac3*((l6 L) - b3*c3/(#4*Ac3))))*(a2*c2/#4 - a3*c3/#4)/Ac);
    (* 174 *) U i3 4 i3 4 ((E44*(-b2*d2/#4 + b3*d3/#4) + E45*((l6 L)*Ac1 + Ac2*((l6 L) + a2*d2/(#4*Ac2)) + Ac3*((l6 L) - b3*c3/(#4*Ac3))))*(-b2*d2/#4 + b3*d3/#4)/Ac + (E45*(-b2*d2/#4 + b3*d3/#4) + E55*((l6 L)*Ac1 + Ac2*((l6 L) + a2*d2/(#4*Ac2)) + Ac3*((l6 L) - b3*c3/(#4*Ac3))))*((l6 L)*Ac1 + Ac2*((l6 L) + a2*d2/(#4*Ac2)) + Ac3*((l6 L) - b3*c3/(#4*Ac3)))/Ac)
  ].
End Gen.
