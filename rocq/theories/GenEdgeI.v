(** Generated by tools/gen_updates.py from
    meshless/espim/plate2d_add_k0s_edge_based.py, lines 209-352 (144 statements).
    Do not edit.  One element (row, column, increment) per statement, in source order;
    right hand sides verbatim. *)
From Coq Require Import ZArith List.
From Verif Require Import Num.
Import ListNotations.

Section Gen.
  Context {T : Type} {N : Num T}.
  Declare Scope gen_scope.
  Delimit Scope gen_scope with gen.
  Local Notation "a + b" := (@nadd T N a b) : gen_scope.
  Local Notation "a - b" := (@nsub T N a b) : gen_scope.
  Local Notation "a * b" := (@nmul T N a b) : gen_scope.
  Local Notation "a / b" := (@ndiv T N a b) : gen_scope.
  Local Notation "- a" := (@nopp T N a) : gen_scope.
  Local Notation "# k" := (@nofZ T N k%Z) (at level 1, format "# k") : gen_scope.
  Local Notation U i a j b e := ((i * 5 + a)%Z, (j * 5 + b)%Z, e%gen) (only parsing).

  (** meshless/espim/plate2d_add_k0s_edge_based.py:209-352 *)
  Definition edgei_entries (L : lits T) (i1 i2 i3 i4 : Z)
    (Ac Ac1 Ac2 E44 E45 E55 a1 b1 c1 d1 a2 b2 c2 d2 : T) : list (Z * Z * T) := [
    (* 209 *) U i1 2 i1 2 ((Ac1*(-c1/(#2*Ac1) + (l6 L)*(-a1 + c1)/Ac1) + Ac2*(-(l6 L)*c2/Ac2 + (-a2 + c2)/(#2*Ac2)))*(E45*(Ac1*(d1/(#2*Ac1) + (l6 L)*(b1 - d1)/Ac1) + Ac2*((l6 L)*d2/Ac2 + (b2 - d2)/(#2*Ac2))) + E55*(Ac1*(-c1/(#2*Ac1) + (l6 L)*(-a1 + c1)/Ac1) + Ac2*(-(l6 L)*c2/Ac2 + (-a2 + c2)/(#2*Ac2))))/Ac + (Ac1*(d1/(#2*Ac1) + (l6 L)*(b1 - d1)/Ac1) + Ac2*((l6 L)*d2/Ac2 + (b2 - d2)/(#2*Ac2)))*(E44*(Ac1*(d1/(#2*Ac1) + (l6 L)*(b1 - d1)/Ac1) + Ac2*((l6 L)*d2/Ac2 + (b2 - d2)/(#2*Ac2))) + E45*(Ac1*(-c1/(#2*Ac1) + (l6 L)*(-a1 + c1)/Ac1) + Ac2*(-(l6 L)*c2/Ac2 + (-a2 + c2)/(#2*Ac2))))/Ac);
    (* 210 *) U i1 2 i1 3 ((Ac1*((l6 L) + a1*d1/(#4*Ac1)) + Ac2*(#1/#2 + (l12 L)*a2*d2/Ac2))*(E44*(Ac1*(d1/(#2*Ac1) + (l6 L)*(b1 - d1)/Ac1) + Ac2*((l6 L)*d2/Ac2 + (b2 - d2)/(#2*Ac2))) + E45*(Ac1*(-c1/(#2*Ac1) + (l6 L)*(-a1 + c1)/Ac1) + Ac2*(-(l6 L)*c2/Ac2 + (-a2 + c2)/(#2*Ac2))))/Ac + (E45*(Ac1*(d1/(#2*Ac1) + (l6 L)*(b1 - d1)/Ac1) + Ac2*((l6 L)*d2/Ac2 + (b2 - d2)/(#2*Ac2))) + E55*(Ac1*(-c1/(#2*Ac1) + (l6 L)*(-a1 + c1)/Ac1) + Ac2*(-(l6 L)*c2/Ac2 + (-a2 + c2)/(#2*Ac2))))*(-a1*c1/#4 - (l12 L)*a2*c2)/Ac);
    (* 211 *) U i1 2 i1 4 ((Ac1*((l6 L) - b1*c1/(#4*Ac1)) + Ac2*(#1/#2 - (l12 L)*b2*c2/Ac2))*(E45*(Ac1*(d1/(#2*Ac1) + (l6 L)*(b1 - d1)/Ac1) + Ac2*((l6 L)*d2/Ac2 + (b2 - d2)/(#2*Ac2))) + E55*(Ac1*(-c1/(#2*Ac1) + (l6 L)*(-a1 + c1)/Ac1) + Ac2*(-(l6 L)*c2/Ac2 + (-a2 + c2)/(#2*Ac2))))/Ac + (E44*(Ac1*(d1/(#2*Ac1) + (l6 L)*(b1 - d1)/Ac1) + Ac2*((l6 L)*d2/Ac2 + (b2 - d2)/(#2*Ac2))) + E45*(Ac1*(-c1/(#2*Ac1) + (l6 L)*(-a1 + c1)/Ac1) + Ac2*(-(l6 L)*c2/Ac2 + (-a2 + c2)/(#2*Ac2))))*(b1*d1/#4 + (l12 L)*b2*d2)/Ac);
    (* 212 *) U i1 2 i2 2 ((Ac1*(a1/(#2*Ac1) + (l6 L)*(-a1 + c1)/Ac1) + Ac2*(a2/(#2*Ac2) - (l6 L)*c2/Ac2))*(E45*(Ac1*(d1/(#2*Ac1) + (l6 L)*(b1 - d1)/Ac1) + Ac2*((l6 L)*d2/Ac2 + (b2 - d2)/(#2*Ac2))) + E55*(Ac1*(-c1/(#2*Ac1) + (l6 L)*(-a1 + c1)/Ac1) + Ac2*(-(l6 L)*c2/Ac2 + (-a2 + c2)/(#2*Ac2))))/Ac + (Ac1*(-b1/(#2*Ac1) + (l6 L)*(b1 - d1)/Ac1) + Ac2*(-b2/(#2*Ac2) + (l6 L)*d2/Ac2))*(E44*(Ac1*(d1/(#2*Ac1) + (l6 L)*(b1 - d1)/Ac1) + Ac2*((l6 L)*d2/Ac2 + (b2 - d2)/(#2*Ac2))) + E45*(Ac1*(-c1/(#2*Ac1) + (l6 L)*(-a1 + c1)/Ac1) + Ac2*(-(l6 L)*c2/Ac2 + (-a2 + c2)/(#2*Ac2))))/Ac);
    (* 213 *) U i1 2 i2 3 ((Ac1*((l6 L) - b1*c1/(#4*Ac1)) + Ac2*((l12 L)*a2*d2/Ac2 - b2*c2/(#4*Ac2)))*(E44*(Ac1*(d1/(#2*Ac1) + (l6 L)*(b1 - d1)/Ac1) + Ac2*((l6 L)*d2/Ac2 + (b2 - d2)/(#2*Ac2))) + E45*(Ac1*(-c1/(#2*Ac1) + (l6 L)*(-a1 + c1)/Ac1) + Ac2*(-(l6 L)*c2/Ac2 + (-a2 + c2)/(#2*Ac2))))/Ac + (E45*(Ac1*(d1/(#2*Ac1) + (l6 L)*(b1 - d1)/Ac1) + Ac2*((l6 L)*d2/Ac2 + (b2 - d2)/(#2*Ac2))) + E55*(Ac1*(-c1/(#2*Ac1) + (l6 L)*(-a1 + c1)/Ac1) + Ac2*(-(l6 L)*c2/Ac2 + (-a2 + c2)/(#2*Ac2))))*(a1*c1/#4 + (l6 L)*a2*c2)/Ac);
    (* 214 *) U i1 2 i2 4 ((Ac1*((l6 L) + a1*d1/(#4*Ac1)) + Ac2*(a2*d2/(#4*Ac2) - (l12 L)*b2*c2/Ac2))*(E45*(Ac1*(d1/(#2*Ac1) + (l6 L)*(b1 - d1)/Ac1) + Ac2*((l6 L)*d2/Ac2 + (b2 - d2)/(#2*Ac2))) + E55*(Ac1*(-c1/(#2*Ac1) + (l6 L)*(-a1 + c1)/Ac1) + Ac2*(-(l6 L)*c2/Ac2 + (-a2 + c2)/(#2*Ac2))))/Ac + (E44*(Ac1*(d1/(#2*Ac1) + (l6 L)*(b1 - d1)/Ac1) + Ac2*((l6 L)*d2/Ac2 + (b2 - d2)/(#2*Ac2))) + E45*(Ac1*(-c1/(#2*Ac1) + (l6 L)*(-a1 + c1)/Ac1) + Ac2*(-(l6 L)*c2/Ac2 + (-a2 + c2)/(#2*Ac2))))*(-b1*d1/#4 - (l6 L)*b2*d2)/Ac);
    (* 215 *) U i1 2 i3 2 ((-(l6 L)*a1 + (l6 L)*c1)*(E45*(Ac1*(d1/(#2*Ac1) + (l6 L)*(b1 - d1)/Ac1) + Ac2*((l6 L)*d2/Ac2 + (b2 - d2)/(#2*Ac2))) + E55*(Ac1*(-c1/(#2*Ac1) + (l6 L)*(-a1 + c1)/Ac1) + Ac2*(-(l6 L)*c2/Ac2 + (-a2 + c2)/(#2*Ac2))))/Ac + ((l6 L)*b1 - (l6 L)*d1)*(E44*(Ac1*(d1/(#2*Ac1) + (l6 L)*(b1 - d1)/Ac1) + Ac2*((l6 L)*d2/Ac2 + (b2 - d2)/(#2*Ac2))) + E45*(Ac1*(-c1/(#2*Ac1) + (l6 L)*(-a1 + c1)/Ac1) + Ac2*(-(l6 L)*c2/Ac2 + (-a2 + c2)/(#2*Ac2))))/Ac);
    (* 216 *) U i1 2 i3 3 ((l6 L)*Ac1*(E44*(Ac1*(d1/(#2*Ac1) + (l6 L)*(b1 - d1)/Ac1) + Ac2*((l6 L)*d2/Ac2 + (b2 - d2)/(#2*Ac2))) + E45*(Ac1*(-c1/(#2*Ac1) + (l6 L)*(-a1 + c1)/Ac1) + Ac2*(-(l6 L)*c2/Ac2 + (-a2 + c2)/(#2*Ac2))))/Ac);
    (* 217 *) U i1 2 i3 4 ((l6 L)*Ac1*(E45*(Ac1*(d1/(#2*Ac1) + (l6 L)*(b1 - d1)/Ac1) + Ac2*((l6 L)*d2/Ac2 + (b2 - d2)/(#2*Ac2))) + E55*(Ac1*(-c1/(#2*Ac1) + (l6 L)*(-a1 + c1)/Ac1) + Ac2*(-(l6 L)*c2/Ac2 + (-a2 + c2)/(#2*Ac2))))/Ac);
    (* 218 *) U i1 2 i4 2 (-(l6 L)*c2*(E45*(Ac1*(d1/(#2*Ac1) + (l6 L)*(b1 - d1)/Ac1) + Ac2*((l6 L)*d2/Ac2 + (b2 - d2)/(#2*Ac2))) + E55*(Ac1*(-c1/(#2*Ac1) + (l6 L)*(-a1 + c1)/Ac1) + Ac2*(-(l6 L)*c2/Ac2 + (-a2 + c2)/(#2*Ac2))))/Ac + (l6 L)*d2*(E44*(Ac1*(d1/(#2*Ac1) + (l6 L)*(b1 - d1)/Ac1) + Ac2*((l6 L)*d2/Ac2 + (b2 - d2)/(#2*Ac2))) + E45*(Ac1*(-c1/(#2*Ac1) + (l6 L)*(-a1 + c1)/Ac1) + Ac2*(-(l6 L)*c2/Ac2 + (-a2 + c2)/(#2*Ac2))))/Ac);
    (* 219 *) U i1 2 i4 3 (-(l12 L)*a2*c2*(E45*(Ac1*(d1/(#2*Ac1) + (l6 L)*(b1 - d1)/Ac1) + Ac2*((l6 L)*d2/Ac2 + (b2 - d2)/(#2*Ac2))) + E55*(Ac1*(-c1/(#2*Ac1) + (l6 L)*(-a1 + c1)/Ac1) + Ac2*(-(l6 L)*c2/Ac2 + (-a2 + c2)/(#2*Ac2))))/Ac + (l12 L)*a2*d2*(E44*(Ac1*(d1/(#2*Ac1) + (l6 L)*(b1 - d1)/Ac1) + Ac2*((l6 L)*d2/Ac2 + (b2 - d2)/(#2*Ac2))) + E45*(Ac1*(-c1/(#2*Ac1) + (l6 L)*(-a1 + c1)/Ac1) + Ac2*(-(l6 L)*c2/Ac2 + (-a2 + c2)/(#2*Ac2))))/Ac);
    (* 220 *) U i1 2 i4 4 (-(l12 L)*b2*c2*(E45*(Ac1*(d1/(#2*Ac1) + (l6 L)*(b1 - d1)/Ac1) + Ac2*((l6 L)*d2/Ac2 + (b2 - d2)/(#2*Ac2))) + E55*(Ac1*(-c1/(#2*Ac1) + (l6 L)*(-a1 + c1)/Ac1) + Ac2*(-(l6 L)*c2/Ac2 + (-a2 + c2)/(#2*Ac2))))/Ac + (l12 L)*b2*d2*(E44*(Ac1*(d1/(#2*Ac1) + (l6 L)*(b1 - d1)/Ac1) + Ac2*((l6 L)*d2/Ac2 + (b2 - d2)/(#2*Ac2))) + E45*(Ac1*(-c1/(#2*Ac1) + (l6 L)*(-a1 + c1)/Ac1) + Ac2*(-(l6 L)*c2/Ac2 + (-a2 + c2)/(#2*Ac2))))/Ac);
    (* 221 *) U i1 3 i1 2 ((Ac1*(-c1/(#2*Ac1) + (l6 L)*(-a1 + c1)/Ac1) + Ac2*(-(l6 L)*c2/Ac2 + (-a2 + c2)/(#2*Ac2)))*(E45*(Ac1*((l6 L) + a1*d1/(#4*Ac1)) + Ac2*(#1/#2 + (l12 L)*a2*d2/Ac2)) + E55*(-a1*c1/#4 - (l12 L)*a2*c2))/Ac + (Ac1*(d1/(#2*Ac1) + (l6 L)*(b1 - d1)/Ac1) + Ac2*((l6 L)*d2/Ac2 + (b2 - d2)/(#2*Ac2)))*(E44*(Ac1*((l6 L) + a1*d1/(#4*Ac1)) + Ac2*(#1/#2 + (l12 L)*a2*d2/Ac2)) + E45*(-a1*c1/#4 - (l12 L)*a2*c2))/Ac);
    (* 222 *) U i1 3 i1 3 ((Ac1*((l6 L) + a1*d1/(#4*Ac1)) + Ac2*(#1/#2 + (l12 L)*a2*d2/Ac2))*(E44*(Ac1*((l6 L) + a1*d1/(#4*Ac1)) + Ac2*(#1/#2 + (l12 L)*a2*d2/Ac2)) + E45*(-a1*c1/#4 - (l12 L)*a2*c2))/Ac + (E45*(Ac1*((l6 L) + a1*d1/(#4*Ac1)) + Ac2*(#1/#2 + (l12 L)*a2*d2/Ac2)) + E55*(-a1*c1/#4 - (l12 L)*a2*c2))*(-a1*c1/#4 - (l12 L)*a2*c2)/Ac);
    (* 223 *) U i1 3 i1 4 ((Ac1*((l6 L) - b1*c1/(#4*Ac1)) + Ac2*(#1/#2 - (l12 L)*b2*c2/Ac2))*(E45*(Ac1*((l6 L) + a1*d1/(#4*Ac1)) + Ac2*(#1/#2 + (l12 L)*a2*d2/Ac2)) + E55*(-a1*c1/#4 - (l12 L)*a2*c2))/Ac + (E44*(Ac1*((l6 L) + a1*d1/(#4*Ac1)) + Ac2*(#1/#2 + (l12 L)*a2*d2/Ac2)) + E45*(-a1*c1/#4 - (l12 L)*a2*c2))*(b1*d1/#4 + (l12 L)*b2*d2)/Ac);
    (* 224 *) U i1 3 i2 2 ((Ac1*(a1/(#2*Ac1) + (l6 L)*(-a1 + c1)/Ac1) + Ac2*(a2/(#2*Ac2) - (l6 L)*c2/Ac2))*(E45*(Ac1*((l6 L) + a1*d1/(#4*Ac1)) + Ac2*(#1/#2 + (l12 L)*a2*d2/Ac2)) + E55*(-a1*c1/#4 - (l12 L)*a2*c2))/Ac + (Ac1*(-b1/(#2*Ac1) + (l6 L)*(b1 - d1)/Ac1) + Ac2*(-b2/(#2*Ac2) + (l6 L)*d2/Ac2))*(E44*(Ac1*((l6 L) + a1*d1/(#4*Ac1)) + Ac2*(#1/#2 + (l12 L)*a2*d2/Ac2)) + E45*(-a1*c1/#4 - (l12 L)*a2*c2))/Ac);
    (* 225 *) U i1 3 i2 3 ((Ac1*((l6 L) - b1*c1/(#4*Ac1)) + Ac2*((l12 L)*a2*d2/Ac2 - b2*c2/(#4*Ac2)))*(E44*(Ac1*((l6 L) + a1*d1/(#4*Ac1)) + Ac2*(#1/#2 + (l12 L)*a2*d2/Ac2)) + E45*(-a1*c1/#4 - (l12 L)*a2*c2))/Ac + (E45*(Ac1*((l6 L) + a1*d1/(#4*Ac1)) + Ac2*(#1/#2 + (l12 L)*a2*d2/Ac2)) + E55*(-a1*c1/#4 - (l12 L)*a2*c2))*(a1*c1/#4 + (l6 L)*a2*c2)/Ac);
    (* 226 *) U i1 3 i2 4 ((Ac1*((l6 L) + a1*d1/(#4*Ac1)) + Ac2*(a2*d2/(#4*Ac2) - (l12 L)*b2*c2/Ac2))*(E45*(Ac1*((l6 L) + a1*d1/(#4*Ac1)) + Ac2*(#1/#2 + (l12 L)*a2*d2/Ac2)) + E55*(-a1*c1/#4 - (l12 L)*a2*c2))/Ac + (E44*(Ac1*((l6 L) + a1*d1/(#4*Ac1)) + Ac2*(#1/#2 + (l12 L)*a2*d2/Ac2)) + E45*(-a1*c1/#4 - (l12 L)*a2*c2))*(-b1*d1/#4 - (l6 L)*b2*d2)/Ac);
    (* 227 *) U i1 3 i3 2 ((-(l6 L)*a1 + (l6 L)*c1)*(E45*(Ac1*((l6 L) + a1*d1/(#4*Ac1)) + Ac2*(#1/#2 + (l12 L)*a2*d2/Ac2)) + E55*(-a1*c1/#4 - (l12 L)*a2*c2))/Ac + ((l6 L)*b1 - (l6 L)*d1)*(E44*(Ac1*((l6 L) + a1*d1/(#4*Ac1)) + Ac2*(#1/#2 + (l12 L)*a2*d2/Ac2)) + E45*(-a1*c1/#4 - (l12 L)*a2*c2))/Ac);
    (* 228 *) U i1 3 i3 3 ((l6 L)*Ac1*(E44*(Ac1*((l6 L) + a1*d1/(#4*Ac1)) + Ac2*(#1/#2 + (l12 L)*a2*d2/Ac2)) + E45*(-a1*c1/#4 - (l12 L)*a2*c2))/Ac);
    (* 229 *) U i1 3 i3 4 ((l6 L)*Ac1*(E45*(Ac1*((l6 L) + a1*d1/(#4*Ac1)) + Ac2*(#1/#2 + (l12 L)*a2*d2/Ac2)) + E55*(-a1*c1/#4 - (l12 L)*a2*c2))/Ac);
    (* 230 *) U i1 3 i4 2 (-(l6 L)*c2*(E45*(Ac1*((l6 L) + a1*d1/(#4*Ac1)) + Ac2*(#1/#2 + (l12 L)*a2*d2/Ac2)) + E55*(-a1*c1/#4 - (l12 L)*a2*c2))/Ac + (l6 L)*d2*(E44*(Ac1*((l6 L) + a1*d1/(#4*Ac1)) + Ac2*(#1/#2 + (l12 L)*a2*d2/Ac2)) + E45*(-a1*c1/#4 - (l12 L)*a2*c2))/Ac);
    (* 231 *) U i1 3 i4 3 (-(l12 L)*a2*c2*(E45*(Ac1*((l6 L) + a1*d1/(#4*Ac1)) + Ac2*(#1/#2 + (l12 L)*a2*d2/Ac2)) + E55*(-a1*c1/#4 - (l12 L)*a2*c2))/Ac + (l12 L)*a2*d2*(E44*(Ac1*((l6 L) + a1*d1/(#4*Ac1)) + Ac2*(#1/#2 + (l12 L)*a2*d2/Ac2)) + E45*(-a1*c1/#4 - (l12 L)*a2*c2))/Ac);
    (* 232 *) U i1 3 i4 4 (-(l12 L)*b2*c2*(E45*(Ac1*((l6 L) + a1*d1/(#4*Ac1)) + Ac2*(#1/#2 + (l12 L)*a2*d2/Ac2)) + E55*(-a1*c1/#4 - (l12 L)*a2*c2))/Ac + (l12 L)*b2*d2*(E44*(Ac1*((l6 L) + a1*d1/(#4*Ac1)) + Ac2*(#1/#2 + (l12 L)*a2*d2/Ac2)) + E45*(-a1*c1/#4 - (l12 L)*a2*c2))/Ac);
    (* 233 *) U i1 4 i1 2 ((Ac1*(-c1/(#2*Ac1) + (l6 L)*(-a1 + c1)/Ac1) + Ac2*(-(l6 L)*c2/Ac2 + (-a2 + c2)/(#2*Ac2)))*(E45*(b1*d1/#4 + (l12 L)*b2*d2) + E55*(Ac1*((l6 L) - b1*c1/(#4*Ac1)) + Ac2*(#1/#2 - (l12 L)*b2*c2/Ac2)))/Ac + (Ac1*(d1/(#2*Ac1) + (l6 L)*(b1 - d1)/Ac1) + Ac2*((l6 L)*d2/Ac2 + (b2 - d2)/(#2*Ac2)))*(E44*(b1*d1/#4 + (l12 L)*b2*d2) + E45*(Ac1*((l6 L) - b1*c1/(#4*Ac1)) + Ac2*(#1/#2 - (l12 L)*b2*c2/Ac2)))/Ac);
    (* 234 *) U i1 4 i1 3 ((Ac1*((l6 L) + a1*d1/(#4*Ac1)) + Ac2*(#1/#2 + (l12 L)*a2*d2/Ac2))*(E44*(b1*d1/#4 + (l12 L)*b2*d2) + E45*(Ac1*((l6 L) - b1*c1/(#4*Ac1)) + Ac2*(#1/#2 - (l12 L)*b2*c2/Ac2)))/Ac + (E45*(b1*d1/#4 + (l12 L)*b2*d2) + E55*(Ac1*((l6 L) - b1*c1/(#4*Ac1)) + Ac2*(#1/#2 - (l12 L)*b2*c2/Ac2)))*(-a1*c1/#4 - (l12 L)*a2*c2)/Ac);
    (* 235 *) U i1 4 i1 4 ((Ac1*((l6 L) - b1*c1/(#4*Ac1)) + Ac2*(#1/#2 - (l12 L)*b2*c2/Ac2))*(E45*(b1*d1/#4 + (l12 L)*b2*d2) + E55*(Ac1*((l6 L) - b1*c1/(#4*Ac1)) + Ac2*(#1/#2 - (l12 L)*b2*c2/Ac2)))/Ac + (E44*(b1*d1/#4 + (l12 L)*b2*d2) + E45*(Ac1*((l6 L) - b1*c1/(#4*Ac1)) + Ac2*(#1/#2 - (l12 L)*b2*c2/Ac2)))*(b1*d1/#4 + (l12 L)*b2*d2)/Ac);
    (* 236 *) U i1 4 i2 2 ((Ac1*(a1/(#2*Ac1) + (l6 L)*(-a1 + c1)/Ac1) + Ac2*(a2/(#2*Ac2) - (l6 L)*c2/Ac2))*(E45*(b1*d1/#4 + (l12 L)*b2*d2) + E55*(Ac1*((l6 L) - b1*c1/(#4*Ac1)) + Ac2*(#1/#2 - (l12 L)*b2*c2/Ac2)))/Ac + (Ac1*(-b1/(#2*Ac1) + (l6 L)*(b1 - d1)/Ac1) + Ac2*(-b2/(#2*Ac2) + (l6 L)*d2/Ac2))*(E44*(b1*d1/#4 + (l12 L)*b2*d2) + E45*(Ac1*((l6 L) - b1*c1/(#4*Ac1)) + Ac2*(#1/#2 - (l12 L)*b2*c2/Ac2)))/Ac);
    (* 237 *) U i1 4 i2 3 ((Ac1*((l6 L) - b1*c1/(#4*Ac1)) + Ac2*((l12 L)*a2*d2/Ac2 - b2*c2/(#4*Ac2)))*(E44*(b1*d1/#4 + (l12 L)*b2*d2) + E45*(Ac1*((l6 L) - b1*c1/(#4*Ac1)) + Ac2*(#1/#2 - (l12 L)*b2*c2/Ac2)))/Ac + (E45*(b1*d1/#4 + (l12 L)*b2*d2) + E55*(Ac1*((l6 L) - b1*c1/(#4*Ac1)) + Ac2*(#1/#2 - (l12 L)*b2*c2/Ac2)))*(a1*c1/#4 + (l6 L)*a2*c2)/Ac);
    (* 238 *) U i1 4 i2 4 ((Ac1*((l6 L) + a1*d1/(#4*Ac1)) + Ac2*(a2*d2/(#4*Ac2) - (l12 L)*b2*c2/Ac2))*(E45*(b1*d1/#4 + (l12 L)*b2*d2) + E55*(Ac1*((l6 L) - b1*c1/(#4*Ac1)) + Ac2*(#1/#2 - (l12 L)*b2*c2/Ac2)))/Ac + (E44*(b1*d1/#4 + (l12 L)*b2*d2) + E45*(Ac1*((l6 L) - b1*c1/(#4*Ac1)) + Ac2*(#1/#2 - (l12 L)*b2*c2/Ac2)))*(-b1*d1/#4 - (l6 L)*b2*d2)/Ac);
    (* 239 *) U i1 4 i3 2 ((-(l6 L)*a1 + (l6 L)*c1)*(E45*(b1*d1/#4 + (l12 L)*b2*d2) + E55*(Ac1*((l6 L) - b1*c1/(#4*Ac1)) + Ac2*(#1/#2 - (l12 L)*b2*c2/Ac2)))/Ac + ((l6 L)*b1 - (l6 L)*d1)*(E44*(b1*d1/#4 + (l12 L)*b2*d2) + E45*(Ac1*((l6 L) - b1*c1/(#4*Ac1)) + Ac2*(#1/#2 - (l12 L)*b2*c2/Ac2)))/Ac);
    (* 240 *) U i1 4 i3 3 ((l6 L)*Ac1*(E44*(b1*d1/#4 + (l12 L)*b2*d2) + E45*(Ac1*((l6 L) - b1*c1/(#4*Ac1)) + Ac2*(#1/#2 - (l12 L)*b2*c2/Ac2)))/Ac);
    (* 241 *) U i1 4 i3 4 ((l6 L)*Ac1*(E45*(b1*d1/#4 + (l12 L)*b2*d2) + E55*(Ac1*((l6 L) - b1*c1/(#4*Ac1)) + Ac2*(#1/#2 - (l12 L)*b2*c2/Ac2)))/Ac);
    (* 242 *) U i1 4 i4 2 (-(l6 L)*c2*(E45*(b1*d1/#4 + (l12 L)*b2*d2) + E55*(Ac1*((l6 L) - b1*c1/(#4*Ac1)) + Ac2*(#1/#2 - (l12 L)*b2*c2/Ac2)))/Ac + (l6 L)*d2*(E44*(b1*d1/#4 + (l12 L)*b2*d2) + E45*(Ac1*((l6 L) - b1*c1/(#4*Ac1)) + Ac2*(#1/#2 - (l12 L)*b2*c2/Ac2)))/Ac);
    (* 243 *) U i1 4 i4 3 (-(l12 L)*a2*c2*(E45*(b1*d1/#4 + (l12 L)*b2*d2) + E55*(Ac1*((l6 L) - b1*c1/(#4*Ac1)) + Ac2*(#1/#2 - (l12 L)*b2*c2/Ac2)))/Ac + (l12 L)*a2*d2*(E44*(b1*d1/#4 + (l12 L)*b2*d2) + E45*(Ac1*((l6 L) - b1*c1/(#4*Ac1)) + Ac2*(#1/#2 - (l12 L)*b2*c2/Ac2)))/Ac);
    (* 244 *) U i1 4 i4 4 (-(l12 L)*b2*c2*(E45*(b1*d1/#4 + (l12 L)*b2*d2) + E55*(Ac1*((l6 L) - b1*c1/(#4*Ac1)) + Ac2*(#1/#2 - (l12 L)*b2*c2/Ac2)))/Ac + (l12 L)*b2*d2*(E44*(b1*d1/#4 + (l12 L)*b2*d2) + E45*(Ac1*((l6 L) - b1*c1/(#4*Ac1)) + Ac2*(#1/#2 - (l12 L)*b2*c2/Ac2)))/Ac);
    (* 245 *) U i2 2 i1 2 ((Ac1*(-c1/(#2*Ac1) + (l6 L)*(-a1 + c1)/Ac1) + Ac2*(-(l6 L)*c2/Ac2 + (-a2 + c2)/(#2*Ac2)))*(E45*(Ac1*(-b1/(#2*Ac1) + (l6 L)*(b1 - d1)/Ac1) + Ac2*(-b2/(#2*Ac2) + (l6 L)*d2/Ac2)) + E55*(Ac1*(a1/(#2*Ac1) + (l6 L)*(-a1 + c1)/Ac1) + Ac2*(a2/(#2*Ac2) - (l6 L)*c2/Ac2)))/Ac + (Ac1*(d1/(#2*Ac1) + (l6 L)*(b1 - d1)/Ac1) + Ac2*((l6 L)*d2/Ac2 + (b2 - d2)/(#2*Ac2)))*(E44*(Ac1*(-b1/(#2*Ac1) + (l6 L)*(b1 - d1)/Ac1) + Ac2*(-b2/(#2*Ac2) + (l6 L)*d2/Ac2)) + E45*(Ac1*(a1/(#2*Ac1) + (l6 L)*(-a1 + c1)/Ac1) + Ac2*(a2/(#2*Ac2) - (l6 L)*c2/Ac2)))/Ac);
    (* 246 *) U i2 2 i1 3 ((Ac1*((l6 L) + a1*d1/(#4*Ac1)) + Ac2*(#1/#2 + (l12 L)*a2*d2/Ac2))*(E44*(Ac1*(-b1/(#2*Ac1) + (l6 L)*(b1 - d1)/Ac1) + Ac2*(-b2/(#2*Ac2) + (l6 L)*d2/Ac2)) + E45*(Ac1*(a1/(#2*Ac1) + (l6 L)*(-a1 + c1)/Ac1) + Ac2*(a2/(#2*Ac2) - (l6 L)*c2/Ac2)))/Ac + (E45*(Ac1*(-b1/(#2*Ac1) + (l6 L)*(b1 - d1)/Ac1) + Ac2*(-b2/(#2*Ac2) + (l6 L)*d2/Ac2)) + E55*(Ac1*(a1/(#2*Ac1) + (l6 L)*(-a1 + c1)/Ac1) + Ac2*(a2/(#2*Ac2) - (l6 L)*c2/Ac2)))*(-a1*c1/#4 - (l12 L)*a2*c2)/Ac);
    (* 247 *) U i2 2 i1 4 ((Ac1*((l6 L) - b1*c1/(#4*Ac1)) + Ac2*(#1/#2 - (l12 L)*b2*c2/Ac2))*(E45*(Ac1*(-b1/(#2*Ac1) + (l6 L)*(b1 - d1)/Ac1) + Ac2*(-b2/(#2*Ac2) + (l6 L)*d2/Ac2)) + E55*(Ac1*(a1/(#2*Ac1) + (l6 L)*(-a1 + c1)/Ac1) + Ac2*(a2/(#2*Ac2) - (l6 L)*c2/Ac2)))/Ac + (E44*(Ac1*(-b1/(#2*Ac1) + (l6 L)*(b1 - d1)/Ac1) + Ac2*(-b2/(#2*Ac2) + (l6 L)*d2/Ac2)) + E45*(Ac1*(a1/(#2*Ac1) + (l6 L)*(-a1 + c1)/Ac1) + Ac2*(a2/(#2*Ac2) - (l6 L)*c2/Ac2)))*(b1*d1/#4 + (l12 L)*b2*d2)/Ac);
    (* 248 *) U i2 2 i2 2 ((Ac1*(a1/(#2*Ac1) + (l6 L)*(-a1 + c1)/Ac1) + Ac2*(a2/(#2*Ac2) - (l6 L)*c2/Ac2))*(E45*(Ac1*(-b1/(#2*Ac1) + (l6 L)*(b1 - d1)/Ac1) + Ac2*(-b2/(#2*Ac2) + (l6 L)*d2/Ac2)) + E55*(Ac1*(a1/(#2*Ac1) + (l6 L)*(-a1 + c1)/Ac1) + Ac2*(a2/(#2*Ac2) - (l6 L)*c2/Ac2)))/Ac + (Ac1*(-b1/(#2*Ac1) + (l6 L)*(b1 - d1)/Ac1) + Ac2*(-b2/(#2*Ac2) + (l6 L)*d2/Ac2))*(E44*(Ac1*(-b1/(#2*Ac1) + (l6 L)*(b1 - d1)/Ac1) + Ac2*(-b2/(#2*Ac2) + (l6 L)*d2/Ac2)) + E45*(Ac1*(a1/(#2*Ac1) + (l6 L)*(-a1 + c1)/Ac1) + Ac2*(a2/(#2*Ac2) - (l6 L)*c2/Ac2)))/Ac);
    (* 249 *) U i2 2 i2 3 ((Ac1*((l6 L) - b1*c1/(#4*Ac1)) + Ac2*((l12 L)*a2*d2/Ac2 - b2*c2/(#4*Ac2)))*(E44*(Ac1*(-b1/(#2*Ac1) + (l6 L)*(b1 - d1)/Ac1) + Ac2*(-b2/(#2*Ac2) + (l6 L)*d2/Ac2)) + E45*(Ac1*(a1/(#2*Ac1) + (l6 L)*(-a1 + c1)/Ac1) + Ac2*(a2/(#2*Ac2) - (l6 L)*c2/Ac2)))/Ac + (E45*(Ac1*(-b1/(#2*Ac1) + (l6 L)*(b1 - d1)/Ac1) + Ac2*(-b2/(#2*Ac2) + (l6 L)*d2/Ac2)) + E55*(Ac1*(a1/(#2*Ac1) + (l6 L)*(-a1 + c1)/Ac1) + Ac2*(a2/(#2*Ac2) - (l6 L)*c2/Ac2)))*(a1*c1/#4 + (l6 L)*a2*c2)/Ac);
    (* 250 *) U i2 2 i2 4 ((Ac1*((l6 L) + a1*d1/(#4*Ac1)) + Ac2*(a2*d2/(#4*Ac2) - (l12 L)*b2*c2/Ac2))*(E45*(Ac1*(-b1/(#2*Ac1) + (l6 L)*(b1 - d1)/Ac1) + Ac2*(-b2/(#2*Ac2) + (l6 L)*d2/Ac2)) + E55*(Ac1*(a1/(#2*Ac1) + (l6 L)*(-a1 + c1)/Ac1) + Ac2*(a2/(#2*Ac2) - (l6 L)*c2/Ac2)))/Ac + (E44*(Ac1*(-b1/(#2*Ac1) + (l6 L)*(b1 - d1)/Ac1) + Ac2*(-b2/(#2*Ac2) + (l6 L)*d2/Ac2)) + E45*(Ac1*(a1/(#2*Ac1) + (l6 L)*(-a1 + c1)/Ac1) + Ac2*(a2/(#2*Ac2) - (l6 L)*c2/Ac2)))*(-b1*d1/#4 - (l6 L)*b2*d2)/Ac);
    (* 251 *) U i2 2 i3 2 ((-(l6 L)*a1 + (l6 L)*c1)*(E45*(Ac1*(-b1/(#2*Ac1) + (l6 L)*(b1 - d1)/Ac1) + Ac2*(-b2/(#2*Ac2) + (l6 L)*d2/Ac2)) + E55*(Ac1*(a1/(#2*Ac1) + (l6 L)*(-a1 + c1)/Ac1) + Ac2*(a2/(#2*Ac2) - (l6 L)*c2/Ac2)))/Ac + ((l6 L)*b1 - (l6 L)*d1)*(E44*(Ac1*(-b1/(#2*Ac1) + (l6 L)*(b1 - d1)/Ac1) + Ac2*(-b2/(#2*Ac2) + (l6 L)*d2/Ac2)) + E45*(Ac1*(a1/(#2*Ac1) + (l6 L)*(-a1 + c1)/Ac1) + Ac2*(a2/(#2*Ac2) - (l6 L)*c2/Ac2)))/Ac);
    (* 252 *) U i2 2 i3 3 ((l6 L)*Ac1*(E44*(Ac1*(-b1/(#2*Ac1) + (l6 L)*(b1 - d1)/Ac1) + Ac2*(-b2/(#2*Ac2) + (l6 L)*d2/Ac2)) + E45*(Ac1*(a1/(#2*Ac1) + (l6 L)*(-a1 + c1)/Ac1) + Ac2*(a2/(#2*Ac2) - (l6 L)*c2/Ac2)))/Ac);
    (* 253 *) U i2 2 i3 4 ((l6 L)*Ac1*(E45*(Ac1*(-b1/(#2*Ac1) + (l6 L)*(b1 - d1)/Ac1) + Ac2*(-b2/(#2*Ac2) + (l6 L)*d2/Ac2)) + E55*(Ac1*(a1/(#2*Ac1) + (l6 L)*(-a1 + c1)/Ac1) + Ac2*(a2/(#2*Ac2) - (l6 L)*c2/Ac2)))/Ac);
    (* 254 *) U i2 2 i4 2 (-(l6 L)*c2*(E45*(Ac1*(-b1/(#2*Ac1) + (l6 L)*(b1 - d1)/Ac1) + Ac2*(-b2/(#2*Ac2) + (l6 L)*d2/Ac2)) + E55*(Ac1*(a1/(#2*Ac1) + (l6 L)*(-a1 + c1)/Ac1) + Ac2*(a2/(#2*Ac2) - (l6 L)*c2/Ac2)))/Ac + (l6 L)*d2*(E44*(Ac1*(-b1/(#2*Ac1) + (l6 L)*(b1 - d1)/Ac1) + Ac2*(-b2/(#2*Ac2) + (l6 L)*d2/Ac2)) + E45*(Ac1*(a1/(#2*Ac1) + (l6 L)*(-a1 + c1)/Ac1) + Ac2*(a2/(#2*Ac2) - (l6 L)*c2/Ac2)))/Ac);
    (* 255 *) U i2 2 i4 3 (-(l12 L)*a2*c2*(E45*(Ac1*(-b1/(#2*Ac1) + (l6 L)*(b1 - d1)/Ac1) + Ac2*(-b2/(#2*Ac2) + (l6 L)*d2/Ac2)) + E55*(Ac1*(a1/(#2*Ac1) + (l6 L)*(-a1 + c1)/Ac1) + Ac2*(a2/(#2*Ac2) - (l6 L)*c2/Ac2)))/Ac + (l12 L)*a2*d2*(E44*(Ac1*(-b1/(#2*Ac1) + (l6 L)*(b1 - d1)/Ac1) + Ac2*(-b2/(#2*Ac2) + (l6 L)*d2/Ac2)) + E45*(Ac1*(a1/(#2*Ac1) + (l6 L)*(-a1 + c1)/Ac1) + Ac2*(a2/(#2*Ac2) - (l6 L)*c2/Ac2)))/Ac);
    (* 256 *) U i2 2 i4 4 (-(l12 L)*b2*c2*(E45*(Ac1*(-b1/(#2*Ac1) + (l6 L)*(b1 - d1)/Ac1) + Ac2*(-b2/(#2*Ac2) + (l6 L)*d2/Ac2)) + E55*(Ac1*(a1/(#2*Ac1) + (l6 L)*(-a1 + c1)/Ac1) + Ac2*(a2/(#2*Ac2) - (l6 L)*c2/Ac2)))/Ac + (l12 L)*b2*d2*(E44*(Ac1*(-b1/(#2*Ac1) + (l6 L)*(b1 - d1)/Ac1) + Ac2*(-b2/(#2*Ac2) + (l6 L)*d2/Ac2)) + E45*(Ac1*(a1/(#2*Ac1) + (l6 L)*(-a1 + c1)/Ac1) + Ac2*(a2/(#2*Ac2) - (l6 L)*c2/Ac2)))/Ac);
    (* 257 *) U i2 3 i1 2 ((Ac1*(-c1/(#2*Ac1) + (l6 L)*(-a1 + c1)/Ac1) + Ac2*(-(l6 L)*c2/Ac2 + (-a2 + c2)/(#2*Ac2)))*(E45*(Ac1*((l6 L) - b1*c1/(#4*Ac1)) + Ac2*((l12 L)*a2*d2/Ac2 - b2*c2/(#4*Ac2))) + E55*(a1*c1/#4 + (l6 L)*a2*c2))/Ac + (Ac1*(d1/(#2*Ac1) + (l6 L)*(b1 - d1)/Ac1) + Ac2*((l6 L)*d2/Ac2 + (b2 - d2)/(#2*Ac2)))*(E44*(Ac1*((l6 L) - b1*c1/(#4*Ac1)) + Ac2*((l12 L)*a2*d2/Ac2 - b2*c2/(#4*Ac2))) + E45*(a1*c1/#4 + (l6 L)*a2*c2))/Ac);
    (* 258 *) U i2 3 i1 3 ((Ac1*((l6 L) + a1*d1/(#4*Ac1)) + Ac2*(#1/#2 + (l12 L)*a2*d2/Ac2))*(E44*(Ac1*((l6 L) - b1*c1/(#4*Ac1)) + Ac2*((l12 L)*a2*d2/Ac2 - b2*c2/(#4*Ac2))) + E45*(a1*c1/#4 + (l6 L)*a2*c2))/Ac + (E45*(Ac1*((l6 L) - b1*c1/(#4*Ac1)) + Ac2*((l12 L)*a2*d2/Ac2 - b2*c2/(#4*Ac2))) + E55*(a1*c1/#4 + (l6 L)*a2*c2))*(-a1*c1/#4 - (l12 L)*a2*c2)/Ac);
    (* 259 *) U i2 3 i1 4 ((Ac1*((l6 L) - b1*c1/(#4*Ac1)) + Ac2*(#1/#2 - (l12 L)*b2*c2/Ac2))*(E45*(Ac1*((l6 L) - b1*c1/(#4*Ac1)) + Ac2*((l12 L)*a2*d2/Ac2 - b2*c2/(#4*Ac2))) + E55*(a1*c1/#4 + (l6 L)*a2*c2))/Ac + (E44*(Ac1*((l6 L) - b1*c1/(#4*Ac1)) + Ac2*((l12 L)*a2*d2/Ac2 - b2*c2/(#4*Ac2))) + E45*(a1*c1/#4 + (l6 L)*a2*c2))*(b1*d1/#4 + (l12 L)*b2*d2)/Ac);
    (* 260 *) U i2 3 i2 2 ((Ac1*(a1/(#2*Ac1) + (l6 L)*(-a1 + c1)/Ac1) + Ac2*(a2/(#2*Ac2) - (l6 L)*c2/Ac2))*(E45*(Ac1*((l6 L) - b1*c1/(#4*Ac1)) + Ac2*((l12 L)*a2*d2/Ac2 - b2*c2/(#4*Ac2))) + E55*(a1*c1/#4 + (l6 L)*a2*c2))/Ac + (Ac1*(-b1/(#2*Ac1) + (l6 L)*(b1 - d1)/Ac1) + Ac2*(-b2/(#2*Ac2) + (l6 L)*d2/Ac2))*(E44*(Ac1*((l6 L) - b1*c1/(#4*Ac1)) + Ac2*((l12 L)*a2*d2/Ac2 - b2*c2/(#4*Ac2))) + E45*(a1*c1/#4 + (l6 L)*a2*c2))/Ac);
    (* 261 *) U i2 3 i2 3 ((Ac1*((l6 L) - b1*c1/(#4*Ac1)) + Ac2*((l12 L)*a2*d2/Ac2 - b2*c2/(#4*Ac2)))*(E44*(Ac1*((l6 L) - b1*c1/(#4*Ac1)) + Ac2*((l12 L)*a2*d2/Ac2 - b2*c2/(#4*Ac2))) + E45*(a1*c1/#4 + (l6 L)*a2*c2))/Ac + (E45*(Ac1*((l6 L) - b1*c1/(#4*Ac1)) + Ac2*((l12 L)*a2*d2/Ac2 - b2*c2/(#4*Ac2))) + E55*(a1*c1/#4 + (l6 L)*a2*c2))*(a1*c1/#4 + (l6 L)*a2*c2)/Ac);
    (* 262 *) U i2 3 i2 4 ((Ac1*((l6 L) + a1*d1/(#4*Ac1)) + Ac2*(a2*d2/(#4*Ac2) - (l12 L)*b2*c2/Ac2))*(E45*(Ac1*((l6 L) - b1*c1/(#4*Ac1)) + Ac2*((l12 L)*a2*d2/Ac2 - b2*c2/(#4*Ac2))) + E55*(a1*c1/#4 + (l6 L)*a2*c2))/Ac + (E44*(Ac1*((l6 L) - b1*c1/(#4*Ac1)) + Ac2*((l12 L)*a2*d2/Ac2 - b2*c2/(#4*Ac2))) + E45*(a1*c1/#4 + (l6 L)*a2*c2))*(-b1*d1/#4 - (l6 L)*b2*d2)/Ac);
    (* 263 *) U i2 3 i3 2 ((-(l6 L)*a1 + (l6 L)*c1)*(E45*(Ac1*((l6 L) - b1*c1/(#4*Ac1)) + Ac2*((l12 L)*a2*d2/Ac2 - b2*c2/(#4*Ac2))) + E55*(a1*c1/#4 + (l6 L)*a2*c2))/Ac + ((l6 L)*b1 - (l6 L)*d1)*(E44*(Ac1*((l6 L) - b1*c1/(#4*Ac1)) + Ac2*((l12 L)*a2*d2/Ac2 - b2*c2/(#4*Ac2))) + E45*(a1*c1/#4 + (l6 L)*a2*c2))/Ac);
    (* 264 *) U i2 3 i3 3 ((l6 L)*Ac1*(E44*(Ac1*((l6 L) - b1*c1/(#4*Ac1)) + Ac2*((l12 L)*a2*d2/Ac2 - b2*c2/(#4*Ac2))) + E45*(a1*c1/#4 + (l6 L)*a2*c2))/Ac);
    (* 265 *) U i2 3 i3 4 ((l6 L)*Ac1*(E45*(Ac1*((l6 L) - b1*c1/(#4*Ac1)) + Ac2*((l12 L)*a2*d2/Ac2 - b2*c2/(#4*Ac2))) + E55*(a1*c1/#4 + (l6 L)*a2*c2))/Ac);
    (* 266 *) U i2 3 i4 2 (-(l6 L)*c2*(E45*(Ac1*((l6 L) - b1*c1/(#4*Ac1)) + Ac2*((l12 L)*a2*d2/Ac2 - b2*c2/(#4*Ac2))) + E55*(a1*c1/#4 + (l6 L)*a2*c2))/Ac + (l6 L)*d2*(E44*(Ac1*((l6 L) - b1*c1/(#4*Ac1)) + Ac2*((l12 L)*a2*d2/Ac2 - b2*c2/(#4*Ac2))) + E45*(a1*c1/#4 + (l6 L)*a2*c2))/Ac);
    (* 267 *) U i2 3 i4 3 (-(l12 L)*a2*c2*(E45*(Ac1*((l6 L) - b1*c1/(#4*Ac1)) + Ac2*((l12 L)*a2*d2/Ac2 - b2*c2/(#4*Ac2))) + E55*(a1*c1/#4 + (l6 L)*a2*c2))/Ac + (l12 L)*a2*d2*(E44*(Ac1*((l6 L) - b1*c1/(#4*Ac1)) + Ac2*((l12 L)*a2*d2/Ac2 - b2*c2/(#4*Ac2))) + E45*(a1*c1/#4 + (l6 L)*a2*c2))/Ac);
    (* 268 *) U i2 3 i4 4 (-(l12 L)*b2*c2*(E45*(Ac1*((l6 L) - b1*c1/(#4*Ac1)) + Ac2*((l12 L)*a2*d2/Ac2 - b2*c2/(#4*Ac2))) + E55*(a1*c1/#4 + (l6 L)*a2*c2))/Ac + (l12 L)*b2*d2*(E44*(Ac1*((l6 L) - b1*c1/(#4*Ac1)) + Ac2*((l12 L)*a2*d2/Ac2 - b2*c2/(#4*Ac2))) + E45*(a1*c1/#4 + (l6 L)*a2*c2))/Ac);
    (* 269 *) U i2 4 i1 2 ((Ac1*(-c1/(#2*Ac1) + (l6 L)*(-a1 + c1)/Ac1) + Ac2*(-(l6 L)*c2/Ac2 + (-a2 + c2)/(#2*Ac2)))*(E45*(-b1*d1/#4 - (l6 L)*b2*d2) + E55*(Ac1*((l6 L) + a1*d1/(#4*Ac1)) + Ac2*(a2*d2/(#4*Ac2) - (l12 L)*b2*c2/Ac2)))/Ac + (Ac1*(d1/(#2*Ac1) + (l6 L)*(b1 - d1)/Ac1) + Ac2*((l6 L)*d2/Ac2 + (b2 - d2)/(#2*Ac2)))*(E44*(-b1*d1/#4 - (l6 L)*b2*d2) + E45*(Ac1*((l6 L) + a1*d1/(#4*Ac1)) + Ac2*(a2*d2/(#4*Ac2) - (l12 L)*b2*c2/Ac2)))/Ac);
    (* 270 *) U i2 4 i1 3 ((Ac1*((l6 L) + a1*d1/(#4*Ac1)) + Ac2*(#1/#2 + (l12 L)*a2*d2/Ac2))*(E44*(-b1*d1/#4 - (l6 L)*b2*d2) + E45*(Ac1*((l6 L) + a1*d1/(#4*Ac1)) + Ac2*(a2*d2/(#4*Ac2) - (l12 L)*b2*c2/Ac2)))/Ac + (E45*(-b1*d1/#4 - (l6 L)*b2*d2) + E55*(Ac1*((l6 L) + a1*d1/(#4*Ac1)) + Ac2*(a2*d2/(#4*Ac2) - (l12 L)*b2*c2/Ac2)))*(-a1*c1/#4 - (l12 L)*a2*c2)/Ac);
    (* 271 *) U i2 4 i1 4 ((Ac1*((l6 L) - b1*c1/(#4*Ac1)) + Ac2*(#1/#2 - (l12 L)*b2*c2/Ac2))*(E45*(-b1*d1/#4 - (l6 L)*b2*d2) + E55*(Ac1*((l6 L) + a1*d1/(#4*Ac1)) + Ac2*(a2*d2/(#4*Ac2) - (l12 L)*b2*c2/Ac2)))/Ac + (E44*(-b1*d1/#4 - (l6 L)*b2*d2) + E45*(Ac1*((l6 L) + a1*d1/(#4*Ac1)) + Ac2*(a2*d2/(#4*Ac2) - (l12 L)*b2*c2/Ac2)))*(b1*d1/#4 + (l12 L)*b2*d2)/Ac);
    (* 272 *) U i2 4 i2 2 ((Ac1*(a1/(#2*Ac1) + (l6 L)*(-a1 + c1)/Ac1) + Ac2*(a2/(#2*Ac2) - (l6 L)*c2/Ac2))*(E45*(-b1*d1/#4 - (l6 L)*b2*d2) + E55*(Ac1*((l6 L) + a1*d1/(#4*Ac1)) + Ac2*(a2*d2/(#4*Ac2) - (l12 L)*b2*c2/Ac2)))/Ac + (Ac1*(-b1/(#2*Ac1) + (l6 L)*(b1 - d1)/Ac1) + Ac2*(-b2/(#2*Ac2) + (l6 L)*d2/Ac2))*(E44*(-b1*d1/#4 - (l6 L)*b2*d2) + E45*(Ac1*((l6 L) + a1*d1/(#4*Ac1)) + Ac2*(a2*d2/(#4*Ac2) - (l12 L)*b2*c2/Ac2)))/Ac);
    (* 273 *) U i2 4 i2 3 ((Ac1*((l6 L) - b1*c1/(#4*Ac1)) + Ac2*((l12 L)*a2*d2/Ac2 - b2*c2/(#4*Ac2)))*(E44*(-b1*d1/#4 - (l6 L)*b2*d2) + E45*(Ac1*((l6 L) + a1*d1/(#4*Ac1)) + Ac2*(a2*d2/(#4*Ac2) - (l12 L)*b2*c2/Ac2)))/Ac + (E45*(-b1*d1/#4 - (l6 L)*b2*d2) + E55*(Ac1*((l6 L) + a1*d1/(#4*Ac1)) + Ac2*(a2*d2/(#4*Ac2) - (l12 L)*b2*c2/Ac2)))*(a1*c1/#4 + (l6 L)*a2*c2)/Ac);
    (* 274 *) U i2 4 i2 4 ((Ac1*((l6 L) + a1*d1/(#4*Ac1)) + Ac2*(a2*d2/(#4*Ac2) - (l12 L)*b2*c2/Ac2))*(E45*(-b1*d1/#4 - (l6 L)*b2*d2) + E55*(Ac1*((l6 L) + a1*d1/(#4*Ac1)) + Ac2*(a2*d2/(#4*Ac2) - (l12 L)*b2*c2/Ac2)))/Ac + (E44*(-b1*d1/#4 - (l6 L)*b2*d2) + E45*(Ac1*((l6 L) + a1*d1/(#4*Ac1)) + Ac2*(a2*d2/(#4*Ac2) - (l12 L)*b2*c2/Ac2)))*(-b1*d1/#4 - (l6 L)*b2*d2)/Ac);
    (* 275 *) U i2 4 i3 2 ((-(l6 L)*a1 + (l6 L)*c1)*(E45*(-b1*d1/#4 - (l6 L)*b2*d2) + E55*(Ac1*((l6 L) + a1*d1/(#4*Ac1)) + Ac2*(a2*d2/(#4*Ac2) - (l12 L)*b2*c2/Ac2)))/Ac + ((l6 L)*b1 - (l6 L)*d1)*(E44*(-b1*d1/#4 - (l6 L)*b2*d2) + E45*(Ac1*((l6 L) + a1*d1/(#4*Ac1)) + Ac2*(a2*d2/(#4*Ac2) - (l12 L)*b2*c2/Ac2)))/Ac);
    (* 276 *) U i2 4 i3 3 ((l6 L)*Ac1*(E44*(-b1*d1/#4 - (l6 L)*b2*d2) + E45*(Ac1*((l6 L) + a1*d1/(#4*Ac1)) + Ac2*(a2*d2/(#4*Ac2) - (l12 L)*b2*c2/Ac2)))/Ac);
    (* 277 *) U i2 4 i3 4 ((l6 L)*Ac1*(E45*(-b1*d1/#4 - (l6 L)*b2*d2) + E55*(Ac1*((l6 L) + a1*d1/(#4*Ac1)) + Ac2*(a2*d2/(#4*Ac2) - (l12 L)*b2*c2/Ac2)))/Ac);
    (* 278 *) U i2 4 i4 2 (-(l6 L)*c2*(E45*(-b1*d1/#4 - (l6 L)*b2*d2) + E55*(Ac1*((l6 L) + a1*d1/(#4*Ac1)) + Ac2*(a2*d2/(#4*Ac2) - (l12 L)*b2*c2/Ac2)))/Ac + (l6 L)*d2*(E44*(-b1*d1/#4 - (l6 L)*b2*d2) + E45*(Ac1*((l6 L) + a1*d1/(#4*Ac1)) + Ac2*(a2*d2/(#4*Ac2) - (l12 L)*b2*c2/Ac2)))/Ac);
    (* 279 *) U i2 4 i4 3 (-(l12 L)*a2*c2*(E45*(-b1*d1/#4 - (l6 L)*b2*d2) + E55*(Ac1*((l6 L) + a1*d1/(#4*Ac1)) + Ac2*(a2*d2/(#4*Ac2) - (l12 L)*b2*c2/Ac2)))/Ac + (l12 L)*a2*d2*(E44*(-b1*d1/#4 - (l6 L)*b2*d2) + E45*(Ac1*((l6 L) + a1*d1/(#4*Ac1)) + Ac2*(a2*d2/(#4*Ac2) - (l12 L)*b2*c2/Ac2)))/Ac);
    (* 280 *) U i2 4 i4 4 (-(l12 L)*b2*c2*(E45*(-b1*d1/#4 - (l6 L)*b2*d2) + E55*(Ac1*((l6 L) + a1*d1/(#4*Ac1)) + Ac2*(a2*d2/(#4*Ac2) - (l12 L)*b2*c2/Ac2)))/Ac + (l12 L)*b2*d2*(E44*(-b1*d1/#4 - (l6 L)*b2*d2) + E45*(Ac1*((l6 L) + a1*d1/(#4*Ac1)) + Ac2*(a2*d2/(#4*Ac2) - (l12 L)*b2*c2/Ac2)))/Ac);
    (* 281 *) U i3 2 i1 2 ((Ac1*(-c1/(#2*Ac1) + (l6 L)*(-a1 + c1)/Ac1) + Ac2*(-(l6 L)*c2/Ac2 + (-a2 + c2)/(#2*Ac2)))*(E45*((l6 L)*b1 - (l6 L)*d1) + E55*(-(l6 L)*a1 + (l6 L)*c1))/Ac + (Ac1*(d1/(#2*Ac1) + (l6 L)*(b1 - d1)/Ac1) + Ac2*((l6 L)*d2/Ac2 + (b2 - d2)/(#2*Ac2)))*(E44*((l6 L)*b1 - (l6 L)*d1) + E45*(-(l6 L)*a1 + (l6 L)*c1))/Ac);
    (* 282 *) U i3 2 i1 3 ((Ac1*((l6 L) + a1*d1/(#4*Ac1)) + Ac2*(#1/#2 + (l12 L)*a2*d2/Ac2))*(E44*((l6 L)*b1 - (l6 L)*d1) + E45*(-(l6 L)*a1 + (l6 L)*c1))/Ac + (E45*((l6 L)*b1 - (l6 L)*d1) + E55*(-(l6 L)*a1 + (l6 L)*c1))*(-a1*c1/#4 - (l12 L)*a2*c2)/Ac);
    (* 283 *) U i3 2 i1 4 ((Ac1*((l6 L) - b1*c1/(#4*Ac1)) + Ac2*(#1/#2 - (l12 L)*b2*c2/Ac2))*(E45*((l6 L)*b1 - (l6 L)*d1) + E55*(-(l6 L)*a1 + (l6 L)*c1))/Ac + (E44*((l6 L)*b1 - (l6 L)*d1) + E45*(-(l6 L)*a1 + (l6 L)*c1))*(b1*d1/#4 + (l12 L)*b2*d2)/Ac);
    (* 284 *) U i3 2 i2 2 ((Ac1*(a1/(#2*Ac1) + (l6 L)*(-a1 + c1)/Ac1) + Ac2*(a2/(#2*Ac2) - (l6 L)*c2/Ac2))*(E45*((l6 L)*b1 - (l6 L)*d1) + E55*(-(l6 L)*a1 + (l6 L)*c1))/Ac + (Ac1*(-b1/(#2*Ac1) + (l6 L)*(b1 - d1)/Ac1) + Ac2*(-b2/(#2*Ac2) + (l6 L)*d2/Ac2))*(E44*((l6 L)*b1 - (l6 L)*d1) + E45*(-(l6 L)*a1 + (l6 L)*c1))/Ac);
    (* 285 *) U i3 2 i2 3 ((Ac1*((l6 L) - b1*c1/(#4*Ac1)) + Ac2*((l12 L)*a2*d2/Ac2 - b2*c2/(#4*Ac2)))*(E44*((l6 L)*b1 - (l6 L)*d1) + E45*(-(l6 L)*a1 + (l6 L)*c1))/Ac + (E45*((l6 L)*b1 - (l6 L)*d1) + E55*(-(l6 L)*a1 + (l6 L)*c1))*(a1*c1/#4 + (l6 L)*a2*c2)/Ac);
    (* 286 *) U i3 2 i2 4 ((Ac1*((l6 L) + a1*d1/(#4*Ac1)) + Ac2*(a2*d2/(#4*Ac2) - (l12 L)*b2*c2/Ac2))*(E45*((l6 L)*b1 - (l6 L)*d1) + E55*(-(l6 L)*a1 + (l6 L)*c1))/Ac + (E44*((l6 L)*b1 - (l6 L)*d1) + E45*(-(l6 L)*a1 + (l6 L)*c1))*(-b1*d1/#4 - (l6 L)*b2*d2)/Ac);
    (* 287 *) U i3 2 i3 2 ((-(l6 L)*a1 + (l6 L)*c1)*(E45*((l6 L)*b1 - (l6 L)*d1) + E55*(-(l6 L)*a1 + (l6 L)*c1))/Ac + ((l6 L)*b1 - (l6 L)*d1)*(E44*((l6 L)*b1 - (l6 L)*d1) + E45*(-(l6 L)*a1 + (l6 L)*c1))/Ac);
    (* 288 *) U i3 2 i3 3 ((l6 L)*Ac1*(E44*((l6 L)*b1 - (l6 L)*d1) + E45*(-(l6 L)*a1 + (l6 L)*c1))/Ac);
    (* 289 *) U i3 2 i3 4 ((l6 L)*Ac1*(E45*((l6 L)*b1 - (l6 L)*d1) + E55*(-(l6 L)*a1 + (l6 L)*c1))/Ac);
    (* 290 *) U i3 2 i4 2 (-(l6 L)*c2*(E45*((l6 L)*b1 - (l6 L)*d1) + E55*(-(l6 L)*a1 + (l6 L)*c1))/Ac + (l6 L)*d2*(E44*((l6 L)*b1 - (l6 L)*d1) + E45*(-(l6 L)*a1 + (l6 L)*c1))/Ac);
    (* 291 *) U i3 2 i4 3 (-(l12 L)*a2*c2*(E45*((l6 L)*b1 - (l6 L)*d1) + E55*(-(l6 L)*a1 + (l6 L)*c1))/Ac + (l12 L)*a2*d2*(E44*((l6 L)*b1 - (l6 L)*d1) + E45*(-(l6 L)*a1 + (l6 L)*c1))/Ac);
    (* 292 *) U i3 2 i4 4 (-(l12 L)*b2*c2*(E45*((l6 L)*b1 - (l6 L)*d1) + E55*(-(l6 L)*a1 + (l6 L)*c1))/Ac + (l12 L)*b2*d2*(E44*((l6 L)*b1 - (l6 L)*d1) + E45*(-(l6 L)*a1 + (l6 L)*c1))/Ac);
    (* 293 *) U i3 3 i1 2 ((l6 L)*Ac1*E44*(Ac1*(d1/(#2*Ac1) + (l6 L)*(b1 - d1)/Ac1) + Ac2*((l6 L)*d2/Ac2 + (b2 - d2)/(#2*Ac2)))/Ac + (l6 L)*Ac1*E45*(Ac1*(-c1/(#2*Ac1) + (l6 L)*(-a1 + c1)/Ac1) + Ac2*(-(l6 L)*c2/Ac2 + (-a2 + c2)/(#2*Ac2)))/Ac);
    (* 294 *) U i3 3 i1 3 ((l6 L)*Ac1*E44*(Ac1*((l6 L) + a1*d1/(#4*Ac1)) + Ac2*(#1/#2 + (l12 L)*a2*d2/Ac2))/Ac + (l6 L)*Ac1*E45*(-a1*c1/#4 - (l12 L)*a2*c2)/Ac);
    (* 295 *) U i3 3 i1 4 ((l6 L)*Ac1*E44*(b1*d1/#4 + (l12 L)*b2*d2)/Ac + (l6 L)*Ac1*E45*(Ac1*((l6 L) - b1*c1/(#4*Ac1)) + Ac2*(#1/#2 - (l12 L)*b2*c2/Ac2))/Ac);
    (* 296 *) U i3 3 i2 2 ((l6 L)*Ac1*E44*(Ac1*(-b1/(#2*Ac1) + (l6 L)*(b1 - d1)/Ac1) + Ac2*(-b2/(#2*Ac2) + (l6 L)*d2/Ac2))/Ac + (l6 L)*Ac1*E45*(Ac1*(a1/(#2*Ac1) + (l6 L)*(-a1 + c1)/Ac1) + Ac2*(a2/(#2*Ac2) - (l6 L)*c2/Ac2))/Ac);
    (* 297 *) U i3 3 i2 3 ((l6 L)*Ac1*E44*(Ac1*((l6 L) - b1*c1/(#4*Ac1)) + Ac2*((l12 L)*a2*d2/Ac2 - b2*c2/(#4*Ac2)))/Ac + (l6 L)*Ac1*E45*(a1*c1/#4 + (l6 L)*a2*c2)/Ac);
    (* 298 *) U i3 3 i2 4 ((l6 L)*Ac1*E44*(-b1*d1/#4 - (l6 L)*b2*d2)/Ac + (l6 L)*Ac1*E45*(Ac1*((l6 L) + a1*d1/(#4*Ac1)) + Ac2*(a2*d2/(#4*Ac2) - (l12 L)*b2*c2/Ac2))/Ac);
    (* 299 *) U i3 3 i3 2 ((l6 L)*Ac1*E44*((l6 L)*b1 - (l6 L)*d1)/Ac + (l6 L)*Ac1*E45*(-(l6 L)*a1 + (l6 L)*c1)/Ac);
    (* 300 *) U i3 3 i3 3 ((l36 L)*(Ac1*Ac1)*E44/Ac);
    (* 301 *) U i3 3 i3 4 ((l36 L)*(Ac1*Ac1)*E45/Ac);
    (* 302 *) U i3 3 i4 2 ((l36 L)*Ac1*E44*d2/Ac - (l36 L)*Ac1*E45*c2/Ac);
    (* 303 *) U i3 3 i4 3 ((l72 L)*Ac1*E44*a2*d2/Ac - (l72 L)*Ac1*E45*a2*c2/Ac);
    (* 304 *) U i3 3 i4 4 ((l72 L)*Ac1*E44*b2*d2/Ac - (l72 L)*Ac1*E45*b2*c2/Ac);
    (* 305 *) U i3 4 i1 2 ((l6 L)*Ac1*E45*(Ac1*(d1/(#2*Ac1) + (l6 L)*(b1 - d1)/Ac1) + Ac2*((l6 L)*d2/Ac2 + (b2 - d2)/(#2*Ac2)))/Ac + (l6 L)*Ac1*E55*(Ac1*(-c1/(#2*Ac1) + (l6 L)*(-a1 + c1)/Ac1) + Ac2*(-(l6 L)*c2/Ac2 + (-a2 + c2)/(#2*Ac2)))/Ac);
    (* 306 *) U i3 4 i1 3 ((l6 L)*Ac1*E45*(Ac1*((l6 L) + a1*d1/(#4*Ac1)) + Ac2*(#1/#2 + (l12 L)*a2*d2/Ac2))/Ac + (l6 L)*Ac1*E55*(-a1*c1/#4 - (l12 L)*a2*c2)/Ac);
    (* 307 *) U i3 4 i1 4 ((l6 L)*Ac1*E45*(b1*d1/#4 + (l12 L)*b2*d2)/Ac + (l6 L)*Ac1*E55*(Ac1*((l6 L) - b1*c1/(#4*Ac1)) + Ac2*(#1/#2 - (l12 L)*b2*c2/Ac2))/Ac);
    (* 308 *) U i3 4 i2 2 ((l6 L)*Ac1*E45*(Ac1*(-b1/(#2*Ac1) + (l6 L)*(b1 - d1)/Ac1) + Ac2*(-b2/(#2*Ac2) + (l6 L)*d2/Ac2))/Ac + (l6 L)*Ac1*E55*(Ac1*(a1/(#2*Ac1) + (l6 L)*(-a1 + c1)/Ac1) + Ac2*(a2/(#2*Ac2) - (l6 L)*c2/Ac2))/Ac);
    (* 309 *) U i3 4 i2 3 ((l6 L)*Ac1*E45*(Ac1*((l6 L) - b1*c1/(#4*Ac1)) + Ac2*((l12 L)*a2*d2/Ac2 - b2*c2/(#4*Ac2)))/Ac + (l6 L)*Ac1*E55*(a1*c1/#4 + (l6 L)*a2*c2)/Ac);
    (* 310 *) U i3 4 i2 4 ((l6 L)*Ac1*E45*(-b1*d1/#4 - (l6 L)*b2*d2)/Ac + (l6 L)*Ac1*E55*(Ac1*((l6 L) + a1*d1/(#4*Ac1)) + Ac2*(a2*d2/(#4*Ac2) - (l12 L)*b2*c2/Ac2))/Ac);
    (* 311 *) U i3 4 i3 2 ((l6 L)*Ac1*E45*((l6 L)*b1 - (l6 L)*d1)/Ac + (l6 L)*Ac1*E55*(-(l6 L)*a1 + (l6 L)*c1)/Ac);
    (* 312 *) U i3 4 i3 3 ((l36 L)*(Ac1*Ac1)*E45/Ac);
    (* 313 *) U i3 4 i3 4 ((l36 L)*(Ac1*Ac1)*E55/Ac);
    (* 314 *) U i3 4 i4 2 ((l36 L)*Ac1*E45*d2/Ac - (l36 L)*Ac1*E55*c2/Ac);
    (* 315 *) U i3 4 i4 3 ((l72 L)*Ac1*E45*a2*d2/Ac - (l72 L)*Ac1*E55*a2*c2/Ac);
    (* 316 *) U i3 4 i4 4 ((l72 L)*Ac1*E45*b2*d2/Ac - (l72 L)*Ac1*E55*b2*c2/Ac);
    (* 317 *) U i4 2 i1 2 ((Ac1*(-c1/(#2*Ac1) + (l6 L)*(-a1 + c1)/Ac1) + Ac2*(-(l6 L)*c2/Ac2 + (-a2 + c2)/(#2*Ac2)))*((l6 L)*E45*d2 - (l6 L)*E55*c2)/Ac + (Ac1*(d1/(#2*Ac1) + (l6 L)*(b1 - d1)/Ac1) + Ac2*((l6 L)*d2/Ac2 + (b2 - d2)/(#2*Ac2)))*((l6 L)*E44*d2 - (l6 L)*E45*c2)/Ac);
    (* 318 *) U i4 2 i1 3 ((Ac1*((l6 L) + a1*d1/(#4*Ac1)) + Ac2*(#1/#2 + (l12 L)*a2*d2/Ac2))*((l6 L)*E44*d2 - (l6 L)*E45*c2)/Ac + ((l6 L)*E45*d2 - (l6 L)*E55*c2)*(-a1*c1/#4 - (l12 L)*a2*c2)/Ac);
    (* 319 *) U i4 2 i1 4 ((Ac1*((l6 L) - b1*c1/(#4*Ac1)) + Ac2*(#1/#2 - (l12 L)*b2*c2/Ac2))*((l6 L)*E45*d2 - (l6 L)*E55*c2)/Ac + ((l6 L)*E44*d2 - (l6 L)*E45*c2)*(b1*d1/#4 + (l12 L)*b2*d2)/Ac);
    (* 320 *) U i4 2 i2 2 ((Ac1*(a1/(#2*Ac1) + (l6 L)*(-a1 + c1)/Ac1) + Ac2*(a2/(#2*Ac2) - (l6 L)*c2/Ac2))*((l6 L)*E45*d2 - (l6 L)*E55*c2)/Ac + (Ac1*(-b1/(#2*Ac1) + (l6 L)*(b1 - d1)/Ac1) + Ac2*(-b2/(#2*Ac2) + (l6 L)*d2/Ac2))*((l6 L)*E44*d2 - (l6 L)*E45*c2)/Ac);
    (* 321 *) U i4 2 i2 3 ((Ac1*((l6 L) - b1*c1/(#4*Ac1)) + Ac2*((l12 L)*a2*d2/Ac2 - b2*c2/(#4*Ac2)))*((l6 L)*E44*d2 - (l6 L)*E45*c2)/Ac + ((l6 L)*E45*d2 - (l6 L)*E55*c2)*(a1*c1/#4 + (l6 L)*a2*c2)/Ac);
    (* 322 *) U i4 2 i2 4 ((Ac1*((l6 L) + a1*d1/(#4*Ac1)) + Ac2*(a2*d2/(#4*Ac2) - (l12 L)*b2*c2/Ac2))*((l6 L)*E45*d2 - (l6 L)*E55*c2)/Ac + ((l6 L)*E44*d2 - (l6 L)*E45*c2)*(-b1*d1/#4 - (l6 L)*b2*d2)/Ac);
    (* 323 *) U i4 2 i3 2 ((-(l6 L)*a1 + (l6 L)*c1)*((l6 L)*E45*d2 - (l6 L)*E55*c2)/Ac + ((l6 L)*b1 - (l6 L)*d1)*((l6 L)*E44*d2 - (l6 L)*E45*c2)/Ac);
    (* 324 *) U i4 2 i3 3 ((l6 L)*Ac1*((l6 L)*E44*d2 - (l6 L)*E45*c2)/Ac);
    (* 325 *) U i4 2 i3 4 ((l6 L)*Ac1*((l6 L)*E45*d2 - (l6 L)*E55*c2)/Ac);
    (* 326 *) U i4 2 i4 2 (-(l6 L)*c2*((l6 L)*E45*d2 - (l6 L)*E55*c2)/Ac + (l6 L)*d2*((l6 L)*E44*d2 - (l6 L)*E45*c2)/Ac);
    (* 327 *) U i4 2 i4 3 (-(l12 L)*a2*c2*((l6 L)*E45*d2 - (l6 L)*E55*c2)/Ac + (l12 L)*a2*d2*((l6 L)*E44*d2 - (l6 L)*E45*c2)/Ac);
    (* 328 *) U i4 2 i4 4 (-(l12 L)*b2*c2*((l6 L)*E45*d2 - (l6 L)*E55*c2)/Ac + (l12 L)*b2*d2*((l6 L)*E44*d2 - (l6 L)*E45*c2)/Ac);
    (* 329 *) U i4 3 i1 2 ((Ac1*(-c1/(#2*Ac1) + (l6 L)*(-a1 + c1)/Ac1) + Ac2*(-(l6 L)*c2/Ac2 + (-a2 + c2)/(#2*Ac2)))*((l12 L)*E45*a2*d2 - (l12 L)*E55*a2*c2)/Ac + (Ac1*(d1/(#2*Ac1) + (l6 L)*(b1 - d1)/Ac1) + Ac2*((l6 L)*d2/Ac2 + (b2 - d2)/(#2*Ac2)))*((l12 L)*E44*a2*d2 - (l12 L)*E45*a2*c2)/Ac);
    (* 330 *) U i4 3 i1 3 ((Ac1*((l6 L) + a1*d1/(#4*Ac1)) + Ac2*(#1/#2 + (l12 L)*a2*d2/Ac2))*((l12 L)*E44*a2*d2 - (l12 L)*E45*a2*c2)/Ac + (-a1*c1/#4 - (l12 L)*a2*c2)*((l12 L)*E45*a2*d2 - (l12 L)*E55*a2*c2)/Ac);
    (* 331 *) U i4 3 i1 4 ((Ac1*((l6 L) - b1*c1/(#4*Ac1)) + Ac2*(#1/#2 - (l12 L)*b2*c2/Ac2))*((l12 L)*E45*a2*d2 - (l12 L)*E55*a2*c2)/Ac + (b1*d1/#4 + (l12 L)*b2*d2)*((l12 L)*E44*a2*d2 - (l12 L)*E45*a2*c2)/Ac);
    (* 332 *) U i4 3 i2 2 ((Ac1*(a1/(#2*Ac1) + (l6 L)*(-a1 + c1)/Ac1) + Ac2*(a2/(#2*Ac2) - (l6 L)*c2/Ac2))*((l12 L)*E45*a2*d2 - (l12 L)*E55*a2*c2)/Ac + (Ac1*(-b1/(#2*Ac1) + (l6 L)*(b1 - d1)/Ac1) + Ac2*(-b2/(#2*Ac2) + (l6 L)*d2/Ac2))*((l12 L)*E44*a2*d2 - (l12 L)*E45*a2*c2)/Ac);
    (* 333 *) U i4 3 i2 3 ((Ac1*((l6 L) - b1*c1/(#4*Ac1)) + Ac2*((l12 L)*a2*d2/Ac2 - b2*c2/(#4*Ac2)))*((l12 L)*E44*a2*d2 - (l12 L)*E45*a2*c2)/Ac + (a1*c1/#4 + (l6 L)*a2*c2)*((l12 L)*E45*a2*d2 - (l12 L)*E55*a2*c2)/Ac);
    (* 334 *) U i4 3 i2 4 ((Ac1*((l6 L) + a1*d1/(#4*Ac1)) + Ac2*(a2*d2/(#4*Ac2) - (l12 L)*b2*c2/Ac2))*((l12 L)*E45*a2*d2 - (l12 L)*E55*a2*c2)/Ac + (-b1*d1/#4 - (l6 L)*b2*d2)*((l12 L)*E44*a2*d2 - (l12 L)*E45*a2*c2)/Ac);
    (* 335 *) U i4 3 i3 2 ((-(l6 L)*a1 + (l6 L)*c1)*((l12 L)*E45*a2*d2 - (l12 L)*E55*a2*c2)/Ac + ((l6 L)*b1 - (l6 L)*d1)*((l12 L)*E44*a2*d2 - (l12 L)*E45*a2*c2)/Ac);
    (* 336 *) U i4 3 i3 3 ((l6 L)*Ac1*((l12 L)*E44*a2*d2 - (l12 L)*E45*a2*c2)/Ac);
    (* 337 *) U i4 3 i3 4 ((l6 L)*Ac1*((l12 L)*E45*a2*d2 - (l12 L)*E55*a2*c2)/Ac);
    (* 338 *) U i4 3 i4 2 (-(l6 L)*c2*((l12 L)*E45*a2*d2 - (l12 L)*E55*a2*c2)/Ac + (l6 L)*d2*((l12 L)*E44*a2*d2 - (l12 L)*E45*a2*c2)/Ac);
    (* 339 *) U i4 3 i4 3 (-(l12 L)*a2*c2*((l12 L)*E45*a2*d2 - (l12 L)*E55*a2*c2)/Ac + (l12 L)*a2*d2*((l12 L)*E44*a2*d2 - (l12 L)*E45*a2*c2)/Ac);
    (* 340 *) U i4 3 i4 4 (-(l12 L)*b2*c2*((l12 L)*E45*a2*d2 - (l12 L)*E55*a2*c2)/Ac + (l12 L)*b2*d2*((l12 L)*E44*a2*d2 - (l12 L)*E45*a2*c2)/Ac);
    (* 341 *) U i4 4 i1 2 ((Ac1*(-c1/(#2*Ac1) + (l6 L)*(-a1 + c1)/Ac1) + Ac2*(-(l6 L)*c2/Ac2 + (-a2 + c2)/(#2*Ac2)))*((l12 L)*E45*b2*d2 - (l12 L)*E55*b2*c2)/Ac + (Ac1*(d1/(#2*Ac1) + (l6 L)*(b1 - d1)/Ac1) + Ac2*((l6 L)*d2/Ac2 + (b2 - d2)/(#2*Ac2)))*((l12 L)*E44*b2*d2 - (l12 L)*E45*b2*c2)/Ac);
    (* 342 *) U i4 4 i1 3 ((Ac1*((l6 L) + a1*d1/(#4*Ac1)) + Ac2*(#1/#2 + (l12 L)*a2*d2/Ac2))*((l12 L)*E44*b2*d2 - (l12 L)*E45*b2*c2)/Ac + (-a1*c1/#4 - (l12 L)*a2*c2)*((l12 L)*E45*b2*d2 - (l12 L)*E55*b2*c2)/Ac);
    (* 343 *) U i4 4 i1 4 ((Ac1*((l6 L) - b1*c1/(#4*Ac1)) + Ac2*(#1/#2 - (l12 L)*b2*c2/Ac2))*((l12 L)*E45*b2*d2 - (l12 L)*E55*b2*c2)/Ac + (b1*d1/#4 + (l12 L)*b2*d2)*((l12 L)*E44*b2*d2 - (l12 L)*E45*b2*c2)/Ac);
    (* 344 *) U i4 4 i2 2 ((Ac1*(a1/(#2*Ac1) + (l6 L)*(-a1 + c1)/Ac1) + Ac2*(a2/(#2*Ac2) - (l6 L)*c2/Ac2))*((l12 L)*E45*b2*d2 - (l12 L)*E55*b2*c2)/Ac + (Ac1*(-b1/(#2*Ac1) + (l6 L)*(b1 - d1)/Ac1) + Ac2*(-b2/(#2*Ac2) + (l6 L)*d2/Ac2))*((l12 L)*E44*b2*d2 - (l12 L)*E45*b2*c2)/Ac);
    (* 345 *) U i4 4 i2 3 ((Ac1*((l6 L) - b1*c1/(#4*Ac1)) + Ac2*((l12 L)*a2*d2/Ac2 - b2*c2/(#4*Ac2)))*((l12 L)*E44*b2*d2 - (l12 L)*E45*b2*c2)/Ac + (a1*c1/#4 + (l6 L)*a2*c2)*((l12 L)*E45*b2*d2 - (l12 L)*E55*b2*c2)/Ac);
    (* 346 *) U i4 4 i2 4 ((Ac1*((l6 L) + a1*d1/(#4*Ac1)) + Ac2*(a2*d2/(#4*Ac2) - (l12 L)*b2*c2/Ac2))*((l12 L)*E45*b2*d2 - (l12 L)*E55*b2*c2)/Ac + (-b1*d1/#4 - (l6 L)*b2*d2)*((l12 L)*E44*b2*d2 - (l12 L)*E45*b2*c2)/Ac);
    (* 347 *) U i4 4 i3 2 ((-(l6 L)*a1 + (l6 L)*c1)*((l12 L)*E45*b2*d2 - (l12 L)*E55*b2*c2)/Ac + ((l6 L)*b1 - (l6 L)*d1)*((l12 L)*E44*b2*d2 - (l12 L)*E45*b2*c2)/Ac);
    (* 348 *) U i4 4 i3 3 ((l6 L)*Ac1*((l12 L)*E44*b2*d2 - (l12 L)*E45*b2*c2)/Ac);
    (* 349 *) U i4 4 i3 4 ((l6 L)*Ac1*((l12 L)*E45*b2*d2 - (l12 L)*E55*b2*c2)/Ac);
    (* 350 *) U i4 4 i4 2 (-(l6 L)*c2*((l12 L)*E45*b2*d2 - (l12 L)*E55*b2*c2)/Ac + (l6 L)*d2*((l12 L)*E44*b2*d2 - (l12 L)*E45*b2*c2)/Ac);
    (* 351 *) U i4 4 i4 3 (-(l12 L)*a2*c2*((l12 L)*E45*b2*d2 - (l12 L)*E55*b2*c2)/Ac + (l12 L)*a2*d2*((l12 L)*E44*b2*d2 - (l12 L)*E45*b2*c2)/Ac);
    (* 352 *) U i4 4 i4 4 (-(l12 L)*b2*c2*((l12 L)*E45*b2*d2 - (l12 L)*E55*b2*c2)/Ac + (l12 L)*b2*d2*((l12 L)*E44*b2*d2 - (l12 L)*E45*b2*c2)/Ac)
  ].
End Gen.
