(** Generated by tools/gen_updates.py from
    meshless/espim/plate2d_add_k0s_cell_based_no_smoothing.py, lines 62-142 (81 statements).
    Do not edit.  One element (row, column, increment) per statement, in source order;
    right hand sides verbatim. *)
From Coq Require Import ZArith List.
From Verif Require Import Num.
Import ListNotations.

Section Gen.
  Context {T : Type} {N : Num T}.
  Declare Scope gen_scope.
  Delimit Scope gen_scope with gen.
  Local Notation "a + b" := (@nadd T N a b) : gen_scope.
  Local Notation "a - b" := (@nsub T N a b) : gen_scope.
  Local Notation "a * b" := (@nmul T N a b) : gen_scope.
  Local Notation "a / b" := (@ndiv T N a b) : gen_scope.
  Local Notation "- a" := (@nopp T N a) : gen_scope.
  Local Notation "# k" := (@nofZ T N k%Z) (at level 1, format "# k") : gen_scope.
  Local Notation U i a j b e := ((i * 5 + a)%Z, (j * 5 + b)%Z, e%gen) (only parsing).

  (** meshless/espim/plate2d_add_k0s_cell_based_no_smoothing.py:62-142 *)
  Definition cellns_entries (i1 i2 i3 : Z)
    (Ac E44 E45 E55 a1 b1 c1 d1 : T) : list (Z * Z * T) := [
    (* 62 *) U i1 2 i1 2 ((-a1 + c1)*(E45*(b1/#2 - d1/#2) + E55*(-a1/#2 + c1/#2))/(#2*Ac) + (b1 - d1)*(E44*(b1/#2 - d1/#2) + E45*(-a1/#2 + c1/#2))/(#2*Ac));
    (* 63 *) U i1 2 i1 3 (E44*(b1/#2 - d1/#2)/#2 + E45*(-a1/#2 + c1/#2)/#2);
    (* 64 *) U i1 2 i1 4 (E45*(b1/#2 - d1/#2)/#2 + E55*(-a1/#2 + c1/#2)/#2);
    (* 65 *) U i1 2 i2 2 (-c1*(E45*(b1/#2 - d1/#2) + E55*(-a1/#2 + c1/#2))/(#2*Ac) + d1*(E44*(b1/#2 - d1/#2) + E45*(-a1/#2 + c1/#2))/(#2*Ac));
    (* 66 *) U i1 2 i2 3 (-a1*c1*(E45*(b1/#2 - d1/#2) + E55*(-a1/#2 + c1/#2))/(#4*Ac) + a1*d1*(E44*(b1/#2 - d1/#2) + E45*(-a1/#2 + c1/#2))/(#4*Ac));
    (* 67 *) U i1 2 i2 4 (-b1*c1*(E45*(b1/#2 - d1/#2) + E55*(-a1/#2 + c1/#2))/(#4*Ac) + b1*d1*(E44*(b1/#2 - d1/#2) + E45*(-a1/#2 + c1/#2))/(#4*Ac));
    (* 68 *) U i1 2 i3 2 (a1*(E45*(b1/#2 - d1/#2) + E55*(-a1/#2 + c1/#2))/(#2*Ac) - b1*(E44*(b1/#2 - d1/#2) + E45*(-a1/#2 + c1/#2))/(#2*Ac));
    (* 69 *) U i1 2 i3 3 (a1*c1*(E45*(b1/#2 - d1/#2) + E55*(-a1/#2 + c1/#2))/(#4*Ac) - b1*c1*(E44*(b1/#2 - d1/#2) + E45*(-a1/#2 + c1/#2))/(#4*Ac));
    (* 70 *) U i1 2 i3 4 (a1*d1*(E45*(b1/#2 - d1/#2) + E55*(-a1/#2 + c1/#2))/(#4*Ac) - b1*d1*(E44*(b1/#2 - d1/#2) + E45*(-a1/#2 + c1/#2))/(#4*Ac));
    (* 71 *) U i1 3 i1 2 (E44*(b1 - d1)/#4 + E45*(-a1 + c1)/#4);
    (* 72 *) U i1 3 i1 3 (Ac*E44/#4);
    (* 73 *) U i1 3 i1 4 (Ac*E45/#4);
    (* 74 *) U i1 3 i2 2 (E44*d1/#4 - E45*c1/#4);
    (* 75 *) U i1 3 i2 3 (E44*a1*d1/#8 - E45*a1*c1/#8);
    (* 76 *) U i1 3 i2 4 (E44*b1*d1/#8 - E45*b1*c1/#8);
    (* 77 *) U i1 3 i3 2 (-E44*b1/#4 + E45*a1/#4);
    (* 78 *) U i1 3 i3 3 (-E44*b1*c1/#8 + E45*a1*c1/#8);
    (* 79 *) U i1 3 i3 4 (-E44*b1*d1/#8 + E45*a1*d1/#8);
    (* 80 *) U i1 4 i1 2 (E45*(b1 - d1)/#4 + E55*(-a1 + c1)/#4);
    (* 81 *) U i1 4 i1 3 (Ac*E45/#4);
    (* 82 *) U i1 4 i1 4 (Ac*E55/#4);
    (* 83 *) U i1 4 i2 2 (E45*d1/#4 - E55*c1/#4);
    (* 84 *) U i1 4 i2 3 (E45*a1*d1/#8 - E55*a1*c1/#8);
    (* 85 *) U i1 4 i2 4 (E45*b1*d1/#8 - E55*b1*c1/#8);
    (* 86 *) U i1 4 i3 2 (-E45*b1/#4 + E55*a1/#4);
    (* 87 *) U i1 4 i3 3 (-E45*b1*c1/#8 + E55*a1*c1/#8);
    (* 88 *) U i1 4 i3 4 (-E45*b1*d1/#8 + E55*a1*d1/#8);
    (* 89 *) U i2 2 i1 2 ((-a1 + c1)*(E45*d1/#2 - E55*c1/#2)/(#2*Ac) + (b1 - d1)*(E44*d1/#2 - E45*c1/#2)/(#2*Ac));
    (* 90 *) U i2 2 i1 3 (E44*d1/#4 - E45*c1/#4);
    (* 91 *) U i2 2 i1 4 (E45*d1/#4 - E55*c1/#4);
    (* 92 *) U i2 2 i2 2 (-c1*(E45*d1/#2 - E55*c1/#2)/(#2*Ac) + d1*(E44*d1/#2 - E45*c1/#2)/(#2*Ac));
    (* 93 *) U i2 2 i2 3 (-a1*c1*(E45*d1/#2 - E55*c1/#2)/(#4*Ac) + a1*d1*(E44*d1/#2 - E45*c1/#2)/(#4*Ac));
    (* 94 *) U i2 2 i2 4 (-b1*c1*(E45*d1/#2 - E55*c1/#2)/(#4*Ac) + b1*d1*(E44*d1/#2 - E45*c1/#2)/(#4*Ac));
    (* 95 *) U i2 2 i3 2 (a1*(E45*d1/#2 - E55*c1/#2)/(#2*Ac) - b1*(E44*d1/#2 - E45*c1/#2)/(#2*Ac));
    (* 96 *) U i2 2 i3 3 (a1*c1*(E45*d1/#2 - E55*c1/#2)/(#4*Ac) - b1*c1*(E44*d1/#2 - E45*c1/#2)/(#4*Ac));
    (* 97 *) U i2 2 i3 4 (a1*d1*(E45*d1/#2 - E55*c1/#2)/(#4*Ac) - b1*d1*(E44*d1/#2 - E45*c1/#2)/(#4*Ac));
    (* 98 *) U i2 3 i1 2 ((-a1 + c1)*(E45*a1*d1/#4 - E55*a1*c1/#4)/(#2*Ac) + (b1 - d1)*(E44*a1*d1/#4 - E45*a1*c1/#4)/(#2*Ac));
    (* 99 *) U i2 3 i1 3 (E44*a1*d1/#8 - E45*a1*c1/#8);
    (* 100 *) U i2 3 i1 4 (E45*a1*d1/#8 - E55*a1*c1/#8);
    (* 101 *) U i2 3 i2 2 (-c1*(E45*a1*d1/#4 - E55*a1*c1/#4)/(#2*Ac) + d1*(E44*a1*d1/#4 - E45*a1*c1/#4)/(#2*Ac));
    (* 102 *) U i2 3 i2 3 (-a1*c1*(E45*a1*d1/#4 - E55*a1*c1/#4)/(#4*Ac) + a1*d1*(E44*a1*d1/#4 - E45*a1*c1/#4)/(#4*Ac));
    (* 103 *) U i2 3 i2 4 (-b1*c1*(E45*a1*d1/#4 - E55*a1*c1/#4)/(#4*Ac) + b1*d1*(E44*a1*d1/#4 - E45*a1*c1/#4)/(#4*Ac));
    (* 104 *) U i2 3 i3 2 (a1*(E45*a1*d1/#4 - E55*a1*c1/#4)/(#2*Ac) - b1*(E44*a1*d1/#4 - E45*a1*c1/#4)/(#2*Ac));
    (* 105 *) U i2 3 i3 3 (a1*c1*(E45*a1*d1/#4 - E55*a1*c1/#4)/(#4*Ac) - b1*c1*(E44*a1*d1/#4 - E45*a1*c1/#4)/(#4*Ac));
    (* 106 *) U i2 3 i3 4 (a1*d1*(E45*a1*d1/#4 - E55*a1*c1/#4)/(#4*Ac) - b1*d1*(E44*a1*d1/#4 - E45*a1*c1/#4)/(#4*Ac));
    (* 107 *) U i2 4 i1 2 ((-a1 + c1)*(E45*b1*d1/#4 - E55*b1*c1/#4)/(#2*Ac) + (b1 - d1)*(E44*b1*d1/#4 - E45*b1*c1/#4)/(#2*Ac));
    (* 108 *) U i2 4 i1 3 (E44*b1*d1/#8 - E45*b1*c1/#8);
    (* 109 *) U i2 4 i1 4 (E45*b1*d1/#8 - E55*b1*c1/#8);
    (* 110 *) U i2 4 i2 2 (-c1*(E45*b1*d1/#4 - E55*b1*c1/#4)/(#2*Ac) + d1*(E44*b1*d1/#4 - E45*b1*c1/#4)/(#2*Ac));
    (* 111 *) U i2 4 i2 3 (-a1*c1*(E45*b1*d1/#4 - E55*b1*c1/#4)/(#4*Ac) + a1*d1*(E44*b1*d1/#4 - E45*b1*c1/#4)/(#4*Ac));
    (* 112 *) U i2 4 i2 4 (-b1*c1*(E45*b1*d1/#4 - E55*b1*c1/#4)/(#4*Ac) + b1*d1*(E44*b1*d1/#4 - E45*b1*c1/#4)/(#4*Ac));
    (* 113 *) U i2 4 i3 2 (a1*(E45*b1*d1/#4 - E55*b1*c1/#4)/(#2*Ac) - b1*(E44*b1*d1/#4 - E45*b1*c1/#4)/(#2*Ac));
    (* 114 *) U i2 4 i3 3 (a1*c1*(E45*b1*d1/#4 - E55*b1*c1/#4)/(#4*Ac) - b1*c1*(E44*b1*d1/#4 - E45*b1*c1/#4)/(#4*Ac));
    (* 115 *) U i2 4 i3 4 (a1*d1*(E45*b1*d1/#4 - E55*b1*c1/#4)/(#4*Ac) - b1*d1*(E44*b1*d1/#4 - E45*b1*c1/#4)/(#4*Ac));
    (* 116 *) U i3 2 i1 2 ((-a1 + c1)*(-E45*b1/#2 + E55*a1/#2)/(#2*Ac) + (b1 - d1)*(-E44*b1/#2 + E45*a1/#2)/(#2*Ac));
    (* 117 *) U i3 2 i1 3 (-E44*b1/#4 + E45*a1/#4);
    (* 118 *) U i3 2 i1 4 (-E45*b1/#4 + E55*a1/#4);
    (* 119 *) U i3 2 i2 2 (-c1*(-E45*b1/#2 + E55*a1/#2)/(#2*Ac) + d1*(-E44*b1/#2 + E45*a1/#2)/(#2*Ac));
    (* 120 *) U i3 2 i2 3 (-a1*c1*(-E45*b1/#2 + E55*a1/#2)/(#4*Ac) + a1*d1*(-E44*b1/#2 + E45*a1/#2)/(#4*Ac));
    (* 121 *) U i3 2 i2 4 (-b1*c1*(-E45*b1/#2 + E55*a1/#2)/(#4*Ac) + b1*d1*(-E44*b1/#2 + E45*a1/#2)/(#4*Ac));
    (* 122 *) U i3 2 i3 2 (a1*(-E45*b1/#2 + E55*a1/#2)/(#2*Ac) - b1*(-E44*b1/#2 + E45*a1/#2)/(#2*Ac));
    (* 123 *) U i3 2 i3 3 (a1*c1*(-E45*b1/#2 + E55*a1/#2)/(#4*Ac) - b1*c1*(-E44*b1/#2 + E45*a1/#2)/(#4*Ac));
    (* 124 *) U i3 2 i3 4 (a1*d1*(-E45*b1/#2 + E55*a1/#2)/(#4*Ac) - b1*d1*(-E44*b1/#2 + E45*a1/#2)/(#4*Ac));
    (* 125 *) U i3 3 i1 2 ((-a1 + c1)*(-E45*b1*c1/#4 + E55*a1*c1/#4)/(#2*Ac) + (b1 - d1)*(-E44*b1*c1/#4 + E45*a1*c1/#4)/(#2*Ac));
    (* 126 *) U i3 3 i1 3 (-E44*b1*c1/#8 + E45*a1*c1/#8);
    (* 127 *) U i3 3 i1 4 (-E45*b1*c1/#8 + E55*a1*c1/#8);
    (* 128 *) U i3 3 i2 2 (-c1*(-E45*b1*c1/#4 + E55*a1*c1/#4)/(#2*Ac) + d1*(-E44*b1*c1/#4 + E45*a1*c1/#4)/(#2*Ac));
    (* 129 *) U i3 3 i2 3 (-a1*c1*(-E45*b1*c1/#4 + E55*a1*c1/#4)/(#4*Ac) + a1*d1*(-E44*b1*c1/#4 + E45*a1*c1/#4)/(#4*Ac));
    (* 130 *) U i3 3 i2 4 (-b1*c1*(-E45*b1*c1/#4 + E55*a1*c1/#4)/(#4*Ac) + b1*d1*(-E44*b1*c1/#4 + E45*a1*c1/#4)/(#4*Ac));
    (* 131 *) U i3 3 i3 2 (a1*(-E45*b1*c1/#4 + E55*a1*c1/#4)/(#2*Ac) - b1*(-E44*b1*c1/#4 + E45*a1*c1/#4)/(#2*Ac));
    (* 132 *) U i3 3 i3 3 (a1*c1*(-E45*b1*c1/#4 + E55*a1*c1/#4)/(#4*Ac) - b1*c1*(-E44*b1*c1/#4 + E45*a1*c1/#4)/(#4*Ac));
    (* 133 *) U i3 3 i3 4 (a1*d1*(-E45*b1*c1/#4 + E55*a1*c1/#4)/(#4*Ac) - b1*d1*(-E44*b1*c1/#4 + E45*a1*c1/#4)/(#4*Ac));
    (* 134 *) U i3 4 i1 2 ((-a1 + c1)*(-E45*b1*d1/#4 + E55*a1*d1/#4)/(#2*Ac) + (b1 - d1)*(-E44*b1*d1/#4 + E45*a1*d1/#4)/(#2*Ac));
    (* 135 *) U i3 4 i1 3 (-E44*b1*d1/#8 + E45*a1*d1/#8);
    (* 136 *) U i3 4 i1 4 (-E45*b1*d1/#8 + E55*a1*d1/#8);
    (* 137 *) U i3 4 i2 2 (-c1*(-E45*b1*d1/#4 + E55*a1*d1/#4)/(#2*Ac) + d1*(-E44*b1*d1/#4 + E45*a1*d1/#4)/(#2*Ac));
    (* 138 *) U i3 4 i2 3 (-a1*c1*(-E45*b1*d1/#4 + E55*a1*d1/#4)/(#4*Ac) + a1*d1*(-E44*b1*d1/#4 + E45*a1*d1/#4)/(#4*Ac));
    (* 139 *) U i3 4 i2 4 (-b1*c1*(-E45*b1*d1/#4 + E55*a1*d1/#4)/(#4*Ac) + b1*d1*(-E44*b1*d1/#4 + E45*a1*d1/#4)/(#4*Ac));
    (* 140 *) U i3 4 i3 2 (a1*(-E45*b1*d1/#4 + E55*a1*d1/#4)/(#2*Ac) - b1*(-E44*b1*d1/#4 + E45*a1*d1/#4)/(#2*Ac));
    (* 141 *) U i3 4 i3 3 (a1*c1*(-E45*b1*d1/#4 + E55*a1*d1/#4)/(#4*Ac) - b1*c1*(-E44*b1*d1/#4 + E45*a1*d1/#4)/(#4*Ac));
    (* 142 *) U i3 4 i3 4 (a1*d1*(-E45*b1*d1/#4 + E55*a1*d1/#4)/(#4*Ac) - b1*d1*(-E44*b1*d1/#4 + E45*a1*d1/#4)/(#4*Ac))
  ].
End Gen.
