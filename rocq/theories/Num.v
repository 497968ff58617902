(** Numbers.

    The Python code computes with IEEE doubles (numpy float64).  The model is
    written once over a record of operations.  [NumR] is the exact
    interpretation (real numbers) most theorems are about; those about connectivity,
    numbering, exceptions and histories hold for every [Num T], so also for the IEEE
    doubles of [Float.v].

    Simplification (stated in DESIGN.md): rounding, overflow and NaN are not
    modelled by [NumR]; division by zero has no special value there, so every
    theorem excludes it by its hypotheses. *)
From Coq Require Import ZArith Reals Bool List.
Import ListNotations.

Class Num (T : Type) : Type := {
  nofZ : Z -> T;
  nadd : T -> T -> T;
  nsub : T -> T -> T;
  nmul : T -> T -> T;
  ndiv : T -> T -> T;
  nopp : T -> T;
  nabs : T -> T;
  nsqrt : T -> T;
  nltb : T -> T -> bool;
  neqb : T -> T -> bool
}.

#[global] Instance NumR : Num R := {|
  nofZ := IZR;
  nadd := Rplus;
  nsub := Rminus;
  nmul := Rmult;
  ndiv := Rdiv;
  nopp := Ropp;
  nabs := Rabs;
  nsqrt := sqrt;
  nltb := fun a b => if Rlt_dec a b then true else false;
  neqb := fun a b => if Req_EM_T a b then true else false
|}.

Declare Scope num_scope.
Delimit Scope num_scope with num.
Notation "a + b" := (nadd a b) : num_scope.
Notation "a - b" := (nsub a b) : num_scope.
Notation "a * b" := (nmul a b) : num_scope.
Notation "a / b" := (ndiv a b) : num_scope.
Notation "- a" := (nopp a) : num_scope.
Notation "a <? b" := (nltb a b) : num_scope.
Notation "a =? b" := (neqb a b) : num_scope.
Notation "# k" := (nofZ k%Z) (at level 1, format "# k") : num_scope.

Section Num.
  Context {T : Type} {N : Num T}.
  Local Open Scope num_scope.

  (** Python [max] of two numbers / of a non-empty list. *)
  Definition nmax2 (a b : T) : T := if a <? b then b else a.
  Definition nmin2 (a b : T) : T := if b <? a then b else a.
  Fixpoint nmaxl (a : T) (l : list T) : T :=
    match l with [] => a | b :: l' => nmaxl (nmax2 a b) l' end.

  Fixpoint nsum (l : list T) : T :=
    match l with [] => #0 | a :: l' => a + nsum l' end.

  (** The decimal literals that occur in the unrolled entries
      (0.166666666666667, 0.0833333333333333, 0.0416666666666667,
      0.0277777777777778, 0.0138888888888889). *)
  Record lits : Type := Lits { l6 : T; l12 : T; l24 : T; l36 : T; l72 : T }.

  (** The literals as written in the source, plate2d_add_k0s_cell_based.py:94-174
      and plate2d_add_k0s_edge_based.py:59-352. *)
  Definition lits_src : lits := {|
    l6  := #166666666666667 / #1000000000000000;
    l12 := #833333333333333 / #10000000000000000;
    l24 := #416666666666667 / #10000000000000000;
    l36 := #277777777777778 / #10000000000000000;
    l72 := #138888888888889 / #10000000000000000 |}.

  (** The fractions they abbreviate; only used to state how far the source
      constants are from them. *)
  Definition lits_frac : lits := {|
    l6 := #1 / #6; l12 := #1 / #12; l24 := #1 / #24; l36 := #1 / #36; l72 := #1 / #72 |}.
End Num.
Arguments lits T : clear implicits.

(** Rewrites the record projections of [NumR] to the operations of [R]. *)
Ltac rnum := cbn [nofZ nadd nsub nmul ndiv nopp nabs nsqrt nltb neqb NumR
                  l6 l12 l24 l36 l72 lits_src lits_frac] in *.
