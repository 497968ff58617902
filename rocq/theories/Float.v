(** IEEE 754 binary64 numbers: the arithmetic numpy float64 computes with.

    Coq's [SpecFloat] defines the operations on (mantissa, exponent) pairs, without axioms.
    Rounding is to nearest, ties to even; overflow, infinities, NaN and signed zeros are
    there.  Simplification: the payloads of NaNs are not distinguished. *)
From Coq Require Import ZArith Bool List Floats.SpecFloat.
From Verif Require Import Num.

Definition double : Type := spec_float.

(** float(z): the double nearest to the integer [z] *)
Definition double_of_Z (z : Z) : double := binary_normalize 53 1024 z 0 false.

#[global] Instance NumF : Num double := {|
  nofZ := double_of_Z;
  nadd := SFadd 53 1024;
  nsub := SFsub 53 1024;
  nmul := SFmul 53 1024;
  ndiv := SFdiv 53 1024;
  nopp := SFopp;
  nabs := SFabs;
  nsqrt := SFsqrt 53 1024;
  nltb := SFltb;
  neqb := SFeqb
|}.

(** [m * 2 ^ e], rounded *)
Definition ldexp (m e : Z) : double := binary_normalize 53 1024 m e false.
