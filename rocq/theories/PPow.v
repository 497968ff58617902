(** Properties proved in LPow.v, generated from it by tools/mkprops.py.
    Nothing but statements: each proof is one lemma of that file. *)
From Coq Require Import ZArith Reals List Bool Arith Ascii String.
From Verif Require Import Num Py Pow2mul SpecPow.
From Verif Require LPow.
Import ListNotations.
Local Open Scope string_scope.

(** A text with neither "**" nor "pow(" is returned as it is. *)
Theorem C46_unchanged : forall s, ~ contains (txt "**") (txt s) -> ~ contains (txt "pow(") (txt s) -> pow2mul s = Ok s.
Proof. exact LPow.c46_unchanged. Qed.
Print Assumptions C46_unchanged.

Example C46_ex :
  ~ contains (txt "**") (txt "sin(x)*a_1/2 + power") /\ ~ contains (txt "pow(") (txt "sin(x)*a_1/2 + power").
Proof. exact LPow.c46_ex. Qed.

(** In any text, every power of a word or of a parenthesis becomes the parenthesised product of as many
    copies of its base as the exponent says, and the rest of the text stays.  The powers are any number of
    pieces of the text, and the bases and exponents may be parts of each other. *)
Theorem C47_text : forall l tail, separated true l tail -> ~ contains (txt "pow(") (source l tail) ->
  pow2mul (str (source l tail)) = Ok (str (target l tail)).
Proof. exact LPow.c47_text. Qed.
Print Assumptions C47_text.

(** x**2 + xx**2*x**25 - (a + x)**3 has powers that are parts of others *)
Example C47_text_ex :
  let l := [([], Power (txt "x") [] (txt "2")); (txt " + ", Power (txt "xx") [] (txt "2"));
            (txt "*", Power (txt "x") [] (txt "25")); (txt " - ", Power (txt "(a + x)") [] (txt "3"))] in
  separated true l [] /\ ~ contains (txt "pow(") (source l []) /\
  str (source l []) = "x**2 + xx**2*x**25 - (a + x)**3".
Proof. exact LPow.c47_text_ex. Qed.

(** A printed text belongs to one expression, even if spaces are put in or left out. *)
Theorem C47_unambiguous : forall t e1 e2, reads t e1 -> reads t e2 -> e1 = e2.
Proof. exact LPow.c47_unambiguous. Qed.
Print Assumptions C47_unambiguous.

(** For every expression whose powers have symbols, numbers or plain parentheses as bases and exponents of at
    least 1, the result is an expression of the same value for all values of the symbols and functions. *)
Theorem C47_value : forall e, printable e -> simple_powers e -> no_pow_calls e -> keeps_meaning pow2mul_text e.
Proof. exact LPow.c47_value. Qed.
Print Assumptions C47_value.

(** If all the bases are symbols, it is to the letter the expression with the powers written as products. *)
Theorem C47_symbols : forall e, printable e -> powers_of_symbols e -> no_pow_calls e ->
  pow2mul (str (print e)) = Ok (str (print (multiply_out e))).
Proof. exact LPow.c47_symbols. Qed.
Print Assumptions C47_symbols.

Example C47_value_ex :
  let x := Sym (txt "x") in let xx := Sym (txt "xx") in
  let e := Sub (Add (Neg (Pow x (txt "2"))) (Mul (Pow xx (txt "2")) (Pow x (txt "25"))))
               (Div (Pow (Paren (Add x (Sym (txt "a1")))) (txt "3")) (Call (txt "sin") (Pow x (txt "2")))) in
  printable e /\ simple_powers e /\ no_pow_calls e /\ str (print e) = "-x**2 + xx**2*x**25 - (x + a1)**3/sin(x**2)".
Proof. exact LPow.c47_value_ex. Qed.

(** The claim fails for powers of function values: sin(x)**2 becomes sin((x)*(x)). *)
Theorem C48_call_refuted : exists e, printable e /\ no_pow_calls e /\ ~ keeps_meaning pow2mul_text e.
Proof. exact LPow.c48_call_refuted. Qed.
Print Assumptions C48_call_refuted.

(** A power inside a power raises ValueError: (x**2 + 1)**2. *)
Theorem C48_nested_refuted : exists e, printable e /\ no_pow_calls e /\ pow2mul (str (print e)) = Raise ValueError.
Proof. exact LPow.c48_nested_refuted. Qed.
Print Assumptions C48_nested_refuted.

(** A zeroth power becomes an empty parenthesis, which is no expression. *)
Theorem C48_zero_refuted : exists e, printable e /\ no_pow_calls e /\ pow2mul (str (print e)) = Ok "()" /\ ~ keeps_meaning pow2mul_text e.
Proof. exact LPow.c48_zero_refuted. Qed.
Print Assumptions C48_zero_refuted.

(** Decimal exponents and bases are cut at the point. *)
Theorem C48_decimal_refuted : pow2mul "x**2.5" = Ok "(x*x).5" /\ pow2mul "1.5**2" = Ok "1.(5*5)".
Proof. exact LPow.c48_decimal_refuted. Qed.
Print Assumptions C48_decimal_refuted.

(** The claim fails if a power is part of another: in x**2 + xx**2 the second one becomes x(x*x). *)
Theorem C53_refuted : exists e, printable e /\ powers_of_symbols e /\ ~ keeps_meaning array_powers_text e.
Proof. exact LPow.c53_refuted. Qed.
Print Assumptions C53_refuted.

(** x**2 + x**25 becomes (x*x) + (x*x)5. *)
Theorem C53_exponent_refuted : array_powers "x**2 + x**25" = Ok "(x*x) + (x*x)5".
Proof. exact LPow.c53_exponent_refuted. Qed.
Print Assumptions C53_exponent_refuted.

(** The claim holds for powers of symbols if no power is part of another.  Missing: the other expressions. *)
Theorem C53_partial : forall e, printable e -> powers_of_symbols e -> no_power_inside e ->
  array_powers (str (print e)) = Ok (str (print (multiply_out e))) /\ keeps_meaning array_powers_text e.
Proof. exact LPow.c53_partial. Qed.
Print Assumptions C53_partial.

Example C53_ex :
  let e := Add (Mul (Pow (Sym (txt "x")) (txt "2")) (Pow (Sym (txt "y")) (txt "25"))) (Pow (Sym (txt "x")) (txt "3")) in
  printable e /\ powers_of_symbols e /\ no_power_inside e /\ str (print e) = "x**2*y**25 + x**3".
Proof. exact LPow.c53_ex. Qed.

(** In any text without "**", every call pow(v, n) with an integer n >= 0 becomes the parenthesised product of n
    copies of (v), and the rest of the text stays. *)
Theorem C55_calls : forall l tail, calls_apart l tail -> ~ contains (txt "**") (call_source l tail) ->
  pow2mul (str (call_source l tail)) = Ok (str (call_target l tail)).
Proof. exact LPow.c55_calls. Qed.
Print Assumptions C55_calls.

Example C55_ex :
  let l := [(txt "a*", PowCall (txt "sin(x) + b") (txt " ") (txt "2")); (txt " + f(u, v)/", PowCall (txt "y") [] (txt "12"))] in
  calls_apart l (txt " - 1") /\ ~ contains (txt "**") (call_source l (txt " - 1")) /\
  str (call_source l (txt " - 1")) = "a*pow(sin(x) + b, 2) + f(u, v)/pow(y,12) - 1" /\
  str (call_target l (txt " - 1")) = "a*((sin(x)+b)*(sin(x)+b)) + f(u, v)/((y)*(y)*(y)*(y)*(y)*(y)*(y)*(y)*(y)*(y)*(y)*(y)) - 1".
Proof. exact LPow.c55_ex. Qed.

(** A negative exponent gives an empty parenthesis, and a symbolic one an exception. *)
Theorem C56_exponent_refuted : pow2mul "pow(x, -2)" = Ok "()" /\ pow2mul "pow(x, n)" = Raise ValueError.
Proof. exact LPow.c56_exponent_refuted. Qed.
Print Assumptions C56_exponent_refuted.

(** A call of another function whose name ends in pow loses these letters and its meaning. *)
Theorem C56_name_refuted : pow2mul "mypow(x, 2)" = Ok "my((x)*(x))".
Proof. exact LPow.c56_name_refuted. Qed.
Print Assumptions C56_name_refuted.

(** An argument that holds the letters pow, or another call of pow, raises an exception. *)
Theorem C56_argument_refuted : pow2mul "pow(power, 2)" = Raise ValueError /\ pow2mul "pow(pow(a, 2), 3)" = Raise ValueError.
Proof. exact LPow.c56_argument_refuted. Qed.
Print Assumptions C56_argument_refuted.
