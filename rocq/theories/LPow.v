(** Lemmas behind the properties of pow2mul and of the powers in mprint_as_array (C46, C47, C48, C53, C55, C56). *)
(* P: Num Py Pow2mul SpecPow *)
From Coq Require Import ZArith Reals List Bool Arith Ascii String Lra Lia.
From Verif Require Import Num Py Pow2mul SpecPow FPow FParse FExpr FCall.
Import ListNotations.
Local Open Scope string_scope.
Local Open Scope list_scope.

Lemma word_dec : forall s, forallb is_word s = true -> all is_word s.
Proof. intros s H. apply Forall_forall. intros c I. rewrite forallb_forall in H. exact (H c I). Qed.
Lemma digit_dec : forall s, forallb is_digit s = true -> all is_digit s.
Proof. intros s H. apply Forall_forall. intros c I. rewrite forallb_forall in H. exact (H c I). Qed.
(** decide whether a text holds another *)
Fixpoint has (p s : text) : bool := starts p s || match s with [] => false | _ :: s' => has p s' end.
Lemma has_false : forall p s, has p s = false -> ~ contains p s.
Proof.
  intros p. induction s as [|c s IH]; intros H [a [b E]]; cbn [has] in H; apply orb_false_iff in H; destruct H as [H1 H2].
  - assert (X : starts p [] = true) by (apply starts_true; destruct a; [exists b; exact E|discriminate]). congruence.
  - destruct a as [|d a]; [|injection E as _ E; apply (IH H2); exists a, b; exact E].
    assert (X : starts p (c :: s) = true) by (apply starts_true; exists b; exact E). congruence.
Qed.
Ltac name := split; [discriminate|split; [apply word_dec; reflexivity|reflexivity]].
Ltac number := split; [discriminate|apply digit_dec; reflexivity].

(** ** C46 *)

(** A text with neither "**" nor "pow(" is returned as it is. *)
Lemma c46_unchanged : forall s, ~ contains (txt "**") (txt s) -> ~ contains (txt "pow(") (txt s) -> pow2mul s = Ok s.
Proof.
  intros s A B. unfold pow2mul. assert (E := pow2mul_source [] (txt s)). cbn in E. rewrite E; [|auto|exact B]. cbn. rewrite str_txt. reflexivity.
Qed.
Lemma c46_ex :
  ~ contains (txt "**") (txt "sin(x)*a_1/2 + power") /\ ~ contains (txt "pow(") (txt "sin(x)*a_1/2 + power").
Proof. split; apply has_false; reflexivity. Qed.

(** ** C47 *)

(** In any text, every power of a word or of a parenthesis becomes the parenthesised product of as many
    copies of its base as the exponent says, and the rest of the text stays.  The powers are any number of
    pieces of the text, and the bases and exponents may be parts of each other. *)
Lemma c47_text : forall l tail, separated true l tail -> ~ contains (txt "pow(") (source l tail) ->
  pow2mul (str (source l tail)) = Ok (str (target l tail)).
Proof. intros l tail S N. unfold pow2mul. rewrite txt_str, (pow2mul_source l tail S N). reflexivity. Qed.
(** x**2 + xx**2*x**25 - (a + x)**3 has powers that are parts of others *)
Lemma c47_text_ex :
  let l := [([], Power (txt "x") [] (txt "2")); (txt " + ", Power (txt "xx") [] (txt "2"));
            (txt "*", Power (txt "x") [] (txt "25")); (txt " - ", Power (txt "(a + x)") [] (txt "3"))] in
  separated true l [] /\ ~ contains (txt "pow(") (source l []) /\
  str (source l []) = "x**2 + xx**2*x**25 - (a + x)**3".
Proof.
  split; [|split; [apply has_false; reflexivity|reflexivity]].
  split; [apply has_false; reflexivity|]. split; [left; reflexivity|]. split.
  { left. split; [|left; auto]. split; [discriminate|]. split; [apply word_dec; reflexivity|]. split; [constructor|]. split; [discriminate|apply digit_dec; reflexivity]. }
  split; [apply has_false; reflexivity|]. split; [right; reflexivity|]. split.
  { left. split; [|right; exists (txt " +"), " "%char; auto]. split; [discriminate|]. split; [apply word_dec; reflexivity|]. split; [constructor|]. split; [discriminate|apply digit_dec; reflexivity]. }
  split; [apply has_false; reflexivity|]. split; [right; reflexivity|]. split.
  { left. split; [|right; exists [], "*"%char; auto]. split; [discriminate|]. split; [apply word_dec; reflexivity|]. split; [constructor|]. split; [discriminate|apply digit_dec; reflexivity]. }
  split; [apply has_false; reflexivity|]. split; [right; reflexivity|]. split.
  { right. split; [exists (txt "a + x"); split; [reflexivity|]; split; [discriminate|]; split; [repeat constructor|apply has_false; reflexivity]|].
    split; [reflexivity|]. split; [discriminate|apply digit_dec; reflexivity]. }
  split; [apply has_false; reflexivity|right; exact I].
Qed.

(** A printed text belongs to one expression, even if spaces are put in or left out. *)
Lemma c47_unambiguous : forall t e1 e2, reads t e1 -> reads t e2 -> e1 = e2.
Proof. exact reads_unique. Qed.

(** For every expression whose powers have symbols, numbers or plain parentheses as bases and exponents of at
    least 1, the result is an expression of the same value for all values of the symbols and functions. *)
Lemma c47_value : forall e, printable e -> simple_powers e -> no_pow_calls e -> keeps_meaning pow2mul_text e.
Proof.
  intros e P H N. destruct (pow2mul_reads e P H N) as [t [E R]]. exists t, (multiply_out e). split; [exact E|]. split; [exact R|].
  intros. apply eval_multiply_out, H.
Qed.
(** If all the bases are symbols, it is to the letter the expression with the powers written as products. *)
Lemma c47_symbols : forall e, printable e -> powers_of_symbols e -> no_pow_calls e ->
  pow2mul (str (print e)) = Ok (str (print (multiply_out e))).
Proof.
  intros e P H N. unfold pow2mul. rewrite txt_str, (pow2mul_pieces e P (symbols_simple e H) N), (segs_tgt_sym e P H). reflexivity.
Qed.
Lemma c47_value_ex :
  let x := Sym (txt "x") in let xx := Sym (txt "xx") in
  let e := Sub (Add (Neg (Pow x (txt "2"))) (Mul (Pow xx (txt "2")) (Pow x (txt "25"))))
               (Div (Pow (Paren (Add x (Sym (txt "a1")))) (txt "3")) (Call (txt "sin") (Pow x (txt "2")))) in
  printable e /\ simple_powers e /\ no_pow_calls e /\ str (print e) = "-x**2 + xx**2*x**25 - (x + a1)**3/sin(x**2)".
Proof.
  cbn zeta. split; [|split; [|split; [|reflexivity]]].
  - cbn [printable is_atom level]. repeat split; try (apply word_dec; reflexivity); try (apply digit_dec; reflexivity); try discriminate; lia.
  - cbn [simple_powers flat]. repeat split; cbn; lia.
  - cbn [no_pow_calls]. repeat split. intros g E. apply (f_equal (@rev _)) in E. rewrite rev_app_distr in E. cbn in E. discriminate.
Qed.

(** ** C48 *)

(** The claim fails for powers of function values: sin(x)**2 becomes sin((x)*(x)). *)
Lemma c48_call_refuted : exists e, printable e /\ no_pow_calls e /\ ~ keeps_meaning pow2mul_text e.
Proof.
  set (e := Pow (Call (txt "sin") (Sym (txt "x"))) (txt "2")).
  set (e' := Call (txt "sin") (Mul (Paren (Sym (txt "x"))) (Paren (Sym (txt "x"))))).
  exists e. split; [|split].
  - cbn. repeat split; try (apply word_dec; reflexivity); try (apply digit_dec; reflexivity); discriminate.
  - cbn. repeat split. intros g E. apply (f_equal (@rev _)) in E. rewrite rev_app_distr in E. cbn in E. discriminate.
  - intros [t [e2 [E [R V]]]]. assert (X : pow2mul_text (print e) = Ok (txt "sin((x)*(x))")) by reflexivity. rewrite X in E. injection E as <-.
    assert (R' : reads (txt "sin((x)*(x))") e').
    { split; [|reflexivity]. cbn. repeat split; try (apply word_dec; reflexivity); try discriminate; lia. }
    assert (e2 = e') by (eapply reads_unique; eassumption). subst e2.
    specialize (V (fun _ => 0%R) (fun _ v => (v + 2)%R)). unfold e, e' in V. cbn [eval] in V. replace (decimal (txt "2")) with 2 in V by reflexivity. cbn in V. lra.
Qed.
(** A power inside a power raises ValueError: (x**2 + 1)**2. *)
Lemma c48_nested_refuted : exists e, printable e /\ no_pow_calls e /\ pow2mul (str (print e)) = Raise ValueError.
Proof.
  exists (Pow (Paren (Add (Pow (Sym (txt "x")) (txt "2")) (Int (txt "1")))) (txt "2")). split; [|split].
  - cbn. repeat split; try (apply word_dec; reflexivity); try (apply digit_dec; reflexivity); try discriminate; lia.
  - cbn. auto.
  - reflexivity.
Qed.
(** A zeroth power becomes an empty parenthesis, which is no expression. *)
Lemma c48_zero_refuted : exists e, printable e /\ no_pow_calls e /\ pow2mul (str (print e)) = Ok "()" /\ ~ keeps_meaning pow2mul_text e.
Proof.
  exists (Pow (Sym (txt "x")) (txt "0")). split; [|split; [|split]].
  - cbn. repeat split; try (apply word_dec; reflexivity); try (apply digit_dec; reflexivity); discriminate.
  - exact I.
  - reflexivity.
  - intros [t [e [E [[P R] _]]]]. assert (X : pow2mul_text (print (Pow (Sym (txt "x")) (txt "0"))) = Ok (txt "()")) by reflexivity. rewrite X in E. injection E as <-.
    rewrite dense_print in R by exact P. change (nospace (txt "()")) with ["("%char; ")"%char] in R.
    assert (N : forall a d b c, dense a ++ (d :: b) = ["("%char; ")"%char] -> printable a -> (d = c) -> c = ")"%char \/ c = "("%char).
    { intros a d b c Q Pa <-. assert (I : In d ["("%char; ")"%char]) by (rewrite <- Q; apply in_or_app; right; left; reflexivity). cbn in I. intuition congruence. }
    destruct e; cbn [dense printable] in R, P.
    + destruct P as [_ [W _]]. rewrite R in W. inversion W; discriminate.
    + destruct P as [_ W]. rewrite R in W. inversion W; discriminate.
    + destruct (N _ _ _ _ R (proj1 P) eq_refl); discriminate.
    + destruct (dense e) as [|c s] eqn:D; [exact (dense_nonempty e P D)|]. cbn in R. injection R as _ R. destruct s; discriminate.
    + destruct P as [[NN [W _]] _]. destruct name as [|c s]; [contradiction|]. cbn in R. injection R as -> _. inversion W; discriminate.
    + destruct (N _ _ _ _ R (proj1 P) eq_refl); discriminate.
    + destruct (N _ _ _ _ R (proj1 P) eq_refl); discriminate.
    + destruct (N _ _ _ _ R (proj1 P) eq_refl); discriminate.
    + destruct (N _ _ _ _ R (proj1 P) eq_refl); discriminate.
    + discriminate.
Qed.
(** Decimal exponents and bases are cut at the point. *)
Lemma c48_decimal_refuted : pow2mul "x**2.5" = Ok "(x*x).5" /\ pow2mul "1.5**2" = Ok "1.(5*5)".
Proof. split; reflexivity. Qed.

(** ** C53 *)

(** The claim fails if a power is part of another: in x**2 + xx**2 the second one becomes x(x*x). *)
Lemma c53_refuted : exists e, printable e /\ powers_of_symbols e /\ ~ keeps_meaning array_powers_text e.
Proof.
  set (x := Sym (txt "x")). set (e := Add (Pow x (txt "2")) (Pow (Sym (txt "xx")) (txt "2"))).
  set (e' := Add (Paren (Mul x x)) (Call (txt "x") (Mul x x))).
  exists e. split; [|split].
  - cbn. repeat split; try (apply word_dec; reflexivity); try (apply digit_dec; reflexivity); try discriminate; lia.
  - cbn. repeat split; (lia || (eexists; reflexivity)).
  - intros [t [e2 [E [R V]]]]. assert (X : array_powers_text (print e) = Ok (txt "(x*x) + x(x*x)")) by reflexivity. rewrite X in E. injection E as <-.
    assert (R' : reads (txt "(x*x) + x(x*x)") e').
    { split; [|reflexivity]. cbn. repeat split; try (apply word_dec; reflexivity); try discriminate; lia. }
    assert (e2 = e') by (eapply reads_unique; eassumption). subst e2.
    specialize (V (fun _ => 0%R) (fun _ v => (v + 2)%R)). unfold e, e' in V. cbn [eval] in V. replace (decimal (txt "2")) with 2 in V by reflexivity. cbn in V. lra.
Qed.
(** x**2 + x**25 becomes (x*x) + (x*x)5. *)
Lemma c53_exponent_refuted : array_powers "x**2 + x**25" = Ok "(x*x) + (x*x)5".
Proof. reflexivity. Qed.
(** The claim holds for powers of symbols if no power is part of another.  Missing: the other expressions. *)
Lemma c53_partial : forall e, printable e -> powers_of_symbols e -> no_power_inside e ->
  array_powers (str (print e)) = Ok (str (print (multiply_out e))) /\ keeps_meaning array_powers_text e.
Proof.
  intros e P H N. assert (E := array_print e P H N). split; [unfold array_powers; rewrite txt_str, E; reflexivity|].
  exists (print (multiply_out e)), (multiply_out e). split; [exact E|].
  split; [split; [apply multiply_out_printable; [exact P|apply symbols_simple, H]|reflexivity]|]. intros. apply eval_multiply_out, symbols_simple, H.
Qed.
Lemma c53_ex :
  let e := Add (Mul (Pow (Sym (txt "x")) (txt "2")) (Pow (Sym (txt "y")) (txt "25"))) (Pow (Sym (txt "x")) (txt "3")) in
  printable e /\ powers_of_symbols e /\ no_power_inside e /\ str (print e) = "x**2*y**25 + x**3".
Proof.
  cbn zeta. split; [|split; [|split; [|reflexivity]]].
  - cbn. repeat split; try (apply word_dec; reflexivity); try (apply digit_dec; reflexivity); try discriminate; lia.
  - cbn. repeat split; (lia || (eexists; reflexivity)).
  - intros x d y k I1 I2 C. cbn in I1, I2.
    destruct I1 as [I1|[I1|[I1|[]]]]; injection I1 as <- <-; destruct I2 as [I2|[I2|[I2|[]]]]; injection I2 as <- <-; try (split; reflexivity); exfalso; revert C; apply has_false; reflexivity.
Qed.

(** ** C55 *)

(** In any text without "**", every call pow(v, n) with an integer n >= 0 becomes the parenthesised product of n
    copies of (v), and the rest of the text stays. *)
Lemma c55_calls : forall l tail, calls_apart l tail -> ~ contains (txt "**") (call_source l tail) ->
  pow2mul (str (call_source l tail)) = Ok (str (call_target l tail)).
Proof. intros l tail A N. unfold pow2mul. rewrite txt_str, (pow2mul_calls l tail A N). reflexivity. Qed.
Lemma c55_ex :
  let l := [(txt "a*", PowCall (txt "sin(x) + b") (txt " ") (txt "2")); (txt " + f(u, v)/", PowCall (txt "y") [] (txt "12"))] in
  calls_apart l (txt " - 1") /\ ~ contains (txt "**") (call_source l (txt " - 1")) /\
  str (call_source l (txt " - 1")) = "a*pow(sin(x) + b, 2) + f(u, v)/pow(y,12) - 1" /\
  str (call_target l (txt " - 1")) = "a*((sin(x)+b)*(sin(x)+b)) + f(u, v)/((y)*(y)*(y)*(y)*(y)*(y)*(y)*(y)*(y)*(y)*(y)*(y)) - 1".
Proof.
  split; [|split; [apply has_false; reflexivity|split; reflexivity]]. split; [|apply has_false; reflexivity].
  intros t p [E|[E|[]]]; injection E as <- <-; (split; [apply has_false; reflexivity|]); unfold plain_call; cbn [argument blank exponent].
  - split; [eexists; eexists; split; reflexivity|]. split; [repeat constructor|]. split; [repeat constructor|]. split; [apply has_false; reflexivity|].
    split; [repeat constructor|]. split; [discriminate|repeat constructor].
  - split; [eexists; eexists; split; reflexivity|]. split; [repeat constructor|]. split; [repeat constructor|]. split; [apply has_false; reflexivity|].
    split; [repeat constructor|]. split; [discriminate|repeat constructor].
Qed.

(** ** C56 *)

(** A negative exponent gives an empty parenthesis, and a symbolic one an exception. *)
Lemma c56_exponent_refuted : pow2mul "pow(x, -2)" = Ok "()" /\ pow2mul "pow(x, n)" = Raise ValueError.
Proof. split; reflexivity. Qed.
(** A call of another function whose name ends in pow loses these letters and its meaning. *)
Lemma c56_name_refuted : pow2mul "mypow(x, 2)" = Ok "my((x)*(x))".
Proof. reflexivity. Qed.
(** An argument that holds the letters pow, or another call of pow, raises an exception. *)
Lemma c56_argument_refuted : pow2mul "pow(power, 2)" = Raise ValueError /\ pow2mul "pow(pow(a, 2), 3)" = Raise ValueError.
Proof. split; reflexivity. Qed.
