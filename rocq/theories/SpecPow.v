(** Notions used to state the properties of pow2mul and of the printing functions. *)
From Coq Require Import Reals List Bool Arith Ascii String.
From Verif Require Import Num Py Pow2mul.
Import ListNotations.

Definition contains (p s : text) : Prop := exists a b, s = a ++ p ++ b.
Definition all (f : ascii -> bool) (s : text) : Prop := Forall (fun c => f c = true) s.

(** the number written by decimal digits *)
Definition decimal (ds : text) : nat := fold_left (fun n c => n * 10 + (nat_of_ascii c - nat_of_ascii "0")) ds 0.

(** ** Texts with powers *)

(** A power: the base, the white space after the two stars, the exponent. *)
Record power : Type := Power { base : text; gap : text; expo : text }.
Definition power_text (p : power) : text := base p ++ txt "**" ++ gap p ++ expo p.
(** the parenthesised product of copies of the base (without its spaces) *)
Definition product_text (p : power) : text :=
  txt "(" ++ join (txt "*") (repeat (nospace (base p)) (decimal (expo p))) ++ txt ")".

(** the base is a word: letters, digits, underscores *)
Definition word_power (p : power) : Prop :=
  base p <> [] /\ all is_word (base p) /\ all is_space (gap p) /\ expo p <> [] /\ all is_digit (expo p).
(** the base is a parenthesis without parentheses and powers inside *)
Definition paren_power (p : power) : Prop :=
  (exists inner, base p = txt "(" ++ inner ++ txt ")" /\ inner <> [] /\ all not_paren inner /\
     ~ contains (txt "**") (nospace inner)) /\
  gap p = [] /\ expo p <> [] /\ all is_digit (expo p).

(** A text with powers: pieces (plain text, power) and plain text at the end. *)
Definition pieces : Type := list (text * power).
Definition source (l : pieces) (tail : text) : text :=
  List.concat (map (fun tp => fst tp ++ power_text (snd tp)) l) ++ tail.
Definition target (l : pieces) (tail : text) : text :=
  List.concat (map (fun tp => fst tp ++ product_text (snd tp)) l) ++ tail.

(** [s] does not start with a digit *)
Definition no_digit_first (s : text) : Prop := match s with c :: _ => is_digit c = false | [] => True end.
(** [s] ends with a character that is no letter, digit or underscore *)
Definition ends_outside_word (s : text) : Prop := exists s' c, s = s' ++ [c] /\ is_word c = false.

(** The powers of a text are exactly those of the list: the plain text has no "**", a word that is
    raised to a power starts at the start of the text ([first]) or after a character that is not part
    of a word, and no digit follows an exponent. *)
Fixpoint separated (first : bool) (l : pieces) (tail : text) : Prop :=
  match l with
  | [] => ~ contains (txt "**") tail /\ (first = true \/ no_digit_first tail)
  | (t, p) :: l' =>
      ~ contains (txt "**") t /\ (first = true \/ no_digit_first (t ++ base p)) /\
      ((word_power p /\ (first = true /\ t = [] \/ ends_outside_word t)) \/ paren_power p) /\
      separated false l' tail
  end.

(** ** Expressions *)

Inductive expr : Type :=
| Sym (name : text)                  (* x *)
| Int (digits : text)                (* 12 *)
| Pow (b : expr) (digits : text)     (* b**3 *)
| Paren (a : expr)                   (* (a) *)
| Call (name : text) (a : expr)      (* f(a) *)
| Mul (a b : expr)                   (* a*b *)
| Div (a b : expr)                   (* a/b *)
| Add (a b : expr)                   (* a + b *)
| Sub (a b : expr)                   (* a - b *)
| Neg (a : expr).                    (* -a *)

(** the way SymPy prints them *)
Fixpoint print (e : expr) : text :=
  match e with
  | Sym x => x
  | Int d => d
  | Pow b d => print b ++ txt "**" ++ d
  | Paren a => txt "(" ++ print a ++ txt ")"
  | Call f a => f ++ txt "(" ++ print a ++ txt ")"
  | Mul a b => print a ++ txt "*" ++ print b
  | Div a b => print a ++ txt "/" ++ print b
  | Add a b => print a ++ txt " + " ++ print b
  | Sub a b => print a ++ txt " - " ++ print b
  | Neg a => txt "-" ++ print a
  end.

Local Open Scope R_scope.
(** its value, for values of the symbols and functions *)
Fixpoint eval (sym : text -> R) (fn : text -> R -> R) (e : expr) : R :=
  match e with
  | Sym x => sym x
  | Int d => INR (decimal d)
  | Pow b d => eval sym fn b ^ decimal d
  | Paren a => eval sym fn a
  | Call f a => fn f (eval sym fn a)
  | Mul a b => eval sym fn a * eval sym fn b
  | Div a b => eval sym fn a / eval sym fn b
  | Add a b => eval sym fn a + eval sym fn b
  | Sub a b => eval sym fn a - eval sym fn b
  | Neg a => - eval sym fn a
  end.
Local Close Scope R_scope.

(** a name: letters, digits, underscores, no digit first *)
Definition is_name (x : text) : Prop := x <> [] /\ all is_word x /\ no_digit_first x.
Definition is_number (d : text) : Prop := d <> [] /\ all is_digit d.

(** 0: sums, 1: products, 2: the rest.  A tree is printed without ambiguity if the operands
    of products are products (left) or atoms, and so on. *)
Definition level (e : expr) : nat :=
  match e with Add _ _ | Sub _ _ | Neg _ => 0 | Mul _ _ | Div _ _ => 1 | _ => 2 end.
Definition is_atom (e : expr) : Prop :=
  match e with Sym _ | Int _ | Paren _ | Call _ _ => True | _ => False end.
Fixpoint printable (e : expr) : Prop :=
  match e with
  | Sym x => is_name x
  | Int d => is_number d
  | Pow b d => printable b /\ is_atom b /\ is_number d
  | Paren a => printable a
  | Call f a => is_name f /\ printable a
  | Mul a b | Div a b => printable a /\ printable b /\ 1 <= level a /\ 2 <= level b
  | Add a b | Sub a b => printable a /\ printable b /\ 1 <= level b
  | Neg a => printable a /\ 1 <= level a
  end.

(** no power, parenthesis or call in it *)
Fixpoint flat (e : expr) : Prop :=
  match e with
  | Sym _ | Int _ => True
  | Pow _ _ | Paren _ | Call _ _ => False
  | Neg a => flat a
  | Mul a b | Div a b | Add a b | Sub a b => flat a /\ flat b
  end.
(** every power has as base a symbol, a number or a parenthesis without powers, parentheses and calls
    inside, and an exponent of at least 1 *)
Fixpoint simple_powers (e : expr) : Prop :=
  match e with
  | Sym _ | Int _ => True
  | Pow b d => match b with Sym _ | Int _ => True | Paren a => flat a | _ => False end /\ 1 <= decimal d
  | Paren a | Neg a | Call _ a => simple_powers a
  | Mul a b | Div a b | Add a b | Sub a b => simple_powers a /\ simple_powers b
  end.
(** no function has a name that ends in pow *)
Fixpoint no_pow_calls (e : expr) : Prop :=
  match e with
  | Sym _ | Int _ => True
  | Call f a => (forall g, f <> g ++ txt "pow") /\ no_pow_calls a
  | Pow a _ | Paren a | Neg a => no_pow_calls a
  | Mul a b | Div a b | Add a b | Sub a b => no_pow_calls a /\ no_pow_calls b
  end.
(** every power has a symbol as base and an exponent of at least 1 *)
Fixpoint powers_of_symbols (e : expr) : Prop :=
  match e with
  | Sym _ | Int _ => True
  | Pow b d => (exists x, b = Sym x) /\ 1 <= decimal d
  | Paren a | Neg a | Call _ a => powers_of_symbols a
  | Mul a b | Div a b | Add a b | Sub a b => powers_of_symbols a /\ powers_of_symbols b
  end.

(** b*b*...*b *)
Fixpoint times (b : expr) (n : nat) : expr :=
  match n with 0 | 1 => b | S n' => Mul (times b n') b end.
(** every power written as a product *)
Fixpoint multiply_out (e : expr) : expr :=
  match e with
  | Sym _ | Int _ => e
  | Pow b d => Paren (times b (decimal d))
  | Paren a => Paren (multiply_out a)
  | Call f a => Call f (multiply_out a)
  | Mul a b => Mul (multiply_out a) (multiply_out b)
  | Div a b => Div (multiply_out a) (multiply_out b)
  | Add a b => Add (multiply_out a) (multiply_out b)
  | Sub a b => Sub (multiply_out a) (multiply_out b)
  | Neg a => Neg (multiply_out a)
  end.

(** the powers of symbols in an expression *)
Fixpoint powers (e : expr) : list (text * text) :=
  match e with
  | Sym _ | Int _ => []
  | Pow (Sym x) d => [(x, d)]
  | Pow b _ => powers b
  | Paren a | Call _ a | Neg a => powers a
  | Mul a b | Div a b | Add a b | Sub a b => powers a ++ powers b
  end.
(** the text of no power is part of the text of another *)
Definition no_power_inside (e : expr) : Prop :=
  forall x d y k, In (x, d) (powers e) -> In (y, k) (powers e) ->
    contains (y ++ txt "**" ++ k) (x ++ txt "**" ++ d) -> x = y /\ d = k.

(** The text [t] is the expression [e], with more or fewer spaces: [C47_unambiguous] says that there is
    at most one such expression. *)
Definition reads (t : text) (e : expr) : Prop := printable e /\ nospace (print e) = nospace t.
(** A program that turns a text into another keeps the meaning of [e]. *)
Definition keeps_meaning (f : text -> res text) (e : expr) : Prop :=
  exists t e', f (print e) = Ok t /\ reads t e' /\ forall sym fn, eval sym fn e' = eval sym fn e.

(** ** Texts with calls of pow *)

(** pow(argument, digits) *)
Record pow_call : Type := PowCall { argument : text; blank : text; exponent : text }.
Definition call_text (p : pow_call) : text :=
  txt "pow(" ++ argument p ++ txt "," ++ blank p ++ exponent p ++ txt ")".
(** the product of copies of the argument in parentheses, without its spaces *)
Definition call_product (p : pow_call) : text :=
  txt "(" ++ join (txt "*") (repeat (txt "(" ++ nospace (argument p) ++ txt ")") (decimal (exponent p))) ++ txt ")".
(** The argument has no comma, no other white space than " ", does not start with it and does not hold the
    letters "pow"; the exponent is an integer. *)
Definition plain_call (p : pow_call) : Prop :=
  (exists c s, argument p = c :: s /\ is_space c = false) /\
  all (fun c => negb (is_space c) || Ascii.eqb c " ") (argument p) /\ all not_comma (argument p) /\
  ~ contains (txt "pow") (nospace (argument p)) /\
  all is_space (blank p) /\ exponent p <> [] /\ all is_digit (exponent p).
Definition call_source (l : list (text * pow_call)) (tail : text) : text :=
  List.concat (map (fun tp => fst tp ++ call_text (snd tp)) l) ++ tail.
Definition call_target (l : list (text * pow_call)) (tail : text) : text :=
  List.concat (map (fun tp => fst tp ++ call_product (snd tp)) l) ++ tail.
(** the text between the calls does not hold the letters "pow" *)
Definition calls_apart (l : list (text * pow_call)) (tail : text) : Prop :=
  (forall t p, In (t, p) l -> ~ contains (txt "pow") t /\ plain_call p) /\ ~ contains (txt "pow") tail.
