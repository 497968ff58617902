(** meshless/dev/sympytools.py:pow2mul and the parts of Python it uses: [re.findall] for the
    two patterns, [str.replace], [str.split], [str.strip], [int].

    Text is a list of ASCII characters.  Simplification: [\w], [\s] and [\d] are taken over
    ASCII only, and [int] has no limit on the number of digits. *)
From Coq Require Import List Bool Arith Ascii String ZArith.
From Verif Require Import Num Py.
Import ListNotations.

Definition text : Type := list ascii.
Definition txt (s : string) : text := list_ascii_of_string s.
Definition str (t : text) : string := string_of_list_ascii t.

(** ** Character classes *)

Definition between (lo hi c : ascii) : bool :=
  Nat.leb (nat_of_ascii lo) (nat_of_ascii c) && Nat.leb (nat_of_ascii c) (nat_of_ascii hi).
(** [\d] *)
Definition is_digit (c : ascii) : bool := between "0" "9" c.
(** [\w] *)
Definition is_word (c : ascii) : bool :=
  is_digit c || between "a" "z" c || between "A" "Z" c || Ascii.eqb c "_".
(** [\s]: tab, line feed, vertical tab, form feed, carriage return, 28 to 31, space *)
Definition is_space (c : ascii) : bool :=
  between (ascii_of_nat 9) (ascii_of_nat 13) c || between (ascii_of_nat 28) (ascii_of_nat 32) c.

(** ** Python string operations *)

(** the rest of [s] after the prefix [p] *)
Fixpoint strip_prefix (p s : text) : option text :=
  match p, s with
  | [], _ => Some s
  | a :: p', b :: s' => if Ascii.eqb a b then strip_prefix p' s' else None
  | _ :: _, [] => None
  end.
Definition starts (p s : text) : bool := match strip_prefix p s with Some _ => true | None => false end.

(** [s.replace(old, new)] for a non-empty [old]: left to right, without overlaps.  [skip] is
    the number of characters of an occurrence that are still to be passed over. *)
Fixpoint replace_from (skip : nat) (old new s : text) : text :=
  match s with
  | [] => []
  | c :: s' =>
      match skip with
      | S k => replace_from k old new s'
      | O => if starts old s then new ++ replace_from (pred (List.length old)) old new s'
             else c :: replace_from 0 old new s'
      end
  end.
Definition replace (old new s : text) : text := replace_from 0 old new s.

(** [s.split(sep)] for a non-empty [sep]; [cur] is the part being read, reversed *)
Fixpoint split_from (skip : nat) (sep cur s : text) : list text :=
  match s with
  | [] => [rev cur]
  | c :: s' =>
      match skip with
      | S k => split_from k sep cur s'
      | O => if starts sep s then rev cur :: split_from (pred (List.length sep)) sep [] s'
             else split_from 0 sep (c :: cur) s'
      end
  end.
Definition split (sep s : text) : list text := split_from 0 sep [] s.

(** [s.strip()] *)
Fixpoint lstrip (s : text) : text :=
  match s with c :: s' => if is_space c then lstrip s' else s | [] => [] end.
Definition strip (s : text) : text := rev (lstrip (rev (lstrip s))).

(** [s.replace(' ', '')] *)
Definition nospace (s : text) : text := filter (fun c => negb (Ascii.eqb c " ")) s.

(** [sep.join(l)] *)
Fixpoint join (sep : text) (l : list text) : text :=
  match l with [] => [] | [a] => a | a :: l' => a ++ sep ++ join sep l' end.

(** [int(s)]: surrounding white space, a sign, digits with single underscores between them *)
Definition digit_value (c : ascii) : nat := nat_of_ascii c - nat_of_ascii "0".
Fixpoint digits_value (acc : nat) (s : text) : res nat :=
  match s with
  | [] => Ok acc
  | c :: s' =>
      if is_digit c then digits_value (acc * 10 + digit_value c) s'
      else if Ascii.eqb c "_" then
        match s' with
        | d :: s'' => if is_digit d then digits_value (acc * 10 + digit_value d) s'' else Raise ValueError
        | [] => Raise ValueError
        end
      else Raise ValueError
  end.
Definition unsigned (s : text) : res nat :=
  match s with
  | c :: s' => if is_digit c then digits_value (digit_value c) s' else Raise ValueError
  | [] => Raise ValueError
  end.
Definition py_int (s : text) : res Z :=
  match strip s with
  | c :: s' =>
      if Ascii.eqb c "-" then let! n := unsigned s' in Ok (- Z.of_nat n)%Z
      else if Ascii.eqb c "+" then let! n := unsigned s' in Ok (Z.of_nat n)
      else let! n := unsigned (c :: s') in Ok (Z.of_nat n)
  | [] => Raise ValueError
  end.

(** ** Regular expressions

    The patterns are sequences of single characters of a class and greedy repetitions of a
    class, with backtracking, and alternatives tried from left to right. *)
Inductive item : Type :=
| One (p : ascii -> bool)
| Star (p : ascii -> bool)
| Plus (p : ascii -> bool).

(** List.length of the longest run of [p] at the start *)
Fixpoint run (p : ascii -> bool) (s : text) : nat :=
  match s with c :: s' => if p c then S (run p s') else 0 | [] => 0 end.

(** List.length of the match of a sequence of items at the start of [s] *)
Fixpoint match_seq (r : list item) (s : text) : option nat :=
  match r with
  | [] => Some 0
  | One p :: r' =>
      match s with
      | c :: s' => if p c then option_map S (match_seq r' s') else None
      | [] => None
      end
  | Star p :: r' =>
      (fix down (n : nat) : option nat :=
         match match_seq r' (skipn n s) with
         | Some k => Some (n + k)
         | None => match n with O => None | S n' => down n' end
         end) (run p s)
  | Plus p :: r' =>
      (fix down (n : nat) : option nat :=
         match n with
         | O => None
         | S n' => match match_seq r' (skipn n s) with Some k => Some (n + k) | None => down n' end
         end) (run p s)
  end.
Fixpoint match_alt (rs : list (list item)) (s : text) : option nat :=
  match rs with
  | [] => None
  | r :: rs' => match match_seq r s with Some n => Some n | None => match_alt rs' s end
  end.

(** [re.findall(pattern, s)] for patterns that do not match the empty text *)
Fixpoint findall_from (skip : nat) (rs : list (list item)) (s : text) : list text :=
  match s with
  | [] => []
  | _ :: s' =>
      match skip with
      | S k => findall_from k rs s'
      | O => match match_alt rs s with
             | Some (S n) => firstn (S n) s :: findall_from n rs s'
             | _ => findall_from 0 rs s'
             end
      end
  end.
Definition findall (rs : list (list item)) (s : text) : list text := findall_from 0 rs s.

Definition chr (c : ascii) : item := One (Ascii.eqb c).
Definition not_paren (c : ascii) : bool := negb (Ascii.eqb c "(") && negb (Ascii.eqb c ")").
Definition not_comma (c : ascii) : bool := negb (Ascii.eqb c ",").
Definition not_comma_paren (c : ascii) : bool := negb (Ascii.eqb c ",") && negb (Ascii.eqb c ")").

(** line 26: [\w+\*\*\s*\d+|\([^\(\)]+\)\*\*\d+] *)
Definition pattern_powers : list (list item) :=
  [ [Plus is_word; chr "*"; chr "*"; Star is_space; Plus is_digit];
    [chr "("; Plus not_paren; chr ")"; chr "*"; chr "*"; Plus is_digit] ].
(** line 38: [pow\(\s*[^,]+\s*,\s*[^,\)]+\s*\)] *)
Definition pattern_pow : list (list item) :=
  [ [chr "p"; chr "o"; chr "w"; chr "("; Star is_space; Plus not_comma; Star is_space; chr ",";
     Star is_space; Plus not_comma_paren; Star is_space; chr ")"] ].

(** ** pow2mul *)

(** [[var]*int(exp)] *)
Definition copies (var : text) (n : Z) : list text := repeat var (Z.to_nat n).

(** lines 28-29 *)
Definition expand_power (p : text) : res text :=
  match split (txt "**") (nospace p) with
  | [var; exp] => let! n := py_int exp in Ok (txt "(" ++ join (txt "*") (copies var n) ++ txt ")")
  | _ => Raise ValueError
  end.

(** lines 39-42 *)
Definition expand_pow (p : text) : res text :=
  match split (txt "pow") p with
  | _ :: part :: _ =>
      match split (txt ",") part with
      | [var; exp] =>
          let var := tl (strip var) in
          let exp := removelast (strip exp) in
          let! n := py_int exp in
          Ok (txt "(" ++ join (txt "*") (copies (txt "(" ++ nospace var ++ txt ")") n) ++ txt ")")
      | _ => Raise ValueError
      end
  | _ => Raise IndexError
  end.

(** lines 27-30 (38-43): the pairs (old, new) in the order of the matches *)
Fixpoint old_new (expand : text -> res text) (ps : list text) : res (list (text * text)) :=
  match ps with
  | [] => Ok []
  | p :: ps' => let! new := expand p in let! l := old_new expand ps' in Ok ((p, new) :: l)
  end.

(** line 33: [sorted(old_new, key=lambda x: len(x[0]))[::-1]]; the sort is stable *)
Fixpoint insert_by_len (a : text * text) (l : list (text * text)) : list (text * text) :=
  match l with
  | [] => [a]
  | b :: l' => if Nat.leb (List.length (fst a)) (List.length (fst b)) then a :: l else b :: insert_by_len a l'
  end.
Definition sort_by_len (l : list (text * text)) : list (text * text) := fold_right insert_by_len [] l.
Definition longest_first (l : list (text * text)) : list (text * text) := rev (sort_by_len l).

(** lines 34-35 (44-45) *)
Definition replace_each (l : list (text * text)) (s : text) : text :=
  fold_left (fun s on => replace (fst on) (snd on) s) l s.

(** lines 24-47 *)
Definition pow2mul_text (instr : text) : res text :=
  let! l := old_new expand_power (findall pattern_powers instr) in
  let outstr := replace_each (longest_first l) instr in
  let! l := old_new expand_pow (findall pattern_pow instr) in
  Ok (replace_each l outstr).
Definition pow2mul (instr : string) : res string := let! t := pow2mul_text (txt instr) in Ok (str t).

(** ** The same loop in mprint_as_array *)

(** line 304: [\w+\*\*\d+] *)
Definition pattern_array : list (list item) := [ [Plus is_word; chr "*"; chr "*"; Plus is_digit] ].
(** lines 305-306: [var, exp = p.split('**')] *)
Definition expand_array (p : text) : res text :=
  match split (txt "**") p with
  | [var; exp] => let! n := py_int exp in Ok (txt "(" ++ join (txt "*") (copies var n) ++ txt ")")
  | _ => Raise ValueError
  end.
(** lines 303-306 *)
Definition array_powers_text (v : text) : res text :=
  let! l := old_new expand_array (findall pattern_array v) in Ok (replace_each l v).
Definition array_powers (v : string) : res string := let! t := array_powers_text (txt v) in Ok (str t).
