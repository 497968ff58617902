(** meshless/dev/sympytools.py: mprint_as_sparse, mprint_as_dense, mprint_as_array.

    A SymPy matrix is a list of rows of entries; of an entry the functions see whether it is
    true (not the number 0) and the text [str(v)].  Simplifications: the options [subs],
    [collect_for] and [use_cse], which call SymPy, are None (False), and [dofpernode] is not
    negative. *)
From Coq Require Import List Bool Arith Ascii String.
From Verif Require Import Num Py Pow2mul.
Import ListNotations.

Record entry : Type := Entry { nonzero : bool; entry_text : text }.
Definition matrix : Type := list (list entry).

(** [str(n)] for n >= 0 *)
Definition digit_char (n : nat) : ascii := ascii_of_nat (nat_of_ascii "0" + n).
Fixpoint digits_of (fuel n : nat) : text :=
  match fuel with
  | O => []
  | S fuel => if Nat.ltb n 10 then [digit_char n] else digits_of fuel (n / 10) ++ [digit_char (n mod 10)]
  end.
Definition nat_text (n : nat) : text := digits_of (S n) n.

(** [enumerate(l)] *)
Definition enumerate {A} (l : list A) : list (nat * A) := combine (seq 0 (List.length l)) l.
(** [np.ndenumerate(m)]: ((i, j), v) *)
Definition ndenumerate (m : matrix) : list ((nat * nat) * entry) :=
  flat_map (fun ir => map (fun jv => ((fst ir, fst jv), snd jv)) (enumerate (snd ir))) (enumerate m).
(** [np.ravel(m)] *)
Definition ravel (m : matrix) : list entry := List.concat m.
(** [m.T]: the matrix has as many columns as its first row has entries *)
Definition transpose (m : matrix) : matrix :=
  map (fun j => map (fun row => nth j row (Entry false [])) m) (seq 0 (List.length (hd [] m))).

(** lines 82-85: mname, or mname_sufix *)
Definition namesufix (mname : text) (sufix : option text) : text :=
  match sufix with None => mname | Some s => mname ++ txt "_" ++ s end.
(** [if header: ls.append(header)] *)
Definition header_lines (header : option text) : list text :=
  match header with None => [] | Some [] => [] | Some h => [h] end.
Definition newline : ascii := ascii_of_nat 10.

(** the text that is returned, and the name and contents of the file that is written *)
Definition printed : Type := text * option (text * text).
(** lines 142-145 (226-229, 309-312) *)
Definition finish (print_file : bool) (name string : text) : printed :=
  (string, if print_file then Some (txt "print_" ++ name ++ txt ".txt", string) else None).

(** [if pow_by_mul: v = pow2mul(str(v))], and [str(v)] in the format otherwise *)
Definition value_text (expand : text -> res text) (pow_by_mul : bool) (v : entry) : res text :=
  if pow_by_mul then expand (entry_text v) else Ok (entry_text v).

(** [if dofpernode:] *)
Definition truthy (n : option nat) : option nat := match n with Some (S k) => Some (S k) | _ => None end.

(** ** mprint_as_sparse, lines 50-145 *)

(** lines 94-98 *)
Definition node_index (dofpernode : option nat) (i : nat) : nat * nat :=
  match truthy dofpernode with Some d => (i / d + 1, i mod d) | None => (0, i) end.
(** lines 108-113 *)
Definition sparse_index (dofpernode : option nat) (base : text) (ni : nat * nat) : text :=
  match truthy dofpernode with
  | Some _ => txt "i" ++ nat_text (fst ni) ++ txt "*dof+" ++ nat_text (snd ni)
  | None => base ++ txt "+" ++ nat_text (snd ni)
  end.
(** lines 93-124 *)
Fixpoint sparse_loop (mname : text) (pow_by_mul is_symmetric : bool) (dofpernode : option nat)
    (es : list ((nat * nat) * entry)) (num : nat) (ls : list text) : res (nat * list text) :=
  match es with
  | [] => Ok (num, ls)
  | (ij, v) :: es' =>
      let ni := node_index dofpernode (fst ij) in
      let nj := node_index dofpernode (snd ij) in
      if nonzero v then
        if is_symmetric && Nat.ltb (snd nj) (snd ni) then sparse_loop mname pow_by_mul is_symmetric dofpernode es' num ls
        else
          let ls := ls ++ [txt "c += 1"] in
          let ls := ls ++ [mname ++ txt "r[c] = " ++ sparse_index dofpernode (txt "row") ni] in
          let ls := ls ++ [mname ++ txt "c[c] = " ++ sparse_index dofpernode (txt "col") nj] in
          let! t := value_text pow2mul_text pow_by_mul v in
          let ls := ls ++ [mname ++ txt "v[c] += " ++ t] in
          sparse_loop mname pow_by_mul is_symmetric dofpernode es' (num + 1) ls
      else sparse_loop mname pow_by_mul is_symmetric dofpernode es' num ls
  end.
(** line 126: [ls.insert(1, x)] *)
Definition insert1 (x : text) (ls : list text) : list text :=
  match ls with [] => [x] | a :: r => a :: x :: r end.
Definition mprint_as_sparse (m : matrix) (mname : text) (sufix header : option text)
    (print_file pow_by_mul is_symmetric : bool) (dofpernode : option nat) : res printed :=
  let name := namesufix mname sufix in
  let ls := header_lines header ++ [txt "# " ++ name] in
  let! nl := sparse_loop mname pow_by_mul is_symmetric dofpernode (ndenumerate m) 0 ls in
  let ls := insert1 (txt "# " ++ name ++ txt "_num=" ++ nat_text (fst nl)) (snd nl) in
  Ok (finish print_file name (join [newline] ls)).

(** ** mprint_as_dense, lines 148-229 *)

(** lines 207-212 *)
Definition dense_index (dofpernode : option nat) (ni nj : nat * nat) : text :=
  match truthy dofpernode with
  | Some _ => txt "i" ++ nat_text (fst ni) ++ txt "*dof+" ++ nat_text (snd ni) ++ txt ", i" ++ nat_text (fst nj) ++ txt "*dof+" ++ nat_text (snd nj)
  | None => nat_text (snd ni) ++ txt ", " ++ nat_text (snd nj)
  end.
(** lines 185-212 *)
Fixpoint dense_loop (mname : text) (pow_by_mul : bool) (dofpernode : option nat)
    (es : list ((nat * nat) * entry)) (ls : list text) : res (list text) :=
  match es with
  | [] => Ok ls
  | (ij, v) :: es' =>
      let ni := node_index dofpernode (fst ij) in
      let nj := node_index dofpernode (snd ij) in
      if nonzero v then
        let! t := value_text pow2mul_text pow_by_mul v in
        dense_loop mname pow_by_mul dofpernode es' (ls ++ [mname ++ txt "[" ++ dense_index dofpernode ni nj ++ txt "] += " ++ t])
      else dense_loop mname pow_by_mul dofpernode es' ls
  end.
Definition mprint_as_dense (m : matrix) (mname : text) (header : option text)
    (print_file pow_by_mul : bool) (dofpernode : option nat) : res printed :=
  let ls := header_lines header ++ [txt "# " ++ mname] in
  let num := List.length (filter (fun e => nonzero (snd e)) (ndenumerate m)) in
  let ls := ls ++ [txt "# " ++ mname ++ txt "_num=" ++ nat_text num] in
  let! ls := dense_loop mname pow_by_mul dofpernode (ndenumerate m) ls in
  Ok (finish print_file mname (join [newline] ls)).

(** ** mprint_as_array, lines 232-312 *)

(** lines 293-307 *)
Fixpoint array_loop (mname : text) (pow_by_mul : bool) (op : text) (es : list (nat * entry)) (ls : list text) : res (list text) :=
  match es with
  | [] => Ok ls
  | (i, v) :: es' =>
      if nonzero v then
        let! t := value_text array_powers_text pow_by_mul v in
        array_loop mname pow_by_mul op es' (ls ++ [mname ++ txt "[pos+" ++ nat_text i ++ txt "] " ++ op ++ txt " " ++ t])
      else array_loop mname pow_by_mul op es' ls
  end.
(** line 292 with another order uses a variable without a value *)
Definition mprint_as_array (m : matrix) (mname : text) (sufix header : option text)
    (print_file pow_by_mul : bool) (order op : string) : res printed :=
  let name := namesufix mname sufix in
  let ls := header_lines header ++ [txt "# " ++ name] in
  let num := List.length (filter nonzero (ravel m)) in
  let ls := ls ++ [txt "# " ++ name ++ txt "_num=" ++ nat_text num] in
  let! miter := (if String.eqb order "C" then Ok (enumerate (ravel m))
                 else if String.eqb order "F" then Ok (enumerate (ravel (transpose m)))
                 else Raise UnboundLocalError) in
  let! ls := array_loop mname pow_by_mul (txt op) miter ls in
  Ok (finish print_file name (join [newline] ls)).
