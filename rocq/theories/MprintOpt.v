(** meshless/dev/sympytools.py: the options [subs], [collect_for] and [use_cse] of the printing functions.

    These options call SymPy.  The calls are arguments of the model: of an expression only its text
    is seen, before and after.  Simplification: two expressions with the same text are the same for SymPy.
    Without the options the functions are those of Mprint.v (property C82). *)
From Coq Require Import List Bool Arith Ascii String.
From Verif Require Import Num Py Pow2mul Mprint.
Import ListNotations.

(** [subs]: the dictionary, as texts (old, new) in the order of insertion, and [str(v.subs(subs))] from [str(v)];
    [collect_for]: the texts of k and k*expr for the items (k, expr) of [collect(v, collect_for, evaluate=False)] *)
Record subs_opt : Type := Subs { s_items : list (text * text); s_apply : text -> text }.
Definition collect_opt : Type := text -> list (text * text).

(** [if subs: v = v.subs(subs)]: an empty dictionary is false *)
Definition use_subs (o : option subs_opt) : option subs_opt :=
  match o with Some (Subs (a :: l) f) => Some (Subs (a :: l) f) | _ => None end.
Definition apply_subs (o : option subs_opt) (v : entry) : entry :=
  match use_subs o with Some s => Entry (nonzero v) (s_apply s (entry_text v)) | None => v end.

(** lines 117-119, 203-205 and 299-301 *)
Definition collected_lines (l : list (text * text)) : list text :=
  flat_map (fun ke => [txt "#   collected for " ++ fst ke; txt "    " ++ snd ke]) l.
(** lines 115-124 (196-212, 296-307): [target] is all before the value *)
Definition value_lines (expand : text -> res text) (pow_by_mul : bool) (collect : option collect_opt)
    (target op : text) (v : entry) : res (list text) :=
  match collect with
  | Some f => Ok ((target ++ txt " +=") :: collected_lines (f (entry_text v)))
  | None => let! t := value_text expand pow_by_mul v in Ok [target ++ txt " " ++ op ++ txt " " ++ t]
  end.

(** ** The list of substitutions, lines 130-140 and 216-224 *)

(** [a <= b] of strings *)
Fixpoint text_leb (a b : text) : bool :=
  match a, b with
  | [], _ => true
  | _ :: _, [] => false
  | x :: a', y :: b' =>
      if Nat.ltb (nat_of_ascii x) (nat_of_ascii y) then true
      else if Nat.ltb (nat_of_ascii y) (nat_of_ascii x) then false else text_leb a' b'
  end.
(** [sorted(items, key=lambda x: str(x[1]))] (stable) *)
Fixpoint insert_by_new (a : text * text) (l : list (text * text)) : list (text * text) :=
  match l with
  | [] => [a]
  | b :: l' => if text_leb (snd a) (snd b) then a :: l else b :: insert_by_new a l'
  end.
Definition sort_by_new (l : list (text * text)) : list (text * text) := fold_right insert_by_new [] l.
(** [p in s] *)
Fixpoint occurs (p s : text) : bool :=
  starts p s || match s with [] => false | _ :: s' => occurs p s' end.
(** [sep] is the '# ' of mprint_as_dense; [first] and [last] are the lines around the list *)
Definition with_subs (o : option subs_opt) (first last : list text) (sep : text) (ls : list text) : text :=
  let string := join [newline] ls in
  match use_subs o with
  | None => string
  | Some s =>
      let items := filter (fun kv => occurs (snd kv) string) (sort_by_new (s_items s)) in
      match items with
      | [] => string
      | _ => join [newline] ((first ++ map (fun kv => sep ++ snd kv ++ txt " = " ++ fst kv) items ++ last) ++ ls)
      end
  end.

(** ** mprint_as_sparse, lines 50-145 *)

Fixpoint sparse_loop_opt (mname : text) (subs : option subs_opt) (collect : option collect_opt) (pow_by_mul is_symmetric : bool)
    (dofpernode : option nat) (es : list ((nat * nat) * entry)) (num : nat) (ls : list text) : res (nat * list text) :=
  match es with
  | [] => Ok (num, ls)
  | (ij, v) :: es' =>
      let ni := node_index dofpernode (fst ij) in
      let nj := node_index dofpernode (snd ij) in
      if nonzero v then
        if is_symmetric && Nat.ltb (snd nj) (snd ni) then sparse_loop_opt mname subs collect pow_by_mul is_symmetric dofpernode es' num ls
        else
          let v := apply_subs subs v in
          let ls := ls ++ [txt "c += 1"] in
          let ls := ls ++ [mname ++ txt "r[c] = " ++ sparse_index dofpernode (txt "row") ni] in
          let ls := ls ++ [mname ++ txt "c[c] = " ++ sparse_index dofpernode (txt "col") nj] in
          let! vl := value_lines pow2mul_text pow_by_mul collect (mname ++ txt "v[c]") (txt "+=") v in
          sparse_loop_opt mname subs collect pow_by_mul is_symmetric dofpernode es' (num + 1) (ls ++ vl)
      else sparse_loop_opt mname subs collect pow_by_mul is_symmetric dofpernode es' num ls
  end.
(** lines 134-138: ['subs\n'], the list, ['\n'] *)
Definition mprint_as_sparse_opt (m : matrix) (mname : text) (sufix : option text) (subs : option subs_opt) (header : option text)
    (print_file : bool) (collect : option collect_opt) (pow_by_mul is_symmetric : bool) (dofpernode : option nat) : res printed :=
  let name := namesufix mname sufix in
  let ls := header_lines header ++ [txt "# " ++ name] in
  let! nl := sparse_loop_opt mname subs collect pow_by_mul is_symmetric dofpernode (ndenumerate m) 0 ls in
  let ls := insert1 (txt "# " ++ name ++ txt "_num=" ++ nat_text (fst nl)) (snd nl) in
  Ok (finish print_file name (with_subs subs [txt "subs" ++ [newline]] [[newline]] [] ls)).

(** ** mprint_as_dense, lines 148-229 *)

Fixpoint dense_loop_opt (mname : text) (subs : option subs_opt) (collect : option collect_opt) (pow_by_mul : bool) (dofpernode : option nat)
    (es : list ((nat * nat) * entry)) (ls : list text) : res (list text) :=
  match es with
  | [] => Ok ls
  | (ij, v) :: es' =>
      let ni := node_index dofpernode (fst ij) in
      let nj := node_index dofpernode (snd ij) in
      if nonzero v then
        let v := apply_subs subs v in
        let! vl := value_lines pow2mul_text pow_by_mul collect (mname ++ txt "[" ++ dense_index dofpernode ni nj ++ txt "]") (txt "+=") v in
        dense_loop_opt mname subs collect pow_by_mul dofpernode es' (ls ++ vl)
      else dense_loop_opt mname subs collect pow_by_mul dofpernode es' ls
  end.
Definition mprint_as_dense_opt (m : matrix) (mname : text) (subs : option subs_opt) (header : option text)
    (print_file : bool) (collect : option collect_opt) (pow_by_mul : bool) (dofpernode : option nat) : res printed :=
  let ls := header_lines header ++ [txt "# " ++ mname] in
  let num := List.length (filter (fun e => nonzero (snd e)) (ndenumerate m)) in
  let ls := ls ++ [txt "# " ++ mname ++ txt "_num=" ++ nat_text num] in
  let! ls := dense_loop_opt mname subs collect pow_by_mul dofpernode (ndenumerate m) ls in
  Ok (finish print_file mname (with_subs subs [txt "# subs"] [] (txt "# ") ls)).

(** ** mprint_as_array, lines 232-312 *)

(** [sympy.cse(m)]: the texts (symbol, expression) of the list [subs], and the matrix [m] after line 268.
    For a matrix [m_list] is a list of one matrix of the shape of [m], and [m[0] = v] copies it into [m]. *)
Definition cse_opt : Type := matrix -> list (text * text) * matrix.

(** [subs[::num]], and line 281: [subs[num*i:num*(i+1)]] *)
Fixpoint every (num skip : nat) (l : list (text * text)) : list (text * text) :=
  match l with
  | [] => []
  | a :: l' => match skip with O => a :: every num (num - 1) l' | S k => every num k l' end
  end.
Definition cdef_lines (subs : list (text * text)) : list text :=
  map (fun i => txt "cdef double " ++ join (txt ", ") (map fst (firstn (9 * (fst i + 1) - 9 * fst i) (skipn (9 * fst i) subs))))
    (enumerate (every 9 0 subs)).
Fixpoint array_loop_opt (mname : text) (collect : option collect_opt) (pow_by_mul : bool) (op : text) (es : list (nat * entry)) (ls : list text) : res (list text) :=
  match es with
  | [] => Ok ls
  | (i, v) :: es' =>
      if nonzero v then
        let! vl := value_lines array_powers_text pow_by_mul collect (mname ++ txt "[pos+" ++ nat_text i ++ txt "]") op v in
        array_loop_opt mname collect pow_by_mul op es' (ls ++ vl)
      else array_loop_opt mname collect pow_by_mul op es' ls
  end.
(** the second component is the matrix [m] of the caller after the call *)
Definition mprint_as_array_opt (m : matrix) (mname : text) (sufix : option text) (cse : option cse_opt) (header : option text)
    (print_file : bool) (collect : option collect_opt) (pow_by_mul : bool) (order op : string) : res printed * matrix :=
  let subs := match cse with Some f => fst (f m) | None => [] end in
  let m := match cse with Some f => snd (f m) | None => m end in
  let name := namesufix mname sufix in
  let ls := header_lines header in
  let ls := ls ++ match cse with
                  | Some _ => [txt "# cdefs"] ++ cdef_lines subs ++ [txt "# subs"] ++ map (fun s => fst s ++ txt " = " ++ snd s) subs
                  | None => []
                  end in
  let ls := ls ++ [txt "# " ++ name] in
  let num := List.length (filter nonzero (ravel m)) in
  let ls := ls ++ [txt "# " ++ name ++ txt "_num=" ++ nat_text num] in
  (let! miter := (if String.eqb order "C" then Ok (enumerate (ravel m))
                  else if String.eqb order "F" then Ok (enumerate (ravel (transpose m)))
                  else Raise UnboundLocalError) in
   let! ls := array_loop_opt mname collect pow_by_mul (txt op) miter ls in
   Ok (finish print_file name (join [newline] ls)), m).
