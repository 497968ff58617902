(** Properties proved in LOpt.v, generated from it by tools/mkprops.py.
    Nothing but statements: each proof is one lemma of that file. *)
From Coq Require Import Reals ZArith List Bool Arith Ascii String Permutation Sorted.
From Verif Require Import Num Py Pow2mul SpecPow Mprint MprintOpt SpecMprint SpecOpt.
From Verif Require LOpt.
Import ListNotations.
Local Open Scope list_scope.

(** Without the options the functions are those of C49 to C52. *)
Theorem C82_plain : forall m name sufix header print_file pow_by_mul is_symmetric dofpernode order op,
  (forall subs, subs = None \/ (exists f, subs = Some (Subs [] f)) ->
    mprint_as_dense_opt m name subs header print_file None pow_by_mul dofpernode = mprint_as_dense m name header print_file pow_by_mul dofpernode /\
    mprint_as_sparse_opt m name sufix subs header print_file None pow_by_mul is_symmetric dofpernode =
      mprint_as_sparse m name sufix header print_file pow_by_mul is_symmetric dofpernode) /\
  mprint_as_array_opt m name sufix None header print_file None pow_by_mul order op =
    (mprint_as_array m name sufix header print_file pow_by_mul order op, m).
Proof. exact LOpt.c82_plain. Qed.
Print Assumptions C82_plain.

(** The statements of the matrix with the new expressions, after a list of the definitions whose new symbol is found in the text, in comments. *)
Theorem C82_dense : forall m name items sub header print_file pow_by_mul dofpernode, items <> [] ->
  let r := mprint_as_dense_opt m name (Some (Subs items sub)) header print_file None pow_by_mul dofpernode in
  match mprint_as_dense (substitute sub m) name header false pow_by_mul dofpernode with
  | Ok (s, _) => exists ds, listed items s ds /\
      let s' := dense_preface ds ++ s in r = Ok (s', if print_file then Some (txt "print_" ++ name ++ txt ".txt", s') else None)
  | Raise x => r = Raise x
  end.
Proof. exact LOpt.c82_dense. Qed.
Print Assumptions C82_dense.

(** The same for the sparse format; the list is not in comments. *)
Theorem C82_sparse_partial : forall m name sufix items sub header print_file pow_by_mul is_symmetric dofpernode, items <> [] ->
  let r := mprint_as_sparse_opt m name sufix (Some (Subs items sub)) header print_file None pow_by_mul is_symmetric dofpernode in
  match mprint_as_sparse (substitute sub m) name sufix header false pow_by_mul is_symmetric dofpernode with
  | Ok (s, _) => exists ds, listed items s ds /\
      let s' := sparse_preface ds ++ s in r = Ok (s', if print_file then Some (txt "print_" ++ namesufix name sufix ++ txt ".txt", s') else None)
  | Raise x => r = Raise x
  end.
Proof. exact LOpt.c82_sparse_partial. Qed.
Print Assumptions C82_sparse_partial.

(** The list of the dense format is in comments. *)
Theorem C82_comments : forall ds, exists ls, dense_preface ds = lines ls /\ Forall comment ls.
Proof. exact LOpt.c82_comments. Qed.
Print Assumptions C82_comments.

(** The first line of the sparse format with a substitution, 'subs', is neither a comment nor empty nor a statement nor a definition. *)
Theorem C82_sparse_refuted : exists m name items sub s,
  mprint_as_sparse_opt m name None (Some (Subs items sub)) None false None true false None = Ok (lines [txt "subs"] ++ s, None) /\
  ~ comment (txt "subs") /\ txt "subs" <> [] /\ (forall st, sparse_text name st <> txt "subs") /\ (forall d, definition_text d <> txt "subs").
Proof. exact LOpt.c82_sparse_refuted. Qed.
Print Assumptions C82_sparse_refuted.

(** When SymPy's substitution keeps the values (the new symbols having the values of the old expressions), the statements give the matrix. *)
Theorem C82_values : forall nr nc m name items sub header print_file pow_by_mul,
  items <> [] -> rectangular nr nc m -> printable pow2mul_text pow_by_mul (substitute sub m) ->
  exists stmts file ds,
    let body := script (heading header ++ [name_line name; count_line name (List.length (cells nr nc m))]) (map (dense_text name) stmts) in
    listed items body ds /\
    mprint_as_dense_opt m name (Some (Subs items sub)) header print_file None pow_by_mul None = Ok (dense_preface ds ++ body, file) /\
    forall e val value,
      (forall i j t, nonzero (at_ m i j) = true -> shows pow2mul_text pow_by_mul (Entry true (sub (entry_text (at_ m i j)))) t -> val t = value i j) ->
      (forall i j, nonzero (at_ m i j) = false -> value i j = 0%R) ->
      forall i j, dense_exec e val stmts (fun _ _ => 0%R) i j = value i j.
Proof. exact LOpt.c82_values. Qed.
Print Assumptions C82_values.

(** An entry in which a part is replaced, with and without the file; the symbol that is not used is not listed. *)
Example C82_ex : let m := [[Entry true (txt "3*cos(t) + x**2"); Entry false (txt "0")]] in
  let sub := fun s : text => txt "3*c + x**2" in
  let items := [(txt "sin(t)", txt "s"); (txt "cos(t)", txt "c")] in
  rectangular 1 2 m /\ printable pow2mul_text true (substitute sub m) /\
  mprint_as_dense_opt m (txt "A") (Some (Subs items sub)) None false None true None =
    Ok (script [txt "# subs"; txt "# c = cos(t)"; txt "# A"; txt "# A_num=1"] [txt "A[0, 0] += 3*c + (x*x)"], None) /\
  mprint_as_sparse_opt m (txt "A") None (Some (Subs items sub)) None false None true false None =
    Ok (script [txt "subs"; []; txt "c = cos(t)"; []; []; txt "# A"; txt "# A_num=1"] [txt "c += 1"; txt "Ar[c] = row+0"; txt "Ac[c] = col+0"; txt "Av[c] += 3*c + (x*x)"], None).
Proof. exact LOpt.c82_ex. Qed.

(** Each entry that is not zero gives a line that ends in +=, and then a comment and a line for each of its terms. *)
Theorem C83_dense_partial : forall nr nc m name header print_file collect pow_by_mul dofpernode, rectangular nr nc m ->
  let ix i := match dofpernode with Some (S d) => NodeDof (i / S d + 1) (i mod S d) | _ => Number i end in
  exists file,
    mprint_as_dense_opt m name None header print_file (Some collect) pow_by_mul dofpernode =
      Ok (script (heading header ++ [name_line name; count_line name (List.length (cells nr nc m))])
        (flat_map (fun c => collected (name ++ txt "[" ++ index_text (ix (fst (fst c))) ++ txt ", " ++ index_text (ix (snd (fst c))) ++ txt "]") (collect (entry_text (snd c)))) (cells nr nc m)), file).
Proof. exact LOpt.c83_dense_partial. Qed.
Print Assumptions C83_dense_partial.

(** The same for the sparse format (every entry on its own row and column). *)
Theorem C83_sparse_partial : forall nr nc m name sufix header print_file collect pow_by_mul, rectangular nr nc m ->
  exists file,
    let full := namesufix name sufix in
    let num := count_line full (List.length (cells nr nc m)) in
    mprint_as_sparse_opt m name sufix None header print_file (Some collect) pow_by_mul false None =
      Ok (script (match heading header with [] => [name_line full; num] | h => h ++ [num; name_line full] end)
        (flat_map (fun c => map (sparse_text name) [CountUp; SetRow (Offset (txt "row") (fst (fst c))); SetCol (Offset (txt "col") (snd (fst c)))]
                            ++ collected (name ++ txt "v[c]") (collect (entry_text (snd c)))) (cells nr nc m)), file).
Proof. exact LOpt.c83_sparse_partial. Qed.
Print Assumptions C83_sparse_partial.

(** Such a line is no statement, and no comment. *)
Theorem C83_refuted : exists m name collect,
  mprint_as_dense_opt m name None None false (Some collect) true None =
    Ok (script [name_line name; count_line name 1] [txt "A[0, 0] +="; txt "#   collected for a"; txt "    a*b"; txt "#   collected for 1"; txt "    c"], None) /\
  ~ comment (txt "A[0, 0] +=") /\ (forall s, dense_text name s <> txt "A[0, 0] +=") /\ forall s, dense_text name s <> txt "    a*b".
Proof. exact LOpt.c83_refuted. Qed.
Print Assumptions C83_refuted.

(** Every symbol is declared once, at most nine in a line, then defined in the order of SymPy, and the statements are those of the reduced matrix; the matrix of the caller is now the reduced one. *)
Theorem C84_cse : forall nr nc m name sufix cse header print_file pow_by_mul op,
  let subs := fst (cse m) in let reduced := snd (cse m) in
  rectangular nr nc reduced -> printable array_powers_text pow_by_mul reduced ->
  exists file ts groups,
    let full := namesufix name sufix in
    let entry_at k := at_ reduced (k / nc) (k mod nc) in
    List.concat groups = map fst subs /\ Forall (fun g => 1 <= List.length g <= 9) groups /\ texts array_powers_text pow_by_mul reduced ts /\
    mprint_as_array_opt m name sufix (Some cse) header print_file None pow_by_mul "C" op =
      (Ok (script (heading header ++ [txt "# cdefs"] ++ map cdef_text groups ++ [txt "# subs"] ++ map assign_text subs
                   ++ [name_line full; count_line full (List.length (cells nr nc reduced))])
            (map (fun k => array_text name (txt op) (ArrayAdd (Offset (txt "pos") k) (ts (entry_at k))))
               (filter (fun k => nonzero (entry_at k)) (seq 0 (nr * nc)))), file), reduced).
Proof. exact LOpt.c84_cse. Qed.
Print Assumptions C84_cse.

(** The matrix of the caller does not survive the call. *)
Theorem C84_refuted : exists m name cse s,
  mprint_as_array_opt m name None (Some cse) None false None true "C" "+=" = (Ok (s, None), snd (cse m)) /\ snd (cse m) <> m.
Proof. exact LOpt.c84_refuted. Qed.
Print Assumptions C84_refuted.

(** Ten symbols need two lines of declarations. *)
Example C84_ex : let m := [[Entry true (txt "(a + b)**2"); Entry true (txt "(a + b)*c")]] in
  let x := fun n => txt "x" ++ nat_text n in
  let subs := map (fun n => (x n, txt "a + b")) (seq 0 10) in
  let reduced := [[Entry true (txt "x0**2"); Entry true (txt "c*x9")]] in
  let cse := fun _ : matrix => (subs, reduced) in
  rectangular 1 2 reduced /\ printable array_powers_text true reduced /\
  mprint_as_array_opt m (txt "A") None (Some cse) None false None true "C" "+=" =
    (Ok (script ([txt "# cdefs"; txt "cdef double x0, x1, x2, x3, x4, x5, x6, x7, x8"; txt "cdef double x9"; txt "# subs"]
                 ++ map (fun n => x n ++ txt " = a + b") (seq 0 10) ++ [txt "# A"; txt "# A_num=2"])
          [txt "A[pos+0] += (x0*x0)"; txt "A[pos+1] += c*x9"], None), reduced).
Proof. exact LOpt.c84_ex. Qed.
