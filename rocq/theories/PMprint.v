(** Properties proved in LMprint.v, generated from it by tools/mkprops.py.
    Nothing but statements: each proof is one lemma of that file. *)
From Coq Require Import Reals ZArith List Bool Arith Ascii String.
From Verif Require Import Num Py Pow2mul SpecPow Mprint SpecMprint.
From Verif Require LMprint.
Import ListNotations.
Local Open Scope string_scope.

(** Without dofpernode the statements, executed on a zero matrix, give the matrix; the number printed is the number of entries that are not zero. *)
Theorem C49_dense : forall nr nc m name header print_file pow_by_mul,
  rectangular nr nc m -> printable pow2mul_text pow_by_mul m ->
  exists stmts file ts,
    mprint_as_dense m name header print_file pow_by_mul None =
      Ok (script (heading header ++ [name_line name; count_line name (List.length (cells nr nc m))]) (map (dense_text name) stmts), file) /\
    texts pow2mul_text pow_by_mul m ts /\ dense_from m ts stmts /\
    forall e val i j, has_value ts val (at_ m i j) (dense_exec e val stmts (fun _ _ => 0%R) i j).
Proof. exact LMprint.c49_dense. Qed.
Print Assumptions C49_dense.

(** With dofpernode each entry is added in the rows and columns of its nodes, whatever numbers the nodes have, and nothing is added elsewhere. *)
Theorem C49_nodes : forall nr nc m name header print_file pow_by_mul d,
  rectangular nr nc m -> printable pow2mul_text pow_by_mul m -> d <> 0 ->
  exists stmts file ts,
    mprint_as_dense m name header print_file pow_by_mul (Some d) =
      Ok (script (heading header ++ [name_line name; count_line name (List.length (cells nr nc m))]) (map (dense_text name) stmts), file) /\
    texts pow2mul_text pow_by_mul m ts /\ dense_from m ts stmts /\
    forall e val, dof e = d -> (forall k k', node e k = node e k' -> k = k') ->
      let M := dense_exec e val stmts (fun _ _ => 0%R) in
      let at_node i := node e (i / d + 1) * d + i mod d in
      (forall i j, has_value ts val (at_ m i j) (M (at_node i) (at_node j))) /\
      (forall a b, (forall i j, nonzero (at_ m i j) = true -> (a, b) <> (at_node i, at_node j)) -> M a b = 0%R).
Proof. exact LMprint.c49_nodes. Qed.
Print Assumptions C49_nodes.

(** With dofpernode and the nodes i1, i2, ... numbered 0, 1, ... the statements give the matrix. *)
Theorem C49_consecutive : forall nr nc m name header print_file pow_by_mul d,
  rectangular nr nc m -> printable pow2mul_text pow_by_mul m -> d <> 0 ->
  exists stmts file ts,
    mprint_as_dense m name header print_file pow_by_mul (Some d) =
      Ok (script (heading header ++ [name_line name; count_line name (List.length (cells nr nc m))]) (map (dense_text name) stmts), file) /\
    texts pow2mul_text pow_by_mul m ts /\ dense_from m ts stmts /\
    forall e val, dof e = d -> (forall k, node e (k + 1) = k) ->
      forall i j, has_value ts val (at_ m i j) (dense_exec e val stmts (fun _ _ => 0%R) i j).
Proof. exact LMprint.c49_consecutive. Qed.
Print Assumptions C49_consecutive.

(** Numbers are printed in decimal. *)
Theorem C49_numbers : forall n, decimal (nat_text n) = n /\ nat_text n <> [] /\ Forall (fun c => is_digit c = true) (nat_text n).
Proof. exact LMprint.c49_numbers. Qed.
Print Assumptions C49_numbers.

(** The statements appended to the arrays one triplet for each entry that is not zero, row by row, and the number printed is their number. *)
Theorem C50_sparse : forall nr nc m name sufix header print_file pow_by_mul,
  rectangular nr nc m -> printable pow2mul_text pow_by_mul m ->
  exists stmts file ts,
    let full := namesufix name sufix in
    let num := count_line full (List.length (cells nr nc m)) in
    mprint_as_sparse m name sufix header print_file pow_by_mul false None =
      Ok (script (match heading header with [] => [name_line full; num] | h => h ++ [num; name_line full] end) (map (sparse_text name) stmts), file) /\
    texts pow2mul_text pow_by_mul m ts /\ sparse_from m ts stmts /\
    forall e val s, appended (fun c => (named e (txt "row") + fst (fst c), named e (txt "col") + snd (fst c))) (fun c => val (ts (snd c)))
      (cells nr nc m) s (sparse_exec e val stmts s).
Proof. exact LMprint.c50_sparse. Qed.
Print Assumptions C50_sparse.

(** With dofpernode the rows and columns are those of the nodes. *)
Theorem C50_nodes : forall nr nc m name sufix header print_file pow_by_mul d,
  rectangular nr nc m -> printable pow2mul_text pow_by_mul m -> d <> 0 ->
  exists stmts file ts,
    let full := namesufix name sufix in
    let num := count_line full (List.length (cells nr nc m)) in
    mprint_as_sparse m name sufix header print_file pow_by_mul false (Some d) =
      Ok (script (match heading header with [] => [name_line full; num] | h => h ++ [num; name_line full] end) (map (sparse_text name) stmts), file) /\
    texts pow2mul_text pow_by_mul m ts /\ sparse_from m ts stmts /\
    forall e val s, let at_node i := node e (i / d + 1) * dof e + i mod d in
      appended (fun c => (at_node (fst (fst c)), at_node (snd (fst c)))) (fun c => val (ts (snd c)))
      (cells nr nc m) s (sparse_exec e val stmts s).
Proof. exact LMprint.c50_nodes. Qed.
Print Assumptions C50_nodes.

(** Symmetric and without dofpernode: the entries on and above the diagonal, and their number. *)
Theorem C51_partial : forall nr nc m name sufix header print_file pow_by_mul,
  rectangular nr nc m -> printable pow2mul_text pow_by_mul m ->
  exists stmts file ts,
    let full := namesufix name sufix in
    let upper := filter (fun c => Nat.leb (fst (fst c)) (snd (fst c))) (cells nr nc m) in
    let num := count_line full (List.length upper) in
    mprint_as_sparse m name sufix header print_file pow_by_mul true None =
      Ok (script (match heading header with [] => [name_line full; num] | h => h ++ [num; name_line full] end) (map (sparse_text name) stmts), file) /\
    texts pow2mul_text pow_by_mul m ts /\ sparse_from m ts stmts /\
    forall e val s, appended (fun c => (named e (txt "row") + fst (fst c), named e (txt "col") + snd (fst c))) (fun c => val (ts (snd c)))
      upper s (sparse_exec e val stmts s).
Proof. exact LMprint.c51_partial. Qed.
Print Assumptions C51_partial.

(** Symmetric and with dofpernode: the degrees of freedom within the nodes are compared, not the rows and columns. *)
Theorem C51_dof_partial : forall nr nc m name sufix header print_file pow_by_mul d,
  rectangular nr nc m -> printable pow2mul_text pow_by_mul m -> d <> 0 ->
  exists stmts file ts,
    let full := namesufix name sufix in
    let kept := filter (fun c => Nat.leb (fst (fst c) mod d) (snd (fst c) mod d)) (cells nr nc m) in
    let num := count_line full (List.length kept) in
    mprint_as_sparse m name sufix header print_file pow_by_mul true (Some d) =
      Ok (script (match heading header with [] => [name_line full; num] | h => h ++ [num; name_line full] end) (map (sparse_text name) stmts), file) /\
    texts pow2mul_text pow_by_mul m ts /\ sparse_from m ts stmts /\
    forall e val s, let at_node i := node e (i / d + 1) * dof e + i mod d in
      appended (fun c => (at_node (fst (fst c)), at_node (snd (fst c)))) (fun c => val (ts (snd c)))
      kept s (sparse_exec e val stmts s).
Proof. exact LMprint.c51_dof_partial. Qed.
Print Assumptions C51_dof_partial.

(** A matrix of two nodes with two degrees of freedom: (1, 2) is above the diagonal, and is not printed; (2, 1) is below, and is. *)
Theorem C51_refuted : exists nr nc m d,
  rectangular nr nc m /\ (forall i j, at_ m i j = at_ m j i) /\ printable pow2mul_text true m /\
  nonzero (at_ m 1 2) = true /\
  exists file, mprint_as_sparse m (txt "K") None None false true true (Some d) =
    Ok (script [name_line (txt "K"); count_line (txt "K") 1]
          (map (sparse_text (txt "K")) [CountUp; SetRow (NodeDof 2 0); SetCol (NodeDof 1 1); AddVal (txt "a")]), file) /\
    forall e, dof e = d -> (forall k, node e (k + 1) = k) -> index_value e (NodeDof 2 0) = 2 /\ index_value e (NodeDof 1 1) = 1.
Proof. exact LMprint.c51_refuted. Qed.
Print Assumptions C51_refuted.

(** order C: place k is for row k div ncols and column k mod ncols. *)
Theorem C52_rows : forall nr nc m name sufix header print_file pow_by_mul op,
  rectangular nr nc m -> printable array_powers_text pow_by_mul m ->
  exists file ts,
    let full := namesufix name sufix in
    let entry_at k := at_ m (k / nc) (k mod nc) in
    mprint_as_array m name sufix header print_file pow_by_mul "C" op =
      Ok (script (heading header ++ [name_line full; count_line full (List.length (cells nr nc m))])
            (map (fun k => array_text name (txt op) (ArrayAdd (Offset (txt "pos") k) (ts (entry_at k))))
               (filter (fun k => nonzero (entry_at k)) (seq 0 (nr * nc)))), file) /\
    texts array_powers_text pow_by_mul m ts.
Proof. exact LMprint.c52_rows. Qed.
Print Assumptions C52_rows.

(** order F: place k is for row k mod nrows and column k div nrows. *)
Theorem C52_columns : forall nr nc m name sufix header print_file pow_by_mul op,
  rectangular nr nc m -> printable array_powers_text pow_by_mul m ->
  exists file ts,
    let full := namesufix name sufix in
    let entry_at k := at_ m (k mod nr) (k / nr) in
    mprint_as_array m name sufix header print_file pow_by_mul "F" op =
      Ok (script (heading header ++ [name_line full; count_line full (List.length (cells nr nc m))])
            (map (fun k => array_text name (txt op) (ArrayAdd (Offset (txt "pos") k) (ts (entry_at k))))
               (filter (fun k => nonzero (entry_at k)) (seq 0 (nr * nc)))), file) /\
    texts array_powers_text pow_by_mul m ts.
Proof. exact LMprint.c52_columns. Qed.
Print Assumptions C52_columns.

(** Every cell has exactly one place, in either order. *)
Theorem C52_places : forall nr nc i j, i < nr -> j < nc ->
  (exists! k, k < nr * nc /\ k / nc = i /\ k mod nc = j) /\ (exists! k, k < nr * nc /\ k mod nr = i /\ k / nr = j).
Proof. exact LMprint.c52_places. Qed.
Print Assumptions C52_places.

(** Any other order is an UnboundLocalError. *)
Theorem C52_order : forall m name sufix header print_file pow_by_mul order op, order <> "C" -> order <> "F" ->
  mprint_as_array m name sufix header print_file pow_by_mul order op = Raise UnboundLocalError.
Proof. exact LMprint.c52_order. Qed.
Print Assumptions C52_order.

(** The file named after the matrix holds the text that is returned; without print_file nothing is written. *)
Theorem C57_file : forall m name sufix header print_file pow_by_mul is_symmetric dofpernode order op s file,
  (mprint_as_sparse m name sufix header print_file pow_by_mul is_symmetric dofpernode = Ok (s, file) \/
   mprint_as_array m name sufix header print_file pow_by_mul order op = Ok (s, file) \/
   sufix = None /\ mprint_as_dense m name header print_file pow_by_mul dofpernode = Ok (s, file)) ->
  file = if print_file then Some ((txt "print_" ++ name ++ match sufix with None => [] | Some x => txt "_" ++ x end ++ txt ".txt")%list, s) else None.
Proof. exact LMprint.c57_file. Qed.
Print Assumptions C57_file.

(** Two lists of statements whose texts are the same are the same. *)
Theorem C49_unambiguous : forall name comments l1 l2, one_line name -> comments <> [] ->
  (forall s, In s (l1 ++ l2) -> index_ok (d_row s) /\ index_ok (d_col s) /\ one_line (d_val s)) ->
  script comments (map (dense_text name) l1) = script comments (map (dense_text name) l2) -> l1 = l2.
Proof. exact LMprint.c49_unambiguous. Qed.
Print Assumptions C49_unambiguous.

(** The same for the sparse statements. *)
Theorem C50_unambiguous : forall name comments l1 l2, name_ok name -> comments <> [] ->
  (forall s, In s (l1 ++ l2) -> match s with CountUp => True | SetRow x | SetCol x => index_ok x | AddVal v => one_line v end) ->
  script comments (map (sparse_text name) l1) = script comments (map (sparse_text name) l2) -> l1 = l2.
Proof. exact LMprint.c50_unambiguous. Qed.
Print Assumptions C50_unambiguous.

(** A matrix with zeros and powers, and a header. *)
Example C49_dense_ex : let m := [[Entry true (txt "a**2"); Entry false (txt "0"); Entry true (txt "b")]; [Entry false (txt "0"); Entry true (txt "a + b**3"); Entry false (txt "0")]] in
  rectangular 2 3 m /\ printable pow2mul_text true m /\
  mprint_as_dense m (txt "A") (Some (txt "# stiffness")) true true None =
    let s := script [txt "# stiffness"; txt "# A"; txt "# A_num=3"] [txt "A[0, 0] += (a*a)"; txt "A[0, 2] += b"; txt "A[1, 1] += a + (b*b*b)"] in
    Ok (s, Some (txt "print_A.txt", s)).
Proof. exact LMprint.c49_dense_ex. Qed.

(** The same with two degrees of freedom per node. *)
Example C49_nodes_ex : let m := [[Entry true (txt "a**2"); Entry false (txt "0"); Entry true (txt "b")]; [Entry false (txt "0"); Entry true (txt "a + b**3"); Entry false (txt "0")]] in
  rectangular 2 3 m /\ printable pow2mul_text false m /\
  mprint_as_dense m (txt "A") None false false (Some 2) =
    Ok (script [txt "# A"; txt "# A_num=3"] [txt "A[i1*dof+0, i1*dof+0] += a**2"; txt "A[i1*dof+0, i2*dof+0] += b"; txt "A[i1*dof+1, i1*dof+1] += a + b**3"], None) /\
  exists e, dof e = 2 /\ (forall k k', node e k = node e k' -> k = k').
Proof. exact LMprint.c49_nodes_ex. Qed.

(** Nodes numbered one after the other. *)
Example C49_consecutive_ex : let m := [[Entry true (txt "a"); Entry false (txt "0"); Entry true (txt "b")]] in
  rectangular 1 3 m /\ printable pow2mul_text false m /\ nonzero (at_ m 0 2) = true /\ exists e, dof e = 2 /\ forall k, node e (k + 1) = k.
Proof. exact LMprint.c49_consecutive_ex. Qed.

(** Statements of the three kinds. *)
Example C49_unambiguous_ex : let l := [DenseAdd (Number 12) (NodeDof 3 4) (txt "a*b"); DenseAdd (Offset (txt "row") 1) (Number 0) (txt "1")] in
  one_line (txt "A") /\ forall s, In s l -> index_ok (d_row s) /\ index_ok (d_col s) /\ one_line (d_val s).
Proof. exact LMprint.c49_unambiguous_ex. Qed.

(** The header comes first, then the number, then the name. *)
Example C50_sparse_ex : let m := [[Entry true (txt "a**2"); Entry false (txt "0")]; [Entry false (txt "0"); Entry true (txt "b")]] in
  rectangular 2 2 m /\ printable pow2mul_text true m /\
  mprint_as_sparse m (txt "K") (Some (txt "1")) (Some (txt "# h")) true true false None =
    let s := script [txt "# h"; txt "# K_1_num=2"; txt "# K_1"]
      [txt "c += 1"; txt "Kr[c] = row+0"; txt "Kc[c] = col+0"; txt "Kv[c] += (a*a)"; txt "c += 1"; txt "Kr[c] = row+1"; txt "Kc[c] = col+1"; txt "Kv[c] += b"] in
    Ok (s, Some (txt "print_K_1.txt", s)).
Proof. exact LMprint.c50_sparse_ex. Qed.

(** With one degree of freedom per node and symmetric everything is printed, below the diagonal too. *)
Example C51_ex : let m := [[Entry true (txt "a"); Entry true (txt "b")]; [Entry true (txt "b"); Entry true (txt "c")]] in
  rectangular 2 2 m /\ printable pow2mul_text true m /\
  mprint_as_sparse m (txt "K") None None false true true None =
    Ok (script [txt "# K"; txt "# K_num=3"]
      [txt "c += 1"; txt "Kr[c] = row+0"; txt "Kc[c] = col+0"; txt "Kv[c] += a"; txt "c += 1"; txt "Kr[c] = row+0"; txt "Kc[c] = col+1"; txt "Kv[c] += b";
       txt "c += 1"; txt "Kr[c] = row+1"; txt "Kc[c] = col+1"; txt "Kv[c] += c"], None) /\
  exists s, mprint_as_sparse m (txt "K") None None false true true (Some 1) =
    Ok (script [txt "# K"; txt "# K_num=4"] s, None).
Proof. exact LMprint.c51_ex. Qed.

(** Both orders. *)
Example C52_ex : let m := [[Entry true (txt "a**2"); Entry true (txt "b")]; [Entry true (txt "c"); Entry false (txt "0")]; [Entry false (txt "0"); Entry true (txt "d")]] in
  rectangular 3 2 m /\ printable array_powers_text true m /\
  mprint_as_array m (txt "N") None None false true "C" "+=" =
    Ok (script [txt "# N"; txt "# N_num=4"] [txt "N[pos+0] += (a*a)"; txt "N[pos+1] += b"; txt "N[pos+2] += c"; txt "N[pos+5] += d"], None) /\
  mprint_as_array m (txt "N") None None false true "F" "=" =
    Ok (script [txt "# N"; txt "# N_num=4"] [txt "N[pos+0] = (a*a)"; txt "N[pos+1] = c"; txt "N[pos+3] = b"; txt "N[pos+5] = d"], None).
Proof. exact LMprint.c52_ex. Qed.
