(** Lemmas for the properties C49 to C52 and C57. *)
(* P: Num Py Pow2mul SpecPow Mprint SpecMprint *)
From Coq Require Import Reals ZArith List Bool Arith Ascii String Lia Lra.
From Verif Require Import Num Py Pow2mul SpecPow FPow FCall Mprint SpecMprint FMprint.
Import ListNotations.
Local Open Scope string_scope.
Local Open Scope list_scope.
Local Open Scope nat_scope.
Local Notation length := List.length.

Lemma printable_texts : forall ex pbm m, printable ex pbm m -> texts ex pbm m (shown_text ex pbm).
Proof. intros ex pbm m H i j N. apply shows_shown, H, N. Qed.
Lemma heading_lines : forall h, header_lines h = heading h.
Proof. intros [[|c h]|]; reflexivity. Qed.
Lemma dense_comments_eq : forall name h n, dense_comments name h n = heading h ++ [name_line name; count_line name n].
Proof. intros name h n. unfold dense_comments. rewrite heading_lines. reflexivity. Qed.
Lemma at_out : forall nr nc m i j, rectangular nr nc m -> nonzero (at_ m i j) = true -> i < nr /\ j < nc.
Proof.
  intros nr nc m i j [L C] N. unfold at_ in N. destruct (le_lt_dec nr i) as [G|G]; [rewrite (nth_overflow m) in N by lia; destruct j; discriminate|]. split; [exact G|].
  destruct (le_lt_dec nc j) as [G'|G']; [|exact G']. rewrite nth_overflow in N; [discriminate|]. rewrite (C (nth i m [])) by (apply nth_In; lia). exact G'.
Qed.

Lemma dense_places : forall nr nc m pbm dpn e val,
  rectangular nr nc m ->
  (forall i i', place e dpn i = place e dpn i' -> i = i') ->
  let M := dense_exec e val (map (dstmt pbm dpn) (cells nr nc m)) (fun _ _ => 0%R) in
  (forall i j, has_value (shown_text pow2mul_text pbm) val (at_ m i j) (M (place e dpn i) (place e dpn j))) /\
  (forall a b, (forall i j, nonzero (at_ m i j) = true -> (a, b) <> (place e dpn i, place e dpn j)) -> M a b = 0%R).
Proof.
  intros nr nc m pbm dpn e val R I M.
  assert (N : NoDup (map (fun c : cell => (place e dpn (fst (fst c)), place e dpn (snd (fst c)))) (cells nr nc m))) by (apply cells_places; intros x y _ _; apply I).
  destruct (dense_exec_cells e val pbm dpn (cells nr nc m) (fun _ _ => 0%R) N) as [A B].
  assert (O : forall a b, (forall i j, nonzero (at_ m i j) = true -> (a, b) <> (place e dpn i, place e dpn j)) -> M a b = 0%R).
  { intros a b H. apply B. intros X. apply in_map_iff in X. destruct X as [c [E X]]. apply in_cells in X. destruct X as [_ [_ [V Z]]].
    apply (H (fst (fst c)) (snd (fst c))); [rewrite <- V; exact Z|symmetry; exact E]. }
  split; [|exact O]. intros i j. unfold has_value. destruct (nonzero (at_ m i j)) eqn:Z.
  - destruct (at_out nr nc m i j R Z) as [Li Lj]. assert (C : In (i, j, at_ m i j) (cells nr nc m)) by (apply in_cells; cbn; auto).
    specialize (A _ C). cbn [fst snd] in A. unfold M. rewrite A. lra.
  - apply O. intros i' j' Z' E. injection E as E1 E2. apply I in E1, E2. subst. congruence.
Qed.
Lemma node_place : forall e d i, d <> 0 -> place e (Some d) i = node e (i / d + 1) * dof e + i mod d.
Proof. intros e [|d] i H; [congruence|reflexivity]. Qed.
Lemma node_inj : forall e d, d <> 0 -> dof e = d -> (forall k k', node e k = node e k' -> k = k') -> forall i i', place e (Some d) i = place e (Some d) i' -> i = i'.
Proof.
  intros e d D E N i i' H. rewrite !node_place in H by exact D. rewrite E in H.
  assert (B := Nat.mod_upper_bound i d D). assert (B' := Nat.mod_upper_bound i' d D).
  assert (Q : node e (i / d + 1) = node e (i' / d + 1) /\ i mod d = i' mod d).
  { apply (Nat.div_mod_unique d); [exact B|exact B'|rewrite (Nat.mul_comm d), (Nat.mul_comm d); exact H]. }
  destruct Q as [Q1 Q2]. apply N in Q1. rewrite (Nat.div_mod i d D), (Nat.div_mod i' d D), Q2. f_equal. f_equal. lia.
Qed.

Lemma dense_from_ok : forall nr nc m pbm dpn, dense_from m (shown_text pow2mul_text pbm) (map (dstmt pbm dpn) (cells nr nc m)).
Proof.
  intros nr nc m pbm dpn s I. apply in_map_iff in I. destruct I as [c [<- I]]. apply in_cells in I. destruct I as [_ [_ [V Z]]].
  cbn [dstmt d_row d_col d_val]. split; [|split].
  1,2: unfold idx; destruct (truthy dpn); exact I.
  exists (fst (fst c)), (snd (fst c)). rewrite <- V. auto.
Qed.
Lemma base_ok : forall dpn b i, name_ok b -> index_ok (sidx dpn b i).
Proof. intros dpn b i H. unfold sidx. destruct (truthy dpn); [exact I|exact H]. Qed.
Lemma sparse_from_ok : forall nr nc m pbm dpn cs, incl cs (cells nr nc m) -> sparse_from m (shown_text pow2mul_text pbm) (flat_map (sstmts pbm dpn) cs).
Proof.
  intros nr nc m pbm dpn cs H s I. apply in_flat_map in I. destruct I as [c [I J]]. apply H in I. apply in_cells in I. destruct I as [_ [_ [V Z]]].
  destruct J as [<-|[<-|[<-|[<-|[]]]]]; [exact I| | |].
  1,2: apply base_ok; split; [discriminate|]; split; [repeat constructor|reflexivity].
  exists (fst (fst c)), (snd (fst c)). rewrite <- V. auto.
Qed.

(** Without dofpernode the statements, executed on a zero matrix, give the matrix; the number printed is the number of entries that are not zero. *)
Lemma c49_dense : forall nr nc m name header print_file pow_by_mul,
  rectangular nr nc m -> printable pow2mul_text pow_by_mul m ->
  exists stmts file ts,
    mprint_as_dense m name header print_file pow_by_mul None =
      Ok (script (heading header ++ [name_line name; count_line name (List.length (cells nr nc m))]) (map (dense_text name) stmts), file) /\
    texts pow2mul_text pow_by_mul m ts /\ dense_from m ts stmts /\
    forall e val i j, has_value ts val (at_ m i j) (dense_exec e val stmts (fun _ _ => 0%R) i j).
Proof.
  intros nr nc m name header pf pbm R P. eexists _, _, _. split; [|split; [|split]].
  - rewrite (dense_prints nr nc) by assumption. rewrite dense_comments_eq. unfold finish. reflexivity.
  - apply printable_texts, P.
  - apply dense_from_ok.
  - intros e val i j. destruct (dense_places nr nc m pbm None e val R) as [A _]; [intros x y; exact (fun H => H)|]. apply A.
Qed.

(** With dofpernode each entry is added in the rows and columns of its nodes, whatever numbers the nodes have, and nothing is added elsewhere. *)
Lemma c49_nodes : forall nr nc m name header print_file pow_by_mul d,
  rectangular nr nc m -> printable pow2mul_text pow_by_mul m -> d <> 0 ->
  exists stmts file ts,
    mprint_as_dense m name header print_file pow_by_mul (Some d) =
      Ok (script (heading header ++ [name_line name; count_line name (List.length (cells nr nc m))]) (map (dense_text name) stmts), file) /\
    texts pow2mul_text pow_by_mul m ts /\ dense_from m ts stmts /\
    forall e val, dof e = d -> (forall k k', node e k = node e k' -> k = k') ->
      let M := dense_exec e val stmts (fun _ _ => 0%R) in
      let at_node i := node e (i / d + 1) * d + i mod d in
      (forall i j, has_value ts val (at_ m i j) (M (at_node i) (at_node j))) /\
      (forall a b, (forall i j, nonzero (at_ m i j) = true -> (a, b) <> (at_node i, at_node j)) -> M a b = 0%R).
Proof.
  intros nr nc m name header pf pbm d R P D. eexists _, _, _. split; [|split; [|split]].
  - rewrite (dense_prints nr nc) by assumption. rewrite dense_comments_eq. unfold finish. reflexivity.
  - apply printable_texts, P.
  - apply dense_from_ok.
  - intros e val E N. cbn zeta. destruct (dense_places nr nc m pbm (Some d) e val R (node_inj e d D E N)) as [A B].
    assert (X : forall i, place e (Some d) i = node e (i / d + 1) * d + i mod d) by (intros i; rewrite node_place, E by exact D; reflexivity). split.
    + intros i j. rewrite <- !X. apply A.
    + intros a b H. apply B. intros i j Z. rewrite !X. apply H, Z.
Qed.

Lemma shifted_inj : forall e d, d <> 0 -> dof e = d -> (forall k, node e (k + 1) = k) -> forall i, place e (Some d) i = i.
Proof. intros e d D E N i. rewrite node_place, N, E by exact D. rewrite Nat.mul_comm. symmetry. apply Nat.div_mod, D. Qed.

(** With dofpernode and the nodes i1, i2, ... numbered 0, 1, ... the statements give the matrix. *)
Lemma c49_consecutive : forall nr nc m name header print_file pow_by_mul d,
  rectangular nr nc m -> printable pow2mul_text pow_by_mul m -> d <> 0 ->
  exists stmts file ts,
    mprint_as_dense m name header print_file pow_by_mul (Some d) =
      Ok (script (heading header ++ [name_line name; count_line name (List.length (cells nr nc m))]) (map (dense_text name) stmts), file) /\
    texts pow2mul_text pow_by_mul m ts /\ dense_from m ts stmts /\
    forall e val, dof e = d -> (forall k, node e (k + 1) = k) ->
      forall i j, has_value ts val (at_ m i j) (dense_exec e val stmts (fun _ _ => 0%R) i j).
Proof.
  intros nr nc m name header pf pbm d R P D. eexists _, _, _. split; [|split; [|split]].
  - rewrite (dense_prints nr nc) by assumption. rewrite dense_comments_eq. unfold finish. reflexivity.
  - apply printable_texts, P.
  - apply dense_from_ok.
  - intros e val E N i j. assert (X := shifted_inj e d D E N). destruct (dense_places nr nc m pbm (Some d) e val R) as [A _].
    + intros x y H. rewrite !X in H. exact H.
    + specialize (A i j). rewrite !X in A. exact A.
Qed.

(** Numbers are printed in decimal. *)
Lemma c49_numbers : forall n, decimal (nat_text n) = n /\ nat_text n <> [] /\ Forall (fun c => is_digit c = true) (nat_text n).
Proof. intros n. destruct (nat_text_ok n) as [A [B C]]. auto. Qed.

(** The statements appended to the arrays one triplet for each entry that is not zero, row by row, and the number printed is their number. *)
Lemma c50_sparse : forall nr nc m name sufix header print_file pow_by_mul,
  rectangular nr nc m -> printable pow2mul_text pow_by_mul m ->
  exists stmts file ts,
    let full := namesufix name sufix in
    let num := count_line full (List.length (cells nr nc m)) in
    mprint_as_sparse m name sufix header print_file pow_by_mul false None =
      Ok (script (match heading header with [] => [name_line full; num] | h => h ++ [num; name_line full] end) (map (sparse_text name) stmts), file) /\
    texts pow2mul_text pow_by_mul m ts /\ sparse_from m ts stmts /\
    forall e val s, appended (fun c => (named e (txt "row") + fst (fst c), named e (txt "col") + snd (fst c))) (fun c => val (ts (snd c)))
      (cells nr nc m) s (sparse_exec e val stmts s).
Proof.
  intros nr nc m name suf header pf pbm R P. eexists _, _, _. cbn zeta. split; [|split; [|split]].
  - rewrite (sparse_prints nr nc) by assumption. cbn zeta.
    assert (K : filter (keep false None) (cells nr nc m) = cells nr nc m) by (induction (cells nr nc m) as [|c l IH]; [reflexivity|cbn; rewrite IH; reflexivity]). rewrite K.
    unfold sparse_comments. rewrite heading_lines. destruct header as [[|c h]|]; unfold finish; reflexivity.
  - apply printable_texts, P.
  - apply (sparse_from_ok nr nc). first [apply incl_refl | apply incl_filter].
  - intros e val s. apply (sparse_appended e val pbm None).
Qed.

(** With dofpernode the rows and columns are those of the nodes. *)
Lemma c50_nodes : forall nr nc m name sufix header print_file pow_by_mul d,
  rectangular nr nc m -> printable pow2mul_text pow_by_mul m -> d <> 0 ->
  exists stmts file ts,
    let full := namesufix name sufix in
    let num := count_line full (List.length (cells nr nc m)) in
    mprint_as_sparse m name sufix header print_file pow_by_mul false (Some d) =
      Ok (script (match heading header with [] => [name_line full; num] | h => h ++ [num; name_line full] end) (map (sparse_text name) stmts), file) /\
    texts pow2mul_text pow_by_mul m ts /\ sparse_from m ts stmts /\
    forall e val s, let at_node i := node e (i / d + 1) * dof e + i mod d in
      appended (fun c => (at_node (fst (fst c)), at_node (snd (fst c)))) (fun c => val (ts (snd c)))
      (cells nr nc m) s (sparse_exec e val stmts s).
Proof.
  intros nr nc m name suf header pf pbm d R P D. eexists _, _, _. cbn zeta. split; [|split; [|split]].
  - rewrite (sparse_prints nr nc) by assumption. cbn zeta.
    assert (K : filter (keep false (Some d)) (cells nr nc m) = cells nr nc m) by (induction (cells nr nc m) as [|c l IH]; [reflexivity|cbn [filter keep andb negb]; rewrite IH; reflexivity]). rewrite K.
    unfold sparse_comments. rewrite heading_lines. destruct header as [[|c h]|]; unfold finish; reflexivity.
  - apply printable_texts, P.
  - apply (sparse_from_ok nr nc). first [apply incl_refl | apply incl_filter].
  - intros e val s. destruct d as [|d]; [congruence|]. apply (sparse_appended e val pbm (Some (S d))).
Qed.

Lemma filter_same : forall A (f g : A -> bool) l, (forall x, f x = g x) -> filter f l = filter g l.
Proof. intros A f g l H. induction l as [|a l IH]; [reflexivity|]. cbn. rewrite H, IH. reflexivity. Qed.

(** Symmetric and without dofpernode: the entries on and above the diagonal, and their number. *)
Lemma c51_partial : forall nr nc m name sufix header print_file pow_by_mul,
  rectangular nr nc m -> printable pow2mul_text pow_by_mul m ->
  exists stmts file ts,
    let full := namesufix name sufix in
    let upper := filter (fun c => Nat.leb (fst (fst c)) (snd (fst c))) (cells nr nc m) in
    let num := count_line full (List.length upper) in
    mprint_as_sparse m name sufix header print_file pow_by_mul true None =
      Ok (script (match heading header with [] => [name_line full; num] | h => h ++ [num; name_line full] end) (map (sparse_text name) stmts), file) /\
    texts pow2mul_text pow_by_mul m ts /\ sparse_from m ts stmts /\
    forall e val s, appended (fun c => (named e (txt "row") + fst (fst c), named e (txt "col") + snd (fst c))) (fun c => val (ts (snd c)))
      upper s (sparse_exec e val stmts s).
Proof.
  intros nr nc m name suf header pf pbm R P. eexists _, _, _. cbn zeta.
  assert (K : filter (keep true None) (cells nr nc m) = filter (fun c : cell => fst (fst c) <=? snd (fst c)) (cells nr nc m)).
  { apply filter_same. intros [[i j] v]. unfold keep. cbn [node_index truthy fst snd andb]. rewrite Nat.ltb_antisym, negb_involutive. reflexivity. }
  split; [|split; [|split]].
  - rewrite (sparse_prints nr nc) by assumption. cbn zeta. rewrite K.
    unfold sparse_comments. rewrite heading_lines. destruct header as [[|c h]|]; unfold finish; reflexivity.
  - apply printable_texts, P.
  - apply (sparse_from_ok nr nc). first [apply incl_refl | apply incl_filter].
  - intros e val s. apply (sparse_appended e val pbm None).
Qed.

(** Symmetric and with dofpernode: the degrees of freedom within the nodes are compared, not the rows and columns. *)
Lemma c51_dof_partial : forall nr nc m name sufix header print_file pow_by_mul d,
  rectangular nr nc m -> printable pow2mul_text pow_by_mul m -> d <> 0 ->
  exists stmts file ts,
    let full := namesufix name sufix in
    let kept := filter (fun c => Nat.leb (fst (fst c) mod d) (snd (fst c) mod d)) (cells nr nc m) in
    let num := count_line full (List.length kept) in
    mprint_as_sparse m name sufix header print_file pow_by_mul true (Some d) =
      Ok (script (match heading header with [] => [name_line full; num] | h => h ++ [num; name_line full] end) (map (sparse_text name) stmts), file) /\
    texts pow2mul_text pow_by_mul m ts /\ sparse_from m ts stmts /\
    forall e val s, let at_node i := node e (i / d + 1) * dof e + i mod d in
      appended (fun c => (at_node (fst (fst c)), at_node (snd (fst c)))) (fun c => val (ts (snd c)))
      kept s (sparse_exec e val stmts s).
Proof.
  intros nr nc m name suf header pf pbm d R P D. eexists _, _, _. cbn zeta. destruct d as [|d]; [congruence|].
  assert (K : filter (keep true (Some (S d))) (cells nr nc m) = filter (fun c : cell => fst (fst c) mod (S d) <=? snd (fst c) mod (S d)) (cells nr nc m)).
  { apply filter_same. intros [[i j] v]. unfold keep. cbn [node_index truthy fst snd andb]. rewrite Nat.ltb_antisym, negb_involutive. reflexivity. }
  split; [|split; [|split]].
  - rewrite (sparse_prints nr nc) by assumption. cbn zeta. rewrite K.
    unfold sparse_comments. rewrite heading_lines. destruct header as [[|c h]|]; unfold finish; reflexivity.
  - apply printable_texts, P.
  - apply (sparse_from_ok nr nc). first [apply incl_refl | apply incl_filter].
  - intros e val s. apply (sparse_appended e val pbm (Some (S d))).
Qed.

(** A matrix of two nodes with two degrees of freedom: (1, 2) is above the diagonal, and is not printed; (2, 1) is below, and is. *)
Lemma c51_refuted : exists nr nc m d,
  rectangular nr nc m /\ (forall i j, at_ m i j = at_ m j i) /\ printable pow2mul_text true m /\
  nonzero (at_ m 1 2) = true /\
  exists file, mprint_as_sparse m (txt "K") None None false true true (Some d) =
    Ok (script [name_line (txt "K"); count_line (txt "K") 1]
          (map (sparse_text (txt "K")) [CountUp; SetRow (NodeDof 2 0); SetCol (NodeDof 1 1); AddVal (txt "a")]), file) /\
    forall e, dof e = d -> (forall k, node e (k + 1) = k) -> index_value e (NodeDof 2 0) = 2 /\ index_value e (NodeDof 1 1) = 1.
Proof.
  set (z := Entry false (txt "0")). set (a := Entry true (txt "a")).
  exists 4, 4, [[z; z; z; z]; [z; z; a; z]; [z; a; z; z]; [z; z; z; z]], 2. split; [|split; [|split; [|split; [reflexivity|]]]].
  - split; [reflexivity|]. intros row H. repeat destruct H as [<-|H]; try reflexivity. destruct H.
  - intros i j. do 4 (destruct i as [|i]; [do 4 (destruct j as [|j]; [reflexivity|]); destruct j; reflexivity|]).
    do 4 (destruct j as [|j]; [destruct i; reflexivity|]). destruct i, j; reflexivity.
  - intros i j H. exists (txt "a"). do 4 (destruct i as [|i]; [do 4 (destruct j as [|j]; [try discriminate H; reflexivity|]); destruct j; discriminate H|]). destruct i, j; discriminate H.
  - eexists. split; [reflexivity|]. intros e D N. cbn [index_value]. rewrite D. assert (N1 := N 1). assert (N0 := N 0). cbn [Nat.add] in N0, N1. rewrite N0, N1. split; reflexivity.
Qed.

Lemma array_stmts : forall pbm (f : nat -> entry) l, map (astmt pbm) (filter (fun c => nonzero (snd c)) (map (fun k => (k, f k)) l))
  = map (fun k => ArrayAdd (Offset (txt "pos") k) (shown_text array_powers_text pbm (f k))) (filter (fun k => nonzero (f k)) l).
Proof. intros pbm f. induction l as [|k l IH]; [reflexivity|]. cbn. destruct (nonzero (f k)); cbn; rewrite IH; reflexivity. Qed.
Lemma count_cells : forall nr nc m, rectangular nr nc m -> length (filter nonzero (ravel m)) = length (cells nr nc m).
Proof.
  intros nr nc m R. rewrite <- (cells_ndenumerate nr nc m R). clear R.
  assert (Row : forall i row q, length (filter nonzero row) = length (filter (fun c : cell => nonzero (snd c)) (map (fun jv : nat * entry => ((i, fst jv), snd jv)) (combine (seq q (length row)) row)))).
  { intros i. induction row as [|v row IH]; intros q; [reflexivity|]. cbn [length seq combine map fst snd filter]. destruct (nonzero v); cbn [length]; rewrite (IH (S q)); reflexivity. }
  assert (All : forall m k, length (filter nonzero (List.concat m)) = length (filter (fun c : cell => nonzero (snd c))
    (flat_map (fun ir : nat * list entry => map (fun jv : nat * entry => ((fst ir, fst jv), snd jv)) (enumerate (snd ir))) (combine (seq k (length m)) m)))).
  { clear m. induction m as [|row m IH]; intros k; [reflexivity|]. cbn [List.concat length seq combine flat_map fst snd]. rewrite !filter_app, !app_length, (IH (S k)), (Row k row 0). reflexivity. }
  exact (All m 0).
Qed.

(** order C: place k is for row k div ncols and column k mod ncols. *)
Lemma c52_rows : forall nr nc m name sufix header print_file pow_by_mul op,
  rectangular nr nc m -> printable array_powers_text pow_by_mul m ->
  exists file ts,
    let full := namesufix name sufix in
    let entry_at k := at_ m (k / nc) (k mod nc) in
    mprint_as_array m name sufix header print_file pow_by_mul "C" op =
      Ok (script (heading header ++ [name_line full; count_line full (List.length (cells nr nc m))])
            (map (fun k => array_text name (txt op) (ArrayAdd (Offset (txt "pos") k) (ts (entry_at k))))
               (filter (fun k => nonzero (entry_at k)) (seq 0 (nr * nc)))), file) /\
    texts array_powers_text pow_by_mul m ts.
Proof.
  intros nr nc m name suf header pf pbm op R P. eexists _, _. cbn zeta. split; [|apply printable_texts, P].
  unfold mprint_as_array. cbn [String.eqb Ascii.eqb Bool.eqb bind]. rewrite array_loop_ok.
  - rewrite (ravel_rows nr nc m R), array_stmts, map_map, (count_cells nr nc m R). cbn [bind]. unfold finish, script. rewrite heading_lines, <- !app_assoc. reflexivity.
  - intros c I N. rewrite (ravel_rows nr nc m R) in I. apply in_map_iff in I. destruct I as [k [<- I]]. apply P, N.
Qed.

(** order F: place k is for row k mod nrows and column k div nrows. *)
Lemma c52_columns : forall nr nc m name sufix header print_file pow_by_mul op,
  rectangular nr nc m -> printable array_powers_text pow_by_mul m ->
  exists file ts,
    let full := namesufix name sufix in
    let entry_at k := at_ m (k mod nr) (k / nr) in
    mprint_as_array m name sufix header print_file pow_by_mul "F" op =
      Ok (script (heading header ++ [name_line full; count_line full (List.length (cells nr nc m))])
            (map (fun k => array_text name (txt op) (ArrayAdd (Offset (txt "pos") k) (ts (entry_at k))))
               (filter (fun k => nonzero (entry_at k)) (seq 0 (nr * nc)))), file) /\
    texts array_powers_text pow_by_mul m ts.
Proof.
  intros nr nc m name suf header pf pbm op R P. eexists _, _. cbn zeta. split; [|apply printable_texts, P].
  unfold mprint_as_array. cbn [String.eqb Ascii.eqb Bool.eqb bind]. rewrite array_loop_ok.
  - rewrite (ravel_cols nr nc m R), array_stmts, map_map, (count_cells nr nc m R). cbn [bind]. unfold finish, script. rewrite heading_lines, <- !app_assoc. reflexivity.
  - intros c I N. rewrite (ravel_cols nr nc m R) in I. apply in_map_iff in I. destruct I as [k [<- I]]. apply P, N.
Qed.

(** Every cell has exactly one place, in either order. *)
Lemma c52_places : forall nr nc i j, i < nr -> j < nc ->
  (exists! k, k < nr * nc /\ k / nc = i /\ k mod nc = j) /\ (exists! k, k < nr * nc /\ k mod nr = i /\ k / nr = j).
Proof.
  intros nr nc i j I J. split.
  - exists (i * nc + j). split.
    + split; [nia|]. rewrite Nat.add_comm, Nat.div_add, Nat.mod_add, Nat.div_small, Nat.mod_small by lia. lia.
    + intros k [_ [A B]]. rewrite (Nat.div_mod k nc) by lia. rewrite A, B. lia.
  - exists (j * nr + i). split.
    + split; [nia|]. rewrite Nat.add_comm, Nat.div_add, Nat.mod_add, Nat.div_small, Nat.mod_small by lia. lia.
    + intros k [_ [A B]]. rewrite (Nat.div_mod k nr) by lia. rewrite A, B. lia.
Qed.

(** Any other order is an UnboundLocalError. *)
Lemma c52_order : forall m name sufix header print_file pow_by_mul order op, order <> "C" -> order <> "F" ->
  mprint_as_array m name sufix header print_file pow_by_mul order op = Raise UnboundLocalError.
Proof.
  intros m name suf header pf pbm order op A B. unfold mprint_as_array. apply String.eqb_neq in A, B. rewrite A, B. reflexivity.
Qed.

Lemma Ok_inj : forall A (a b : A), Ok a = Ok b -> a = b.
Proof. intros A a b E. injection E as ->. reflexivity. Qed.

(** The file named after the matrix holds the text that is returned; without print_file nothing is written. *)
Lemma c57_file : forall m name sufix header print_file pow_by_mul is_symmetric dofpernode order op s file,
  (mprint_as_sparse m name sufix header print_file pow_by_mul is_symmetric dofpernode = Ok (s, file) \/
   mprint_as_array m name sufix header print_file pow_by_mul order op = Ok (s, file) \/
   sufix = None /\ mprint_as_dense m name header print_file pow_by_mul dofpernode = Ok (s, file)) ->
  file = if print_file then Some ((txt "print_" ++ name ++ match sufix with None => [] | Some x => txt "_" ++ x end ++ txt ".txt")%list, s) else None.
Proof.
  assert (X : forall pf name suf t s file, finish pf (namesufix name suf) t = (s, file) ->
    file = if pf then Some (txt "print_" ++ name ++ match suf with None => [] | Some x => txt "_" ++ x end ++ txt ".txt", s) else None).
  { intros pf name suf t s file E. unfold finish in E. injection E as <- <-. destruct pf; [|reflexivity]. destruct suf as [x|]; cbn [namesufix]; rewrite <- ?app_assoc; reflexivity. }
  intros m name suf header pf pbm sym dpn order op s file [H|[H|[-> H]]].
  - unfold mprint_as_sparse in H. destruct (sparse_loop _ _ _ _ _ _ _); [|discriminate]. cbn [bind] in H. apply Ok_inj in H. revert H. apply X.
  - unfold mprint_as_array in H. destruct (if order =? "C" then _ else _)%string; [|discriminate]. cbn [bind] in H. destruct (array_loop _ _ _ _ _); [|discriminate]. cbn [bind] in H. apply Ok_inj in H. revert H. apply X.
  - unfold mprint_as_dense in H. destruct (dense_loop _ _ _ _ _); [|discriminate]. cbn [bind] in H. apply Ok_inj in H. revert H. apply (X pf name None).
Qed.

(** *** The text determines the statements *)

Lemma lines_inj : forall l1 l2, Forall one_line l1 -> Forall one_line l2 -> flat_map (fun x => newline :: x) l1 = flat_map (fun x => newline :: x) l2 -> l1 = l2.
Proof.
  induction l1 as [|a l1 IH]; intros [|b l2] A B E; try reflexivity; try discriminate. inversion A; subst. inversion B; subst. cbn [flat_map app] in E. injection E as E.
  assert (X : forall (x y : text) r s, one_line x -> one_line y -> x ++ flat_map (fun x => newline :: x) r = y ++ flat_map (fun x => newline :: x) s ->
    x = y /\ flat_map (fun x => newline :: x) r = flat_map (fun x => newline :: x) s).
  { clear. induction x as [|c x IH]; intros [|d y] r s X Y E; cbn [app] in E.
    - auto.
    - destruct r as [|z r]; [discriminate|]. cbn in E. injection E as <- _. exfalso. apply Y. left; reflexivity.
    - destruct s as [|z s]; [discriminate|]. cbn in E. injection E as -> _. exfalso. apply X. left; reflexivity.
    - injection E as -> E. apply IH in E; [destruct E as [-> E]; auto|intros I; apply X; right; exact I|intros I; apply Y; right; exact I]. }
  apply X in E; [|assumption|assumption]. destruct E as [-> E]. f_equal. apply IH; assumption.
Qed.
Lemma join_lines : forall cs l, cs <> [] -> join [newline] (cs ++ l) = join [newline] cs ++ flat_map (fun x => newline :: x) l.
Proof.
  assert (Y : forall a l, join [newline] (a :: l) = a ++ flat_map (fun x => newline :: x) l).
  { intros a l. revert a. induction l as [|b l IH]; intros a; [cbn; rewrite app_nil_r; reflexivity|]. change (join [newline] (a :: b :: l)) with (a ++ [newline] ++ join [newline] (b :: l)). rewrite IH. reflexivity. }
  intros [|a cs] l N; [congruence|]. change ((a :: cs) ++ l) with (a :: (cs ++ l)). rewrite !Y, flat_map_app, app_assoc. reflexivity.
Qed.
Lemma script_inj : forall cs l1 l2, cs <> [] -> Forall one_line l1 -> Forall one_line l2 -> script cs l1 = script cs l2 -> l1 = l2.
Proof. intros cs l1 l2 N A B E. unfold script in E. rewrite !join_lines in E by exact N. apply app_inv_head in E. apply lines_inj; assumption. Qed.

Definition ichar (c : ascii) : bool := is_word c || Ascii.eqb c "+" || Ascii.eqb c "*".
Lemma all_imp : forall (f g : ascii -> bool) s, (forall c, f c = true -> g c = true) -> all f s -> all g s.
Proof. intros f g s H A. eapply Forall_impl; [|exact A]. cbn. exact H. Qed.
Lemma digit_ichar : forall c, is_digit c = true -> ichar c = true.
Proof. intros c H. unfold ichar, is_word. rewrite H. rewrite ?orb_true_r, ?orb_true_l. reflexivity. Qed.
Lemma num_ichar : forall n, all ichar (nat_text n).
Proof. intros n. apply (all_imp is_digit); [exact digit_ichar|apply nat_text_ok]. Qed.
Lemma index_ichar : forall x, index_ok x -> all ichar (index_text x).
Proof.
  intros [n|b n|k n] H; cbn [index_text].
  - apply num_ichar.
  - apply all_app. split; [|apply all_app; split; [repeat constructor|apply num_ichar]]. destruct H as [_ [H _]]. eapply Forall_impl; [|exact H]. cbn. intros c W. unfold ichar. rewrite W. reflexivity.
  - repeat (apply all_app; split); try apply num_ichar; repeat constructor.
Qed.
Lemma num_first : forall n, exists c r, nat_text n = c :: r /\ is_digit c = true.
Proof. intros n. destruct (nat_text_ok n) as [_ [A B]]. destruct (nat_text n) as [|c r]; [congruence|]. inversion A; subst. exists c, r. auto. Qed.
Definition not_plus (c : ascii) : bool := negb (Ascii.eqb c "+").
Lemma word_not_plus : forall c, is_word c = true -> not_plus c = true.
Proof. intros c H. unfold not_plus. destruct (Ascii.eqb_spec c "+") as [->|]; [discriminate|reflexivity]. Qed.
Lemma digit_not_plus : forall c, is_digit c = true -> not_plus c = true.
Proof. intros c H. apply word_not_plus. unfold is_word. rewrite H. rewrite ?orb_true_r, ?orb_true_l. reflexivity. Qed.
Lemma num_not_plus : forall n, all not_plus (nat_text n).
Proof. intros n. apply (all_imp is_digit); [exact digit_not_plus|apply nat_text_ok]. Qed.
Lemma no_plus_in : forall a b s, all not_plus s -> s = a ++ "+"%char :: b -> False.
Proof. intros a b s A ->. apply all_app in A. destruct A as [_ A]. inversion A; subst. discriminate. Qed.
Lemma index_inj : forall x y, index_ok x -> index_ok y -> index_text x = index_text y -> x = y.
Proof.
  assert (W : forall b, name_ok b -> all not_plus b) by (intros b [_ [H _]]; eapply Forall_impl; [|exact H]; exact word_not_plus).
  assert (K : forall k, all not_plus (txt "i" ++ nat_text k ++ txt "*dof")) by (intros k; repeat (apply all_app; split); try apply num_not_plus; repeat constructor).
  assert (S : forall b, name_ok b -> ~ In "*"%char b) by (intros b [_ [H _]] I; rewrite Forall_forall in H; specialize (H _ I); discriminate).
  assert (N : forall k n, txt "i" ++ nat_text k ++ txt "*dof+" ++ nat_text n = (txt "i" ++ nat_text k ++ txt "*dof") ++ "+"%char :: nat_text n) by (intros k n; rewrite <- !app_assoc; reflexivity).
  intros [n|b n|k n] [n'|b' n'|k' n'] A B E; cbn [index_text index_ok] in *.
  - f_equal. apply nat_text_inj, E.
  - exfalso. exact (no_plus_in _ _ _ (num_not_plus n) E).
  - exfalso. rewrite N in E. exact (no_plus_in _ _ _ (num_not_plus n) E).
  - exfalso. symmetry in E. exact (no_plus_in _ _ _ (num_not_plus n') E).
  - apply (cut not_plus b b') in E; [|apply W, A|apply W, B|reflexivity]. destruct E as [-> E]. apply nat_text_inj in E. congruence.
  - exfalso. rewrite N in E. apply (cut not_plus) in E; [|apply W, A|apply K|reflexivity]. destruct E as [-> _]. apply (S _ A). apply in_or_app. right. apply in_or_app. right. left; reflexivity.
  - exfalso. rewrite N in E. symmetry in E. exact (no_plus_in _ _ _ (num_not_plus n') E).
  - exfalso. rewrite N in E. apply (cut not_plus) in E; [|apply K|apply W, B|reflexivity]. destruct E as [<- _]. apply (S _ B). apply in_or_app. right. apply in_or_app. right. left; reflexivity.
  - rewrite !N in E. apply (cut not_plus) in E; [|apply K|apply K|reflexivity]. destruct E as [E1 E2]. apply nat_text_inj in E2.
    apply app_inv_head in E1. apply app_inv_tail in E1. apply nat_text_inj in E1. congruence.
Qed.
Lemma ichar_oneline : forall s, all ichar s -> one_line s.
Proof. intros s A I. assert (Q := proj1 (Forall_forall _ _) A _ I). discriminate. Qed.
Lemma oneline_app : forall a b, one_line a -> one_line b -> one_line (a ++ b).
Proof. intros a b A B I. apply in_app_or in I. destruct I; auto. Qed.
Ltac lit_oneline := let I := fresh in intros I; cbn in I; repeat destruct I as [I|I]; try discriminate I; exact I.

(** Two lists of statements whose texts are the same are the same. *)
Lemma c49_unambiguous : forall name comments l1 l2, one_line name -> comments <> [] ->
  (forall s, In s (l1 ++ l2) -> index_ok (d_row s) /\ index_ok (d_col s) /\ one_line (d_val s)) ->
  script comments (map (dense_text name) l1) = script comments (map (dense_text name) l2) -> l1 = l2.
Proof.
  intros name cs l1 l2 O N H E.
  assert (T : forall s, In s (l1 ++ l2) -> one_line (dense_text name s)).
  { intros s I. destruct (H s I) as [A [B C]]. unfold dense_text. apply oneline_app; [exact O|]. apply oneline_app; [lit_oneline|]. apply oneline_app; [apply ichar_oneline, index_ichar, A|].
    apply oneline_app; [lit_oneline|]. apply oneline_app; [apply ichar_oneline, index_ichar, B|]. apply oneline_app; [lit_oneline|exact C]. }
  apply script_inj in E; [|exact N| |].
  2,3: apply Forall_forall; intros x I; apply in_map_iff in I; destruct I as [s [<- I]]; apply T, in_or_app; auto.
  clear T. revert l2 E H. induction l1 as [|a l1 IH]; intros [|b l2] E H; try reflexivity; try discriminate. cbn [map] in E. injection E as E1 E2. f_equal.
  - destruct (H a) as [A1 [A2 A3]]; [left; reflexivity|]. destruct (H b) as [B1 [B2 B3]]; [apply in_or_app; right; left; reflexivity|]. destruct a as [r c v], b as [r' c' v']. cbn [d_row d_col d_val] in *.
    unfold dense_text in E1. cbn [d_row d_col d_val] in E1. apply app_inv_head in E1. apply app_inv_head in E1.
    apply (cut ichar (index_text r) (index_text r')) in E1; [|apply index_ichar; assumption|apply index_ichar; assumption|reflexivity]. destruct E1 as [R E1]. injection E1 as E1.
    apply (cut ichar (index_text c) (index_text c')) in E1; [|apply index_ichar; assumption|apply index_ichar; assumption|reflexivity]. destruct E1 as [C E1]. injection E1 as ->.
    apply index_inj in R, C; try assumption. subst. reflexivity.
  - apply IH; [exact E2|]. intros s I. apply H. apply in_app_or in I. destruct I as [I|I]; [right; apply in_or_app; auto|apply in_or_app; right; right; exact I].
Qed.
(** The same for the sparse statements. *)
Lemma c50_unambiguous : forall name comments l1 l2, name_ok name -> comments <> [] ->
  (forall s, In s (l1 ++ l2) -> match s with CountUp => True | SetRow x | SetCol x => index_ok x | AddVal v => one_line v end) ->
  script comments (map (sparse_text name) l1) = script comments (map (sparse_text name) l2) -> l1 = l2.
Proof.
  intros name cs l1 l2 O N H E.
  assert (ON : one_line name) by (apply ichar_oneline; destruct O as [_ [O _]]; eapply Forall_impl; [|exact O]; intros c W; cbn; unfold ichar; rewrite W; reflexivity).
  assert (T : forall s, In s (l1 ++ l2) -> one_line (sparse_text name s)).
  { intros s I. specialize (H s I). destruct s as [|x|x|v]; cbn [sparse_text]; [lit_oneline| | |]; (apply oneline_app; [exact ON|]); (apply oneline_app; [lit_oneline|]); try (apply ichar_oneline, index_ichar, H). exact H. }
  apply script_inj in E; [|exact N| |].
  2,3: apply Forall_forall; intros x I; apply in_map_iff in I; destruct I as [s [<- I]]; apply T, in_or_app; auto.
  clear T. revert l2 E H. induction l1 as [|a l1 IH]; intros [|b l2] E H; try reflexivity; try discriminate. cbn [map] in E. injection E as E1 E2. f_equal.
  - assert (A := H a (or_introl eq_refl)). assert (B : match b with CountUp => True | SetRow x | SetCol x => index_ok x | AddVal v => one_line v end) by (apply H; apply in_or_app; right; left; reflexivity).
    assert (X : forall (r : text) c q, is_word c = true -> txt "c += 1" = name ++ c :: "["%char :: q -> False).
    { intros _ c q W Q. assert (R : all is_word (name ++ [c])) by (apply all_app; split; [apply O|repeat constructor; exact W]).
      replace (name ++ c :: "["%char :: q) with ((name ++ [c]) ++ "["%char :: q) in Q by (rewrite <- app_assoc; reflexivity).
      destruct (name ++ [c]) as [|x [|y l]]; cbn in Q; try discriminate. injection Q as <- <- _. inversion R; subst. inversion H3; subst. discriminate. }
    destruct a as [|x|x|v], b as [|x'|x'|v']; try reflexivity; cbn [sparse_text] in E1.
    all: try (exfalso; (apply (X []) in E1 + (symmetry in E1; apply (X []) in E1)); [exact E1|reflexivity]).
    all: apply app_inv_head in E1; try discriminate; cbn in E1; injection E1 as E1; f_equal; try (apply index_inj; assumption); exact E1.
  - apply IH; [exact E2|]. intros s I. apply H. apply in_app_or in I. destruct I as [I|I]; [right; apply in_or_app; auto|apply in_or_app; right; right; exact I].
Qed.

(** *** Cases *)

Ltac rect := split; [reflexivity|let row := fresh in let H := fresh in intros row H; repeat destruct H as [<-|H]; try reflexivity; destruct H].

(** A matrix with zeros and powers, and a header. *)
Lemma c49_dense_ex : let m := [[Entry true (txt "a**2"); Entry false (txt "0"); Entry true (txt "b")]; [Entry false (txt "0"); Entry true (txt "a + b**3"); Entry false (txt "0")]] in
  rectangular 2 3 m /\ printable pow2mul_text true m /\
  mprint_as_dense m (txt "A") (Some (txt "# stiffness")) true true None =
    let s := script [txt "# stiffness"; txt "# A"; txt "# A_num=3"] [txt "A[0, 0] += (a*a)"; txt "A[0, 2] += b"; txt "A[1, 1] += a + (b*b*b)"] in
    Ok (s, Some (txt "print_A.txt", s)).
Proof.
  split; [rect|]. split; [|vm_compute; reflexivity].
  intros i j H. destruct i as [|[|i]].
  - destruct j as [|[|[|j]]]; try discriminate H; try (eexists; reflexivity). destruct j; discriminate H.
  - destruct j as [|[|[|j]]]; try discriminate H; try (eexists; reflexivity). destruct j; discriminate H.
  - destruct i, j; discriminate H.
Qed.
(** The same with two degrees of freedom per node. *)
Lemma c49_nodes_ex : let m := [[Entry true (txt "a**2"); Entry false (txt "0"); Entry true (txt "b")]; [Entry false (txt "0"); Entry true (txt "a + b**3"); Entry false (txt "0")]] in
  rectangular 2 3 m /\ printable pow2mul_text false m /\
  mprint_as_dense m (txt "A") None false false (Some 2) =
    Ok (script [txt "# A"; txt "# A_num=3"] [txt "A[i1*dof+0, i1*dof+0] += a**2"; txt "A[i1*dof+0, i2*dof+0] += b"; txt "A[i1*dof+1, i1*dof+1] += a + b**3"], None) /\
  exists e, dof e = 2 /\ (forall k k', node e k = node e k' -> k = k').
Proof.
  split; [rect|]. split; [|split; [vm_compute; reflexivity|]].
  - intros i j H. eexists; reflexivity.
  - exists (Names (fun _ => 0) (fun k => k) 2). split; [reflexivity|]. intros k k' E. exact E.
Qed.
(** Nodes numbered one after the other. *)
Lemma c49_consecutive_ex : let m := [[Entry true (txt "a"); Entry false (txt "0"); Entry true (txt "b")]] in
  rectangular 1 3 m /\ printable pow2mul_text false m /\ nonzero (at_ m 0 2) = true /\ exists e, dof e = 2 /\ forall k, node e (k + 1) = k.
Proof.
  split; [rect|]. split; [intros i j H; eexists; reflexivity|]. split; [reflexivity|]. exists (Names (fun _ => 0) Nat.pred 2). split; [reflexivity|]. intros k. cbn. lia.
Qed.
(** Statements of the three kinds. *)
Lemma c49_unambiguous_ex : let l := [DenseAdd (Number 12) (NodeDof 3 4) (txt "a*b"); DenseAdd (Offset (txt "row") 1) (Number 0) (txt "1")] in
  one_line (txt "A") /\ forall s, In s l -> index_ok (d_row s) /\ index_ok (d_col s) /\ one_line (d_val s).
Proof.
  split; [lit_oneline|]. intros s [<-|[<-|[]]]; cbn; (split; [|split; [exact I|lit_oneline]]); [exact I|]. split; [discriminate|]. split; [repeat constructor|reflexivity].
Qed.
(** The header comes first, then the number, then the name. *)
Lemma c50_sparse_ex : let m := [[Entry true (txt "a**2"); Entry false (txt "0")]; [Entry false (txt "0"); Entry true (txt "b")]] in
  rectangular 2 2 m /\ printable pow2mul_text true m /\
  mprint_as_sparse m (txt "K") (Some (txt "1")) (Some (txt "# h")) true true false None =
    let s := script [txt "# h"; txt "# K_1_num=2"; txt "# K_1"]
      [txt "c += 1"; txt "Kr[c] = row+0"; txt "Kc[c] = col+0"; txt "Kv[c] += (a*a)"; txt "c += 1"; txt "Kr[c] = row+1"; txt "Kc[c] = col+1"; txt "Kv[c] += b"] in
    Ok (s, Some (txt "print_K_1.txt", s)).
Proof.
  split; [rect|]. split; [|vm_compute; reflexivity]. intros i j H. destruct i as [|[|i]].
  - destruct j as [|[|j]]; try discriminate H; try (eexists; reflexivity). destruct j; discriminate H.
  - destruct j as [|[|j]]; try discriminate H; try (eexists; reflexivity). destruct j; discriminate H.
  - destruct i, j; discriminate H.
Qed.
(** With one degree of freedom per node and symmetric everything is printed, below the diagonal too. *)
Lemma c51_ex : let m := [[Entry true (txt "a"); Entry true (txt "b")]; [Entry true (txt "b"); Entry true (txt "c")]] in
  rectangular 2 2 m /\ printable pow2mul_text true m /\
  mprint_as_sparse m (txt "K") None None false true true None =
    Ok (script [txt "# K"; txt "# K_num=3"]
      [txt "c += 1"; txt "Kr[c] = row+0"; txt "Kc[c] = col+0"; txt "Kv[c] += a"; txt "c += 1"; txt "Kr[c] = row+0"; txt "Kc[c] = col+1"; txt "Kv[c] += b";
       txt "c += 1"; txt "Kr[c] = row+1"; txt "Kc[c] = col+1"; txt "Kv[c] += c"], None) /\
  exists s, mprint_as_sparse m (txt "K") None None false true true (Some 1) =
    Ok (script [txt "# K"; txt "# K_num=4"] s, None).
Proof.
  split; [rect|]. split; [|split; [vm_compute; reflexivity|]].
  - intros i j H. destruct i as [|[|i]].
    + destruct j as [|[|j]]; try discriminate H; try (eexists; reflexivity). destruct j; discriminate H.
    + destruct j as [|[|j]]; try discriminate H; try (eexists; reflexivity). destruct j; discriminate H.
    + destruct i, j; discriminate H.
  - eexists [txt "c += 1"; txt "Kr[c] = i1*dof+0"; txt "Kc[c] = i1*dof+0"; txt "Kv[c] += a"; txt "c += 1"; txt "Kr[c] = i1*dof+0"; txt "Kc[c] = i2*dof+0"; txt "Kv[c] += b";
       txt "c += 1"; txt "Kr[c] = i2*dof+0"; txt "Kc[c] = i1*dof+0"; txt "Kv[c] += b"; txt "c += 1"; txt "Kr[c] = i2*dof+0"; txt "Kc[c] = i2*dof+0"; txt "Kv[c] += c"]. vm_compute. reflexivity.
Qed.
(** Both orders. *)
Lemma c52_ex : let m := [[Entry true (txt "a**2"); Entry true (txt "b")]; [Entry true (txt "c"); Entry false (txt "0")]; [Entry false (txt "0"); Entry true (txt "d")]] in
  rectangular 3 2 m /\ printable array_powers_text true m /\
  mprint_as_array m (txt "N") None None false true "C" "+=" =
    Ok (script [txt "# N"; txt "# N_num=4"] [txt "N[pos+0] += (a*a)"; txt "N[pos+1] += b"; txt "N[pos+2] += c"; txt "N[pos+5] += d"], None) /\
  mprint_as_array m (txt "N") None None false true "F" "=" =
    Ok (script [txt "# N"; txt "# N_num=4"] [txt "N[pos+0] = (a*a)"; txt "N[pos+1] = c"; txt "N[pos+3] = b"; txt "N[pos+5] = d"], None).
Proof.
  split; [rect|]. split; [|split; vm_compute; reflexivity]. intros i j H. destruct i as [|[|[|i]]].
  1-3: destruct j as [|[|j]]; try discriminate H; try (eexists; reflexivity); destruct j; discriminate H.
  destruct i, j; discriminate H.
Qed.
