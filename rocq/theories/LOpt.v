(** Lemmas for the properties C82 to C84. *)
(* P: Num Py Pow2mul SpecPow Mprint MprintOpt SpecMprint SpecOpt *)
From Coq Require Import Reals ZArith List Bool Arith Ascii String Permutation Sorted Lia Lra.
From Verif Require Import Num Py Pow2mul SpecPow FPow FCall Mprint MprintOpt SpecMprint SpecOpt FMprint.
From Verif Require LMprint.
Import ListNotations.
Local Open Scope list_scope.
Local Open Scope nat_scope.

(** ** Texts *)

Ltac flat := cbn [txt list_ascii_of_string app]; repeat (rewrite <- app_assoc; cbn [app]).

Lemma occurs_ok : forall p s, occurs p s = true <-> contains p s.
Proof.
  intros p s. induction s as [|c s IH]; cbn [occurs]; rewrite orb_true_iff, starts_true.
  - split.
    + intros [[r E]|E]; [|discriminate]. exists [], r. exact E.
    + intros [a [b E]]. left. destruct a; [exists b; exact E|discriminate].
  - rewrite IH. split.
    + intros [[r E]|[a [b E]]]; [exists [], r; exact E|]. exists (c :: a), b. rewrite E. reflexivity.
    + intros [[|x a] [b E]]; [left; exists b; exact E|right]. injection E as -> ->. exists a, b. reflexivity.
Qed.

Lemma leb_before : forall a b, text_leb a b = true -> text_before a b.
Proof.
  induction a as [|x a IH]; intros b H; [left; exists b; reflexivity|]. destruct b as [|y b]; [discriminate|]. cbn [text_leb] in H.
  destruct (Nat.ltb_spec (nat_of_ascii x) (nat_of_ascii y)) as [L|L]; [right; exists [], x, y, a, b; auto|].
  destruct (Nat.ltb_spec (nat_of_ascii y) (nat_of_ascii x)) as [L'|L']; [discriminate|].
  assert (E : x = y) by (rewrite <- (ascii_nat_embedding x), <- (ascii_nat_embedding y); f_equal; lia). subst y.
  destruct (IH b H) as [[c ->]|[p [u [v [a' [b' [-> [-> G]]]]]]]]; [left; exists c; reflexivity|right; exists (x :: p), u, v, a', b'; auto].
Qed.
Lemma leb_total : forall a b, text_leb a b = false -> text_leb b a = true.
Proof.
  induction a as [|x a IH]; intros b H; [discriminate|]. destruct b as [|y b]; [reflexivity|]. cbn [text_leb] in *.
  destruct (Nat.ltb (nat_of_ascii x) (nat_of_ascii y)); [discriminate|]. destruct (Nat.ltb (nat_of_ascii y) (nat_of_ascii x)); [reflexivity|]. apply IH, H.
Qed.
Lemma leb_trans : forall a b c, text_leb a b = true -> text_leb b c = true -> text_leb a c = true.
Proof.
  induction a as [|x a IH]; intros b c H1 H2; [reflexivity|]. destruct b as [|y b]; [discriminate|]. destruct c as [|z c]; [discriminate|]. cbn [text_leb] in *.
  destruct (Nat.ltb_spec (nat_of_ascii x) (nat_of_ascii y)) as [L1|L1], (Nat.ltb_spec (nat_of_ascii y) (nat_of_ascii z)) as [L2|L2].
  - destruct (Nat.ltb_spec (nat_of_ascii x) (nat_of_ascii z)); [reflexivity|lia].
  - destruct (Nat.ltb_spec (nat_of_ascii z) (nat_of_ascii y)); [discriminate|]. destruct (Nat.ltb_spec (nat_of_ascii x) (nat_of_ascii z)); [reflexivity|lia].
  - destruct (Nat.ltb_spec (nat_of_ascii y) (nat_of_ascii x)); [discriminate|]. destruct (Nat.ltb_spec (nat_of_ascii x) (nat_of_ascii z)); [reflexivity|lia].
  - destruct (Nat.ltb_spec (nat_of_ascii y) (nat_of_ascii x)); [discriminate|]. destruct (Nat.ltb_spec (nat_of_ascii z) (nat_of_ascii y)); [discriminate|].
    destruct (Nat.ltb_spec (nat_of_ascii x) (nat_of_ascii z)); [reflexivity|]. destruct (Nat.ltb_spec (nat_of_ascii z) (nat_of_ascii x)); [lia|]. apply (IH b c); assumption.
Qed.

Definition by_new (d d' : text * text) : Prop := text_leb (snd d) (snd d') = true.
Lemma insert_new_perm : forall a l, Permutation (insert_by_new a l) (a :: l).
Proof.
  intros a. induction l as [|b l IH]; [apply Permutation_refl|]. cbn. destruct (text_leb (snd a) (snd b)); [apply Permutation_refl|].
  eapply perm_trans; [apply perm_skip, IH|apply perm_swap].
Qed.
Lemma sort_new_perm : forall l, Permutation (sort_by_new l) l.
Proof. induction l as [|a l IH]; [constructor|]. cbn. eapply perm_trans; [apply insert_new_perm|apply perm_skip, IH]. Qed.
Lemma insert_new_sorted : forall a l, StronglySorted by_new l -> StronglySorted by_new (insert_by_new a l).
Proof.
  intros a. induction l as [|b l IH]; intros S; [repeat constructor|]. inversion S; subst. cbn. destruct (text_leb (snd a) (snd b)) eqn:E.
  - constructor; [exact S|]. constructor; [exact E|]. eapply Forall_impl; [|exact H2]. intros d D. exact (leb_trans _ _ _ E D).
  - constructor; [apply IH; assumption|]. eapply Permutation_Forall; [apply Permutation_sym, insert_new_perm|]. constructor; [apply leb_total, E|assumption].
Qed.
Lemma sort_new_sorted : forall l, StronglySorted by_new (sort_by_new l).
Proof. induction l as [|a l IH]; [constructor|]. apply insert_new_sorted, IH. Qed.
Lemma filter_sorted : forall A (R : A -> A -> Prop) f l, StronglySorted R l -> StronglySorted R (filter f l).
Proof.
  intros A R f l S. induction S as [|a l S IH F]; [constructor|]. cbn. destruct (f a); [|exact IH]. constructor; [exact IH|].
  apply Forall_forall. intros x X. apply filter_In in X. rewrite Forall_forall in F. apply F, X.
Qed.
Lemma perm_filter : forall A (f : A -> bool) l l', Permutation l l' -> Permutation (filter f l) (filter f l').
Proof.
  intros A f l l' P. induction P as [|x l l' P IH|x y l|l1 l2 l3 P1 IH1 P2 IH2]; cbn.
  - constructor.
  - destruct (f x); [constructor|]; exact IH.
  - destruct (f x), (f y); try apply Permutation_refl. apply perm_swap.
  - eapply perm_trans; eassumption.
Qed.
Lemma sorted_imp : forall A (R R' : A -> A -> Prop) l, (forall a b, R a b -> R' a b) -> StronglySorted R l -> StronglySorted R' l.
Proof. intros A R R' l H S. induction S as [|a l S IH F]; constructor; [exact IH|]. eapply Forall_impl; [|exact F]. intros b. apply H. Qed.

Lemma listed_ok : forall items s, listed items s (filter (fun kv => occurs (snd kv) s) (sort_by_new items)).
Proof.
  intros items s. split.
  - exists (fun p => occurs p s). split; [intros p; apply occurs_ok|]. apply perm_filter, sort_new_perm.
  - apply (sorted_imp _ by_new); [intros a b; apply leb_before|]. apply filter_sorted, sort_new_sorted.
Qed.

Lemma join_lines : forall pre ls, ls <> [] -> join [newline] (pre ++ ls) = lines pre ++ join [newline] ls.
Proof.
  intros pre ls N. induction pre as [|a pre IH]; [reflexivity|]. cbn [app]. unfold lines in *. cbn [map List.concat].
  assert (X : join [newline] (a :: pre ++ ls) = a ++ [newline] ++ join [newline] (pre ++ ls)) by (destruct pre, ls; [congruence|reflexivity|reflexivity|reflexivity]).
  rewrite X, IH, <- !app_assoc. reflexivity.
Qed.
Lemma lines_app : forall a b, lines (a ++ b) = lines a ++ lines b.
Proof. intros a b. unfold lines. rewrite map_app, concat_app. reflexivity. Qed.

Definition preface_text (first last : list text) (sep : text) (ds : list (text * text)) : text :=
  match ds with [] => [] | _ => lines (first ++ map (fun kv => sep ++ snd kv ++ txt " = " ++ fst kv) ds ++ last) end.
Lemma with_subs_text : forall items sub first last sep ls, items <> [] -> ls <> [] ->
  exists ds, listed items (join [newline] ls) ds /\
    with_subs (Some (Subs items sub)) first last sep ls = preface_text first last sep ds ++ join [newline] ls.
Proof.
  intros items sub first last sep ls I N. exists (filter (fun kv => occurs (snd kv) (join [newline] ls)) (sort_by_new items)). split; [apply listed_ok|].
  unfold with_subs. destruct items as [|a items]; [congruence|]. cbn [use_subs s_items].
  destruct (filter _ (sort_by_new (a :: items))) as [|d ds]; [reflexivity|]. unfold preface_text. apply join_lines, N.
Qed.

(** ** The matrix after the substitutions *)

Definition sub1 (sub : text -> text) (v : entry) : entry := if nonzero v then Entry true (sub (entry_text v)) else v.
Lemma sub1_nonzero : forall sub v, nonzero (sub1 sub v) = nonzero v.
Proof. intros sub v. unfold sub1. destruct (nonzero v) eqn:E; [reflexivity|exact E]. Qed.
Lemma sub1_apply : forall items sub v, items <> [] -> nonzero v = true -> apply_subs (Some (Subs items sub)) v = sub1 sub v.
Proof. intros [|a items] sub v I N; [congruence|]. unfold apply_subs, sub1. cbn. rewrite N. reflexivity. Qed.

Lemma enumerate_map : forall A B (f : A -> B) l, enumerate (map f l) = map (fun iv => (fst iv, f (snd iv))) (enumerate l).
Proof.
  intros A B f l. unfold enumerate. rewrite map_length. generalize 0. induction l as [|a l IH]; intros k; [reflexivity|]. cbn. rewrite IH. reflexivity.
Qed.
Lemma ndenumerate_sub : forall sub m, ndenumerate (substitute sub m) = map (fun c => (fst c, sub1 sub (snd c))) (ndenumerate m).
Proof.
  intros sub m. unfold ndenumerate, substitute. rewrite enumerate_map. generalize (enumerate m). induction l as [|[i r] l IH]; [reflexivity|].
  cbn [map flat_map fst snd]. rewrite IH, map_app, enumerate_map, !map_map. reflexivity.
Qed.

Lemma value_text_none : forall ex pbm target op v, value_lines ex pbm None target op v =
  match value_text ex pbm v with Ok t => Ok [target ++ txt " " ++ op ++ txt " " ++ t] | Raise x => Raise x end.
Proof. intros. unfold value_lines. destruct (value_text ex pbm v); reflexivity. Qed.

Lemma dense_loop_sub : forall name items sub pbm dpn es ls, items <> [] ->
  dense_loop_opt name (Some (Subs items sub)) None pbm dpn es ls = dense_loop name pbm dpn (map (fun c => (fst c, sub1 sub (snd c))) es) ls.
Proof.
  intros name items sub pbm dpn es ls I. revert ls. induction es as [|[ij v] es IH]; intros ls; [reflexivity|].
  cbn [dense_loop_opt map dense_loop fst snd]. rewrite sub1_nonzero. destruct (nonzero v) eqn:E; [|apply IH].
  rewrite (sub1_apply items sub v I E), value_text_none. destruct (value_text pow2mul_text pbm (sub1 sub v)); [|reflexivity]. cbn [bind]. rewrite IH. do 3 f_equal.
  flat. reflexivity.
Qed.
Lemma dense_loop_plain : forall name o pbm dpn es ls, use_subs o = None -> dense_loop_opt name o None pbm dpn es ls = dense_loop name pbm dpn es ls.
Proof.
  intros name o pbm dpn es ls U. revert ls. induction es as [|[ij v] es IH]; intros ls; [reflexivity|].
  cbn [dense_loop_opt dense_loop]. destruct (nonzero v) eqn:E; [|apply IH].
  unfold apply_subs. rewrite U, value_text_none. destruct (value_text pow2mul_text pbm v); [|reflexivity]. cbn [bind]. rewrite IH. do 3 f_equal.
  flat. reflexivity.
Qed.
Lemma sparse_loop_sub : forall name items sub pbm sym dpn es num ls, items <> [] ->
  sparse_loop_opt name (Some (Subs items sub)) None pbm sym dpn es num ls = sparse_loop name pbm sym dpn (map (fun c => (fst c, sub1 sub (snd c))) es) num ls.
Proof.
  intros name items sub pbm sym dpn es num ls I. revert num ls. induction es as [|[ij v] es IH]; intros num ls; [reflexivity|].
  cbn [sparse_loop_opt map sparse_loop fst snd]. rewrite sub1_nonzero. destruct (nonzero v) eqn:E; [|apply IH].
  destruct (sym && Nat.ltb (snd (node_index dpn (snd ij))) (snd (node_index dpn (fst ij)))); [apply IH|].
  rewrite (sub1_apply items sub v I E), value_text_none. destruct (value_text pow2mul_text pbm (sub1 sub v)); [|reflexivity]. cbn [bind]. rewrite IH. do 3 f_equal.
  flat. reflexivity.
Qed.
Lemma sparse_loop_plain : forall name o pbm sym dpn es num ls, use_subs o = None -> sparse_loop_opt name o None pbm sym dpn es num ls = sparse_loop name pbm sym dpn es num ls.
Proof.
  intros name o pbm sym dpn es num ls U. revert num ls. induction es as [|[ij v] es IH]; intros num ls; [reflexivity|].
  cbn [sparse_loop_opt sparse_loop]. destruct (nonzero v) eqn:E; [|apply IH].
  destruct (sym && Nat.ltb (snd (node_index dpn (snd ij))) (snd (node_index dpn (fst ij)))); [apply IH|].
  unfold apply_subs. rewrite U, value_text_none. destruct (value_text pow2mul_text pbm v); [|reflexivity]. cbn [bind]. rewrite IH. do 3 f_equal.
  flat. reflexivity.
Qed.
Lemma array_loop_plain : forall name pbm op es ls, array_loop_opt name None pbm op es ls = array_loop name pbm op es ls.
Proof.
  intros name pbm op es. induction es as [|[k v] es IH]; intros ls; [reflexivity|].
  cbn [array_loop_opt array_loop]. destruct (nonzero v); [|apply IH]. rewrite value_text_none. destruct (value_text array_powers_text pbm v); [|reflexivity].
  cbn [bind]. rewrite IH. do 3 f_equal. flat. reflexivity.
Qed.

(** the loops only append lines *)
Lemma dense_loop_grows : forall name pbm dpn es ls ls', dense_loop name pbm dpn es ls = Ok ls' -> ls <> [] -> ls' <> [].
Proof.
  intros name pbm dpn es. induction es as [|[ij v] es IH]; intros ls ls' E N; [injection E as <-; exact N|]. cbn [dense_loop] in E. destruct (nonzero v); [|apply (IH ls); assumption].
  destruct (value_text pow2mul_text pbm v); [|discriminate]. cbn [bind] in E. eapply IH; [exact E|]. intros X. apply app_eq_nil in X. destruct X; discriminate.
Qed.

(** ** C82 *)

(** Without the options the functions are those of C49 to C52. *)
Lemma c82_plain : forall m name sufix header print_file pow_by_mul is_symmetric dofpernode order op,
  (forall subs, subs = None \/ (exists f, subs = Some (Subs [] f)) ->
    mprint_as_dense_opt m name subs header print_file None pow_by_mul dofpernode = mprint_as_dense m name header print_file pow_by_mul dofpernode /\
    mprint_as_sparse_opt m name sufix subs header print_file None pow_by_mul is_symmetric dofpernode =
      mprint_as_sparse m name sufix header print_file pow_by_mul is_symmetric dofpernode) /\
  mprint_as_array_opt m name sufix None header print_file None pow_by_mul order op =
    (mprint_as_array m name sufix header print_file pow_by_mul order op, m).
Proof.
  intros m name sufix header pf pbm sym dpn order op. split.
  - intros subs H. assert (U : use_subs subs = None) by (destruct H as [->|[f ->]]; reflexivity). split.
    + unfold mprint_as_dense_opt, mprint_as_dense. rewrite dense_loop_plain by exact U. destruct (dense_loop _ _ _ _ _); [|reflexivity]. cbn [bind]. unfold with_subs. rewrite U. reflexivity.
    + unfold mprint_as_sparse_opt, mprint_as_sparse. rewrite sparse_loop_plain by exact U. destruct (sparse_loop _ _ _ _ _ _ _) as [[n l]|]; [|reflexivity]. cbn [bind]. unfold with_subs. rewrite U. reflexivity.
  - unfold mprint_as_array_opt, mprint_as_array. f_equal. rewrite app_nil_r. destruct (String.eqb order "C"); [|destruct (String.eqb order "F")]; cbn [bind]; rewrite ?array_loop_plain; reflexivity.
Qed.

(** The statements of the matrix with the new expressions, after a list of the definitions whose new symbol is found in the text, in comments. *)
Lemma c82_dense : forall m name items sub header print_file pow_by_mul dofpernode, items <> [] ->
  let r := mprint_as_dense_opt m name (Some (Subs items sub)) header print_file None pow_by_mul dofpernode in
  match mprint_as_dense (substitute sub m) name header false pow_by_mul dofpernode with
  | Ok (s, _) => exists ds, listed items s ds /\
      let s' := dense_preface ds ++ s in r = Ok (s', if print_file then Some (txt "print_" ++ name ++ txt ".txt", s') else None)
  | Raise x => r = Raise x
  end.
Proof.
  intros m name items sub header pf pbm dpn I r. unfold r, mprint_as_dense_opt, mprint_as_dense. rewrite dense_loop_sub by exact I. rewrite <- ndenumerate_sub.
  assert (EN : List.length (filter (fun e => nonzero (snd e)) (ndenumerate (substitute sub m))) = List.length (filter (fun e => nonzero (snd e)) (ndenumerate m))).
  { rewrite ndenumerate_sub. generalize (ndenumerate m). induction l as [|[ij v] l IH]; [reflexivity|]. cbn. rewrite sub1_nonzero. destruct (nonzero v); cbn; rewrite IH; reflexivity. }
  rewrite EN. destruct (dense_loop name pbm dpn (ndenumerate (substitute sub m)) _) as [ls|x] eqn:E; [|reflexivity]. cbn [bind finish].
  assert (N : ls <> []).
  { apply (dense_loop_grows _ _ _ _ _ _ E). intros X. apply app_eq_nil in X. destruct X; discriminate. }
  destruct (with_subs_text items sub [txt "# subs"] [] (txt "# ") ls I N) as [ds [L W]]. exists ds. split; [exact L|]. cbn zeta. rewrite W. unfold finish.
  assert (P : preface_text [txt "# subs"] [] (txt "# ") ds = dense_preface ds) by (unfold preface_text, dense_preface; destruct ds; [reflexivity|]; rewrite app_nil_r; reflexivity).
  rewrite P. reflexivity.
Qed.

(** The same for the sparse format; the list is not in comments. *)
Lemma c82_sparse_partial : forall m name sufix items sub header print_file pow_by_mul is_symmetric dofpernode, items <> [] ->
  let r := mprint_as_sparse_opt m name sufix (Some (Subs items sub)) header print_file None pow_by_mul is_symmetric dofpernode in
  match mprint_as_sparse (substitute sub m) name sufix header false pow_by_mul is_symmetric dofpernode with
  | Ok (s, _) => exists ds, listed items s ds /\
      let s' := sparse_preface ds ++ s in r = Ok (s', if print_file then Some (txt "print_" ++ namesufix name sufix ++ txt ".txt", s') else None)
  | Raise x => r = Raise x
  end.
Proof.
  intros m name suf items sub header pf pbm sym dpn I r. unfold r, mprint_as_sparse_opt, mprint_as_sparse. rewrite sparse_loop_sub by exact I. rewrite <- ndenumerate_sub.
  destruct (sparse_loop name pbm sym dpn (ndenumerate (substitute sub m)) _ _) as [[n ls0]|x] eqn:E; [|reflexivity]. cbn [bind finish fst snd].
  set (ls := insert1 _ ls0). assert (N : ls <> []) by (unfold ls; destruct ls0; discriminate).
  destruct (with_subs_text items sub [txt "subs" ++ [newline]] [[newline]] [] ls I N) as [ds [L W]]. exists ds. split; [exact L|]. cbn zeta. rewrite W. unfold finish.
  assert (P : preface_text [txt "subs" ++ [newline]] [[newline]] [] ds = sparse_preface ds).
  { unfold preface_text, sparse_preface; destruct ds; [reflexivity|]. rewrite !lines_app. reflexivity. }
  rewrite P. reflexivity.
Qed.

(** The list of the dense format is in comments. *)
Lemma c82_comments : forall ds, exists ls, dense_preface ds = lines ls /\ Forall comment ls.
Proof.
  intros [|d ds]; [exists []; split; [reflexivity|constructor]|]. eexists. split; [reflexivity|]. constructor; [exists (txt " subs"); reflexivity|].
  apply Forall_forall. intros l L. apply in_map_iff in L. destruct L as [x [<- _]]. eexists. reflexivity.
Qed.

(** The first line of the sparse format with a substitution, 'subs', is neither a comment nor empty nor a statement nor a definition. *)
Lemma c82_sparse_refuted : exists m name items sub s,
  mprint_as_sparse_opt m name None (Some (Subs items sub)) None false None true false None = Ok (lines [txt "subs"] ++ s, None) /\
  ~ comment (txt "subs") /\ txt "subs" <> [] /\ (forall st, sparse_text name st <> txt "subs") /\ (forall d, definition_text d <> txt "subs").
Proof.
  exists [[Entry true (txt "a + 1")]], (txt "K"), [(txt "a + 1", txt "b")], (fun _ => txt "b").
  eexists. split; [reflexivity|]. split; [intros [c E]; discriminate|]. split; [discriminate|]. split.
  - intros [|x|x|v] E; discriminate.
  - intros [o n] E. unfold definition_text in E; cbn [fst snd] in E.
    assert (C : contains (txt " = ") (txt "subs")) by (exists n, o; symmetry; exact E). apply occurs_ok in C. discriminate.
Qed.

(** When SymPy's substitution keeps the values (the new symbols having the values of the old expressions), the statements give the matrix. *)
Lemma c82_values : forall nr nc m name items sub header print_file pow_by_mul,
  items <> [] -> rectangular nr nc m -> printable pow2mul_text pow_by_mul (substitute sub m) ->
  exists stmts file ds,
    let body := script (heading header ++ [name_line name; count_line name (List.length (cells nr nc m))]) (map (dense_text name) stmts) in
    listed items body ds /\
    mprint_as_dense_opt m name (Some (Subs items sub)) header print_file None pow_by_mul None = Ok (dense_preface ds ++ body, file) /\
    forall e val value,
      (forall i j t, nonzero (at_ m i j) = true -> shows pow2mul_text pow_by_mul (Entry true (sub (entry_text (at_ m i j)))) t -> val t = value i j) ->
      (forall i j, nonzero (at_ m i j) = false -> value i j = 0%R) ->
      forall i j, dense_exec e val stmts (fun _ _ => 0%R) i j = value i j.
Proof.
  intros nr nc m name items sub header pf pbm I R P.
  assert (AT : forall i j, at_ (substitute sub m) i j = sub1 sub (at_ m i j)).
  { intros i j. unfold at_, substitute. change (@nil entry) with (map (sub1 sub) []) at 1. change (Entry false []) with (sub1 sub (Entry false [])) at 1.
    change (fun v => if nonzero v then Entry true (sub (entry_text v)) else v) with (sub1 sub). rewrite map_nth, map_nth. reflexivity. }
  assert (R' : rectangular nr nc (substitute sub m)).
  { destruct R as [L C]. unfold substitute. split; [rewrite map_length; exact L|]. intros row H. apply in_map_iff in H. destruct H as [x [<- H]]. rewrite map_length. apply C, H. }
  assert (CL : List.length (cells nr nc (substitute sub m)) = List.length (cells nr nc m)).
  { rewrite <- (cells_ndenumerate nr nc _ R'), <- (cells_ndenumerate nr nc _ R), ndenumerate_sub. generalize (ndenumerate m).
    induction l as [|[ij v] l IH]; [reflexivity|]. cbn. rewrite sub1_nonzero. destruct (nonzero v); cbn; rewrite IH; reflexivity. }
  destruct (LMprint.c49_dense nr nc (substitute sub m) name header false pbm R' P) as [stmts [file [ts [E [T [_ V]]]]]].
  assert (D := c82_dense m name items sub header pf pbm None I). cbn zeta in D. rewrite E, CL in D. destruct D as [ds [L D]].
  exists stmts. eexists. exists ds. split; [exact L|]. split; [exact D|].
  intros e val value H1 H2 i j. assert (V1 := V e val i j). unfold has_value in V1. rewrite V1, AT, sub1_nonzero.
  destruct (nonzero (at_ m i j)) eqn:N; [|symmetry; apply H2, N].
  assert (T1 := T i j). rewrite AT, sub1_nonzero in T1. specialize (T1 N). unfold sub1 in *. rewrite N in *. apply (H1 i j); assumption.
Qed.

(** An entry in which a part is replaced, with and without the file; the symbol that is not used is not listed. *)
Lemma c82_ex : let m := [[Entry true (txt "3*cos(t) + x**2"); Entry false (txt "0")]] in
  let sub := fun s : text => txt "3*c + x**2" in
  let items := [(txt "sin(t)", txt "s"); (txt "cos(t)", txt "c")] in
  rectangular 1 2 m /\ printable pow2mul_text true (substitute sub m) /\
  mprint_as_dense_opt m (txt "A") (Some (Subs items sub)) None false None true None =
    Ok (script [txt "# subs"; txt "# c = cos(t)"; txt "# A"; txt "# A_num=1"] [txt "A[0, 0] += 3*c + (x*x)"], None) /\
  mprint_as_sparse_opt m (txt "A") None (Some (Subs items sub)) None false None true false None =
    Ok (script [txt "subs"; []; txt "c = cos(t)"; []; []; txt "# A"; txt "# A_num=1"] [txt "c += 1"; txt "Ar[c] = row+0"; txt "Ac[c] = col+0"; txt "Av[c] += 3*c + (x*x)"], None).
Proof.
  split; [split; [reflexivity|]; intros row [<-|[]]; reflexivity|]. split; [|split; vm_compute; reflexivity].
  intros i j H. destruct i as [|i]; [|destruct i, j; discriminate H]. destruct j as [|[|j]]; [eexists; vm_compute; reflexivity|discriminate H|destruct j; discriminate H].
Qed.

(** ** C83 *)

Lemma collected_eq : forall target l, (target ++ txt " +=") :: collected_lines l = collected target l.
Proof. reflexivity. Qed.
Lemma dense_loop_collect : forall name f pbm dpn es ls,
  dense_loop_opt name None (Some f) pbm dpn es ls =
  Ok (ls ++ flat_map (fun c => collected (name ++ txt "[" ++ index_text (idx dpn (fst (fst c))) ++ txt ", " ++ index_text (idx dpn (snd (fst c))) ++ txt "]") (f (entry_text (snd c))))
        (filter (fun c => nonzero (snd c)) es)).
Proof.
  intros name f pbm dpn. induction es as [|[[i j] v] es IH]; intros ls; [cbn; rewrite app_nil_r; reflexivity|].
  cbn [dense_loop_opt filter snd fst]. destruct (nonzero v); [|apply IH]. cbn [apply_subs use_subs value_lines bind]. rewrite IH. cbn [flat_map fst snd]. rewrite <- app_assoc. do 3 f_equal.
  rewrite collected_eq. f_equal. unfold dense_index, node_index, idx. destruct (truthy dpn); cbn [fst snd index_text]; rewrite <- ?app_assoc; reflexivity.
Qed.

(** Each entry that is not zero gives a line that ends in +=, and then a comment and a line for each of its terms. *)
Lemma c83_dense_partial : forall nr nc m name header print_file collect pow_by_mul dofpernode, rectangular nr nc m ->
  let ix i := match dofpernode with Some (S d) => NodeDof (i / S d + 1) (i mod S d) | _ => Number i end in
  exists file,
    mprint_as_dense_opt m name None header print_file (Some collect) pow_by_mul dofpernode =
      Ok (script (heading header ++ [name_line name; count_line name (List.length (cells nr nc m))])
        (flat_map (fun c => collected (name ++ txt "[" ++ index_text (ix (fst (fst c))) ++ txt ", " ++ index_text (ix (snd (fst c))) ++ txt "]") (collect (entry_text (snd c)))) (cells nr nc m)), file).
Proof.
  intros nr nc m name header pf f pbm dpn R ix. eexists. unfold mprint_as_dense_opt. rewrite dense_loop_collect. cbn [bind finish with_subs use_subs].
  rewrite (cells_ndenumerate nr nc m R). unfold script. rewrite LMprint.heading_lines, <- !app_assoc.
  assert (IX : forall i, idx dpn i = ix i) by (intros i; unfold idx, ix, truthy; destruct dpn as [[|d]|]; reflexivity).
  assert (FE : forall cs : list cell, flat_map (fun c => collected (name ++ txt "[" ++ index_text (idx dpn (fst (fst c))) ++ txt ", " ++ index_text (idx dpn (snd (fst c))) ++ txt "]") (f (entry_text (snd c)))) cs
     = flat_map (fun c => collected (name ++ txt "[" ++ index_text (ix (fst (fst c))) ++ txt ", " ++ index_text (ix (snd (fst c))) ++ txt "]") (f (entry_text (snd c)))) cs).
  { induction cs as [|c cs IH]; [reflexivity|]. cbn [flat_map]. rewrite !IX, IH. reflexivity. }
  rewrite FE. reflexivity.
Qed.

Lemma sparse_loop_collect : forall name f pbm sym dpn (es : list cell) num ls,
  let cs := filter (keep sym dpn) (filter (fun c => nonzero (snd c)) es) in
  sparse_loop_opt name None (Some f) pbm sym dpn es num ls =
  Ok (num + List.length cs, ls ++ flat_map (fun c => map (sparse_text name) [CountUp; SetRow (sidx dpn (txt "row") (fst (fst c))); SetCol (sidx dpn (txt "col") (snd (fst c)))]
        ++ collected (name ++ txt "v[c]") (f (entry_text (snd c)))) cs).
Proof.
  intros name f pbm sym dpn. induction es as [|[[i j] v] es IH]; intros num ls; cbn zeta; [cbn; rewrite app_nil_r, Nat.add_0_r; reflexivity|].
  cbn [sparse_loop_opt filter snd fst]. destruct (nonzero v); [|apply IH]. cbn [filter].
  change (keep sym dpn (i, j, v)) with (negb (sym && Nat.ltb (snd (node_index dpn j)) (snd (node_index dpn i)))).
  destruct (sym && Nat.ltb (snd (node_index dpn j)) (snd (node_index dpn i))); cbn [negb]; [apply IH|].
  cbn [apply_subs use_subs value_lines bind]. rewrite IH. cbn zeta. cbn [List.length flat_map fst snd map app]. f_equal. f_equal; [lia|]. rewrite collected_eq, <- !app_assoc. cbn [app sparse_text].
  rewrite <- !sparse_index_text. reflexivity.
Qed.
(** The same for the sparse format (every entry on its own row and column). *)
Lemma c83_sparse_partial : forall nr nc m name sufix header print_file collect pow_by_mul, rectangular nr nc m ->
  exists file,
    let full := namesufix name sufix in
    let num := count_line full (List.length (cells nr nc m)) in
    mprint_as_sparse_opt m name sufix None header print_file (Some collect) pow_by_mul false None =
      Ok (script (match heading header with [] => [name_line full; num] | h => h ++ [num; name_line full] end)
        (flat_map (fun c => map (sparse_text name) [CountUp; SetRow (Offset (txt "row") (fst (fst c))); SetCol (Offset (txt "col") (snd (fst c)))]
                            ++ collected (name ++ txt "v[c]") (collect (entry_text (snd c)))) (cells nr nc m)), file).
Proof.
  intros nr nc m name suf header pf f pbm R. eexists. cbn zeta. unfold mprint_as_sparse_opt. rewrite sparse_loop_collect. cbn zeta. cbn [bind finish with_subs use_subs fst snd].
  rewrite (cells_ndenumerate nr nc m R).
  assert (K : filter (keep false None) (cells nr nc m) = cells nr nc m).
  { generalize (cells nr nc m). induction l as [|c l IH]; [reflexivity|]. cbn [filter]. unfold keep at 1. cbn [andb negb]. rewrite IH. reflexivity. }
  rewrite K. unfold script. destruct header as [[|c h]|]; reflexivity.
Qed.

(** Such a line is no statement, and no comment. *)
Lemma c83_refuted : exists m name collect,
  mprint_as_dense_opt m name None None false (Some collect) true None =
    Ok (script [name_line name; count_line name 1] [txt "A[0, 0] +="; txt "#   collected for a"; txt "    a*b"; txt "#   collected for 1"; txt "    c"], None) /\
  ~ comment (txt "A[0, 0] +=") /\ (forall s, dense_text name s <> txt "A[0, 0] +=") /\ forall s, dense_text name s <> txt "    a*b".
Proof.
  exists [[Entry true (txt "a*b + c")]], (txt "A"), (fun _ => [(txt "a", txt "a*b"); (txt "1", txt "c")]). split; [reflexivity|].
  split; [intros [c E]; discriminate|]. split.
  - intros s E. assert (C : contains (txt "+= ") (txt "A[0, 0] +=")).
    { rewrite <- E. exists (txt "A" ++ txt "[" ++ index_text (d_row s) ++ txt ", " ++ index_text (d_col s) ++ txt "] "), (d_val s). unfold dense_text. flat. reflexivity. }
    apply occurs_ok in C. discriminate.
  - intros s E. discriminate.
Qed.

(** ** C84 *)

Lemma every_skip : forall num k l, every num k l = every num 0 (skipn k l).
Proof. induction k as [|k IH]; intros l; [reflexivity|]. destruct l as [|a l]; [reflexivity|]. cbn [every skipn]. apply IH. Qed.
Lemma chunks : forall n (l : list (text * text)), List.length l <= n -> exists gs, List.concat gs = l /\ Forall (fun g => 1 <= List.length g <= 9) gs /\
  List.length gs = List.length (every 9 0 l) /\ forall i, i < List.length gs -> nth i gs [] = firstn 9 (skipn (9 * i) l).
Proof.
  induction n as [|n IH]; intros l L.
  - destruct l; [|cbn in L; lia]. exists []. repeat split; [constructor|]. intros i I; cbn in I; lia.
  - destruct l as [|a l]; [exists []; repeat split; [constructor|]; intros i I; cbn in I; lia|].
    assert (SL : skipn 9 (a :: l) = skipn 8 l) by reflexivity.
    destruct (IH (skipn 9 (a :: l))) as [gs [C [F [E N]]]].
    { rewrite SL, skipn_length. cbn [List.length] in L. lia. }
    exists (firstn 9 (a :: l) :: gs). split; [cbn [List.concat]; rewrite C; apply firstn_skipn|]. split; [|split].
    + constructor; [|exact F]. rewrite firstn_length. cbn [List.length]. lia.
    + cbn [List.length every]. rewrite E, SL. change (9 - 1) with 8. rewrite (every_skip 9 8 l). reflexivity.
    + intros [|i] I; [reflexivity|]. cbn [nth]. rewrite N by (cbn [List.length] in I; lia). rewrite skipn_add. f_equal. f_equal. lia.
Qed.
Lemma enumerate_fst : forall A B (f : nat -> B) (l : list A), map (fun i => f (fst i)) (enumerate l) = map f (seq 0 (List.length l)).
Proof. intros A B f l. unfold enumerate. generalize 0. induction l as [|a l IH]; intros k; [reflexivity|]. cbn. rewrite IH. reflexivity. Qed.
Lemma cdefs_ok : forall subs, exists groups, List.concat groups = map fst subs /\ Forall (fun g => 1 <= List.length g <= 9) groups /\ cdef_lines subs = map cdef_text groups.
Proof.
  intros subs. destruct (chunks (List.length subs) subs (le_n _)) as [gs [C [F [E N]]]]. exists (map (map fst) gs). split; [|split].
  - rewrite <- C, concat_map. reflexivity.
  - apply Forall_forall. intros g G. apply in_map_iff in G. destruct G as [x [<- G]]. rewrite map_length. rewrite Forall_forall in F. apply F, G.
  - unfold cdef_lines. rewrite (enumerate_fst _ _ (fun i => txt "cdef double " ++ join (txt ", ") (map fst (firstn (9 * (i + 1) - 9 * i) (skipn (9 * i) subs))))), <- E, map_map.
    rewrite <- (seq_length (List.length gs) 0) at 1. rewrite seq_length.
    assert (G : gs = map (fun i => nth i gs []) (seq 0 (List.length gs))).
    { clear. induction gs as [|g gs IH] using rev_ind; [reflexivity|]. rewrite app_length, Nat.add_comm. cbn [List.length Nat.add]. rewrite seq_S, map_app. cbn [map Nat.add].
      rewrite app_nth2, Nat.sub_diag by lia. cbn [nth]. f_equal. rewrite IH at 1. apply map_ext_in. intros i I. apply in_seq in I. rewrite app_nth1 by lia. reflexivity. }
    rewrite G at 2. rewrite map_map. apply map_ext_in. intros i I. apply in_seq in I. unfold cdef_text. rewrite N by lia.
    replace (9 * (i + 1) - 9 * i) with 9 by lia. reflexivity.
Qed.

(** Every symbol is declared once, at most nine in a line, then defined in the order of SymPy, and the statements are those of the reduced matrix; the matrix of the caller is now the reduced one. *)
Lemma c84_cse : forall nr nc m name sufix cse header print_file pow_by_mul op,
  let subs := fst (cse m) in let reduced := snd (cse m) in
  rectangular nr nc reduced -> printable array_powers_text pow_by_mul reduced ->
  exists file ts groups,
    let full := namesufix name sufix in
    let entry_at k := at_ reduced (k / nc) (k mod nc) in
    List.concat groups = map fst subs /\ Forall (fun g => 1 <= List.length g <= 9) groups /\ texts array_powers_text pow_by_mul reduced ts /\
    mprint_as_array_opt m name sufix (Some cse) header print_file None pow_by_mul "C" op =
      (Ok (script (heading header ++ [txt "# cdefs"] ++ map cdef_text groups ++ [txt "# subs"] ++ map assign_text subs
                   ++ [name_line full; count_line full (List.length (cells nr nc reduced))])
            (map (fun k => array_text name (txt op) (ArrayAdd (Offset (txt "pos") k) (ts (entry_at k))))
               (filter (fun k => nonzero (entry_at k)) (seq 0 (nr * nc)))), file), reduced).
Proof.
  intros nr nc m name suf cse header pf pbm op subs reduced R P. destruct (cdefs_ok subs) as [groups [G1 [G2 G3]]].
  eexists. exists (shown_text array_powers_text pbm), groups. cbn zeta. split; [exact G1|]. split; [exact G2|]. split; [apply LMprint.printable_texts, P|].
  unfold mprint_as_array_opt. fold subs reduced. cbn [String.eqb Ascii.eqb Bool.eqb bind]. rewrite array_loop_plain, array_loop_ok.
  - rewrite (ravel_rows nr nc reduced R), LMprint.array_stmts, map_map, (LMprint.count_cells nr nc reduced R). cbn [bind]. unfold finish, script. rewrite LMprint.heading_lines, G3, <- !app_assoc. reflexivity.
  - intros c I N. rewrite (ravel_rows nr nc reduced R) in I. apply in_map_iff in I. destruct I as [k [<- I]]. apply P, N.
Qed.

(** The matrix of the caller does not survive the call. *)
Lemma c84_refuted : exists m name cse s,
  mprint_as_array_opt m name None (Some cse) None false None true "C" "+=" = (Ok (s, None), snd (cse m)) /\ snd (cse m) <> m.
Proof.
  exists [[Entry true (txt "(a + b)**2"); Entry true (txt "(a + b)*c")]], (txt "A"),
    (fun _ => ([(txt "x0", txt "a + b")], [[Entry true (txt "x0**2"); Entry true (txt "c*x0")]])).
  eexists. split; [vm_compute; reflexivity|discriminate].
Qed.
(** Ten symbols need two lines of declarations. *)
Lemma c84_ex : let m := [[Entry true (txt "(a + b)**2"); Entry true (txt "(a + b)*c")]] in
  let x := fun n => txt "x" ++ nat_text n in
  let subs := map (fun n => (x n, txt "a + b")) (seq 0 10) in
  let reduced := [[Entry true (txt "x0**2"); Entry true (txt "c*x9")]] in
  let cse := fun _ : matrix => (subs, reduced) in
  rectangular 1 2 reduced /\ printable array_powers_text true reduced /\
  mprint_as_array_opt m (txt "A") None (Some cse) None false None true "C" "+=" =
    (Ok (script ([txt "# cdefs"; txt "cdef double x0, x1, x2, x3, x4, x5, x6, x7, x8"; txt "cdef double x9"; txt "# subs"]
                 ++ map (fun n => x n ++ txt " = a + b") (seq 0 10) ++ [txt "# A"; txt "# A_num=2"])
          [txt "A[pos+0] += (x0*x0)"; txt "A[pos+1] += c*x9"], None), reduced).
Proof.
  split; [split; [reflexivity|]; intros row [<-|[]]; reflexivity|]. split; [|vm_compute; reflexivity].
  intros i j H. destruct i as [|i]; [|destruct i, j; discriminate H]. destruct j as [|[|j]]; [eexists; vm_compute; reflexivity|eexists; vm_compute; reflexivity|destruct j; discriminate H].
Qed.
