(** The printing functions. *)
From Coq Require Import Reals ZArith List Bool Arith Ascii String Lia Lra.
From Verif Require Import Num Py Pow2mul SpecPow FPow Mprint SpecMprint.
Import ListNotations.
Local Notation length := List.length.

(** ** Numbers *)

Lemma digit_char_digit : forall n, n < 10 -> is_digit (digit_char n) = true /\ nat_of_ascii (digit_char n) - nat_of_ascii "0" = n.
Proof.
  intros n H. unfold digit_char. do 10 (destruct n as [|n]; [split; reflexivity|]). lia.
Qed.
Lemma decimal_snoc : forall s c, decimal (s ++ [c]) = decimal s * 10 + (nat_of_ascii c - nat_of_ascii "0").
Proof. intros s c. unfold decimal. rewrite fold_left_app. reflexivity. Qed.
Lemma digits_of_ok : forall fuel n, n < fuel -> decimal (digits_of fuel n) = n /\ all is_digit (digits_of fuel n) /\ digits_of fuel n <> [].
Proof.
  induction fuel as [|fuel IH]; intros n H; [lia|]. cbn [digits_of]. destruct (Nat.ltb_spec n 10) as [L|L].
  - destruct (digit_char_digit n L) as [A B]. split; [|split; [repeat constructor; exact A|discriminate]].
    change [digit_char n] with ([] ++ [digit_char n]). rewrite decimal_snoc, B. reflexivity.
  - assert (M : n mod 10 < 10) by (apply Nat.mod_upper_bound; lia). destruct (digit_char_digit _ M) as [A B].
    assert (D : n / 10 < fuel) by (apply Nat.lt_le_trans with n; [apply Nat.div_lt; lia|lia]). destruct (IH _ D) as [E [F _]].
    split; [|split].
    + rewrite decimal_snoc, B, E. rewrite (Nat.div_mod n 10) at 3 by lia. lia.
    + apply all_app. split; [exact F|repeat constructor; exact A].
    + intros X. apply app_eq_nil in X. destruct X; discriminate.
Qed.
Lemma nat_text_ok : forall n, decimal (nat_text n) = n /\ all is_digit (nat_text n) /\ nat_text n <> [].
Proof. intros n. apply digits_of_ok. lia. Qed.
Lemma nat_text_inj : forall n k, nat_text n = nat_text k -> n = k.
Proof. intros n k E. rewrite <- (proj1 (nat_text_ok n)), <- (proj1 (nat_text_ok k)), E. reflexivity. Qed.

(** ** Enumerations *)

Lemma enumerate_from : forall A (d : A) l k, combine (seq k (length l)) l = map (fun i => (i, nth (i - k) l d)) (seq k (length l)).
Proof.
  intros A d. induction l as [|a l IH]; intros k; [reflexivity|]. cbn [length seq combine map]. rewrite Nat.sub_diag. cbn [nth]. f_equal. rewrite IH.
  apply map_ext_in. intros i I. apply in_seq in I. f_equal. replace (i - k) with (S (i - S k)) by lia. reflexivity.
Qed.
Lemma enumerate_nth : forall A (d : A) l, enumerate l = map (fun i => (i, nth i l d)) (seq 0 (length l)).
Proof. intros A d l. unfold enumerate. rewrite (enumerate_from A d). apply map_ext. intros i. rewrite Nat.sub_0_r. reflexivity. Qed.

Lemma ndenumerate_at : forall nr nc m, rectangular nr nc m ->
  ndenumerate m = flat_map (fun i => map (fun j => (i, j, at_ m i j)) (seq 0 nc)) (seq 0 nr).
Proof.
  intros nr nc m [L C]. unfold ndenumerate. rewrite (enumerate_nth _ [] m), L, flat_map_concat_map, map_map, <- flat_map_concat_map.
  assert (X : forall is, (forall i, In i is -> i < nr) -> flat_map (fun x => map (fun jv => (fst (x, nth x m []), fst jv, snd jv)) (enumerate (snd (x, nth x m [])))) is
    = flat_map (fun i => map (fun j => (i, j, at_ m i j)) (seq 0 nc)) is).
  { induction is as [|i is IH]; intros H; [reflexivity|]. cbn [flat_map]. rewrite IH by (intros k I; apply H; right; exact I). f_equal. cbn [fst snd].
    rewrite (enumerate_nth _ (Entry false [])), map_map. rewrite (C (nth i m [])) by (apply nth_In; rewrite L; apply H; left; reflexivity). reflexivity. }
  apply X. intros i I. apply in_seq in I. lia.
Qed.
Lemma cells_ndenumerate : forall nr nc m, rectangular nr nc m -> filter (fun c => nonzero (snd c)) (ndenumerate m) = cells nr nc m.
Proof. intros nr nc m R. rewrite (ndenumerate_at nr nc m R). reflexivity. Qed.

Lemma in_grid : forall nr nc (f : nat -> nat -> entry) c, In c (flat_map (fun i => map (fun j => (i, j, f i j)) (seq 0 nc)) (seq 0 nr)) <->
  fst (fst c) < nr /\ snd (fst c) < nc /\ snd c = f (fst (fst c)) (snd (fst c)).
Proof.
  intros nr nc f [[i j] v]. rewrite in_flat_map. cbn [fst snd]. split.
  - intros [i' [I J]]. apply in_map_iff in J. destruct J as [j' [E J]]. injection E as -> -> <-. apply in_seq in I, J. split; [lia|]. split; [lia|reflexivity].
  - intros [I [J ->]]. exists i. split; [apply in_seq; lia|]. apply in_map_iff. exists j. split; [reflexivity|apply in_seq; lia].
Qed.
Lemma in_cells : forall nr nc m c, In c (cells nr nc m) <->
  fst (fst c) < nr /\ snd (fst c) < nc /\ snd c = at_ m (fst (fst c)) (snd (fst c)) /\ nonzero (snd c) = true.
Proof. intros nr nc m c. unfold cells. rewrite filter_In, in_grid. tauto. Qed.
Lemma nodup_filter_map : forall A B (f : A -> B) g l, NoDup (map f l) -> NoDup (map f (filter g l)).
Proof.
  intros A B f g. induction l as [|a l IH]; intros H; [constructor|]. inversion H; subst. cbn. destruct (g a); [|apply IH; assumption].
  cbn. constructor; [|apply IH; assumption]. intros I. apply H2. apply in_map_iff in I. destruct I as [x [E I]]. apply filter_In in I. apply in_map_iff. exists x. tauto.
Qed.
Lemma grid_nodup : forall nr nc (f : nat -> nat -> entry), NoDup (map fst (flat_map (fun i => map (fun j => (i, j, f i j)) (seq 0 nc)) (seq 0 nr))).
Proof.
  intros nr nc f. generalize (seq_NoDup nr 0). generalize (seq 0 nr). induction l as [|i l IH]; intros N; [constructor|]. inversion N; subst.
  cbn [flat_map]. rewrite map_app, map_map. cbn [fst].
  assert (A : NoDup (map (fun j => (i, j)) (seq 0 nc))).
  { generalize (seq_NoDup nc 0). generalize (seq 0 nc). induction l0 as [|j l0 IH0]; intros N0; [constructor|]. inversion N0; subst. cbn. constructor; [|apply IH0; assumption].
    intros I. apply in_map_iff in I. destruct I as [j' [E I]]. injection E as ->. contradiction. }
  assert (B := IH H2). clear IH. remember (map (fun j => (i, j)) (seq 0 nc)) as u eqn:Eu.
  assert (D : forall x, In x u -> ~ In x (map fst (flat_map (fun i => map (fun j => (i, j, f i j)) (seq 0 nc)) l))).
  { intros x I J. rewrite Eu in I. apply in_map_iff in I. destruct I as [j [<- I]]. apply in_map_iff in J. destruct J as [c [E J]]. apply in_flat_map in J. destruct J as [i' [I' J]].
    apply in_map_iff in J. destruct J as [j' [<- J]]. cbn in E. injection E as -> _. contradiction. }
  clear Eu. induction u as [|x u IHu]; [exact B|]. inversion A; subst. cbn. constructor.
  - intros I. apply in_app_or in I. destruct I as [I|I]; [contradiction|]. exact (D x (or_introl eq_refl) I).
  - apply IHu; [assumption|]. intros y I. apply D. right; exact I.
Qed.
Lemma cells_nodup : forall nr nc m, NoDup (map fst (cells nr nc m)).
Proof. intros. apply nodup_filter_map, grid_nodup. Qed.

(** ** The printed value *)

Definition shown_text (expand : text -> res text) (pbm : bool) (v : entry) : text :=
  match value_text expand pbm v with Ok t => t | Raise _ => [] end.
Lemma shows_shown : forall ex pbm v, (exists t, shows ex pbm v t) -> value_text ex pbm v = Ok (shown_text ex pbm v) /\ shows ex pbm v (shown_text ex pbm v).
Proof. intros ex pbm v [t H]. unfold shows in *. unfold shown_text, value_text. rewrite H. auto. Qed.

(** ** Dense *)

Definition idx (dpn : option nat) (i : nat) : index :=
  match truthy dpn with Some d => NodeDof (i / d + 1) (i mod d) | None => Number i end.
Definition dstmt (pbm : bool) (dpn : option nat) (c : cell) : dense_stmt :=
  DenseAdd (idx dpn (fst (fst c))) (idx dpn (snd (fst c))) (shown_text pow2mul_text pbm (snd c)).
Lemma dense_line : forall name pbm dpn c,
  name ++ txt "[" ++ dense_index dpn (node_index dpn (fst (fst c))) (node_index dpn (snd (fst c))) ++ txt "] += " ++ shown_text pow2mul_text pbm (snd c) = dense_text name (dstmt pbm dpn c).
Proof.
  intros name pbm dpn [[i j] v]. unfold dense_text, dstmt, dense_index, node_index, idx. cbn [fst snd d_row d_col d_val]. destruct (truthy dpn); cbn [fst snd index_text]; rewrite <- ?app_assoc; reflexivity.
Qed.
Lemma dense_loop_ok : forall name pbm dpn (es : list cell) ls, (forall c, In c es -> nonzero (snd c) = true -> exists t, shows pow2mul_text pbm (snd c) t) ->
  dense_loop name pbm dpn es ls = Ok (ls ++ map (dense_text name) (map (dstmt pbm dpn) (filter (fun c => nonzero (snd c)) es))).
Proof.
  intros name pbm dpn. induction es as [|[[i j] v] es IH]; intros ls H; [cbn; rewrite app_nil_r; reflexivity|].
  cbn [dense_loop filter snd]. destruct (nonzero v) eqn:E; [|apply IH; intros c I; apply H; right; exact I].
  destruct (shows_shown _ _ v (H ((i, j), v) (or_introl eq_refl) E)) as [V _]. rewrite V. cbn [bind].
  rewrite IH by (intros c I; apply H; right; exact I). cbn [map]. rewrite <- (dense_line name pbm dpn ((i, j), v)), <- app_assoc. reflexivity.
Qed.
Definition dense_comments (name : text) (header : option text) (n : nat) : list text :=
  header_lines header ++ [txt "# " ++ name; txt "# " ++ name ++ txt "_num=" ++ nat_text n].
Lemma dense_prints : forall nr nc m name header pf pbm dpn, rectangular nr nc m ->
  (forall i j, nonzero (at_ m i j) = true -> exists t, shows pow2mul_text pbm (at_ m i j) t) ->
  mprint_as_dense m name header pf pbm dpn =
    Ok (finish pf name (script (dense_comments name header (length (cells nr nc m))) (map (dense_text name) (map (dstmt pbm dpn) (cells nr nc m))))).
Proof.
  intros nr nc m name header pf pbm dpn R H. unfold mprint_as_dense. rewrite (cells_ndenumerate nr nc m R).
  rewrite dense_loop_ok.
  - rewrite (cells_ndenumerate nr nc m R). cbn [bind]. unfold script, dense_comments. rewrite <- !app_assoc. reflexivity.
  - intros c I. rewrite (ndenumerate_at nr nc m R) in I. apply in_grid in I. destruct I as [_ [_ E]]. rewrite E. apply H.
Qed.

Definition place (e : names) (dpn : option nat) (i : nat) : nat := index_value e (idx dpn i).
Local Open Scope R_scope.
Lemma dense_exec_cells : forall e val pbm dpn cs M,
  NoDup (map (fun c : cell => (place e dpn (fst (fst c)), place e dpn (snd (fst c)))) cs) ->
  (forall c, In c cs -> dense_exec e val (map (dstmt pbm dpn) cs) M (place e dpn (fst (fst c))) (place e dpn (snd (fst c)))
    = M (place e dpn (fst (fst c))) (place e dpn (snd (fst c))) + val (shown_text pow2mul_text pbm (snd c))) /\
  (forall a b, ~ In (a, b) (map (fun c : cell => (place e dpn (fst (fst c)), place e dpn (snd (fst c)))) cs) ->
    dense_exec e val (map (dstmt pbm dpn) cs) M a b = M a b).
Proof.
  intros e val pbm dpn. induction cs as [|c cs IH]; intros M N; [split; [intros c []|reflexivity]|]. inversion N; subst.
  set (M1 := dense_exec1 e val M (dstmt pbm dpn c)). destruct (IH M1 H2) as [A B]. cbn [map dense_exec fold_left]. fold M1.
  change (fold_left (dense_exec1 e val) (map (dstmt pbm dpn) cs) M1) with (dense_exec e val (map (dstmt pbm dpn) cs) M1).
  assert (M1eq : forall a b, M1 a b = if Nat.eqb a (place e dpn (fst (fst c))) && Nat.eqb b (place e dpn (snd (fst c))) then M a b + val (shown_text pow2mul_text pbm (snd c)) else M a b) by reflexivity.
  split.
  - intros c' [<-|I].
    + rewrite B by exact H1. rewrite M1eq, !Nat.eqb_refl. reflexivity.
    + rewrite A by exact I. f_equal. rewrite M1eq. destruct (Nat.eqb_spec (place e dpn (fst (fst c'))) (place e dpn (fst (fst c)))) as [E1|]; [|reflexivity].
      destruct (Nat.eqb_spec (place e dpn (snd (fst c'))) (place e dpn (snd (fst c)))) as [E2|]; [|reflexivity]. exfalso. apply H1. apply in_map_iff. exists c'. rewrite E1, E2. auto.
  - intros a b NI. rewrite B by (intros I; apply NI; right; exact I). rewrite M1eq. destruct (Nat.eqb_spec a (place e dpn (fst (fst c)))) as [->|]; [|reflexivity].
    destruct (Nat.eqb_spec b (place e dpn (snd (fst c)))) as [->|]; [|reflexivity]. exfalso. apply NI. left; reflexivity.
Qed.
Local Close Scope R_scope.
Lemma nodup_map_inj : forall A B (f : A -> B) l, NoDup l -> (forall x y, In x l -> In y l -> f x = f y -> x = y) -> NoDup (map f l).
Proof.
  intros A B f. induction l as [|a l IH]; intros N I; [constructor|]. inversion N; subst. cbn. constructor.
  - intros J. apply in_map_iff in J. destruct J as [x [E J]]. apply H1. rewrite <- (I x a (or_intror J) (or_introl eq_refl) E). exact J.
  - apply IH; [assumption|]. intros x y X Y. apply I; right; assumption.
Qed.
Lemma cells_places : forall nr nc m (f g : nat -> nat), (forall i i', i < nr -> i' < nr -> f i = f i' -> i = i') -> (forall j j', j < nc -> j' < nc -> g j = g j' -> j = j') ->
  NoDup (map (fun c : cell => (f (fst (fst c)), g (snd (fst c)))) (cells nr nc m)).
Proof.
  intros nr nc m f g F G. replace (map (fun c : cell => (f (fst (fst c)), g (snd (fst c)))) (cells nr nc m)) with (map (fun ij : nat * nat => (f (fst ij), g (snd ij))) (map fst (cells nr nc m))) by (rewrite map_map; reflexivity).
  apply nodup_map_inj; [apply cells_nodup|].
  intros [i j] [i' j'] X Y E. apply in_map_iff in X, Y. destruct X as [c [EC X]], Y as [c' [EC' Y]]. apply in_cells in X, Y. rewrite EC in X. rewrite EC' in Y. cbn [fst snd] in *.
  injection E as E1 E2. f_equal; [apply F|apply G]; tauto.
Qed.

(** ** Sparse *)

Definition keep (sym : bool) (dpn : option nat) (c : cell) : bool :=
  negb (sym && Nat.ltb (snd (node_index dpn (snd (fst c)))) (snd (node_index dpn (fst (fst c))))).
Definition sidx (dpn : option nat) (base : text) (i : nat) : index :=
  match truthy dpn with Some d => NodeDof (i / d + 1) (i mod d) | None => Offset base i end.
Definition sstmts (pbm : bool) (dpn : option nat) (c : cell) : list sparse_stmt :=
  [CountUp; SetRow (sidx dpn (txt "row") (fst (fst c))); SetCol (sidx dpn (txt "col") (snd (fst c))); AddVal (shown_text pow2mul_text pbm (snd c))].
Lemma sparse_index_text : forall dpn b i, sparse_index dpn b (node_index dpn i) = index_text (sidx dpn b i).
Proof. intros dpn b i. unfold sparse_index, node_index, sidx. destruct (truthy dpn); reflexivity. Qed.
Lemma filter_filter : forall A (f g : A -> bool) l, filter f (filter g l) = filter (fun x => g x && f x) l.
Proof. intros A f g. induction l as [|a l IH]; [reflexivity|]. cbn. destruct (g a); cbn; [destruct (f a)|]; rewrite ?IH; reflexivity. Qed.
Lemma sparse_loop_ok : forall name pbm sym dpn (es : list cell) num ls, (forall c, In c es -> nonzero (snd c) = true -> exists t, shows pow2mul_text pbm (snd c) t) ->
  let cs := filter (keep sym dpn) (filter (fun c => nonzero (snd c)) es) in
  sparse_loop name pbm sym dpn es num ls = Ok (num + length cs, ls ++ map (sparse_text name) (flat_map (sstmts pbm dpn) cs)).
Proof.
  intros name pbm sym dpn. induction es as [|[[i j] v] es IH]; intros num ls H; cbn zeta; [cbn; rewrite app_nil_r, Nat.add_0_r; reflexivity|].
  assert (H' : forall c, In c es -> nonzero (snd c) = true -> exists t, shows pow2mul_text pbm (snd c) t) by (intros c I; apply H; right; exact I).
  cbn [sparse_loop filter snd fst]. destruct (nonzero v) eqn:E; [|apply IH; exact H'].
  cbn [filter]. change (keep sym dpn (i, j, v)) with (negb (sym && Nat.ltb (snd (node_index dpn j)) (snd (node_index dpn i)))). destruct (sym && Nat.ltb (snd (node_index dpn j)) (snd (node_index dpn i))) eqn:S; cbn [negb]; [apply IH; exact H'|].
  destruct (shows_shown _ _ v (H ((i, j), v) (or_introl eq_refl) E)) as [V _]. rewrite V. cbn [bind].
  rewrite (IH _ _ H'). cbn zeta. cbn [length flat_map map app sstmts fst snd]. f_equal. f_equal; [lia|].
  rewrite <- !app_assoc. cbn [app sparse_text]. rewrite <- !sparse_index_text. reflexivity.
Qed.
Definition sparse_comments (name : text) (header : option text) (n : nat) : list text :=
  match header_lines header with
  | [] => [txt "# " ++ name; txt "# " ++ name ++ txt "_num=" ++ nat_text n]
  | h :: _ => [h; txt "# " ++ name ++ txt "_num=" ++ nat_text n; txt "# " ++ name]
  end.
Lemma sparse_prints : forall nr nc m name suf header pf pbm sym dpn, rectangular nr nc m ->
  (forall i j, nonzero (at_ m i j) = true -> exists t, shows pow2mul_text pbm (at_ m i j) t) ->
  let cs := filter (keep sym dpn) (cells nr nc m) in
  mprint_as_sparse m name suf header pf pbm sym dpn =
    Ok (finish pf (namesufix name suf) (script (sparse_comments (namesufix name suf) header (length cs)) (map (sparse_text name) (flat_map (sstmts pbm dpn) cs)))).
Proof.
  intros nr nc m name suf header pf pbm sym dpn R H cs. unfold mprint_as_sparse. rewrite sparse_loop_ok.
  - rewrite (cells_ndenumerate nr nc m R). fold cs. cbn [bind fst snd Nat.add]. unfold script, sparse_comments. destruct header as [[|c h]|]; reflexivity.
  - intros c I. rewrite (ndenumerate_at nr nc m R) in I. apply in_grid in I. destruct I as [_ [_ E]]. rewrite E. apply H.
Qed.

Local Open Scope Z_scope.
Lemma update_same : forall A (f : Z -> A) k a, update f k a k = a.
Proof. intros. unfold update. rewrite Z.eqb_refl. reflexivity. Qed.
Lemma update_other : forall A (f : Z -> A) k a i, i <> k -> update f k a i = f i.
Proof. intros. unfold update. apply Z.eqb_neq in H. rewrite H. reflexivity. Qed.
Lemma sparse_appended : forall e val pbm dpn cs s,
  appended (fun c => (index_value e (sidx dpn (txt "row") (fst (fst c))), index_value e (sidx dpn (txt "col") (snd (fst c)))))
    (fun c => val (shown_text pow2mul_text pbm (snd c))) cs s (sparse_exec e val (flat_map (sstmts pbm dpn) cs) s).
Proof.
  intros e val pbm dpn. induction cs as [|c cs IH]; intros s.
  - split; [cbn; lia|]. split; [intros [|k] c H; discriminate|]. intros p _. cbn. auto.
  - cbn [flat_map]. unfold sparse_exec. rewrite fold_left_app. set (s1 := fold_left (sparse_exec1 e val) (sstmts pbm dpn c) s).
    change (fold_left (sparse_exec1 e val) (flat_map (sstmts pbm dpn) cs) s1) with (sparse_exec e val (flat_map (sstmts pbm dpn) cs) s1).
    assert (C1 : count s1 = count s + 1) by reflexivity.
    assert (R1 : rows s1 = update (rows s) (count s + 1) (index_value e (sidx dpn (txt "row") (fst (fst c))))) by reflexivity.
    assert (K1 : cols s1 = update (cols s) (count s + 1) (index_value e (sidx dpn (txt "col") (snd (fst c))))) by reflexivity.
    assert (V1 : vals s1 = update (vals s) (count s + 1) (vals s (count s + 1) + val (shown_text pow2mul_text pbm (snd c)))%R) by reflexivity.
    destruct (IH s1) as [A [B D]]. split; [|split].
    + rewrite A, C1. cbn [length]. lia.
    + intros [|k] c' E p.
      * cbn in E. injection E as <-. subst p. destruct (D (count s + 1 + Z.of_nat 0)) as [D1 [D2 D3]]; [lia|]. rewrite D1, D2, D3, R1, K1, V1.
        replace (count s + 1 + Z.of_nat 0) with (count s + 1) by lia. rewrite !update_same. auto.
      * cbn in E. destruct (B k c' E) as [B1 [B2 B3]]. subst p. replace (count s + 1 + Z.of_nat (S k)) with (count s1 + 1 + Z.of_nat k) by lia.
        split; [exact B1|]. split; [exact B2|]. rewrite B3, V1, update_other by lia. reflexivity.
    + intros p P. destruct (D p) as [D1 [D2 D3]]; [rewrite C1; lia|]. rewrite D1, D2, D3, R1, K1, V1.
      assert (NE : p <> count s + 1). { destruct P as [P|P]; [lia|]. rewrite A, C1 in P. lia. }
      rewrite !update_other by exact NE. auto.
Qed.
Local Close Scope Z_scope.

(** ** Vectors *)

Lemma concat_nth : forall nc (m : matrix) k, (forall row, In row m -> length row = nc) -> k < length m * nc ->
  nth k (List.concat m) (Entry false []) = at_ m (k / nc) (k mod nc).
Proof.
  intros nc. induction m as [|row m IH]; intros k C L; [cbn in L; lia|]. assert (NZ : nc <> 0) by (intros ->; lia). cbn [length] in L.
  cbn [List.concat]. assert (LR : length row = nc) by (apply C; left; reflexivity). destruct (le_lt_dec nc k) as [G|G].
  - rewrite app_nth2 by lia. rewrite LR, IH; [|intros r I; apply C; right; exact I|lia].
    assert (E : k = (k - nc) + 1 * nc) by lia. rewrite E at 3 4. rewrite Nat.div_add, Nat.mod_add by exact NZ. rewrite Nat.add_1_r. reflexivity.
  - rewrite app_nth1 by lia. rewrite Nat.div_small, Nat.mod_small by exact G. reflexivity.
Qed.
Lemma concat_len : forall nc (m : matrix), (forall row, In row m -> length row = nc) -> length (List.concat m) = length m * nc.
Proof. intros nc. induction m as [|r m IH]; intros C; [reflexivity|]. cbn. rewrite app_length, IH by (intros x I; apply C; right; exact I). rewrite (C r (or_introl eq_refl)). reflexivity. Qed.
Lemma transpose_rect : forall nr nc m, rectangular nr nc m -> nr <> 0 -> rectangular nc nr (transpose m).
Proof.
  intros nr nc m [L C] N. unfold transpose. assert (H : length (hd [] m) = nc) by (destruct m as [|r m]; [cbn in L; lia|apply C; left; reflexivity]). rewrite H.
  split; [rewrite map_length, seq_length; reflexivity|]. intros row I. apply in_map_iff in I. destruct I as [j [<- _]]. rewrite map_length. exact L.
Qed.
Lemma transpose_at : forall nr nc m i j, rectangular nr nc m -> i < nr -> j < nc -> at_ (transpose m) j i = at_ m i j.
Proof.
  intros nr nc m i j [L C] I J. unfold at_, transpose. assert (H : length (hd [] m) = nc) by (destruct m as [|r m]; [cbn in L; lia|apply C; left; reflexivity]). rewrite H.
  rewrite (nth_indep (map _ _) [] (map (fun row => nth 0 row (Entry false [])) m)) by (rewrite map_length, seq_length; exact J).
  rewrite (map_nth (fun j => map (fun row => nth j row (Entry false [])) m)). rewrite seq_nth by exact J. cbn [Nat.add].
  rewrite (nth_indep (map _ _) (Entry false []) (nth j [] (Entry false []))) by (rewrite map_length; lia). rewrite (map_nth (fun row => nth j row (Entry false []))). reflexivity.
Qed.

(** place number k of the vector *)
Definition by_rows (nr nc : nat) (m : matrix) (k : nat) : entry := at_ m (k / nc) (k mod nc).
Definition by_cols (nr nc : nat) (m : matrix) (k : nat) : entry := at_ m (k mod nr) (k / nr).
Lemma ravel_rows : forall nr nc m, rectangular nr nc m -> enumerate (ravel m) = map (fun k => (k, by_rows nr nc m k)) (seq 0 (nr * nc)).
Proof.
  intros nr nc m [L C]. unfold ravel. rewrite (enumerate_nth _ (Entry false [])), (concat_len nc m C), L. apply map_ext_in. intros k I. apply in_seq in I. f_equal.
  unfold by_rows. apply concat_nth; [exact C|lia].
Qed.
Lemma ravel_cols : forall nr nc m, rectangular nr nc m -> enumerate (ravel (transpose m)) = map (fun k => (k, by_cols nr nc m k)) (seq 0 (nr * nc)).
Proof.
  intros nr nc m R. destruct (Nat.eq_dec nr 0) as [Z|N].
  - subst nr. destruct R as [L _]. destruct m; [reflexivity|discriminate].
  - rewrite (ravel_rows nc nr (transpose m) (transpose_rect nr nc m R N)), Nat.mul_comm. apply map_ext_in. intros k I. apply in_seq in I. f_equal. unfold by_rows, by_cols.
    apply (transpose_at nr nc); [exact R|apply Nat.mod_upper_bound, N|apply Nat.div_lt_upper_bound; lia].
Qed.
Definition astmt (pbm : bool) (kv : nat * entry) : array_stmt := ArrayAdd (Offset (txt "pos") (fst kv)) (shown_text array_powers_text pbm (snd kv)).
Lemma array_loop_ok : forall name pbm op (es : list (nat * entry)) ls, (forall c, In c es -> nonzero (snd c) = true -> exists t, shows array_powers_text pbm (snd c) t) ->
  array_loop name pbm op es ls = Ok (ls ++ map (array_text name op) (map (astmt pbm) (filter (fun c => nonzero (snd c)) es))).
Proof.
  intros name pbm op. induction es as [|[k v] es IH]; intros ls H; [cbn; rewrite app_nil_r; reflexivity|].
  cbn [array_loop filter snd]. destruct (nonzero v) eqn:E; [|apply IH; intros c I; apply H; right; exact I].
  destruct (shows_shown _ _ v (H (k, v) (or_introl eq_refl) E)) as [V _]. rewrite V. cbn [bind].
  rewrite IH by (intros c I; apply H; right; exact I). cbn [map]. rewrite <- app_assoc. reflexivity.
Qed.
Lemma count_ravel : forall nr nc m, rectangular nr nc m -> length (filter nonzero (ravel m)) = length (filter (fun k => nonzero (by_rows nr nc m k)) (seq 0 (nr * nc))).
Proof.
  intros nr nc m R. assert (E : ravel m = map snd (enumerate (ravel m))).
  { rewrite (enumerate_nth _ (Entry false [])), map_map. cbn. generalize (ravel m). intros l. induction l as [|a l IH] using rev_ind; [reflexivity|].
    rewrite app_length. cbn [length]. rewrite Nat.add_1_r, seq_S, map_app. cbn. rewrite app_nth2, Nat.sub_diag by lia. cbn. f_equal. rewrite IH at 1. apply map_ext_in. intros i I. apply in_seq in I. rewrite app_nth1 by lia. reflexivity. }
  rewrite E, (ravel_rows nr nc m R), map_map. cbn [snd]. generalize (seq 0 (nr * nc)). induction l as [|k l IH]; [reflexivity|]. cbn. destruct (nonzero (by_rows nr nc m k)); cbn; rewrite ?IH; reflexivity.
Qed.
