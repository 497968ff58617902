(** pow2mul on printed expressions. *)
From Coq Require Import Reals List Bool Arith Ascii String Lia ZArith Permutation.
From Verif Require Import Num Py Pow2mul SpecPow FPow FParse.
Import ListNotations.
Local Notation length := List.length.

(** ** Texts in pieces *)

Definition seg : Type := (pieces * text)%type.
Definition src (s : seg) : text := source (fst s) (snd s).
Definition tgt (s : seg) : text := target (fst s) (snd s).
Definition cat (s1 : seg) (d : text) (s2 : seg) : seg :=
  match fst s2 with
  | [] => (fst s1, snd s1 ++ d ++ snd s2)
  | (t, p) :: l => (fst s1 ++ (snd s1 ++ d ++ t, p) :: l, snd s2)
  end.
Lemma src_cat : forall s1 d s2, src (cat s1 d s2) = src s1 ++ d ++ src s2.
Proof.
  intros [l1 t1] d [[|[t p] l2] t2]; unfold src, cat, source; cbn [fst snd map List.concat app].
  - rewrite <- app_assoc. reflexivity.
  - rewrite map_app, concat_app. cbn [map List.concat fst snd]. rewrite <- !app_assoc. reflexivity.
Qed.
Lemma tgt_cat : forall s1 d s2, tgt (cat s1 d s2) = tgt s1 ++ d ++ tgt s2.
Proof.
  intros [l1 t1] d [[|[t p] l2] t2]; unfold tgt, cat, target; cbn [fst snd map List.concat app].
  - rewrite <- app_assoc. reflexivity.
  - rewrite map_app, concat_app. cbn [map List.concat fst snd]. rewrite <- !app_assoc. reflexivity.
Qed.

(** what is kept when texts are put together *)
Definition head (s : seg) : text := match fst s with [] => snd s | (t, _) :: _ => t end.
Definition fine (s : seg) : Prop := separated true (fst s) (snd s) /\ nostar_last (snd s) /\ nostar_first (head s).
(** a delimiter *)
Definition delim (d : text) : Prop := d <> [] /\ no_digit_first d /\ ends_outside_word d /\ closed d.

Lemma nods_closed : forall s, ~ contains (txt "**") s <-> closed s.
Proof. exact nods_iff. Qed.
Lemma nostar_first_app : forall a b, nostar_first a -> nostar_first b -> nostar_first (a ++ b).
Proof. intros [|c a] b A B; [exact B|exact A]. Qed.
Lemma nostar_last_app : forall a b, nostar_last b -> (b <> [] \/ nostar_last a) -> nostar_last (a ++ b).
Proof.
  intros a b B N k L. rewrite app_length in L. destruct b as [|c b].
  - rewrite app_nil_r in *. destruct N as [N|N]; [contradiction|]. apply N. cbn in L. lia.
  - cbn in L. rewrite nth_error_app2 by lia. apply B. cbn. lia.
Qed.
Lemma nostar_last_mid : forall a d b, nostar_last a -> nostar_first b -> closed a -> closed d -> closed b -> d <> [] ->
  (nostar_last d \/ nostar_first b) -> (nostar_last a \/ nostar_first d) -> closed (a ++ d ++ b).
Proof.
  intros a d b A B CA CD CB N H1 H2. apply closed_app; [exact CA| |left; exact A]. apply closed_app; [exact CD|exact CB|]. right; exact B.
Qed.
Lemma closed_three : forall a d b, nostar_last a -> nostar_first b -> closed a -> closed d -> closed b -> closed (a ++ d ++ b).
Proof. intros a d b A B CA CD CB. apply closed_app; [exact CA| |left; exact A]. apply closed_app; [exact CD|exact CB|]. right; exact B. Qed.
Lemma no_digit_mid : forall a d b, no_digit_first a -> d <> [] -> no_digit_first d -> no_digit_first (a ++ d ++ b).
Proof. intros [|c a] [|e d] b A N D; try contradiction; exact A || exact D. Qed.
Lemma no_digit_mid' : forall a d b c, no_digit_first a -> d <> [] -> no_digit_first d -> no_digit_first ((a ++ d ++ b) ++ c).
Proof. intros a d b c A N D. rewrite <- !app_assoc. apply no_digit_mid; assumption. Qed.
Lemma outside_mid : forall a d t, ends_outside_word d -> (t = [] \/ ends_outside_word t) -> ends_outside_word (a ++ d ++ t).
Proof.
  intros a d t [s [c [E W]]] [->|[s' [c' [E' W']]]].
  - exists (a ++ s), c. rewrite E, app_nil_r, app_assoc. auto.
  - exists (a ++ d ++ s'), c'. rewrite E', <- !app_assoc. auto.
Qed.

Lemma fine_closed_head : forall b l t, separated b l t -> closed (head (l, t)).
Proof. intros b [|[t p] l] tail H; apply nods_closed; destruct H as [H _]; exact H. Qed.

Lemma cat_separated : forall l1 b t1 d s2, separated b l1 t1 -> nostar_last t1 -> delim d -> separated true (fst s2) (snd s2) -> nostar_first (head s2) ->
  separated b (fst (cat (l1, t1) d s2)) (snd (cat (l1, t1) d s2)).
Proof.
  induction l1 as [|[t p] l1 IH]; intros b t1 d [l2 t2] S1 N1 [ND [NDF [EO CD]]] S2 N2; cbn [fst snd] in *.
  - assert (C1 : closed t1) by (apply nods_closed, S1). assert (C2 := fine_closed_head _ _ _ S2). unfold head in N2, C2; cbn [fst snd] in N2, C2.
    destruct S1 as [_ S1]. destruct l2 as [|[t p] l2]; unfold cat; cbn [fst snd app].
    + split; [apply nods_closed, closed_three; assumption|]. destruct S1 as [->|S1]; [left; reflexivity|right; apply no_digit_mid; assumption].
    + destruct S2 as [_ [_ [P2 S2]]]. split; [apply nods_closed, closed_three; assumption|].
      split; [destruct S1 as [->|S1]; [left; reflexivity|right; apply no_digit_mid'; assumption]|]. split; [|exact S2].
      destruct P2 as [[P2 Q]|P2]; [left; split; [exact P2|]|right; exact P2]. right. apply outside_mid; [exact EO|]. destruct Q as [[_ Q]|Q]; [left|right]; exact Q.
  - destruct S1 as [A [B [C S1]]]. assert (X := IH false t1 d (l2, t2) S1 N1 (conj ND (conj NDF (conj EO CD))) S2 N2).
    unfold cat in *; cbn [fst snd] in *. destruct l2 as [|[t' p'] l2]; cbn [fst snd app separated]; auto.
Qed.

Lemma head_cat : forall s1 d s2, head (cat s1 d s2) = match fst s1 with [] => snd s1 ++ d ++ head s2 | (t, _) :: _ => t end.
Proof. intros [[|[t p] l1] t1] d [[|[t' p'] l2] t2]; reflexivity. Qed.
Lemma cat_fine : forall s1 d s2, fine s1 -> fine s2 -> delim d -> (nostar_last d \/ src s2 <> []) -> (nostar_first d \/ src s1 <> []) -> fine (cat s1 d s2).
Proof.
  intros [l1 t1] d s2 [S1 [L1 H1]] [S2 [L2 H2]] D X Y. split; [|split].
  - apply cat_separated; assumption.
  - unfold cat. destruct s2 as [[|[t p] l2] t2]; cbn [fst snd] in *; [|exact L2]. rewrite app_assoc. apply nostar_last_app; [exact L2|].
    destruct X as [X|X]; [|left; intros ->; apply X; reflexivity]. right. apply nostar_last_app; [exact X|]. left. apply D.
  - rewrite head_cat. cbn [fst snd]. destruct l1 as [|[t p] l1]; [|exact H1]. unfold head in H1; cbn [fst snd] in H1. destruct t1 as [|c t1]; [|exact H1].
    cbn [app]. apply nostar_first_app; [|exact H2]. destruct Y as [Y|Y]; [exact Y|exfalso; apply Y; reflexivity].
Qed.

(** ** Printed expressions in pieces *)

Definition plain (t : text) : seg := ([], t).
Fixpoint segs (e : expr) : seg :=
  match e with
  | Sym x => plain x
  | Int d => plain d
  | Pow b d => ([([], Power (print b) [] d)], [])
  | Paren a => cat (cat (plain []) (txt "(") (segs a)) (txt ")") (plain [])
  | Call f a => cat (cat (plain f) (txt "(") (segs a)) (txt ")") (plain [])
  | Mul a b => cat (segs a) (txt "*") (segs b)
  | Div a b => cat (segs a) (txt "/") (segs b)
  | Add a b => cat (segs a) (txt " + ") (segs b)
  | Sub a b => cat (segs a) (txt " - ") (segs b)
  | Neg a => cat (plain []) (txt "-") (segs a)
  end.

Lemma src_plain : forall t, src (plain t) = t. Proof. reflexivity. Qed.
Lemma tgt_plain : forall t, tgt (plain t) = t. Proof. reflexivity. Qed.

Lemma segs_src : forall e, src (segs e) = print e.
Proof.
  induction e; cbn [segs print]; rewrite ?src_cat, ?src_plain.
  - reflexivity.
  - reflexivity.
  - unfold src, source; cbn. unfold power_text; cbn. rewrite !app_nil_r. reflexivity.
  - rewrite IHe. reflexivity.
  - rewrite IHe. rewrite <- !app_assoc. reflexivity.
  - rewrite IHe1, IHe2. reflexivity.
  - rewrite IHe1, IHe2. reflexivity.
  - rewrite IHe1, IHe2. reflexivity.
  - rewrite IHe1, IHe2. reflexivity.
  - rewrite IHe. reflexivity.
Qed.
Lemma join_snoc : forall x n, join (txt "*") (repeat x (S n)) ++ txt "*" ++ x = join (txt "*") (repeat x (S (S n))).
Proof.
  intros x n. induction n as [|n IH]; [reflexivity|].
  change (join (txt "*") (repeat x (S (S n)))) with (x ++ txt "*" ++ join (txt "*") (repeat x (S n))) at 1. rewrite <- !app_assoc, IH. reflexivity.
Qed.
Lemma print_times : forall b n, print (times b (S n)) = join (txt "*") (repeat (print b) (S n)).
Proof.
  intros b n. induction n as [|n IH]; [reflexivity|]. change (print (times b (S (S n)))) with (print (times b (S n)) ++ txt "*" ++ print b). rewrite IH. apply join_snoc.
Qed.
Lemma nospace_join : forall v n, nospace (join (txt "*") (repeat v n)) = join (txt "*") (repeat (nospace v) n).
Proof.
  intros v n. induction n as [|n IH]; [reflexivity|]. destruct n as [|n]; [reflexivity|].
  change (join (txt "*") (repeat v (S (S n)))) with (v ++ txt "*" ++ join (txt "*") (repeat v (S n))). rewrite !nospace_app, IH. reflexivity.
Qed.
Lemma nospace_twice : forall s, nospace (nospace s) = nospace s.
Proof. induction s as [|c s IH]; [reflexivity|]. cbn. destruct (negb (Ascii.eqb c " ")) eqn:E; [cbn; rewrite E; f_equal; exact IH|exact IH]. Qed.

Lemma segs_tgt : forall e, printable e -> simple_powers e -> nospace (tgt (segs e)) = nospace (print (multiply_out e)).
Proof.
  induction e; intros P H; cbn [segs print simple_powers multiply_out printable] in *; rewrite ?tgt_cat, ?tgt_plain, ?nospace_app.
  - reflexivity.
  - reflexivity.
  - destruct H as [_ D]. unfold tgt, target; cbn [map List.concat fst snd app]. unfold product_text; cbn [base gap expo].
    rewrite !app_nil_r, !nospace_app, nospace_join, nospace_twice. destruct (decimal digits) as [|n]; [lia|]. rewrite print_times, nospace_join. reflexivity.
  - rewrite IHe by assumption. cbn. reflexivity.
  - rewrite IHe by tauto. rewrite <- !app_assoc. reflexivity.
  - rewrite IHe1, IHe2 by tauto. reflexivity.
  - rewrite IHe1, IHe2 by tauto. reflexivity.
  - rewrite IHe1, IHe2 by tauto. reflexivity.
  - rewrite IHe1, IHe2 by tauto. reflexivity.
  - rewrite IHe by tauto. reflexivity.
Qed.
(** exactly, if the bases are symbols *)
Lemma segs_tgt_sym : forall e, printable e -> powers_of_symbols e -> tgt (segs e) = print (multiply_out e).
Proof.
  induction e; intros P H; cbn [segs print powers_of_symbols multiply_out printable] in *; rewrite ?tgt_cat, ?tgt_plain.
  - reflexivity.
  - reflexivity.
  - destruct H as [[x ->] D]. destruct P as [[_ [W _]] _]. unfold tgt, target; cbn [map List.concat fst snd app print]. unfold product_text; cbn [base gap expo].
    rewrite (nospace_word x W), !app_nil_r. destruct (decimal digits) as [|n]; [lia|]. rewrite print_times. reflexivity.
  - rewrite IHe by assumption. cbn. reflexivity.
  - rewrite IHe by tauto. rewrite <- !app_assoc. reflexivity.
  - rewrite IHe1, IHe2 by tauto. reflexivity.
  - rewrite IHe1, IHe2 by tauto. reflexivity.
  - rewrite IHe1, IHe2 by tauto. reflexivity.
  - rewrite IHe1, IHe2 by tauto. reflexivity.
  - rewrite IHe by tauto. reflexivity.
Qed.

Lemma print_nonempty : forall e, printable e -> print e <> [].
Proof.
  induction e; intros P E; cbn [print printable] in *.
  - destruct P; contradiction.
  - destruct P; contradiction.
  - apply app_eq_nil in E. destruct E; discriminate.
  - discriminate.
  - apply app_eq_nil in E. destruct E; discriminate.
  - apply app_eq_nil in E. destruct E; discriminate.
  - apply app_eq_nil in E. destruct E; discriminate.
  - apply app_eq_nil in E. destruct E; discriminate.
  - apply app_eq_nil in E. destruct E; discriminate.
  - discriminate.
Qed.

Lemma word_fine : forall x, all is_word x -> fine (plain x).
Proof.
  intros x W. split; [|split].
  - split; [apply nods_closed, closed_nostar, word_nostar, W|left; reflexivity].
  - intros k _. apply word_nostar, W.
  - apply word_nostar, W.
Qed.
Ltac one_delim := split; [discriminate|split; [reflexivity|split; [|let k := fresh in let H := fresh in intros [|[|[|[|k]]]] [? H]; cbn in *; discriminate]]].
Lemma d_open : delim (txt "("). Proof. one_delim. exists [], "("%char. split; reflexivity. Qed.
Lemma d_close : delim (txt ")"). Proof. one_delim. exists [], ")"%char. split; reflexivity. Qed.
Lemma d_star : delim (txt "*"). Proof. one_delim. exists [], "*"%char. split; reflexivity. Qed.
Lemma d_slash : delim (txt "/"). Proof. one_delim. exists [], "/"%char. split; reflexivity. Qed.
Lemma d_plus : delim (txt " + "). Proof. one_delim. exists [" "%char; "+"%char], " "%char. split; reflexivity. Qed.
Lemma d_minus : delim (txt " - "). Proof. one_delim. exists [" "%char; "-"%char], " "%char. split; reflexivity. Qed.
Lemma d_neg : delim (txt "-"). Proof. one_delim. exists [], "-"%char. split; reflexivity. Qed.

(** a flat expression has no parentheses and no two stars *)
Lemma flat_not_paren : forall e, printable e -> flat e -> all not_paren (print e).
Proof.
  assert (W : forall s, all is_word s -> all not_paren s).
  { intros s H. unfold all in *. rewrite Forall_forall in *. intros c I. apply H in I. unfold not_paren.
    destruct (Ascii.eqb c "(") eqn:E1; [apply Ascii.eqb_eq in E1; subst; discriminate|]. destruct (Ascii.eqb c ")") eqn:E2; [apply Ascii.eqb_eq in E2; subst; discriminate|]. reflexivity. }
  induction e; intros P H; cbn [print printable flat] in *; try contradiction; rewrite ?all_app.
  - apply W, P.
  - apply W, digits_words, P.
  - split; [apply IHe1; tauto|]. split; [repeat constructor|apply IHe2; tauto].
  - split; [apply IHe1; tauto|]. split; [repeat constructor|apply IHe2; tauto].
  - split; [apply IHe1; tauto|]. split; [repeat constructor|apply IHe2; tauto].
  - split; [apply IHe1; tauto|]. split; [repeat constructor|apply IHe2; tauto].
  - split; [repeat constructor|apply IHe; tauto].
Qed.
Lemma dense_nonempty : forall e, printable e -> dense e <> [].
Proof.
  induction e; intros P E; cbn [dense printable] in *; try discriminate; try (apply app_eq_nil in E; destruct E; discriminate); destruct P; contradiction.
Qed.
Lemma one_char : forall c, c <> "*"%char -> nostar_last [c] /\ nostar_first [c] /\ closed [c].
Proof.
  intros c N. split; [intros [|k] L; cbn in *; [congruence|lia]|]. split; [unfold nostar_first; cbn; congruence|]. apply closed_nostar. intros [|[|k]]; cbn; congruence.
Qed.
Lemma nonempty_last : forall (b : text) c, b <> [] -> nostar_last b -> nostar_last (c :: b).
Proof. intros b c N L k H. destruct b as [|d b]; [contradiction|]. destruct k as [|k]; [cbn in H; lia|]. cbn. apply L. cbn in *. lia. Qed.
Lemma dense_closed : forall e, printable e -> flat e -> closed (dense e) /\ nostar_last (dense e) /\ nostar_first (dense e).
Proof.
  assert (W : forall s, all is_word s -> closed s /\ nostar_last s /\ nostar_first s).
  { intros s H. split; [apply closed_nostar, word_nostar, H|]. split; [intros k _; apply word_nostar, H|apply word_nostar, H]. }
  assert (J : forall a b d, d <> [] -> a <> [] -> b <> [] -> closed d -> (closed a /\ nostar_last a /\ nostar_first a) -> (closed b /\ nostar_last b /\ nostar_first b) ->
    closed (a ++ d ++ b) /\ nostar_last (a ++ d ++ b) /\ nostar_first (a ++ d ++ b)).
  { intros a b d ND NA NB CD [CA [LA FA]] [CB [LB FB]]. split; [apply closed_three; assumption|]. split.
    - rewrite app_assoc. apply nostar_last_app; [exact LB|left; exact NB].
    - destruct a; [contradiction|]. exact FA. }
  induction e; intros P H; cbn [dense printable flat] in *; try contradiction.
  - apply W, P.
  - apply W, digits_words, P.
  - apply J; [discriminate|apply dense_nonempty; tauto|apply dense_nonempty; tauto|exact star_closed|apply IHe1; tauto|apply IHe2; tauto].
  - apply J; [discriminate|apply dense_nonempty; tauto|apply dense_nonempty; tauto|apply one_char; discriminate|apply IHe1; tauto|apply IHe2; tauto].
  - apply J; [discriminate|apply dense_nonempty; tauto|apply dense_nonempty; tauto|apply one_char; discriminate|apply IHe1; tauto|apply IHe2; tauto].
  - apply J; [discriminate|apply dense_nonempty; tauto|apply dense_nonempty; tauto|apply one_char; discriminate|apply IHe1; tauto|apply IHe2; tauto].
  - destruct (IHe ltac:(tauto) H) as [A [B C]]. destruct (one_char "-" ltac:(discriminate)) as [X [Y Z]]. split; [|split].
    + apply closed_app; [exact Z|exact A|left; exact X].
    + apply nonempty_last; [apply dense_nonempty; tauto|exact B].
    + discriminate.
Qed.
Lemma flat_inner : forall e, printable e -> flat e -> ~ contains (txt "**") (nospace (print e)).
Proof. intros e P F. rewrite dense_print by exact P. apply nods_closed, dense_closed; assumption. Qed.
Lemma base_ok : forall b d, printable b -> is_number d -> match b with Sym _ | Int _ => True | Paren a => flat a | _ => False end ->
  word_power (Power (print b) [] d) \/ paren_power (Power (print b) [] d).
Proof.
  intros b d P [ND D] H. destruct b; try contradiction; cbn [printable print] in *.
  - left. destruct P as [N [W _]]. split; [exact N|]. split; [exact W|]. split; [constructor|]. auto.
  - left. destruct P as [N W]. split; [exact N|]. split; [apply digits_words, W|]. split; [constructor|]. auto.
  - right. split; [|auto]. exists (print b). split; [reflexivity|]. split; [apply print_nonempty, P|]. split; [apply flat_not_paren; assumption|apply flat_inner; assumption].
Qed.

Lemma segs_fine : forall e, printable e -> simple_powers e -> fine (segs e).
Proof.
  assert (E0 : fine (plain [])) by (apply word_fine; constructor).
  assert (NL : forall d : text, (exists c, d = [c] /\ c <> "*"%char) -> nostar_last d /\ nostar_first d).
  { intros d [c [-> N]]. split; [intros [|k] L; cbn in *; [congruence|lia]|cbn; unfold nostar_first; cbn; congruence]. }
  induction e; intros P H; cbn [segs printable simple_powers] in *.
  - apply word_fine, P.
  - apply word_fine. destruct P as [_ D]. unfold all in *. rewrite Forall_forall in *. intros c I. apply digit_word, D, I.
  - destruct H as [H _]. destruct P as [Pb [_ Pd]]. assert (B := base_ok e digits Pb Pd H). split; [|split].
    + cbn [fst snd separated]. split; [apply nods_closed, closed_nostar; intros [|k]; discriminate|]. split; [left; reflexivity|]. split.
      * destruct B as [B|B]; [left|right; exact B]. split; [exact B|left; auto].
      * split; [apply nods_closed, closed_nostar; intros [|k]; discriminate|]. right. exact I.
    + intros [|k] L; discriminate.
    + discriminate.
  - apply cat_fine; [apply cat_fine; auto| |apply d_close|left|left]; [apply d_open|left|left|exact E0| |]; apply NL; eexists; split; try reflexivity; discriminate.
  - apply cat_fine; [apply cat_fine| |apply d_close|left|left]; [apply word_fine, P|apply IHe; tauto|apply d_open|left|left|exact E0| |]; apply NL; eexists; split; try reflexivity; discriminate.
  - apply cat_fine; [apply IHe1; tauto|apply IHe2; tauto|apply d_star| |]; right; rewrite segs_src; apply print_nonempty; tauto.
  - apply cat_fine; [apply IHe1; tauto|apply IHe2; tauto|apply d_slash| |]; right; rewrite segs_src; apply print_nonempty; tauto.
  - apply cat_fine; [apply IHe1; tauto|apply IHe2; tauto|apply d_plus| |]; right; rewrite segs_src; apply print_nonempty; tauto.
  - apply cat_fine; [apply IHe1; tauto|apply IHe2; tauto|apply d_minus| |]; right; rewrite segs_src; apply print_nonempty; tauto.
  - apply cat_fine; [exact E0|apply IHe; tauto|apply d_neg|left|left]; apply NL; eexists; split; try reflexivity; discriminate.
Qed.

(** ** No call of pow *)

Definition has_pow (s : text) : Prop := contains (txt "pow(") s.
Lemma pow_pos : forall s k, occ (txt "pow(") s k <->
  nth_error s k = Some "p"%char /\ nth_error s (k+1) = Some "o"%char /\ nth_error s (k+2) = Some "w"%char /\ nth_error s (k+3) = Some "("%char.
Proof.
  intros s k. split.
  - intros H. repeat split; [rewrite <- (Nat.add_0_r k)| | |]; rewrite (occ_at _ _ _ _ H); try reflexivity; cbn; lia.
  - intros [A [B [C D]]]. assert (L : k + 3 < length s) by (apply nth_error_Some; congruence).
    apply occ_of_nth; [cbn; lia|]. intros i Hi. cbn in Hi. destruct i as [|[|[|[|i]]]]; [rewrite Nat.add_0_r; exact A|exact B|exact C|exact D|lia].
Qed.
Definition pow_char (c : ascii) : Prop := c = "p"%char \/ c = "o"%char \/ c = "w"%char \/ c = "("%char.
(** a character that is not in "pow(" separates *)
Lemma has_pow_sep : forall a c b, ~ pow_char c -> has_pow (a ++ c :: b) -> has_pow a \/ has_pow b.
Proof.
  intros a c b N H. apply contains_occ in H. destruct H as [k H]. apply pow_pos in H. destruct H as [A [B [C D]]].
  assert (X : forall i d, nth_error (a ++ c :: b) i = Some d -> pow_char d -> i < length a \/ length a < i).
  { intros i d E PD. destruct (Nat.eq_dec i (length a)) as [->|]; [|lia]. exfalso. rewrite nth_error_app2 in E by lia. rewrite Nat.sub_diag in E. cbn in E. injection E as ->. exact (N PD). }
  assert (X0 := X _ _ A ltac:(unfold pow_char; auto)). assert (X1 := X _ _ B ltac:(unfold pow_char; auto)).
  assert (X2 := X _ _ C ltac:(unfold pow_char; auto)). assert (X3 := X _ _ D ltac:(unfold pow_char; auto)). clear X.
  destruct X3 as [X3|X3].
  - left. apply contains_occ. exists k. apply pow_pos. rewrite nth_error_app1 in A by lia. rewrite nth_error_app1 in B by lia. rewrite nth_error_app1 in C by lia. rewrite nth_error_app1 in D by lia. auto.
  - assert (length a < k) by lia. right. apply contains_occ. exists (k - length a - 1). apply pow_pos.
    assert (Y : forall i, nth_error (a ++ c :: b) (k + i) = nth_error b (k - length a - 1 + i)).
    { intros i. rewrite nth_error_app2 by lia. replace (k + i - length a) with (S (k - length a - 1 + i)) by lia. reflexivity. }
    rewrite <- (Nat.add_0_r k) in A. rewrite Y in A, B, C, D. rewrite Nat.add_0_r in A. auto.
Qed.
Lemma has_pow_nil : ~ has_pow [].
Proof. intros [a [b H]]. destruct a; discriminate. Qed.
Lemma has_pow_word : forall x, all is_word x -> ~ has_pow x.
Proof.
  intros x W H. apply contains_occ in H. destruct H as [k H]. apply pow_pos in H. destruct H as [_ [_ [_ H]]]. assert (X := all_nth _ _ _ _ W H). discriminate.
Qed.
Ltac not_pow_char := let Q := fresh in unfold pow_char; intros [Q|[Q|[Q|Q]]]; discriminate.
(** a parenthesis after a text that does not end in "pow" *)
Lemma has_pow_paren : forall a b, (forall g, a <> g ++ txt "pow") -> has_pow (a ++ "("%char :: b) -> has_pow a \/ has_pow b.
Proof.
  intros a b N H. apply contains_occ in H. destruct H as [k H]. assert (P := H). apply pow_pos in H. destruct H as [A [B [C D]]].
  assert (X : forall i d, nth_error (a ++ "("%char :: b) i = Some d -> d <> "("%char -> i < length a \/ length a < i).
  { intros i d E PD. destruct (Nat.eq_dec i (length a)) as [->|]; [|lia]. exfalso. rewrite nth_error_app2 in E by lia. rewrite Nat.sub_diag in E. cbn in E. congruence. }
  assert (X0 := X _ _ A ltac:(discriminate)). assert (X1 := X _ _ B ltac:(discriminate)). assert (X2 := X _ _ C ltac:(discriminate)). clear X.
  destruct (lt_eq_lt_dec (k + 3) (length a)) as [[X3|X3]|X3].
  - left. apply contains_occ. exists k. apply pow_pos. rewrite nth_error_app1 in A by lia. rewrite nth_error_app1 in B by lia. rewrite nth_error_app1 in C by lia. rewrite nth_error_app1 in D by lia. auto.
  - exfalso. destruct P as [x [r [E L]]]. apply (N x). change (txt "pow(") with (txt "pow" ++ ["("%char]) in E. rewrite <- app_assoc in E.
    rewrite (app_assoc x (txt "pow")) in E.
    assert (F := f_equal (firstn (length a)) E). rewrite firstn_app, firstn_all, Nat.sub_diag in F. cbn [firstn] in F. rewrite app_nil_r in F.
    rewrite F. replace (length a) with (length (x ++ txt "pow")) by (rewrite app_length; cbn; lia). rewrite firstn_app, firstn_all, Nat.sub_diag. cbn [firstn]. apply app_nil_r.
  - assert (length a < k) by lia. right. apply contains_occ. exists (k - length a - 1). apply pow_pos.
    assert (Y : forall i, nth_error (a ++ "("%char :: b) (k + i) = nth_error b (k - length a - 1 + i)).
    { intros i. rewrite nth_error_app2 by lia. replace (k + i - length a) with (S (k - length a - 1 + i)) by lia. reflexivity. }
    rewrite <- (Nat.add_0_r k) in A. rewrite Y in A, B, C, D. rewrite Nat.add_0_r in A. auto.
Qed.

Lemma print_no_pow : forall e, printable e -> no_pow_calls e -> ~ has_pow (print e).
Proof.
  assert (SP : forall a b c d, has_pow (a ++ [" "%char; c; " "%char] ++ b) -> ~ pow_char c -> c = d -> has_pow a \/ has_pow b).
  { intros a b c d H N _. cbn [app] in H. apply has_pow_sep in H; [|not_pow_char]. destruct H as [H|H]; [left; exact H|].
    apply (has_pow_sep []) in H; [|exact N]. destruct H as [H|H]; [destruct (has_pow_nil H)|].
    apply (has_pow_sep []) in H; [|not_pow_char]. destruct H as [H|H]; [destruct (has_pow_nil H)|]. right; exact H. }
  assert (CL : forall s, has_pow (s ++ txt ")") -> has_pow s).
  { intros s H. change (txt ")") with (")"%char :: []) in H. apply has_pow_sep in H; [|not_pow_char]. destruct H as [H|H]; [exact H|destruct (has_pow_nil H)]. }
  assert (NP : forall g : text, [] <> g ++ txt "pow") by (intros [|? ?]; discriminate).
  induction e; intros P H X; cbn [print printable no_pow_calls] in *.
  - exact (has_pow_word _ (proj1 (proj2 P)) X).
  - apply (has_pow_word digits); [|exact X]. destruct P as [_ D]. unfold all in *. rewrite Forall_forall in *. intros c I. apply digit_word, D, I.
  - change (txt "**" ++ digits) with ("*"%char :: "*"%char :: digits) in X. destruct P as [Pb [_ [_ D]]].
    apply has_pow_sep in X; [|not_pow_char]. destruct X as [X|X].
    + exact (IHe Pb H X).
    + apply (has_pow_sep []) in X; [|not_pow_char]. destruct X as [X|X]; [exact (has_pow_nil X)|].
      apply (has_pow_word digits); [|exact X]. apply digits_words, D.
  - change (txt "(" ++ print e ++ txt ")") with ([] ++ "("%char :: (print e ++ txt ")")) in X. apply has_pow_paren in X; [|exact NP].
    destruct X as [X|X]; [exact (has_pow_nil X)|]. apply (IHe P H), CL, X.
  - change (txt "(" ++ print e ++ txt ")") with ("("%char :: (print e ++ txt ")")) in X. apply has_pow_paren in X; [|apply H].
    destruct X as [X|X]; [exact (has_pow_word _ (proj1 (proj2 (proj1 P))) X)|]. apply (IHe (proj2 P) (proj2 H)), CL, X.
  - change (txt "*" ++ print e2) with ("*"%char :: print e2) in X. apply has_pow_sep in X; [|not_pow_char]. destruct X as [X|X]; [apply IHe1 in X|apply IHe2 in X]; tauto.
  - change (txt "/" ++ print e2) with ("/"%char :: print e2) in X. apply has_pow_sep in X; [|not_pow_char]. destruct X as [X|X]; [apply IHe1 in X|apply IHe2 in X]; tauto.
  - apply (SP _ _ "+"%char "+"%char) in X; [|not_pow_char|reflexivity]. destruct X as [X|X]; [apply IHe1 in X|apply IHe2 in X]; tauto.
  - apply (SP _ _ "-"%char "-"%char) in X; [|not_pow_char|reflexivity]. destruct X as [X|X]; [apply IHe1 in X|apply IHe2 in X]; tauto.
  - change (txt "-" ++ print e) with ([] ++ "-"%char :: print e) in X. apply has_pow_sep in X; [|not_pow_char]. destruct X as [X|X]; [exact (has_pow_nil X)|]. apply IHe in X; tauto.
Qed.

Lemma pow2mul_pieces : forall e, printable e -> simple_powers e -> no_pow_calls e -> pow2mul_text (print e) = Ok (tgt (segs e)).
Proof.
  intros e P H N. rewrite <- (segs_src e). apply pow2mul_source; [apply segs_fine; assumption|].
  change (~ has_pow (src (segs e))). rewrite (segs_src e). apply print_no_pow; assumption.
Qed.

Local Open Scope R_scope.
Lemma eval_times : forall sym fn b n, eval sym fn (times b (S n)) = eval sym fn b ^ S n.
Proof.
  intros sym fn b n. induction n as [|n IH]; [cbn; ring|]. change (eval sym fn (times b (S (S n)))) with (eval sym fn (times b (S n)) * eval sym fn b). rewrite IH. cbn. ring.
Qed.
Lemma eval_multiply_out : forall sym fn e, simple_powers e -> eval sym fn (multiply_out e) = eval sym fn e.
Proof.
  intros sym fn. induction e; intros H; cbn [multiply_out eval simple_powers] in *.
  - reflexivity.
  - reflexivity.
  - destruct H as [_ D]. destruct (decimal digits) as [|n]; [lia|]. apply eval_times.
  - auto.
  - rewrite IHe by apply H. reflexivity.
  - rewrite IHe1, IHe2 by apply H. reflexivity.
  - rewrite IHe1, IHe2 by apply H. reflexivity.
  - rewrite IHe1, IHe2 by apply H. reflexivity.
  - rewrite IHe1, IHe2 by apply H. reflexivity.
  - rewrite IHe by apply H. reflexivity.
Qed.
Local Close Scope R_scope.

(** ** The result can be read back *)

Lemma level_multiply_out : forall e, level (multiply_out e) = level e.
Proof. destruct e; reflexivity. Qed.
Lemma times_printable : forall b n, printable b -> 2 <= level b -> printable (times b n) /\ 1 <= level (times b n).
Proof.
  intros b n N L. induction n as [|n IH]; [split; [exact N|cbn; lia]|]. destruct n as [|n]; [split; [exact N|cbn; lia]|].
  change (times b (S (S n))) with (Mul (times b (S n)) b). cbn [printable level]. destruct IH. auto.
Qed.
Lemma multiply_out_printable : forall e, printable e -> simple_powers e -> printable (multiply_out e).
Proof.
  induction e; intros P H; cbn [multiply_out printable simple_powers] in *; rewrite ?level_multiply_out; try tauto.
  apply times_printable; [apply P|]. destruct H as [H _]. destruct e; cbn in *; try contradiction; lia.
Qed.
Lemma pow2mul_reads : forall e, printable e -> simple_powers e -> no_pow_calls e -> exists t, pow2mul_text (print e) = Ok t /\ reads t (multiply_out e).
Proof.
  intros e P H N. exists (tgt (segs e)). split; [apply pow2mul_pieces; assumption|]. split; [apply multiply_out_printable; assumption|]. symmetry. apply segs_tgt; assumption.
Qed.

(** ** mprint_as_array: the bases are symbols *)

(** ** The powers of an expression and of its pieces *)

Lemma cat_in : forall t p s1 d s2, In (t, p) (fst (cat s1 d s2)) -> exists t', In (t', p) (fst s1) \/ In (t', p) (fst s2).
Proof.
  intros t p [l1 t1] d [[|[t' p'] l2] t2] H; unfold cat in H; cbn [fst snd] in *.
  - exists t. auto.
  - apply in_app_or in H. destruct H as [H|[H|H]]; [exists t; auto| |exists t; right; right; exact H].
    injection H as _ <-. exists t'. right; left; reflexivity.
Qed.
Lemma segs_powers : forall e t p, printable e -> powers_of_symbols e -> In (t, p) (fst (segs e)) ->
  In (base p, expo p) (powers e) /\ gap p = [] /\ word_power p.
Proof.
  induction e; intros t p P H I; cbn [segs printable powers_of_symbols powers fst plain] in *.
  - destruct I.
  - destruct I.
  - destruct H as [[x ->] _]. destruct I as [I|[]]. injection I as <- <-. cbn. split; [left; reflexivity|]. split; [reflexivity|].
    destruct P as [[N [W _]] [_ [ND D]]]. split; [exact N|]. split; [exact W|]. split; [constructor|]. auto.
  - apply cat_in in I. destruct I as [t' [I|[]]]. apply cat_in in I. destruct I as [t'' [[]|I]]. exact (IHe t'' p P H I).
  - apply cat_in in I. destruct I as [t' [I|[]]]. apply cat_in in I. destruct I as [t'' [[]|I]]. exact (IHe t'' p (proj2 P) H I).
  - apply cat_in in I. destruct I as [t' [I|I]]; [apply IHe1 in I|apply IHe2 in I]; try tauto; (split; [apply in_or_app; tauto|tauto]).
  - apply cat_in in I. destruct I as [t' [I|I]]; [apply IHe1 in I|apply IHe2 in I]; try tauto; (split; [apply in_or_app; tauto|tauto]).
  - apply cat_in in I. destruct I as [t' [I|I]]; [apply IHe1 in I|apply IHe2 in I]; try tauto; (split; [apply in_or_app; tauto|tauto]).
  - apply cat_in in I. destruct I as [t' [I|I]]; [apply IHe1 in I|apply IHe2 in I]; try tauto; (split; [apply in_or_app; tauto|tauto]).
  - apply cat_in in I. destruct I as [t' [[]|I]]. exact (IHe t' p (proj1 P) H I).
Qed.
Lemma power_text_parts : forall p, gap p = [] -> power_text p = base p ++ txt "**" ++ expo p.
Proof. intros p G. unfold power_text. rewrite G. reflexivity. Qed.

Lemma symbols_simple : forall e, powers_of_symbols e -> simple_powers e.
Proof. induction e; cbn; try tauto. intros [[x ->] D]. auto. Qed.
Lemma array_print : forall e, printable e -> powers_of_symbols e -> no_power_inside e -> array_powers_text (print e) = Ok (print (multiply_out e)).
Proof.
  intros e P H N. rewrite <- (segs_src e), <- (segs_tgt_sym e P H). unfold array_powers_text, src, tgt.
  apply array_source; [apply segs_fine; [assumption|apply symbols_simple, H]| |].
  - intros t p I. destruct (segs_powers e t p P H I) as [_ [A B]]. auto.
  - intros t p t' q I I' C. destruct (segs_powers e t p P H I) as [A [B _]]. destruct (segs_powers e t' q P H I') as [A' [B' _]].
    rewrite !power_text_parts in * by assumption. destruct (N _ _ _ _ A A' C) as [-> ->]. reflexivity.
Qed.

Lemma txt_str : forall t, txt (str t) = t. Proof. exact list_ascii_of_string_of_list_ascii. Qed.
Lemma str_txt : forall s, str (txt s) = s. Proof. exact string_of_list_ascii_of_string. Qed.
