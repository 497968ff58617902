(** pow2mul. *)
From Coq Require Import List Bool Arith Ascii String Lia ZArith Permutation.
From Verif Require Import Num Py Pow2mul SpecPow.
Import ListNotations.
Local Notation length := List.length.

(** ** Characters *)

Lemma eqb_true : forall a b, Ascii.eqb a b = true <-> a = b.
Proof. intros a b. apply Ascii.eqb_eq. Qed.
Lemma digit_word : forall c, is_digit c = true -> is_word c = true.
Proof. intros c H. unfold is_word. rewrite H. reflexivity. Qed.
Lemma star_not_word : is_word "*" = false. Proof. reflexivity. Qed.
Lemma digit_not_space : forall c, is_digit c = true -> is_space c = false.
Proof.
  intros c H. unfold is_digit, is_space, between in *. apply andb_true_iff in H. destruct H as [H1 H2].
  apply Nat.leb_le in H1, H2. change (nat_of_ascii "0") with 48 in H1. change (nat_of_ascii "9") with 57 in H2.
  apply orb_false_iff. rewrite !nat_ascii_embedding by (cbn; lia).
  split; apply andb_false_iff; right; apply Nat.leb_gt; lia.
Qed.
Lemma is_word_neq : forall c d, is_word d = false -> is_word c = true -> c <> d.
Proof. intros c d H1 H2 ->. congruence. Qed.
Lemma is_space_neq : forall c d, is_space d = false -> is_space c = true -> c <> d.
Proof. intros c d H1 H2 ->. congruence. Qed.
Lemma is_digit_neq : forall c d, is_digit d = false -> is_digit c = true -> c <> d.
Proof. intros c d H1 H2 ->. congruence. Qed.
Lemma not_paren_neq : forall c, not_paren c = true -> c <> "("%char /\ c <> ")"%char.
Proof. intros c H. split; intros ->; discriminate. Qed.

(** ** Prefixes and positions *)

Lemma strip_prefix_some : forall p s r, strip_prefix p s = Some r <-> s = p ++ r.
Proof.
  induction p as [|a p IH]; intros s r; cbn.
  - split; [congruence|intros ->; reflexivity].
  - destruct s as [|b s]; [split; discriminate|]. destruct (Ascii.eqb a b) eqn:E.
    + apply eqb_true in E. subst. rewrite IH. split; [intros ->; reflexivity|congruence].
    + split; [discriminate|]. intros H. injection H as -> _. rewrite (proj2 (eqb_true _ _) eq_refl) in E. discriminate.
Qed.
Lemma starts_true : forall p s, starts p s = true <-> exists r, s = p ++ r.
Proof.
  intros p s. unfold starts. destruct (strip_prefix p s) as [r|] eqn:E.
  - split; [intros _; exists r; apply strip_prefix_some, E|reflexivity].
  - split; [discriminate|]. intros [r H]. apply strip_prefix_some in H. congruence.
Qed.

(** [p] occurs in [s] at position [k] *)
Definition occ (p s : text) (k : nat) : Prop := exists a r, s = a ++ p ++ r /\ length a = k.
Lemma occ_at : forall p s k i, occ p s k -> i < length p -> nth_error s (k + i) = nth_error p i.
Proof.
  intros p s k i [a [r [-> <-]]] H. rewrite nth_error_app2 by lia. rewrite nth_error_app1 by lia. f_equal. lia.
Qed.
Lemma occ_len : forall p s k, occ p s k -> k + length p <= length s.
Proof. intros p s k [a [r [-> <-]]]. rewrite !app_length. lia. Qed.
Lemma contains_occ : forall p s, contains p s <-> exists k, occ p s k.
Proof.
  intros p s. split; [intros [a [r ->]]; exists (length a), a, r; auto|]. intros [k [a [r [-> _]]]]. exists a, r. reflexivity.
Qed.
Lemma skipn_add : forall A a b (s : list A), skipn b (skipn a s) = skipn (a + b) s.
Proof. induction a; intros b [|c s]; cbn; try reflexivity; [apply skipn_nil|apply IHa]. Qed.
Lemma occ_of_nth : forall p s k, k + length p <= length s -> (forall i, i < length p -> nth_error s (k + i) = nth_error p i) -> occ p s k.
Proof.
  intros p s k L H. exists (firstn k s), (skipn (k + length p) s). split; [|rewrite firstn_length; lia].
  rewrite <- (firstn_skipn k s) at 1. f_equal. rewrite <- (firstn_skipn (length p) (skipn k s)). f_equal.
  - assert (E : forall (q t : text), length q <= length t -> (forall i, i < length q -> nth_error t i = nth_error q i) -> firstn (length q) t = q).
    { induction q as [|c q IH]; intros t L' N; [reflexivity|]. destruct t as [|d t]; [cbn in L'; lia|]. cbn. f_equal.
      - specialize (N 0). cbn in N. specialize (N ltac:(lia)). congruence.
      - apply IH; [cbn in L'; lia|]. intros i Hi. apply (N (S i)). cbn; lia. }
    apply E; [rewrite skipn_length; lia|]. intros i Hi. rewrite <- (H i Hi).
    clear - L. revert s L. induction k; intros [|c s] L; cbn; try reflexivity.
    + destruct i; reflexivity.
    + apply IHk. cbn in L. lia.
  - apply skipn_add.
Qed.

(** two consecutive stars at position [k] *)
Definition ds_at (s : text) (k : nat) : Prop := nth_error s k = Some "*"%char /\ nth_error s (S k) = Some "*"%char.
Lemma ds_occ : forall s k, occ (txt "**") s k <-> ds_at s k.
Proof.
  intros s k. split.
  - intros H. split.
    + rewrite <- (Nat.add_0_r k). rewrite (occ_at _ _ _ 0 H); [reflexivity|cbn; lia].
    + rewrite <- (Nat.add_1_r k). rewrite (occ_at _ _ _ 1 H); [reflexivity|cbn; lia].
  - intros [H1 H2]. assert (L : S k < length s) by (apply nth_error_Some; congruence).
    apply occ_of_nth; [cbn; lia|]. intros i Hi. cbn in Hi. destruct i as [|[|i]]; [| |lia].
    + rewrite Nat.add_0_r. exact H1.
    + rewrite Nat.add_1_r. exact H2.
Qed.
Lemma nods_iff : forall s, ~ contains (txt "**") s <-> forall k, ~ ds_at s k.
Proof.
  intros s. rewrite contains_occ. split.
  - intros H k D. apply H. exists k. apply ds_occ, D.
  - intros H [k O]. apply (H k), ds_occ, O.
Qed.

Lemma ds_app : forall a b k, ds_at (a ++ b) k ->
  (S k < length a /\ ds_at a k) \/ (S k = length a /\ nth_error a k = Some "*"%char /\ nth_error b 0 = Some "*"%char) \/
  (length a <= k /\ ds_at b (k - length a)).
Proof.
  intros a b k [H1 H2]. destruct (le_lt_dec (length a) k) as [L|L].
  - right; right. split; [exact L|]. rewrite nth_error_app2 in H1 by lia. rewrite nth_error_app2 in H2 by lia.
    replace (S k - length a) with (S (k - length a)) in H2 by lia. split; assumption.
  - rewrite nth_error_app1 in H1 by lia. destruct (Nat.eq_dec (S k) (length a)) as [E|N].
    + right; left. rewrite nth_error_app2 in H2 by lia. replace (S k - length a) with 0 in H2 by lia. auto.
    + left. rewrite nth_error_app1 in H2 by lia. split; [lia|split; assumption].
Qed.
(** no "**" in [a], and it can be put before anything that does not start with a star *)
Definition closed (a : text) : Prop := (forall k, ~ ds_at a k).
Definition nostar_first (b : text) : Prop := nth_error b 0 <> Some "*"%char.
Definition nostar_last (a : text) : Prop := forall k, S k = length a -> nth_error a k <> Some "*"%char.
Lemma closed_app : forall a b, closed a -> closed b -> (nostar_last a \/ nostar_first b) -> closed (a ++ b).
Proof.
  intros a b Ha Hb N k D. apply ds_app in D. destruct D as [[_ D]|[[E [D1 D2]]|[_ D]]]; [exact (Ha _ D)| |exact (Hb _ D)].
  destruct N as [N|N]; [exact (N k E D1)|exact (N D2)].
Qed.
Lemma all_nth : forall f s k c, all f s -> nth_error s k = Some c -> f c = true.
Proof. intros f s k c H E. apply nth_error_In in E. unfold all in H. rewrite Forall_forall in H. apply H, E. Qed.
Lemma all_app : forall f a b, all f (a ++ b) <-> all f a /\ all f b.
Proof. intros. unfold all. apply Forall_app. Qed.
Lemma closed_nostar : forall a, (forall k, nth_error a k <> Some "*"%char) -> closed a.
Proof. intros a H k [D _]. exact (H k D). Qed.
Lemma word_nostar : forall a, all is_word a -> forall k, nth_error a k <> Some "*"%char.
Proof. intros a H k E. assert (X := all_nth _ _ _ _ H E). discriminate. Qed.

(** ** Powers *)

Definition good (p : power) : Prop := word_power p \/ paren_power p.
(** text after the stars *)
Definition rest (p : power) : text := gap p ++ expo p.

Lemma good_base : forall p, good p -> base p <> [] /\ closed (base p) /\ nostar_last (base p) /\ nostar_first (base p).
Proof.
  intros p [[NE [W _]]|[[inner [E [NI [NP ND]]]] _]].
  - split; [exact NE|]. split; [apply closed_nostar, word_nostar, W|]. split; [intros k _; apply word_nostar, W|apply word_nostar, W].
  - rewrite E. split; [discriminate|]. split; [|split].
    + assert (C : closed inner).
      { intros k D. apply ds_occ in D. destruct D as [a [r [EI _]]]. apply ND. exists (nospace a), (nospace r).
        rewrite EI. unfold nospace. rewrite !filter_app. reflexivity. }
      apply closed_app; [apply closed_nostar; intros [|[|k]]; discriminate| |left; intros [|k]; cbn; [discriminate|lia]].
      apply closed_app; [exact C|apply closed_nostar; intros [|[|k]]; discriminate|right; discriminate].
    + intros k L. rewrite app_assoc, app_length in L. change (length (txt ")")) with 1 in L. rewrite app_assoc, nth_error_app2 by lia.
      replace (k - length (txt "(" ++ inner)) with 0 by lia. discriminate.
    + discriminate.
Qed.
Lemma good_rest : forall p, good p -> (forall k, nth_error (rest p) k <> Some "*"%char) /\ rest p <> [] /\
  (exists k c, S k = length (rest p) /\ nth_error (rest p) k = Some c /\ is_digit c = true).
Proof.
  intros p H. assert (X : all is_space (gap p) /\ expo p <> [] /\ all is_digit (expo p)).
  { destruct H as [[_ [_ [S [N D]]]]|[_ [-> [N D]]]]; [auto|]. split; [constructor|auto]. }
  destruct X as [S [N D]]. unfold rest. split; [|split].
  - intros k E. destruct (le_lt_dec (length (gap p)) k) as [L|L].
    + rewrite nth_error_app2 in E by lia. assert (Y := all_nth _ _ _ _ D E). discriminate.
    + rewrite nth_error_app1 in E by lia. assert (Y := all_nth _ _ _ _ S E). discriminate.
  - intros E. apply app_eq_nil in E. tauto.
  - destruct (exists_last N) as [e [c E]]. exists (length (gap p) + length e), c. rewrite E, !app_length. split; [cbn; lia|].
    rewrite nth_error_app2 by lia. rewrite nth_error_app2 by lia. replace (length (gap p) + length e - length (gap p) - length e) with 0 by lia.
    split; [reflexivity|]. rewrite E in D. apply all_app in D. destruct D as [_ D]. inversion D; assumption.
Qed.


Lemma join_first : forall v n, v <> [] -> nth_error (join (txt "*") (repeat v (S n))) 0 = nth_error v 0.
Proof.
  intros v n NE. destruct n as [|n]; [reflexivity|].
  change (join (txt "*") (repeat v (S (S n)))) with (v ++ txt "*" ++ join (txt "*") (repeat v (S n))).
  destruct v; [contradiction|reflexivity].
Qed.
Lemma star_closed : closed (txt "*").
Proof. intros [|k] [_ H]; cbn in H; [discriminate|destruct k; discriminate]. Qed.
Lemma join_closed : forall v n, closed v -> nostar_last v -> nostar_first v -> v <> [] ->
  closed (join (txt "*") (repeat v n)).
Proof.
  intros v n C L F NE. induction n as [|n IH]; [intros [|k] [H _]; discriminate|].
  destruct n as [|n]; [exact C|]. change (join (txt "*") (repeat v (S (S n)))) with (v ++ txt "*" ++ join (txt "*") (repeat v (S n))).
  apply closed_app; [exact C| |left; exact L]. apply closed_app; [exact star_closed|exact IH|].
  right. unfold nostar_first. rewrite join_first by exact NE. exact F.
Qed.
Lemma join_last : forall v n, nostar_last v -> v <> [] -> nostar_last (join (txt "*") (repeat v n)).
Proof.
  intros v n L NE. induction n as [|n IH]; [intros k H; discriminate|]. destruct n as [|n]; [exact L|].
  change (join (txt "*") (repeat v (S (S n)))) with (v ++ txt "*" ++ join (txt "*") (repeat v (S n))).
  assert (NJ : 0 < length (join (txt "*") (repeat v (S n)))).
  { destruct (join (txt "*") (repeat v (S n))) eqn:E; [|cbn; lia]. assert (X : nth_error v 0 = None) by (etransitivity; [symmetry; apply (join_first v n NE)|]; exact (f_equal (fun z => nth_error z 0) E)).
    destruct v; [contradiction|discriminate]. }
  intros k H. rewrite app_assoc, app_length in H. rewrite app_assoc, nth_error_app2 by lia. apply IH. lia.
Qed.

Lemma nospace_word : forall s, all is_word s -> nospace s = s.
Proof.
  induction s as [|c s IH]; intros H; [reflexivity|]. inversion H; subst. cbn. destruct (Ascii.eqb c " ") eqn:E; cbn.
  - apply eqb_true in E. subst. discriminate.
  - f_equal. apply IH. assumption.
Qed.
Lemma nospace_app : forall a b, nospace (a ++ b) = nospace a ++ nospace b.
Proof. intros. unfold nospace. apply filter_app. Qed.

Lemma good_nospace : forall p, good p -> nospace (base p) <> [] /\ closed (nospace (base p)) /\ nostar_last (nospace (base p)) /\ nostar_first (nospace (base p)).
Proof.
  intros p G. destruct (good_base p G) as [A [B [C D]]]. destruct G as [[_ [W _]]|[[inner [E [NI [NP ND]]]] _]].
  - rewrite (nospace_word _ W). auto.
  - rewrite E, !nospace_app. cbn [nospace txt list_ascii_of_string filter Ascii.eqb Bool.eqb negb]. split; [discriminate|].
    assert (CI : closed (nospace inner)) by (intros k X; apply ds_occ in X; apply ND, contains_occ; exists k; exact X).
    split; [|split].
    + apply (closed_app ["("%char]); [apply closed_nostar; intros [|[|k]]; discriminate| |left; intros [|k]; cbn; [discriminate|lia]].
      apply closed_app; [exact CI|apply closed_nostar; intros [|[|k]]; discriminate|right; discriminate].
    + intros k L. cbn in L. rewrite app_length in L. cbn in L. destruct k as [|k]; [discriminate|]. cbn. rewrite nth_error_app2 by lia.
      replace (k - length (nospace inner)) with 0 by lia. discriminate.
    + discriminate.
Qed.

Lemma product_closed : forall p, good p -> closed (product_text p) /\ nostar_last (product_text p) /\ nth_error (product_text p) 0 = Some "("%char.
Proof.
  intros p G. destruct (good_nospace p G) as [A [B [C D]]]. unfold product_text. split; [|split; [|reflexivity]].
  - apply closed_app; [apply closed_nostar; intros [|[|k]]; discriminate| |left; intros [|k]; cbn; [discriminate|lia]].
    apply closed_app; [apply join_closed; assumption|apply closed_nostar; intros [|[|k]]; discriminate|right; discriminate].
  - intros k L. rewrite app_assoc, app_length in L. cbn in L. rewrite app_assoc, nth_error_app2 by (cbn; lia). cbn.
    match goal with |- nth_error _ ?n <> _ => replace n with 0 by (cbn; lia) end. discriminate.
Qed.

(** ** Text in which some powers have been replaced *)

Section Render.
  Variable D : text -> bool.    (* texts of the powers that have been replaced *)
  Definition shown (p : power) : text := if D (power_text p) then product_text p else power_text p.
  Definition before (l : pieces) : text := List.concat (map (fun tp => fst tp ++ shown (snd tp)) l).
  Definition render (l : pieces) (tail : text) : text := before l ++ tail.

  Lemma render_cons : forall t p l tail, render ((t, p) :: l) tail = t ++ shown p ++ render l tail.
  Proof. intros. unfold render, before. cbn. rewrite !app_assoc. reflexivity. Qed.

  Lemma separated_good : forall first t p l tail, separated first ((t, p) :: l) tail -> good p.
  Proof. intros first t p l tail [_ [_ [[[H _]|H] _]]]; [left|right]; exact H. Qed.

  Lemma shown_first : forall p, good p -> nostar_first (shown p) /\ shown p <> [].
  Proof.
    intros p G. unfold shown. destruct (D (power_text p)).
    - destruct (product_closed p G) as [_ [_ E]]. split; [unfold nostar_first; rewrite E; discriminate|]. intros X. rewrite X in E. discriminate.
    - destruct (good_base p G) as [A [_ [_ F]]]. unfold power_text. split.
      + unfold nostar_first in *. rewrite nth_error_app1; [exact F|]. destruct (base p); [contradiction|cbn; lia].
      + intros X. apply app_eq_nil in X. tauto.
  Qed.

  (** every "**" is that of a power not yet replaced *)
  Lemma ds_position : forall l first tail k, separated first l tail -> ds_at (render l tail) k ->
    exists l1 t p l2, l = l1 ++ (t, p) :: l2 /\ D (power_text p) = false /\ k = length (before l1 ++ t) + length (base p).
  Proof.
    induction l as [|[t p] l IH]; intros first tail k S H.
    - destruct S as [S _]. exfalso. apply (proj1 (nods_iff tail) S k). exact H.
    - assert (G := separated_good _ _ _ _ _ S). destruct S as [ST [_ [_ SL]]]. rewrite render_cons in H.
      apply ds_app in H. destruct H as [[_ H]|[[_ [_ H]]|[L H]]].
      + exfalso. exact (proj1 (nods_iff t) ST _ H).
      + exfalso. destruct (shown_first p G) as [F NE]. apply F. rewrite <- H. destruct (shown p); [contradiction|reflexivity].
      + apply ds_app in H. destruct H as [[L' H]|[[L' [H _]]|[L' H]]].
        * unfold shown in H, L'. destruct (D (power_text p)) eqn:ED.
          -- exfalso. exact (proj1 (product_closed p G) _ H).
          -- exists [], t, p, l. split; [reflexivity|]. split; [exact ED|]. cbn [before map List.concat app].
             destruct (good_base p G) as [_ [C [NL _]]]. destruct (good_rest p G) as [NR _].
             unfold power_text in H. fold (rest p) in H. apply ds_app in H. destruct H as [[_ H]|[[E [H _]]|[L2 H]]].
             ++ exfalso. exact (C _ H).
             ++ exfalso. exact (NL _ E H).
             ++ assert (E : k - length t - length (base p) = 0); [|lia].
                destruct (k - length t - length (base p)) as [|m]; [reflexivity|]. exfalso. destruct H as [_ H].
                cbn in H. exact (NR m H).
        * exfalso. unfold shown in H, L'. destruct (D (power_text p)) eqn:ED.
          -- exact (proj1 (proj2 (product_closed p G)) _ L' H).
          -- destruct (good_rest p G) as [NR [NE _]]. unfold power_text in H, L'. rewrite app_assoc in H, L'. rewrite app_length in L'.
             assert (0 < length (rest p)) by (destruct (rest p); [contradiction|cbn; lia]). unfold rest in H0. rewrite nth_error_app2 in H by lia. exact (NR _ H).
        * destruct (IH false tail _ SL H) as [l1 [t' [p' [l2 [E [DE K]]]]]]. exists ((t, p) :: l1), t', p', l2. split; [rewrite E; reflexivity|].
          split; [exact DE|]. unfold before in *. cbn [map List.concat fst snd]. rewrite !app_length in *. lia.
  Qed.
End Render.

(** a match of the patterns: a power whose base may hold anything but parentheses inside its own *)
Definition shape (q : power) : Prop :=
  ((base q <> [] /\ all is_word (base q)) \/ (exists inner, base q = txt "(" ++ inner ++ txt ")" /\ all not_paren inner)) /\
  all is_space (gap q) /\ expo q <> [] /\ all is_digit (expo q).
Lemma good_shape : forall p, good p -> shape p.
Proof.
  intros p [[A [B [C [D E]]]]|[[inner [A [B [C _]]]] [D [E F]]]].
  - split; [left; auto|auto].
  - split; [right; exists inner; auto|]. rewrite D. split; [constructor|auto].
Qed.

Lemma nth_error_mid : forall (a b c : text) i, i < length b -> nth_error (a ++ b ++ c) (length a + i) = nth_error b i.
Proof. intros. rewrite nth_error_app2 by lia. rewrite nth_error_app1 by lia. f_equal. lia. Qed.

Lemma power_len : forall q, length (power_text q) = length (base q) + 2 + length (rest q).
Proof. intros q. unfold power_text, rest. rewrite !app_length. cbn. lia. Qed.
Lemma power_base : forall q i, i < length (base q) -> nth_error (power_text q) i = nth_error (base q) i.
Proof. intros. unfold power_text. apply nth_error_app1. lia. Qed.
Lemma power_stars : forall q, nth_error (power_text q) (length (base q)) = Some "*"%char /\ nth_error (power_text q) (S (length (base q))) = Some "*"%char.
Proof.
  intros q. unfold power_text. split; rewrite nth_error_app2 by lia.
  - rewrite Nat.sub_diag. reflexivity.
  - replace (S (length (base q)) - length (base q)) with 1 by lia. reflexivity.
Qed.
Lemma power_rest : forall q i, nth_error (power_text q) (length (base q) + 2 + i) = nth_error (rest q) i.
Proof.
  intros. unfold power_text, rest. rewrite nth_error_app2 by lia. replace (length (base q) + 2 + i - length (base q)) with (2 + i) by lia. reflexivity.
Qed.
Lemma paren_at : forall inner i, nth_error (txt "(" ++ inner ++ txt ")") (S i) <> Some "("%char \/ ~ all not_paren inner.
Proof.
  intros inner i. destruct (nth_error (txt "(" ++ inner ++ txt ")") (S i)) as [c|] eqn:E; [|left; discriminate].
  destruct (Ascii.ascii_dec c "(") as [->|N]; [|left; congruence]. right. intros A. cbn in E.
  destruct (le_lt_dec (length inner) i) as [L|L].
  - rewrite nth_error_app2 in E by lia. destruct (i - length inner) as [|[|m]]; discriminate.
  - rewrite nth_error_app1 in E by lia. apply (all_nth _ _ _ _ A) in E. discriminate.
Qed.
Lemma paren_last : forall inner, nth_error (txt "(" ++ inner ++ txt ")") (length inner + 1) = Some ")"%char.
Proof. intros inner. rewrite Nat.add_1_r. cbn. rewrite nth_error_app2 by lia. rewrite Nat.sub_diag. reflexivity. Qed.

Section Occ.
  Variable D : text -> bool.

  Lemma separated_app : forall l1 first t p l2 tail, separated first (l1 ++ (t, p) :: l2) tail ->
    separated (match l1 with [] => first | _ => false end) ((t, p) :: l2) tail.
  Proof.
    induction l1 as [|[t' p'] l1 IH]; intros first t p l2 tail H; [exact H|]. cbn [app separated] in H. destruct H as [_ [_ [_ H]]].
    assert (X := IH false t p l2 tail H). destruct l1; exact X.
  Qed.
  Lemma render_split : forall l1 t p l2 tail, D (power_text p) = false ->
    render D (l1 ++ (t, p) :: l2) tail = (before D l1 ++ t) ++ power_text p ++ render D l2 tail.
  Proof.
    intros l1 t p l2 tail H. unfold render, before. rewrite map_app, concat_app. cbn [map List.concat fst snd]. unfold shown at 2. rewrite H.
    rewrite !app_assoc. reflexivity.
  Qed.
  Lemma follow_digit : forall l tail c, separated false l tail -> nth_error (render D l tail) 0 = Some c -> is_digit c = false.
  Proof.
    intros [|[t p] l] tail c S E.
    - destruct S as [_ [S|S]]; [discriminate|]. cbn in E. destruct tail; [discriminate|]. injection E as ->. exact S.
    - assert (G := separated_good _ _ _ _ _ S). destruct S as [_ [[S|S] _]]; [discriminate|]. rewrite render_cons in E.
      destruct t as [|d t]; [|injection E as ->; exact S]. cbn [app] in *. unfold shown in E. destruct (D (power_text p)).
      + destruct (product_closed p G) as [_ [_ X]]. destruct (product_text p); [discriminate|]. cbn in E, X. injection E as ->. injection X as ->. reflexivity.
      + destruct (good_base p G) as [NE _]. unfold power_text in E. destruct (base p); [contradiction|]. cbn in E. injection E as ->. exact S.
  Qed.

  Lemma occ_position : forall first l tail q k, separated first l tail -> shape q -> occ (power_text q) (render D l tail) k ->
    exists l1 t p l2, l = l1 ++ (t, p) :: l2 /\ D (power_text p) = false /\ length (before D l1 ++ t) <= k /\
      (exists x, base p = x ++ base q) /\ (exists y, rest p = rest q ++ y).
  Proof.
    intros first l tail q k S Q O. assert (LQ := power_len q).
    assert (DS : ds_at (render D l tail) (k + length (base q))).
    { split; [rewrite (occ_at _ _ _ _ O) by lia; apply power_stars|].
      replace (Datatypes.S (k + length (base q))) with (k + Datatypes.S (length (base q))) by lia. rewrite (occ_at _ _ _ _ O) by lia. apply power_stars. }
    destruct (ds_position D l first tail _ S DS) as [l1 [t [p [l2 [EL [DP K]]]]]].
    assert (RS := render_split l1 t p l2 tail DP). rewrite <- EL in RS.
    set (K0 := length (before D l1 ++ t)) in *.
    assert (OP : occ (power_text p) (render D l tail) K0) by (exists (before D l1 ++ t), (render D l2 tail); auto).
    assert (LP := power_len p).
    rewrite EL in S. assert (SP := separated_app _ _ _ _ _ _ S). assert (G := separated_good _ _ _ _ _ SP).
    assert (NP := proj1 (good_base p G)). assert (LB : 0 < length (base p)) by (destruct (base p); [contradiction|cbn; lia]).
    (* characters at equal positions *)
    assert (EQ : forall i j, k + i = K0 + j -> i < length (base q) -> j < length (base p) -> nth_error (base q) i = nth_error (base p) j).
    { intros i j E Hi Hj. rewrite <- power_base by exact Hi. rewrite <- (power_base p) by exact Hj. rewrite <- (occ_at _ _ _ _ O) by lia.
      rewrite <- (occ_at _ _ _ _ OP) by lia. f_equal. exact E. }
    assert (KK : K0 <= k).
    { destruct (le_lt_dec K0 k) as [|L]; [assumption|]. exfalso. destruct Q as [[[NQ WQ]|[inner [EQ' AQ]]] _].
      - assert (LBQ : 0 < length (base q)) by (destruct (base q); [contradiction|cbn; lia]).
        assert (last_word : exists c, nth_error (base p) (length (base p) - 1) = Some c /\ is_word c = true).
        { assert (X := EQ (length (base q) - 1) (length (base p) - 1) ltac:(lia) ltac:(lia) ltac:(lia)).
          destruct (nth_error (base p) (length (base p) - 1)) as [c|] eqn:EC; [|apply nth_error_None in EC; lia].
          exists c. split; [reflexivity|]. apply (all_nth _ _ _ _ WQ X). }
        assert (PRE : exists c, nth_error (render D l tail) (K0 - 1) = Some c /\ is_word c = false).
        { destruct SP as [_ [_ [[[_ B]|B] _]]].
          - assert (ET : ends_outside_word t).
            { destruct B as [[F B]|B]; [|exact B]. destruct l1; [|discriminate]. subst t. unfold K0 in L. cbn in L. lia. }
            destruct ET as [t' [c [Et W]]]. exists c. split; [|exact W]. rewrite RS. unfold K0. rewrite Et, (app_assoc (before D l1) t' [c]).
            rewrite nth_error_app1 by (rewrite app_length; cbn; lia). rewrite app_length. cbn [List.length]. rewrite nth_error_app2 by lia.
            replace (length (before D l1 ++ t') + 1 - 1 - length (before D l1 ++ t')) with 0 by lia. reflexivity.
          - exfalso. destruct B as [[inner [EB _]] _]. destruct last_word as [c [EC W]]. rewrite EB in EC.
            replace (length (txt "(" ++ inner ++ txt ")") - 1) with (length inner + 1) in EC by (rewrite !app_length; cbn; lia).
            rewrite paren_last in EC. injection EC as <-. discriminate. }
        destruct PRE as [c [EC W]]. replace (K0 - 1) with (k + (K0 - 1 - k)) in EC by lia. rewrite (occ_at _ _ _ _ O) in EC by lia.
        rewrite power_base in EC by lia. apply (all_nth _ _ _ _ WQ) in EC. congruence.
      - assert (LBQ : length (base q) = length inner + 2) by (rewrite EQ', !app_length; cbn; lia).
        assert (LC : nth_error (base p) (length (base p) - 1) = Some ")"%char).
        { rewrite <- (EQ (length (base q) - 1) (length (base p) - 1)) by lia. rewrite LBQ, EQ'. replace (length inner + 2 - 1) with (length inner + 1) by lia. apply paren_last. }
        destruct G as [[_ [WP _]]|[[inner' [EB _]] _]]; [apply (all_nth _ _ _ _ WP) in LC; discriminate|].
        assert (X := EQ (Datatypes.S (K0 - k - 1)) 0 ltac:(lia) ltac:(lia) ltac:(lia)). rewrite EQ', EB in X.
        destruct (paren_at inner (K0 - k - 1)) as [P|P]; [apply P; rewrite X; reflexivity|contradiction]. }
    exists l1, t, p, l2. split; [exact EL|]. split; [exact DP|]. split; [exact KK|]. split.
    - assert (O1 : occ (base q) (base p) (length (base p) - length (base q))).
      { apply occ_of_nth; [lia|]. intros i Hi. symmetry. apply EQ; lia. }
      destruct O1 as [x [r [E LX]]]. exists x. rewrite E. f_equal.
      assert (LR : length r = 0) by (rewrite E, !app_length in LX; rewrite E, !app_length in K; lia).
      destruct r; [rewrite app_nil_r; reflexivity|discriminate].
    - (* text after the stars *)
      assert (ER : forall i, i < length (rest q) -> i < length (rest p) -> nth_error (rest p) i = nth_error (rest q) i).
      { intros i H1 H2. rewrite <- !power_rest. rewrite <- (occ_at _ _ _ _ O) by lia. rewrite <- (occ_at _ _ _ _ OP) by lia. f_equal. lia. }
      assert (LR : length (rest q) <= length (rest p)).
      { destruct (le_lt_dec (length (rest q)) (length (rest p))) as [|L]; [assumption|]. exfalso.
        destruct (proj2 (proj2 (good_rest p G))) as [m [c [Em [Ec Hc]]]].
        assert (X := ER m ltac:(lia) ltac:(lia)). rewrite Ec in X. symmetry in X.
        assert (LG : length (gap q) <= m).
        { destruct (le_lt_dec (length (gap q)) m) as [|Lg]; [assumption|]. exfalso. unfold rest in X. rewrite nth_error_app1 in X by lia.
          destruct Q as [_ [SQ _]]. apply (all_nth _ _ _ _ SQ) in X. rewrite (digit_not_space c Hc) in X. discriminate. }
        destruct (nth_error (rest q) (length (rest p))) as [d|] eqn:Ed; [|apply nth_error_None in Ed; lia].
        assert (DD : is_digit d = true).
        { unfold rest in Ed. rewrite nth_error_app2 in Ed by (unfold rest in *; lia). destruct Q as [_ [_ [_ DQ]]]. apply (all_nth _ _ _ _ DQ Ed). }
        rewrite <- power_rest in Ed. rewrite <- (occ_at _ _ _ _ O) in Ed by lia. rewrite RS in Ed. rewrite app_assoc in Ed.
        assert (SL2 : separated false l2 tail) by (destruct SP as [_ [_ [_ SP]]]; exact SP).
        rewrite nth_error_app2 in Ed by (rewrite app_length; fold K0; lia). rewrite app_length in Ed. fold K0 in Ed.
        replace (k + (length (base q) + 2 + length (rest p)) - (K0 + length (power_text p))) with 0 in Ed by lia.
        rewrite (follow_digit _ _ _ SL2 Ed) in DD. discriminate. }
      assert (O2 : occ (rest q) (rest p) 0).
      { apply occ_of_nth; [lia|]. intros i Hi. apply ER; lia. }
      destruct O2 as [a [r [E LA]]]. destruct a; [|discriminate]. exists r. exact E.
  Qed.

  Lemma text_parts : forall p q, base p = base q -> rest p = rest q -> power_text p = power_text q.
  Proof. intros p q E1 E2. unfold power_text. fold (rest p) (rest q). rewrite E1, E2. reflexivity. Qed.
End Occ.

(** ** str.replace *)

Lemma starts_occ : forall old a s, starts old (skipn a s) = true -> a <= length s -> occ old s a.
Proof.
  intros old a s H L. apply starts_true in H. destruct H as [r H]. exists (firstn a s), r. split; [|rewrite firstn_length; lia].
  rewrite <- (firstn_skipn a s) at 1. rewrite H. reflexivity.
Qed.
Lemma replace_skip : forall old new a s, replace_from (length a) old new (a ++ s) = replace_from 0 old new s.
Proof. induction a; intros; [destruct s; reflexivity|]. cbn. apply IHa. Qed.
Lemma replace_none : forall old new a s, (forall k, k < length a -> ~ occ old (a ++ s) k) -> replace old new (a ++ s) = a ++ replace old new s.
Proof.
  unfold replace. induction a as [|c a IH]; intros s H; [reflexivity|].
  cbn [app replace_from]. destruct (starts old (c :: a ++ s)) eqn:E.
  - exfalso. apply (H 0); [cbn; lia|]. apply starts_occ; [exact E|cbn; lia].
  - f_equal. apply IH. intros k Hk [x [r [O L]]]. apply (H (S k)); [cbn; lia|]. exists (c :: x), r. cbn. rewrite O. auto.
Qed.
Lemma replace_hit : forall old new s, old <> [] -> replace old new (old ++ s) = new ++ replace old new s.
Proof.
  intros old new s N. unfold replace. destruct old as [|c old]; [contradiction|].
  assert (E : starts (c :: old) (c :: old ++ s) = true) by (apply starts_true; exists s; reflexivity).
  cbn [app replace_from]. rewrite E. cbn [List.length pred]. rewrite replace_skip. reflexivity.
Qed.

Definition text_eqb (a b : text) : bool := if list_eq_dec Ascii.ascii_dec a b then true else false.
Lemma text_eqb_true : forall a b, text_eqb a b = true <-> a = b.
Proof. intros a b. unfold text_eqb. destruct (list_eq_dec _ a b); split; congruence. Qed.

Lemma good_digits : forall p, good p -> all is_space (gap p) /\ expo p <> [] /\ all is_digit (expo p).
Proof. intros p [[_ [_ [A [B C]]]]|[_ [A [B C]]]]; [auto|]. rewrite A. split; [constructor|auto]. Qed.
Lemma rest_parts : forall p q, good p -> good q -> rest p = rest q -> expo p = expo q.
Proof.
  assert (X : forall g1 e1 g2 e2 : text, all is_space g1 -> all is_space g2 -> all is_digit e1 -> all is_digit e2 -> e1 <> [] -> e2 <> [] ->
    g1 ++ e1 = g2 ++ e2 -> e1 = e2).
  { induction g1 as [|a g1 IH]; intros e1 [|b g2] e2 S1 S2 D1 D2 N1 N2 E.
    - exact E.
    - cbn in E. subst e1. exfalso. inversion D1; subst. inversion S2; subst. rewrite (digit_not_space b) in *; congruence.
    - cbn in E. subst e2. exfalso. inversion D2; subst. inversion S1; subst. rewrite (digit_not_space a) in *; congruence.
    - cbn in E. injection E as -> E. inversion S1; subst. inversion S2; subst. exact (IH e1 g2 e2 H2 H4 D1 D2 N1 N2 E). }
  intros p q Gp Gq E. destruct (good_digits p Gp) as [A [B C]]. destruct (good_digits q Gq) as [A' [B' C']]. exact (X _ _ _ _ A A' C C' B B' E).
Qed.
Lemma good_inj : forall p q, good p -> good q -> power_text p = power_text q -> base p = base q /\ expo p = expo q.
Proof.
  assert (X : forall p q, good p -> good q -> power_text p = power_text q -> length (base q) <= length (base p)).
  { intros p q Gp Gq E. destruct (le_lt_dec (length (base q)) (length (base p))) as [|L]; [assumption|]. exfalso.
    destruct (good_base q Gq) as [_ [C [NL _]]]. assert (DS : ds_at (power_text q) (length (base p))) by (rewrite <- E; apply power_stars).
    unfold power_text in DS. apply ds_app in DS. destruct DS as [[_ H]|[[E' [H _]]|[L' _]]]; [exact (C _ H)|exact (NL _ E' H)|lia]. }
  intros p q Gp Gq E. assert (L : length (base p) = length (base q)) by (apply Nat.le_antisymm; apply X; auto).
  assert (EB : base p = base q /\ rest p = rest q).
  { unfold power_text in E. fold (rest p) (rest q) in E.
    assert (Y : forall (a b c d : text), length a = length b -> a ++ c = b ++ d -> a = b /\ c = d).
    { induction a as [|u a IH]; intros [|v b] c d L' E'; cbn in L'; try lia; [auto|]. cbn in E'. injection E' as -> E'.
      destruct (IH b c d ltac:(lia) E') as [-> ->]. auto. }
    destruct (Y _ _ _ _ L E) as [EB ER]. split; [exact EB|]. cbn in ER. injection ER as ER. exact ER. }
  split; [apply EB|]. apply rest_parts; tauto.
Qed.

(** no unreplaced power other than [q] itself contains [q] *)
Definition no_conflict (D : text -> bool) (l : pieces) (q : power) : Prop :=
  forall t p, In (t, p) l -> D (power_text p) = false -> (exists x, base p = x ++ base q) -> (exists y, rest p = rest q ++ y) ->
    power_text p = power_text q.
Definition add (D : text -> bool) (q : power) (s : text) : bool := D s || text_eqb s (power_text q).

Lemma before_len : forall D t p l t', length (t ++ shown D p) <= length (before D ((t, p) :: l) ++ t').
Proof. intros. unfold before. cbn [map List.concat fst snd]. rewrite !app_length. lia. Qed.

Lemma replace_render : forall D q l first tail, separated first l tail -> good q -> no_conflict D l q ->
  replace (power_text q) (product_text q) (render D l tail) = render (add D q) l tail.
Proof.
  intros D q l. induction l as [|[t p] l IH]; intros first tail S G NC.
  - unfold render, before; cbn [map List.concat app]. rewrite <- (app_nil_r tail) at 1. rewrite replace_none; [cbn; apply app_nil_r|].
    intros k Hk O. rewrite app_nil_r in O. destruct (occ_position D first [] tail q k S (good_shape q G) O) as [l1 [t [p [l2 [E _]]]]]. destruct l1; discriminate.
  - assert (Gp := separated_good _ _ _ _ _ S). assert (SL : separated false l tail) by (destruct S as [_ [_ [_ S]]]; exact S).
    assert (NCL : no_conflict D l q) by (intros t' p' I; apply (NC t' p'); right; exact I).
    rewrite !render_cons. destruct (D (power_text p)) eqn:DP; [|destruct (text_eqb (power_text p) (power_text q)) eqn:EQ].
    + assert (SH : shown (add D q) p = shown D p) by (unfold shown, add; rewrite DP; reflexivity). rewrite SH.
      rewrite app_assoc. rewrite replace_none; [rewrite (IH false tail SL G NCL), <- app_assoc; reflexivity|].
      intros k Hk O. rewrite <- app_assoc, <- render_cons in O.
      destruct (occ_position D first _ tail q k S (good_shape q G) O) as [l1 [t' [p' [l2 [E [DP' [K _]]]]]]].
      destruct l1 as [|[t1 p1] l1].
      * cbn in E. injection E as -> -> _. congruence.
      * cbn in E. injection E as <- <- _. assert (X := before_len D t p l1 t'). exact (Nat.lt_irrefl _ (Nat.lt_le_trans _ _ _ Hk (Nat.le_trans _ _ _ X K))).
    + apply text_eqb_true in EQ. assert (SH : shown (add D q) p = product_text q).
      { unfold shown, add. rewrite DP, (proj2 (text_eqb_true _ _) EQ). cbn. destruct (good_inj p q Gp G EQ) as [EB EE]. unfold product_text. rewrite EB, EE. reflexivity. }
      assert (SH' : shown D p = power_text q) by (unfold shown; rewrite DP; exact EQ). rewrite SH.
      rewrite replace_none.
      * rewrite SH', replace_hit; [rewrite (IH false tail SL G NCL); reflexivity|]. destruct (power_stars q) as [X _]. intros E. rewrite E in X. destruct (length (base q)); discriminate.
      * intros k Hk O. rewrite <- render_cons in O.
        destruct (occ_position D first _ tail q k S (good_shape q G) O) as [l1 [t' [p' [l2 [E [DP' [K _]]]]]]].
        destruct l1 as [|[t1 p1] l1].
        -- cbn in E. injection E as -> -> _. cbn in K. lia.
        -- cbn in E. injection E as <- <- _. assert (X := before_len D t p l1 t'). rewrite app_length in X. apply (Nat.lt_irrefl k). apply (Nat.lt_le_trans _ _ _ Hk). refine (Nat.le_trans _ _ _ _ K). refine (Nat.le_trans _ _ _ _ X). apply Nat.le_add_r.
    + assert (SH : shown (add D q) p = shown D p) by (unfold shown, add; rewrite DP, EQ; reflexivity). rewrite SH.
      rewrite app_assoc. rewrite replace_none; [rewrite (IH false tail SL G NCL), <- app_assoc; reflexivity|].
      intros k Hk O. rewrite <- app_assoc, <- render_cons in O.
      destruct (occ_position D first _ tail q k S (good_shape q G) O) as [l1 [t' [p' [l2 [E [DP' [K [X Y]]]]]]]].
      destruct l1 as [|[t1 p1] l1].
      * cbn in E. injection E as <- <- _. assert (Z := NC t p (or_introl eq_refl) DP' X Y). apply text_eqb_true in Z. congruence.
      * cbn in E. injection E as <- <- _. assert (Z := before_len D t p l1 t'). exact (Nat.lt_irrefl _ (Nat.lt_le_trans _ _ _ Hk (Nat.le_trans _ _ _ Z K))).
Qed.

Definition pair_of (p : power) : text * text := (power_text p, product_text p).
Definition adds (D : text -> bool) (qs : list power) : text -> bool := fold_left add qs D.

Lemma replace_many : forall qs D l first tail, separated first l tail -> Forall good qs ->
  (forall qs1 q qs2, qs = qs1 ++ q :: qs2 -> no_conflict (adds D qs1) l q) ->
  replace_each (map pair_of qs) (render D l tail) = render (adds D qs) l tail.
Proof.
  induction qs as [|q qs IH]; intros D l first tail S G NC; [reflexivity|]. inversion G; subst.
  unfold replace_each in *. cbn [map fold_left fst snd pair_of]. rewrite (replace_render D q l first tail S); [|assumption|apply (NC [] q qs eq_refl)].
  cbn [adds fold_left]. apply (IH (add D q) l first tail S); [assumption|]. intros qs1 q' qs2 E. apply (NC (q :: qs1) q' qs2). rewrite E. reflexivity.
Qed.
Lemma adds_true : forall qs D s, adds D qs s = true <-> D s = true \/ In s (map power_text qs).
Proof.
  induction qs as [|q qs IH]; intros D s; cbn [adds fold_left map In]; [tauto|]. fold (adds (add D q) qs). rewrite IH. unfold add. rewrite orb_true_iff, text_eqb_true.
  split; [intros [[H|H]|H]|intros [H|[H|H]]]; auto.
Qed.
Lemma render_all : forall D l tail, (forall t p, In (t, p) l -> D (power_text p) = true) -> render D l tail = target l tail.
Proof.
  intros D l tail H. unfold render, before, target. f_equal. f_equal. apply map_ext_in. intros [t p] I. cbn. unfold shown. rewrite (H t p I). reflexivity.
Qed.
Lemma render_none : forall l tail, render (fun _ => false) l tail = source l tail.
Proof. reflexivity. Qed.

(** *** longest first *)

Lemma insert_perm : forall a l, Permutation (insert_by_len a l) (a :: l).
Proof. induction l as [|b l IH]; cbn; [reflexivity|]. destruct (Nat.leb _ _); [reflexivity|]. rewrite IH. apply perm_swap. Qed.
Lemma sort_perm : forall l, Permutation (sort_by_len l) l.
Proof. induction l as [|a l IH]; cbn; [reflexivity|]. rewrite insert_perm, IH. reflexivity. Qed.
Definition asc (l : list (text * text)) : Prop := forall l1 a l2 b, l = l1 ++ a :: l2 -> In b l1 -> length (fst b) <= length (fst a).
Fixpoint asc' (l : list (text * text)) : Prop := match l with [] => True | a :: l' => (forall b, In b l' -> length (fst a) <= length (fst b)) /\ asc' l' end.
Lemma insert_asc : forall a l, asc' l -> asc' (insert_by_len a l).
Proof.
  intros a; induction l as [|b l IH]; intros H; cbn; [split; [intros b []|exact I]|]. destruct H as [H1 H2].
  destruct (Nat.leb_spec (length (fst a)) (length (fst b))) as [L|L].
  - split; [|split; assumption]. intros c [<-|Hc]; [exact L|]. specialize (H1 c Hc). lia.
  - split; [|apply IH, H2]. intros c Hc. apply (Permutation_in _ (insert_perm a l)) in Hc. destruct Hc as [<-|Hc]; [lia|apply H1, Hc].
Qed.
Lemma sort_asc : forall l, asc' (sort_by_len l).
Proof. induction l; [exact I|]. cbn. apply insert_asc, IHl. Qed.
Lemma asc_asc : forall l, asc' l -> asc l.
Proof.
  intros l H l1. revert l H. induction l1 as [|c l1 IH]; intros l H a l2 b E Hb; [destruct Hb|]. subst l. destruct H as [H1 H2].
  destruct Hb as [<-|Hb]; [apply H1, in_or_app; right; left; reflexivity|]. exact (IH _ H2 a l2 b eq_refl Hb).
Qed.
Lemma longest_first_spec : forall l, Permutation (longest_first l) l /\
  forall l1 a l2 b, longest_first l = l1 ++ a :: l2 -> In b l2 -> length (fst b) <= length (fst a).
Proof.
  intros l. split; [unfold longest_first; rewrite <- Permutation_rev; apply sort_perm|].
  intros l1 a l2 b E Hb. unfold longest_first in E. apply (f_equal (@rev _)) in E. rewrite rev_involutive, rev_app_distr in E. cbn in E. rewrite <- app_assoc in E.
  apply (asc_asc _ (sort_asc l) (rev l2) a (rev l1) b E). apply -> in_rev. exact Hb.
Qed.

Lemma replace_longest : forall l first tail, separated first l tail ->
  replace_each (longest_first (map pair_of (map snd l))) (source l tail) = target l tail.
Proof.
  intros l first tail S. destruct (longest_first_spec (map pair_of (map snd l))) as [P O].
  destruct (Permutation_map_inv _ _ P) as [qs [E PQ]]. rewrite E in *. rewrite <- render_none.
  assert (GA : forall p, In p (map snd l) -> good p).
  { clear - S. revert first S. induction l as [|[t p] l IH]; intros first S q H; [destruct H|]. destruct H as [<-|H]; [exact (separated_good _ _ _ _ _ S)|].
    destruct S as [_ [_ [_ S]]]. exact (IH false S q H). }
  rewrite (replace_many qs (fun _ => false) l first tail S).
  - apply render_all. intros t p I. apply adds_true. right. apply in_map. apply (Permutation_in _ PQ). apply in_map_iff. exists (t, p). auto.
  - apply Forall_forall. intros q Hq. apply GA, (Permutation_in _ (Permutation_sym PQ)), Hq.
  - intros qs1 q qs2 EQ t p I DP [x X] [y Y].
    assert (N : In p (q :: qs2)).
    { assert (IP : In p qs) by (apply (Permutation_in _ PQ), in_map_iff; exists (t, p); auto). rewrite EQ in IP. apply in_app_or in IP. destruct IP as [IP|IP]; [|exact IP].
      exfalso. assert (Z : adds (fun _ => false) qs1 (power_text p) = true) by (apply adds_true; right; apply in_map, IP). congruence. }
    assert (L : length (power_text p) <= length (power_text q)).
    { destruct N as [<-|N]; [lia|]. apply (O (map pair_of qs1) (pair_of q) (map pair_of qs2) (pair_of p)); [rewrite EQ, map_app; reflexivity|apply in_map, N]. }
    rewrite !power_len, X, Y, !app_length in L. destruct x; [|cbn in L; lia]. destruct y; [|cbn in L; lia]. rewrite app_nil_r in Y.
    apply text_parts; assumption.
Qed.

(** ** The patterns *)

Lemma run_all : forall p s m, m <= run p s -> exists a b, s = a ++ b /\ length a = m /\ all p a.
Proof.
  intros p. induction s as [|c s IH]; intros m H; cbn in H.
  - exists [], []. split; [reflexivity|]. split; [cbn; lia|constructor].
  - destruct m as [|m]; [exists [], (c :: s); split; [reflexivity|]; split; [reflexivity|constructor]|].
    destruct (p c) eqn:E; [|lia]. destruct (IH m ltac:(lia)) as [a [b [E1 [E2 E3]]]]. exists (c :: a), b. rewrite E1.
    split; [reflexivity|]. split; [cbn; lia|constructor; assumption].
Qed.
Lemma skipn_len : forall (a b : text), skipn (length a) (a ++ b) = b.
Proof. intros. rewrite skipn_app, skipn_all, Nat.sub_diag. reflexivity. Qed.

Lemma star_some : forall p r s n, match_seq (Star p :: r) s = Some n ->
  exists a b k, s = a ++ b /\ all p a /\ match_seq r b = Some k /\ n = length a + k.
Proof.
  intros p r s n H. cbn in H. assert (X : forall m, m <= run p s -> (fix down (n : nat) : option nat :=
    match match_seq r (skipn n s) with Some k => Some (n + k) | None => match n with O => None | S n' => down n' end end) m = Some n ->
    exists a b k, s = a ++ b /\ all p a /\ match_seq r b = Some k /\ n = length a + k).
  { clear H. induction m as [|m IH]; intros L H.
    - destruct (match_seq r (skipn 0 s)) as [k|] eqn:E; [|discriminate]. injection H as <-. exists [], s, k. split; [reflexivity|]. split; [constructor|auto].
    - destruct (match_seq r (skipn (S m) s)) as [k|] eqn:E; [|apply IH; [lia|exact H]]. injection H as <-.
      destruct (run_all p s (S m) L) as [a [b [E1 [E2 E3]]]]. exists a, b, k. rewrite E1 in E. rewrite <- E2, skipn_len in E. rewrite E2. auto. }
  exact (X _ (le_n _) H).
Qed.
Lemma plus_some : forall p r s n, match_seq (Plus p :: r) s = Some n ->
  exists a b k, s = a ++ b /\ all p a /\ a <> [] /\ match_seq r b = Some k /\ n = length a + k.
Proof.
  intros p r s n H. cbn in H. assert (X : forall m, m <= run p s -> (fix down (n : nat) : option nat :=
    match n with O => None | S n' => match match_seq r (skipn n s) with Some k => Some (n + k) | None => down n' end end) m = Some n ->
    exists a b k, s = a ++ b /\ all p a /\ a <> [] /\ match_seq r b = Some k /\ n = length a + k).
  { clear H. induction m as [|m IH]; intros L H; [discriminate|].
    destruct (match_seq r (skipn (S m) s)) as [k|] eqn:E; [|apply IH; [lia|exact H]]. injection H as <-.
    destruct (run_all p s (S m) L) as [a [b [E1 [E2 E3]]]]. exists a, b, k. rewrite E1 in E. rewrite <- E2, skipn_len in E. rewrite E2.
    split; [exact E1|]. split; [exact E3|]. split; [intros ->; discriminate|]. auto. }
  exact (X _ (le_n _) H).
Qed.
Lemma chr_some : forall c r s n, match_seq (chr c :: r) s = Some n -> exists b k, s = c :: b /\ match_seq r b = Some k /\ n = S k.
Proof.
  intros c r [|d s] n H; [discriminate|]. cbn in H. destruct (Ascii.eqb c d) eqn:E; [|discriminate]. apply Ascii.eqb_eq in E. subst d.
  destruct (match_seq r s) as [k|] eqn:E; [|discriminate]. injection H as <-. exists s, k. auto.
Qed.

Lemma run_eq : forall p a s, all p a -> (match s with c :: _ => p c = false | [] => True end) -> run p (a ++ s) = length a.
Proof.
  intros p a s H N. induction a as [|c a IH]; cbn.
  - destruct s as [|c s]; [reflexivity|]. cbn. rewrite N. reflexivity.
  - inversion H; subst. rewrite H2, IH; auto.
Qed.
Lemma star_hit : forall p r a s k, all p a -> (match s with c :: _ => p c = false | [] => True end) -> match_seq r s = Some k ->
  match_seq (Star p :: r) (a ++ s) = Some (length a + k).
Proof. intros p r a s k H N M. cbn. rewrite (run_eq p a s H N). destruct (length a) eqn:E; rewrite <- E, skipn_len, M; reflexivity. Qed.
Lemma plus_hit : forall p r a s k, a <> [] -> all p a -> (match s with c :: _ => p c = false | [] => True end) -> match_seq r s = Some k ->
  match_seq (Plus p :: r) (a ++ s) = Some (length a + k).
Proof.
  intros p r a s k NE H N M. cbn. rewrite (run_eq p a s H N). destruct (length a) eqn:E; [destruct a; [contradiction|discriminate]|].
  rewrite <- E, skipn_len, M. reflexivity.
Qed.
Lemma chr_hit : forall c r s k, match_seq r s = Some k -> match_seq (chr c :: r) (c :: s) = Some (S k).
Proof. intros. cbn. rewrite Ascii.eqb_refl, H. reflexivity. Qed.

Lemma powers_sound : forall s n, match_alt pattern_powers s = Some n -> exists q r, shape q /\ s = power_text q ++ r /\ n = length (power_text q).
Proof.
  intros s n H. unfold pattern_powers in H. cbn [match_alt] in H.
  destruct (match_seq [Plus is_word; chr "*"; chr "*"; Star is_space; Plus is_digit] s) as [m|] eqn:E.
  - injection H as ->. apply plus_some in E. destruct E as [a [s1 [k [-> [A [NA [E ->]]]]]]].
    apply chr_some in E. destruct E as [s2 [k2 [-> [E ->]]]]. apply chr_some in E. destruct E as [s3 [k3 [-> [E ->]]]].
    apply star_some in E. destruct E as [g [s4 [k4 [-> [G [E ->]]]]]]. apply plus_some in E. destruct E as [e [s5 [k5 [-> [D [ND [E ->]]]]]]].
    cbn in E. injection E as <-. exists (Power a g e), s5. split; [split; [left; auto|auto]|]. unfold power_text; cbn [base gap expo].
    split; [rewrite <- !app_assoc; reflexivity|]. rewrite !app_length. cbn. lia.
  - destruct (match_seq [chr "("; Plus not_paren; chr ")"; chr "*"; chr "*"; Plus is_digit] s) as [m|] eqn:E2; [|discriminate]. injection H as ->.
    apply chr_some in E2. destruct E2 as [s1 [k1 [-> [H ->]]]]. apply plus_some in H. destruct H as [i [s2 [k2 [-> [A [NA [H ->]]]]]]].
    apply chr_some in H. destruct H as [s3 [k3 [-> [H ->]]]]. apply chr_some in H. destruct H as [s4 [k4 [-> [H ->]]]]. apply chr_some in H. destruct H as [s5 [k5 [-> [H ->]]]].
    apply plus_some in H. destruct H as [e [s6 [k6 [-> [D [ND [H ->]]]]]]]. cbn in H. injection H as <-.
    exists (Power (txt "(" ++ i ++ txt ")") [] e), s6. split; [split; [right; exists i; auto|cbn; split; [constructor|auto]]|]. unfold power_text; cbn [base gap expo].
    split; [cbn; rewrite <- !app_assoc; reflexivity|]. rewrite !app_length. cbn. lia.
Qed.

Lemma space_not_digit : forall c, is_digit c = true -> is_space c = false.
Proof. exact digit_not_space. Qed.
Lemma powers_complete : forall p r, good p -> no_digit_first r -> match_alt pattern_powers (power_text p ++ r) = Some (length (power_text p)).
Proof.
  intros p r [[NB [W [G [NE D]]]]|[[inner [EB [NI [NP _]]]] [G [NE D]]]] ND; unfold pattern_powers; cbn [match_alt].
  - assert (M : match_seq [Plus is_word; chr "*"; chr "*"; Star is_space; Plus is_digit] (power_text p ++ r) = Some (length (base p) + S (S (length (gap p) + (length (expo p) + 0))))).
    { unfold power_text. rewrite <- !app_assoc. apply plus_hit; [assumption|assumption|reflexivity|]. apply chr_hit, chr_hit. apply star_hit; [assumption| |].
      - destruct (expo p) as [|c e]; [contradiction|]. cbn. apply digit_not_space. inversion D; assumption.
      - apply plus_hit; [assumption|assumption|exact ND|reflexivity]. }
    rewrite M. f_equal. unfold power_text. rewrite !app_length. cbn. lia.
  - destruct (match_seq [Plus is_word; chr "*"; chr "*"; Star is_space; Plus is_digit] (power_text p ++ r)) as [m|] eqn:E.
    + exfalso. apply plus_some in E. destruct E as [a [s1 [k [E [A [NA _]]]]]]. unfold power_text in E. rewrite EB in E. destruct a as [|c a]; [contradiction|].
      cbn in E. injection E as <- _. inversion A; subst. discriminate.
    + assert (M : match_seq [chr "("; Plus not_paren; chr ")"; chr "*"; chr "*"; Plus is_digit] (power_text p ++ r) = Some (S (length inner + S (S (S (length (expo p) + 0)))))).
      { unfold power_text. rewrite EB, G. rewrite <- !app_assoc. apply chr_hit. apply plus_hit; [assumption|assumption|reflexivity|]. apply chr_hit, chr_hit, chr_hit.
        cbn [app]. apply plus_hit; [assumption|assumption|exact ND|reflexivity]. }
      rewrite M. f_equal. unfold power_text. rewrite EB, G, !app_length. cbn. lia.
Qed.

Lemma findall_skip : forall rs a s, findall_from (length a) rs (a ++ s) = findall_from 0 rs s.
Proof. induction a; intros; [destruct s; reflexivity|]. cbn. apply IHa. Qed.
Lemma findall_none : forall rs a s, (forall k, k < length a -> match_alt rs (skipn k (a ++ s)) = None) -> findall rs (a ++ s) = findall rs s.
Proof.
  unfold findall. induction a as [|c a IH]; intros s H; [reflexivity|]. cbn [app findall_from].
  assert (X := H 0 ltac:(cbn; lia)). cbn [skipn app] in X. rewrite X. apply IH. intros k L. apply (H (S k)). cbn; lia.
Qed.
Lemma findall_hit : forall rs p s, p <> [] -> match_alt rs (p ++ s) = Some (length p) -> findall rs (p ++ s) = p :: findall rs s.
Proof.
  intros rs p s N H. unfold findall. destruct p as [|c p]; [contradiction|]. cbn [app findall_from]. cbn [app length] in H. rewrite H.
  cbn [firstn]. rewrite findall_skip. f_equal. f_equal. rewrite firstn_app, firstn_all, Nat.sub_diag. cbn. apply app_nil_r.
Qed.

Lemma power_text_nonempty : forall q, power_text q <> [].
Proof. intros q E. destruct (power_stars q) as [X _]. rewrite E in X. destruct (length (base q)); discriminate. Qed.
Lemma no_digit_render : forall l tail, separated false l tail -> no_digit_first (render (fun _ => false) l tail).
Proof.
  intros [|[t p] l] tail H.
  - destruct H as [_ [H|H]]; [discriminate|exact H].
  - assert (G := separated_good _ _ _ _ _ H). destruct H as [_ [[H|H] _]]; [discriminate|]. rewrite render_cons. unfold shown, power_text.
    destruct t as [|c t]; [|exact H]. destruct (base p) as [|c b] eqn:E; [destruct (good_base p G) as [X _]; congruence|]. exact H.
Qed.

Lemma findall_gen : forall rs,
  (forall s n, match_alt rs s = Some n -> exists q r, shape q /\ s = power_text q ++ r /\ n = length (power_text q)) ->
  forall l first tail, separated first l tail ->
  (forall t p r, In (t, p) l -> no_digit_first r -> match_alt rs (power_text p ++ r) = Some (length (power_text p))) ->
  findall rs (source l tail) = map power_text (map snd l).
Proof.
  intros rs sound l. induction l as [|[t p] l IH]; intros first tail S complete; rewrite <- render_none.
  - unfold render, before. cbn [map List.concat app]. rewrite <- (app_nil_r tail). rewrite findall_none; [reflexivity|].
    intros k L. destruct (match_alt rs (skipn k (tail ++ []))) as [n|] eqn:E; [|reflexivity]. exfalso. rewrite app_nil_r in E.
    destruct (sound _ _ E) as [q [r [Q [ER _]]]]. assert (O : occ (power_text q) (render (fun _ => false) [] tail) k).
    { exists (firstn k tail), r. split; [|rewrite firstn_length; lia]. rewrite <- ER. symmetry. apply firstn_skipn. }
    destruct (occ_position _ first [] tail q k S Q O) as [l1 [t [p [l2 [X _]]]]]. destruct l1; discriminate.
  - assert (G := separated_good _ _ _ _ _ S). assert (SL : separated false l tail) by (destruct S as [_ [_ [_ S]]]; exact S).
    rewrite render_cons. rewrite findall_none.
    + change (shown (fun _ => false) p) with (power_text p). rewrite findall_hit.
      * cbn [map snd]. rewrite render_none, (IH false tail SL (fun t' p' r' I => complete t' p' r' (or_intror I))). reflexivity.
      * apply power_text_nonempty.
      * apply (complete t); [left; reflexivity|]. apply no_digit_render, SL.
    + intros k L. rewrite <- render_cons. destruct (match_alt rs (skipn k _)) as [n|] eqn:E; [|reflexivity]. exfalso.
      destruct (sound _ _ E) as [q [r [Q [ER _]]]]. assert (O : occ (power_text q) (render (fun _ => false) ((t, p) :: l) tail) k).
      { exists (firstn k (render (fun _ => false) ((t, p) :: l) tail)), r. split; [|rewrite firstn_length, render_cons, app_length; lia]. rewrite <- ER. symmetry. apply firstn_skipn. }
      destruct (occ_position _ first _ tail q k S Q O) as [l1 [t' [p' [l2 [X [_ [K _]]]]]]]. destruct l1 as [|[t1 p1] l1].
      * cbn in X. injection X as <- _ _. cbn in K. lia.
      * cbn in X. injection X as <- <- _. assert (Z := before_len (fun _ => false) t p l1 t'). rewrite app_length in Z.
        apply (Nat.lt_irrefl k). apply (Nat.lt_le_trans _ _ _ L). refine (Nat.le_trans _ _ _ _ K). refine (Nat.le_trans _ _ _ _ Z). apply Nat.le_add_r.
Qed.

Lemma findall_source : forall l first tail, separated first l tail -> findall pattern_powers (source l tail) = map power_text (map snd l).
Proof.
  intros l first tail S. apply (findall_gen _ powers_sound l first tail S). intros t p r I. apply powers_complete.
  clear r. revert first S. induction l as [|[t' p'] l IH]; intros first S; [destruct I|]. destruct I as [E|I].
  - injection E as -> ->. exact (separated_good _ _ _ _ _ S).
  - destruct S as [_ [_ [_ S]]]. exact (IH I false S).
Qed.

(** ** The expansion of one power *)

Lemma split_skip : forall sep cur a s, split_from (length a) sep cur (a ++ s) = split_from 0 sep cur s.
Proof. induction a; intros; [destruct s; reflexivity|]. cbn. apply IHa. Qed.
Lemma split_none : forall sep a cur s, (forall k, k < length a -> ~ occ sep (a ++ s) k) -> split_from 0 sep cur (a ++ s) = split_from 0 sep (rev a ++ cur) s.
Proof.
  induction a as [|c a IH]; intros cur s H; [reflexivity|]. cbn [app split_from]. destruct (starts sep (c :: a ++ s)) eqn:E.
  - exfalso. apply (H 0); [cbn; lia|]. apply starts_occ; [exact E|cbn; lia].
  - rewrite IH.
    + cbn [rev]. rewrite <- app_assoc. reflexivity.
    + intros k Hk [x [r [O L]]]. apply (H (S k)); [cbn; lia|]. exists (c :: x), r. cbn. rewrite O. auto.
Qed.
Lemma split_two : forall sep a b, sep <> [] -> (forall k, k < length a -> ~ occ sep (a ++ sep ++ b) k) -> (forall k, ~ occ sep b k) ->
  split sep (a ++ sep ++ b) = [a; b].
Proof.
  intros sep a b N HA HB. unfold split. rewrite (split_none sep a [] (sep ++ b) HA). destruct sep as [|c sep]; [contradiction|].
  assert (E : starts (c :: sep) ((c :: sep) ++ b) = true) by (apply starts_true; exists b; reflexivity).
  cbn [app split_from] in *. rewrite E. cbn [List.length pred]. rewrite split_skip. rewrite <- (app_nil_r b) at 1. rewrite split_none.
  - cbn. rewrite !app_nil_r, !rev_involutive. reflexivity.
  - intros k _ O. rewrite app_nil_r in O. exact (HB k O).
Qed.

Lemma lstrip_space : forall a s, all is_space a -> lstrip (a ++ s) = lstrip s.
Proof. induction a; intros s H; [reflexivity|]. inversion H; subst. cbn. rewrite H2. apply IHa. assumption. Qed.
Lemma lstrip_digit : forall s, s <> [] -> all is_digit s -> lstrip s = s.
Proof. intros [|c s] N H; [contradiction|]. inversion H; subst. cbn. rewrite (digit_not_space c H2). reflexivity. Qed.
Lemma all_rev : forall f s, all f s -> all f (rev s).
Proof. intros f s H. apply Forall_rev, H. Qed.
Lemma strip_digits : forall g e, all is_space g -> e <> [] -> all is_digit e -> strip (g ++ e) = e.
Proof.
  intros g e G N D. unfold strip. rewrite (lstrip_space g e G), (lstrip_digit e N D). rewrite lstrip_digit; [apply rev_involutive| |apply all_rev, D].
  intros E. apply N. rewrite <- (rev_involutive e), E. reflexivity.
Qed.
Lemma digits_value_ok : forall s n, all is_digit s -> digits_value n s = Ok (fold_left (fun n c => n * 10 + (nat_of_ascii c - nat_of_ascii "0")) s n).
Proof. induction s as [|c s IH]; intros n H; [reflexivity|]. inversion H; subst. cbn [digits_value fold_left]. rewrite H2. rewrite IH by assumption. reflexivity. Qed.
Lemma py_int_digits : forall g e, all is_space g -> e <> [] -> all is_digit e -> py_int (g ++ e) = Ok (Z.of_nat (decimal e)).
Proof.
  intros g e G N D. unfold py_int. rewrite strip_digits by assumption. destruct e as [|c e]; [contradiction|]. inversion D; subst.
  destruct (Ascii.eqb c "-") eqn:E1; [apply Ascii.eqb_eq in E1; subst; discriminate|].
  destruct (Ascii.eqb c "+") eqn:E2; [apply Ascii.eqb_eq in E2; subst; discriminate|].
  unfold unsigned. rewrite H1, digits_value_ok by assumption. reflexivity.
Qed.
Lemma all_nospace : forall f s, all f s -> all f (nospace s).
Proof. intros f s H. unfold all, nospace in *. rewrite Forall_forall in *. intros c I. apply filter_In in I. apply H, I. Qed.
Lemma digits_nospace : forall s, all is_digit s -> nospace s = s.
Proof. intros s H. apply nospace_word. unfold all in *. rewrite Forall_forall in *. intros c I. apply digit_word, H, I. Qed.

Lemma expand_good : forall p, good p -> expand_power (power_text p) = Ok (product_text p).
Proof.
  intros p G. destruct (good_nospace p G) as [NB [CB [LB FB]]]. destruct (good_digits p G) as [S [N D]].
  unfold expand_power, power_text. rewrite !nospace_app. change (nospace (txt "**")) with (txt "**").
  assert (R : forall k, nth_error (nospace (gap p) ++ nospace (expo p)) k <> Some "*"%char).
  { intros k E. apply nth_error_In, in_app_or in E. assert (A := all_nospace _ _ S). assert (B := all_nospace _ _ D). unfold all in A, B. rewrite Forall_forall in A, B.
    destruct E as [E|E]; [apply A in E|apply B in E]; discriminate. }
  rewrite split_two.
  - rewrite (digits_nospace _ D). rewrite py_int_digits by (try assumption; apply all_nospace, S). cbn [bind]. unfold copies. rewrite Nat2Z.id. reflexivity.
  - discriminate.
  - intros k L O. apply ds_occ in O. apply ds_app in O. destruct O as [[_ O]|[[E [O _]]|[L' _]]]; [exact (CB _ O)|exact (LB _ E O)|lia].
  - intros k O. apply ds_occ in O. exact (R k (proj1 O)).
Qed.
Lemma old_new_good : forall ps, Forall good ps -> old_new expand_power (map power_text ps) = Ok (map pair_of ps).
Proof. induction 1 as [|p ps H _ IH]; [reflexivity|]. cbn. rewrite (expand_good p H). cbn. rewrite IH. reflexivity. Qed.

Lemma separated_all_good : forall l first tail, separated first l tail -> Forall good (map snd l).
Proof.
  induction l as [|[t p] l IH]; intros first tail S; [constructor|]. constructor; [exact (separated_good _ _ _ _ _ S)|]. destruct S as [_ [_ [_ S]]]. exact (IH _ _ S).
Qed.

(** ** The second pattern *)

Lemma no_pow : forall s, ~ contains (txt "pow(") s -> findall pattern_pow s = [].
Proof.
  intros s H. rewrite <- (app_nil_r s). rewrite findall_none; [reflexivity|]. intros k L. rewrite app_nil_r.
  destruct (match_alt pattern_pow (skipn k s)) as [n|] eqn:E; [|reflexivity]. exfalso. apply H. unfold pattern_pow in E. cbn [match_alt] in E.
  destruct (match_seq _ (skipn k s)) as [m|] eqn:M in E; [|discriminate].
  apply chr_some in M. destruct M as [s1 [k1 [E1 [M _]]]]. apply chr_some in M. destruct M as [s2 [k2 [E2 [M _]]]].
  apply chr_some in M. destruct M as [s3 [k3 [E3 [M _]]]]. apply chr_some in M. destruct M as [s4 [k4 [E4 [M _]]]].
  exists (firstn k s), s4. rewrite <- (firstn_skipn k s) at 1. rewrite E1, E2, E3, E4. reflexivity.
Qed.

Lemma pow2mul_source : forall l tail, separated true l tail -> ~ contains (txt "pow(") (source l tail) ->
  pow2mul_text (source l tail) = Ok (target l tail).
Proof.
  intros l tail S NP. unfold pow2mul_text. rewrite (findall_source l true tail S), (old_new_good _ (separated_all_good _ _ _ S)). cbn [bind].
  rewrite (no_pow _ NP). cbn [old_new bind]. rewrite (replace_longest l true tail S). reflexivity.
Qed.

(** ** mprint_as_array *)

Lemma array_sound : forall s n, match_alt pattern_array s = Some n -> exists q r, shape q /\ s = power_text q ++ r /\ n = length (power_text q).
Proof.
  intros s n H. unfold pattern_array in H. cbn [match_alt] in H.
  destruct (match_seq [Plus is_word; chr "*"; chr "*"; Plus is_digit] s) as [m|] eqn:E; [|discriminate].
  injection H as ->. apply plus_some in E. destruct E as [a [s1 [k [-> [A [NA [E ->]]]]]]].
  apply chr_some in E. destruct E as [s2 [k2 [-> [E ->]]]]. apply chr_some in E. destruct E as [s3 [k3 [-> [E ->]]]].
  apply plus_some in E. destruct E as [e [s5 [k5 [-> [D [ND [E ->]]]]]]].
  cbn in E. injection E as <-. exists (Power a [] e), s5. split; [split; [left; auto|cbn; split; [constructor|auto]]|]. unfold power_text; cbn [base gap expo].
  split; [rewrite <- !app_assoc; reflexivity|]. rewrite !app_length. cbn. lia.
Qed.
Lemma array_complete : forall p r, word_power p -> gap p = [] -> no_digit_first r -> match_alt pattern_array (power_text p ++ r) = Some (length (power_text p)).
Proof.
  intros p r [NB [W [G [NE D]]]] E ND. unfold pattern_array; cbn [match_alt].
  assert (M : match_seq [Plus is_word; chr "*"; chr "*"; Plus is_digit] (power_text p ++ r) = Some (length (base p) + S (S (length (expo p) + 0)))).
  { unfold power_text. rewrite E. cbn [app]. rewrite <- !app_assoc. apply plus_hit; [assumption|assumption|reflexivity|]. apply chr_hit, chr_hit.
    apply plus_hit; [assumption|assumption|exact ND|reflexivity]. }
  rewrite M. f_equal. unfold power_text. rewrite E, !app_length. cbn. lia.
Qed.
Lemma expand_array_good : forall p, word_power p -> expand_array (power_text p) = Ok (product_text p).
Proof.
  intros p WP. assert (G : good p) by (left; exact WP). destruct (good_base p G) as [NB [CB [LB FB]]]. destruct (good_digits p G) as [S [N D]]. destruct (good_rest p G) as [R _].
  unfold expand_array, power_text. rewrite split_two.
  - rewrite py_int_digits by assumption. cbn [bind]. unfold copies, product_text. rewrite Nat2Z.id, (nospace_word (base p)) by apply WP. reflexivity.
  - discriminate.
  - intros k L O. apply ds_occ in O. apply ds_app in O. destruct O as [[_ O]|[[E [O _]]|[L' _]]]; [exact (CB _ O)|exact (LB _ E O)|lia].
  - intros k O. apply ds_occ in O. exact (R k (proj1 O)).
Qed.
Lemma old_new_array : forall ps, Forall word_power ps -> old_new expand_array (map power_text ps) = Ok (map pair_of ps).
Proof. induction 1 as [|p ps H _ IH]; [reflexivity|]. cbn. rewrite (expand_array_good p H). cbn. rewrite IH. reflexivity. Qed.

Lemma conflict_contains : forall p q, (exists x, base p = x ++ base q) -> (exists y, rest p = rest q ++ y) -> contains (power_text q) (power_text p).
Proof.
  intros p q [x X] [y Y]. exists x, y. unfold power_text. fold (rest p) (rest q). rewrite X, Y, <- !app_assoc. reflexivity.
Qed.
Lemma array_source : forall l tail, separated true l tail -> (forall t p, In (t, p) l -> word_power p /\ gap p = []) ->
  (forall t p t' q, In (t, p) l -> In (t', q) l -> contains (power_text q) (power_text p) -> power_text p = power_text q) ->
  (let! l' := old_new expand_array (findall pattern_array (source l tail)) in Ok (replace_each l' (source l tail))) = Ok (target l tail).
Proof.
  intros l tail S W NC. rewrite (findall_gen pattern_array array_sound l true tail S).
  2: { intros t p r I. destruct (W t p I). apply array_complete; assumption. }
  assert (F : Forall word_power (map snd l)).
  { apply Forall_forall. intros p I. apply in_map_iff in I. destruct I as [[t p'] [<- I]]. apply (W t p' I). }
  rewrite (old_new_array _ F). cbn [bind]. f_equal. rewrite <- render_none.
  rewrite (replace_many (map snd l) (fun _ => false) l true tail S).
  - apply render_all. intros t p I. apply adds_true. right. apply in_map. apply in_map_iff. exists (t, p). auto.
  - apply (separated_all_good _ _ _ S).
  - intros qs1 q qs2 E t p I _ X Y. assert (IQ : In q (map snd l)) by (rewrite E; apply in_or_app; right; left; reflexivity).
    apply in_map_iff in IQ. destruct IQ as [[t' q'] [<- IQ]]. apply (NC t p t' q' I IQ). apply conflict_contains; assumption.
Qed.
