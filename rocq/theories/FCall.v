(** Calls of pow in pow2mul. *)
From Coq Require Import List Bool Arith Ascii String Lia ZArith.
From Verif Require Import Num Py Pow2mul SpecPow FPow.
Import ListNotations.
Local Notation length := List.length.

Lemma pow3_pos : forall s k, occ (txt "pow") s k <->
  nth_error s k = Some "p"%char /\ nth_error s (k+1) = Some "o"%char /\ nth_error s (k+2) = Some "w"%char.
Proof.
  intros s k. split.
  - intros H. repeat split; [rewrite <- (Nat.add_0_r k)| |]; rewrite (occ_at _ _ _ _ H); try reflexivity; cbn; lia.
  - intros [A [B C]]. assert (L : k + 2 < length s) by (apply nth_error_Some; congruence).
    apply occ_of_nth; [cbn; lia|]. intros i Hi. cbn in Hi. destruct i as [|[|[|i]]]; [rewrite Nat.add_0_r; exact A|exact B|exact C|lia].
Qed.
Definition letter (c : ascii) : Prop := c = "p"%char \/ c = "o"%char \/ c = "w"%char.
Lemma pow3_sep : forall a c b k, ~ letter c -> occ (txt "pow") (a ++ c :: b) k ->
  occ (txt "pow") a k \/ (exists k', k = length a + 1 + k' /\ occ (txt "pow") b k').
Proof.
  intros a c b k N H. apply pow3_pos in H. destruct H as [A [B C]].
  assert (X : forall i d, nth_error (a ++ c :: b) i = Some d -> letter d -> i < length a \/ length a < i).
  { intros i d E PD. destruct (Nat.eq_dec i (length a)) as [->|]; [|lia]. exfalso. rewrite nth_error_app2 in E by lia. rewrite Nat.sub_diag in E. cbn in E. injection E as ->. exact (N PD). }
  assert (X0 := X _ _ A ltac:(unfold letter; auto)). assert (X1 := X _ _ B ltac:(unfold letter; auto)). assert (X2 := X _ _ C ltac:(unfold letter; auto)). clear X.
  destruct X2 as [X2|X2].
  - left. apply pow3_pos. rewrite nth_error_app1 in A by lia. rewrite nth_error_app1 in B by lia. rewrite nth_error_app1 in C by lia. auto.
  - assert (length a < k) by lia. right. exists (k - length a - 1). split; [lia|]. apply pow3_pos.
    assert (Y : forall i, nth_error (a ++ c :: b) (k + i) = nth_error b (k - length a - 1 + i)).
    { intros i. rewrite nth_error_app2 by lia. replace (k + i - length a) with (S (k - length a - 1 + i)) by lia. reflexivity. }
    rewrite <- (Nat.add_0_r k) in A. rewrite Y in A, B, C. rewrite Nat.add_0_r in A. auto.
Qed.
Lemma pow3_end : forall t k, ~ contains (txt "pow") t -> occ (txt "pow") (t ++ txt "pow") k -> k = length t.
Proof.
  intros t k N H. assert (H' := H). apply pow3_pos in H. destruct H as [A [B C]].
  assert (L : k + 2 < length (t ++ txt "pow")) by (apply nth_error_Some; congruence). rewrite app_length in L. cbn in L.
  destruct (Nat.eq_dec k (length t)) as [E|NE]; [exact E|]. exfalso.
  destruct (le_lt_dec (length t) (k + 2)) as [G|G].
  - destruct (Nat.eq_dec (k + 2) (length t)) as [E|NE2].
    + rewrite nth_error_app2 in C by lia. replace (k + 2 - length t) with 0 in C by lia. discriminate.
    + rewrite nth_error_app2 in B by lia. replace (k + 1 - length t) with 0 in B by lia. discriminate.
  - apply N, contains_occ. exists k. apply pow3_pos. rewrite nth_error_app1 in A by lia. rewrite nth_error_app1 in B by lia. rewrite nth_error_app1 in C by lia. auto.
Qed.
Ltac not_letter := let Q := fresh in unfold letter; intros [Q|[Q|Q]]; discriminate.

Lemma nopow_iff : forall s, ~ contains (txt "pow") s <-> forall k, ~ occ (txt "pow") s k.
Proof. intros s. rewrite contains_occ. split; [intros H k O; apply H; exists k; exact O|intros H [k O]; exact (H k O)]. Qed.
Lemma nopow_cat : forall a c b, ~ letter c -> ~ contains (txt "pow") a -> ~ contains (txt "pow") b -> ~ contains (txt "pow") (a ++ c :: b).
Proof.
  intros a c b N A B. apply nopow_iff. intros k O. apply pow3_sep in O; [|exact N]. destruct O as [O|[k' [_ O]]].
  - exact (proj1 (nopow_iff a) A k O).
  - exact (proj1 (nopow_iff b) B k' O).
Qed.
Lemma nopow_nil : ~ contains (txt "pow") [].
Proof. intros [[|c a] [b H]]; discriminate. Qed.
Lemma nospace_contains : forall p s, nospace p = p -> contains p s -> contains p (nospace s).
Proof. intros p s E [a [b ->]]. exists (nospace a), (nospace b). rewrite !nospace_app, E. reflexivity. Qed.

Lemma nopow_chars : forall s, (forall c, In c s -> c <> "p"%char) -> ~ contains (txt "pow") s.
Proof. intros s H. apply nopow_iff. intros k O. apply pow3_pos in O. destruct O as [O _]. apply nth_error_In in O. exact (H _ O eq_refl). Qed.
Lemma digit_not : forall c d, is_digit c = true -> is_digit d = false -> c <> d.
Proof. intros c d H1 H2 ->. congruence. Qed.

(** the part between the parentheses *)
Definition inside (p : pow_call) : text := argument p ++ txt "," ++ blank p ++ exponent p.
Lemma call_inside : forall p, call_text p = txt "pow" ++ "("%char :: inside p ++ [")"%char].
Proof. intros p. unfold call_text, inside. rewrite <- !app_assoc. reflexivity. Qed.
Lemma inside_nopow : forall p, plain_call p -> ~ contains (txt "pow") (inside p).
Proof.
  intros p [_ [_ [_ [N [B [_ D]]]]]]. unfold inside. apply nopow_cat; [not_letter| |].
  - intros C. apply N, (nospace_contains (txt "pow")); [reflexivity|exact C].
  - apply nopow_chars. intros c I ->. apply in_app_or in I. unfold all in B, D. rewrite Forall_forall in B, D. destruct I as [I|I]; [apply B in I|apply D in I]; discriminate.
Qed.
Definition body (p : pow_call) : text := join (txt "*") (repeat (txt "(" ++ nospace (argument p) ++ txt ")") (decimal (exponent p))).
Lemma call_body : forall p, call_product p = "("%char :: body p ++ [")"%char].
Proof. reflexivity. Qed.
Lemma body_nopow : forall p, plain_call p -> ~ contains (txt "pow") (body p).
Proof.
  intros p [_ [_ [_ [N _]]]]. unfold body.
  assert (V : ~ contains (txt "pow") (txt "(" ++ nospace (argument p) ++ txt ")")).
  { apply (nopow_cat [] "("%char); [not_letter|exact nopow_nil|]. apply nopow_cat; [not_letter|exact N|exact nopow_nil]. }
  induction (decimal (exponent p)) as [|n IH]; [exact nopow_nil|]. destruct n as [|n]; [exact V|].
  set (v := txt "(" ++ nospace (argument p) ++ txt ")") in *. change (join (txt "*") (repeat v (S (S n)))) with (v ++ "*"%char :: join (txt "*") (repeat v (S n))).
  apply nopow_cat; [not_letter|exact V|exact IH].
Qed.

(** ** Positions of the calls while they are being replaced *)

Definition calls : Type := list (text * pow_call).
Definition cshown (D : text -> bool) (p : pow_call) : text := if D (call_text p) then call_product p else call_text p.
Definition crender (D : text -> bool) (l : calls) (tail : text) : text :=
  List.concat (map (fun tp => fst tp ++ cshown D (snd tp)) l) ++ tail.
Lemma crender_cons : forall D t p l tail, crender D ((t, p) :: l) tail = t ++ cshown D p ++ crender D l tail.
Proof. intros. unfold crender. cbn. rewrite <- !app_assoc. reflexivity. Qed.

Lemma apart_tail : forall t p l tail, calls_apart ((t, p) :: l) tail -> calls_apart l tail.
Proof. intros t p l tail [A B]. split; [|exact B]. intros t' p' I. apply A. right; exact I. Qed.

Lemma pow_position : forall D l tail k, calls_apart l tail -> occ (txt "pow") (crender D l tail) k ->
  exists l1 t p l2, l = l1 ++ (t, p) :: l2 /\ D (call_text p) = false /\
    k = length (crender D l1 t) /\ crender D l tail = crender D l1 t ++ call_text p ++ crender D l2 tail.
Proof.
  intros D l tail. induction l as [|[t p] l IH]; intros k A O.
  - exfalso. destruct A as [_ A]. exact (proj1 (nopow_iff tail) A k O).
  - assert (AL := apart_tail _ _ _ _ A). destruct (proj1 A t p (or_introl eq_refl)) as [NT PC]. rewrite crender_cons in O.
    assert (REST : forall k', k = length (t ++ cshown D p) + k' -> occ (txt "pow") (crender D l tail) k' -> 
      exists l1 t0 p0 l2, (t, p) :: l = l1 ++ (t0, p0) :: l2 /\ D (call_text p0) = false /\
        k = length (crender D l1 t0) /\ crender D ((t, p) :: l) tail = crender D l1 t0 ++ call_text p0 ++ crender D l2 tail).
    { intros k' E O'. destruct (IH k' AL O') as [l1 [t0 [p0 [l2 [E1 [E2 [E3 E4]]]]]]]. exists ((t, p) :: l1), t0, p0, l2.
      split; [rewrite E1; reflexivity|]. split; [exact E2|]. rewrite !crender_cons, E4, E, E3, !app_length, <- !app_assoc. split; [lia|reflexivity]. }
    destruct (D (call_text p)) eqn:ED.
    + assert (SH : cshown D p = "("%char :: body p ++ [")"%char]) by (unfold cshown; rewrite ED; reflexivity).
      rewrite SH in O. cbn [app] in O. apply pow3_sep in O; [|not_letter]. destruct O as [O|[k1 [E1 O]]]; [destruct (proj1 (nopow_iff t) NT _ O)|].
      rewrite <- app_assoc in O. cbn [app] in O. apply pow3_sep in O; [|not_letter]. destruct O as [O|[k2 [E2 O]]]; [destruct (proj1 (nopow_iff _) (body_nopow p PC) _ O)|].
      apply (REST k2); [|exact O]. rewrite SH, app_length. cbn. rewrite app_length. cbn. lia.
    + assert (SH : cshown D p = call_text p) by (unfold cshown; rewrite ED; reflexivity).
      rewrite SH, call_inside in O. rewrite <- app_assoc, app_assoc in O. cbn [app] in O.
      change (t ++ ["p"%char; "o"%char; "w"%char]) with (t ++ txt "pow") in O.
      apply pow3_sep in O; [|not_letter]. destruct O as [O|[k1 [E1 O]]].
      * apply pow3_end in O; [|exact NT]. exists [], t, p, l. split; [reflexivity|]. split; [exact ED|]. split; [exact O|]. rewrite crender_cons, SH. reflexivity.
      * rewrite <- app_assoc in O. cbn [app] in O. apply pow3_sep in O; [|not_letter].
        destruct O as [O|[k2 [E2 O]]]; [destruct (proj1 (nopow_iff _) (inside_nopow p PC) _ O)|].
        apply (REST k2); [|exact O]. rewrite SH, call_inside, !app_length in *. cbn in *. rewrite app_length. cbn. lia.
Qed.

(** ** Two calls at the same place are the same *)

Lemma cut : forall (f : ascii -> bool) (a b : text) c r s, all f a -> all f b -> f c = false -> a ++ c :: r = b ++ c :: s -> a = b /\ r = s.
Proof.
  intros f. induction a as [|x a IH]; intros [|y b] c r s A B C E; cbn in E.
  - injection E as E. auto.
  - injection E as -> _. inversion B; congruence.
  - injection E as -> _. inversion A; congruence.
  - injection E as -> E. inversion A; subst. inversion B; subst. destruct (IH b c r s H2 H4 C E) as [-> ->]. auto.
Qed.
Lemma call_prefix : forall p q r s, plain_call p -> plain_call q -> call_text q ++ s = call_text p ++ r -> argument p = argument q /\ exponent p = exponent q /\ call_text p = call_text q.
Proof.
  intros p q r s [_ [_ [CP [_ [BP [NP DP]]]]]] [_ [_ [CQ [_ [BQ [NQ DQ]]]]]] E. unfold call_text in *.
  rewrite <- !app_assoc in E. cbn [app] in E. injection E as E.
  apply (cut not_comma) in E; [|exact CQ|exact CP|reflexivity]. destruct E as [EA E].
  assert (EB : blank q ++ exponent q = blank p ++ exponent p /\ s = r).
  { set (f := fun c => is_space c || is_digit c).
    assert (F : forall b e, all is_space b -> all is_digit e -> all f (b ++ e)).
    { intros b e B D. apply all_app. split; unfold all, f in *; rewrite Forall_forall in *; intros c I; [rewrite (B c I)|rewrite (D c I), orb_true_r]; reflexivity. }
    assert (E' : (blank q ++ exponent q) ++ ")"%char :: s = (blank p ++ exponent p) ++ ")"%char :: r) by (rewrite <- !app_assoc; exact E).
    apply (cut f) in E'; [exact E'|apply F; assumption|apply F; assumption|reflexivity]. }
  destruct EB as [EB _].
  assert (EE : exponent p = exponent q).
  { assert (X := rest_parts (Power (txt "x") (blank p) (exponent p)) (Power (txt "x") (blank q) (exponent q))). apply X.
    - left. split; [discriminate|]. split; [repeat constructor|]. auto.
    - left. split; [discriminate|]. split; [repeat constructor|]. auto.
    - symmetry. exact EB. }
  split; [symmetry; exact EA|]. split; [exact EE|]. rewrite EA, (app_assoc (blank p)), <- EB, <- app_assoc. reflexivity.
Qed.
Lemma call_occ : forall D l tail q k, calls_apart l tail -> plain_call q -> occ (call_text q) (crender D l tail) k ->
  exists l1 t p l2, l = l1 ++ (t, p) :: l2 /\ D (call_text p) = false /\ k = length (crender D l1 t) /\ call_text p = call_text q.
Proof.
  intros D l tail q k A Q [a [r [E L]]].
  assert (O : occ (txt "pow") (crender D l tail) k) by (exists a, ("("%char :: (inside q ++ [")"%char]) ++ r); split; [rewrite E, call_inside, <- app_assoc; reflexivity|exact L]).
  destruct (pow_position D l tail k A O) as [l1 [t [p [l2 [E1 [E2 [E3 E4]]]]]]]. exists l1, t, p, l2. split; [exact E1|]. split; [exact E2|]. split; [exact E3|].
  rewrite E4 in E. assert (PC : plain_call p) by (apply (proj1 A t p); rewrite E1; apply in_or_app; right; left; reflexivity).
  assert (X : call_text q ++ r = call_text p ++ crender D l2 tail).
  { assert (Y := f_equal (skipn k) E). rewrite E3 in Y at 1. rewrite <- L in Y at 1. rewrite !skipn_len in Y. symmetry; exact Y. }
  apply (call_prefix p q _ _ PC Q X).
Qed.

(** ** Replacing *)

Definition cadd (D : text -> bool) (q : pow_call) (s : text) : bool := D s || text_eqb s (call_text q).
Lemma call_nonempty : forall q, call_text q <> []. Proof. discriminate. Qed.
Lemma crender_len : forall D t p l t', length (t ++ cshown D p) <= length (crender D ((t, p) :: l) t').
Proof. intros. rewrite crender_cons, !app_length. lia. Qed.
Lemma call_replace : forall D q l tail, calls_apart l tail -> plain_call q ->
  replace (call_text q) (call_product q) (crender D l tail) = crender (cadd D q) l tail.
Proof.
  intros D q l. induction l as [|[t p] l IH]; intros tail A Q.
  - unfold crender; cbn [map List.concat app]. rewrite <- (app_nil_r tail) at 1. rewrite replace_none; [cbn; apply app_nil_r|].
    intros k Hk O. rewrite app_nil_r in O. destruct (call_occ D [] tail q k A Q O) as [[|? l1] [t [p [l2 [E _]]]]]; discriminate.
  - assert (AL := apart_tail _ _ _ _ A). destruct (proj1 A t p (or_introl eq_refl)) as [NT PC]. rewrite !crender_cons.
    assert (OTHER : D (call_text p) = true \/ text_eqb (call_text p) (call_text q) = false ->
      replace (call_text q) (call_product q) (t ++ cshown D p ++ crender D l tail) = t ++ cshown (cadd D q) p ++ crender (cadd D q) l tail).
    { intros H. assert (SH : cshown (cadd D q) p = cshown D p).
      { unfold cshown, cadd. destruct (D (call_text p)) eqn:E; [reflexivity|]. destruct H as [H|H]; [discriminate|]. rewrite H. reflexivity. }
      rewrite SH, app_assoc, replace_none; [rewrite (IH tail AL Q), <- app_assoc; reflexivity|].
      intros k Hk O. rewrite <- app_assoc, <- crender_cons in O.
      destruct (call_occ D _ tail q k A Q O) as [l1 [t' [p' [l2 [E [DP [K T]]]]]]]. destruct l1 as [|[t1 p1] l1].
      - cbn in E. injection E as <- <- _. destruct H as [H|H]; [congruence|]. apply text_eqb_true in T. congruence.
      - cbn in E. injection E as <- <- _. assert (X := crender_len D t p l1 t'). rewrite K in Hk. exact (Nat.lt_irrefl _ (Nat.lt_le_trans _ _ _ Hk X)). }
    destruct (D (call_text p)) eqn:DP; [apply OTHER; left; reflexivity|].
    destruct (text_eqb (call_text p) (call_text q)) eqn:EQ; [|apply OTHER; right; reflexivity].
    apply text_eqb_true in EQ. assert (SH : cshown (cadd D q) p = call_product q).
    { unfold cshown, cadd. rewrite DP, (proj2 (text_eqb_true _ _) EQ). cbn [orb].
      destruct (call_prefix p q [] [] PC Q ltac:(rewrite EQ; reflexivity)) as [EA [EE _]]. unfold call_product. rewrite EA, EE. reflexivity. }
    assert (SH' : cshown D p = call_text q) by (unfold cshown; rewrite DP; exact EQ). rewrite SH, replace_none.
    + rewrite SH', replace_hit by apply call_nonempty. rewrite (IH tail AL Q). reflexivity.
    + intros k Hk O. rewrite <- crender_cons in O. destruct (call_occ D _ tail q k A Q O) as [l1 [t' [p' [l2 [E [_ [K _]]]]]]]. destruct l1 as [|[t1 p1] l1].
      * cbn in E. injection E as <- <- _. cbn in K. lia.
      * cbn in E. injection E as <- <- _. assert (X := crender_len D t p l1 t'). rewrite app_length in X. rewrite K in Hk.
        apply (Nat.lt_irrefl (length t)). eapply Nat.le_lt_trans; [|exact Hk]. eapply Nat.le_trans; [apply Nat.le_add_r|exact X].
Qed.
Definition cpair (p : pow_call) : text * text := (call_text p, call_product p).
Lemma call_replace_many : forall qs D l tail, calls_apart l tail -> Forall plain_call qs ->
  replace_each (map cpair qs) (crender D l tail) = crender (fold_left cadd qs D) l tail.
Proof.
  induction qs as [|q qs IH]; intros D l tail A F; [reflexivity|]. inversion F; subst. unfold replace_each in *. cbn [map fold_left fst snd cpair].
  rewrite (call_replace D q l tail A) by assumption. apply IH; assumption.
Qed.
Lemma cadds_true : forall qs D s, fold_left cadd qs D s = true <-> D s = true \/ In s (map call_text qs).
Proof.
  induction qs as [|q qs IH]; intros D s; cbn [fold_left map In]; [tauto|]. rewrite IH. unfold cadd. rewrite orb_true_iff, text_eqb_true.
  split; [intros [[H|H]|H]|intros [H|[H|H]]]; auto.
Qed.

(** ** The pattern *)

Lemma call_match : forall p r, plain_call p -> match_alt pattern_pow (call_text p ++ r) = Some (length (call_text p)).
Proof.
  intros p r [[c [s [EA NS]]] [SP [NC [_ [B [NE D]]]]]]. unfold pattern_pow; cbn [match_alt].
  assert (M : match_seq [chr "p"; chr "o"; chr "w"; chr "("; Star is_space; Plus not_comma; Star is_space; chr ","; Star is_space; Plus not_comma_paren; Star is_space; chr ")"] (call_text p ++ r)
    = Some (S (S (S (S (0 + (length (argument p) + (0 + S (length (blank p) + (length (exponent p) + (0 + 1))))))))))).
  { unfold call_text. rewrite <- !app_assoc. do 4 apply chr_hit. apply (star_hit _ _ []); [constructor|rewrite EA; exact NS|].
    apply plus_hit; [rewrite EA; discriminate|exact NC|reflexivity|]. apply (star_hit _ _ []); [constructor|reflexivity|]. apply chr_hit.
    apply star_hit; [exact B| |].
    - destruct (exponent p) as [|d e]; [contradiction|]. cbn. apply digit_not_space. inversion D; assumption.
    - apply plus_hit; [exact NE| |reflexivity|].
      + unfold all in *. rewrite Forall_forall in *. intros d I. apply D in I. unfold not_comma_paren.
        destruct (Ascii.eqb d ",") eqn:E1; [apply Ascii.eqb_eq in E1; subst; discriminate|]. destruct (Ascii.eqb d ")") eqn:E2; [apply Ascii.eqb_eq in E2; subst; discriminate|]. reflexivity.
      + apply (star_hit _ _ []); [constructor|reflexivity|]. apply chr_hit. reflexivity. }
  rewrite M. f_equal. unfold call_text. rewrite !app_length. cbn. lia.
Qed.
Lemma pow_sound : forall s n, match_alt pattern_pow s = Some n -> exists r, s = txt "pow(" ++ r.
Proof.
  intros s n E. unfold pattern_pow in E. cbn [match_alt] in E. destruct (match_seq _ s) as [m|] eqn:M in E; [|discriminate].
  apply chr_some in M. destruct M as [s1 [k1 [E1 [M _]]]]. apply chr_some in M. destruct M as [s2 [k2 [E2 [M _]]]].
  apply chr_some in M. destruct M as [s3 [k3 [E3 [M _]]]]. apply chr_some in M. destruct M as [s4 [k4 [E4 [M _]]]]. exists s4. rewrite E1, E2, E3, E4. reflexivity.
Qed.
Lemma call_findall : forall l tail, calls_apart l tail -> findall pattern_pow (call_source l tail) = map call_text (map snd l).
Proof.
  intros l. induction l as [|[t p] l IH]; intros tail A; change (call_source ?a ?b) with (crender (fun _ => false) a b).
  - unfold crender; cbn [map List.concat app]. apply no_pow. intros [a [b E]]. apply (proj2 A). exists a, ("("%char :: b). rewrite E. reflexivity.
  - assert (AL := apart_tail _ _ _ _ A). destruct (proj1 A t p (or_introl eq_refl)) as [NT PC]. rewrite crender_cons, findall_none.
    + change (cshown (fun _ => false) p) with (call_text p). rewrite findall_hit; [|apply call_nonempty|apply call_match, PC].
      cbn [map snd]. change (crender (fun _ => false) l tail) with (call_source l tail). rewrite (IH tail AL). reflexivity.
    + intros k L. rewrite <- crender_cons. destruct (match_alt pattern_pow (skipn k _)) as [n|] eqn:E; [|reflexivity]. exfalso.
      apply pow_sound in E. destruct E as [r E]. assert (O : occ (txt "pow") (crender (fun _ => false) ((t, p) :: l) tail) k).
      { exists (firstn k (crender (fun _ => false) ((t, p) :: l) tail)), ("("%char :: r). split; [|rewrite firstn_length, crender_cons, app_length; lia].
        rewrite <- (firstn_skipn k (crender _ _ _)) at 1. rewrite E. reflexivity. }
      destruct (pow_position _ _ _ _ A O) as [l1 [t' [p' [l2 [E1 [_ [K _]]]]]]]. destruct l1 as [|[t1 p1] l1].
      * cbn in E1. injection E1 as <- _ _. cbn in K. lia.
      * cbn in E1. injection E1 as <- <- _. assert (X := crender_len (fun _ => false) t p l1 t'). rewrite app_length in X. rewrite K in L.
        apply (Nat.lt_irrefl (length t)). eapply Nat.le_lt_trans; [|exact L]. eapply Nat.le_trans; [apply Nat.le_add_r|exact X].
Qed.

(** ** The expansion of one call *)

Lemma lstrip_first : forall c s, is_space c = false -> lstrip (c :: s) = c :: s.
Proof. intros c s H. cbn. rewrite H. reflexivity. Qed.
(** stripping at the right takes away blanks only *)
Lemma rstrip_nospace : forall s, all (fun c => negb (is_space c) || Ascii.eqb c " ") s -> nospace (rev (lstrip (rev s))) = nospace s.
Proof.
  intros s H. assert (X : forall u, all (fun c => negb (is_space c) || Ascii.eqb c " ") u -> nospace (lstrip u) = nospace u).
  { induction u as [|c u IH]; intros A; [reflexivity|]. inversion A; subst. cbn [lstrip]. destruct (is_space c) eqn:E; [|reflexivity].
    cbn [negb orb] in H2. cbn [nospace filter]. rewrite H2. cbn. apply IH. assumption. }
  assert (R : forall u, nospace (rev u) = rev (nospace u)).
  { intros u. unfold nospace. induction u as [|c u IH]; [reflexivity|]. cbn [rev filter]. rewrite filter_app, IH. cbn. destruct (negb (Ascii.eqb c " ")); cbn; [reflexivity|apply app_nil_r]. }
  rewrite R, X by (apply all_rev, H). rewrite R. apply rev_involutive.
Qed.
Lemma call_expand : forall p, plain_call p -> expand_pow (call_text p) = Ok (call_product p).
Proof.
  intros p PC. assert (NI := inside_nopow p PC). destruct PC as [[c [s [EA NS]]] [SP [NC [_ [B [NE D]]]]]].
  unfold expand_pow. rewrite call_inside. change (txt "pow" ++ "("%char :: inside p ++ [")"%char]) with ([] ++ txt "pow" ++ ("("%char :: inside p ++ [")"%char])).
  rewrite split_two; [|discriminate|intros k L; cbn in L; lia|].
  2: { intros k O. apply (pow3_sep [] "("%char) in O; [|not_letter]. destruct O as [O|[k1 [_ O]]]; [exact (proj1 (nopow_iff []) nopow_nil _ O)|].
       apply pow3_sep in O; [|not_letter]. destruct O as [O|[k2 [_ O]]]; [exact (proj1 (nopow_iff _) NI _ O)|exact (proj1 (nopow_iff []) nopow_nil _ O)]. }
  replace ("("%char :: inside p ++ [")"%char]) with (("("%char :: argument p) ++ txt "," ++ (blank p ++ exponent p ++ [")"%char])) by (unfold inside; cbn; rewrite <- !app_assoc; cbn; rewrite <- ?app_assoc; reflexivity).
  assert (CO : forall u k, all not_comma u -> nth_error u k <> Some ","%char) by (intros u k H E; apply nth_error_In in E; unfold all in H; rewrite Forall_forall in H; apply H in E; discriminate).
  assert (ND : forall f u, (forall d, f d = true -> d <> ","%char) -> all f u -> all not_comma u).
  { intros f u H A. unfold all in *. rewrite Forall_forall in *. intros d I. apply A, H in I. unfold not_comma. destruct (Ascii.eqb d ",") eqn:E; [apply Ascii.eqb_eq in E; contradiction|reflexivity]. }
  rewrite split_two; [|discriminate| |].
  - assert (S1 : nospace (tl (strip ("("%char :: argument p))) = nospace (argument p)).
    { unfold strip. rewrite lstrip_first by reflexivity.
      assert (Y : nospace (rev (lstrip (rev ("("%char :: argument p)))) = "("%char :: nospace (argument p)).
      { rewrite rstrip_nospace; [reflexivity|]. constructor; [reflexivity|exact SP]. }
      assert (Z : exists v, rev (lstrip (rev ("("%char :: argument p))) = "("%char :: v).
      { assert (L : forall u, exists w, lstrip (u ++ ["("%char]) = w ++ ["("%char]).
        { induction u as [|d u IHu]; [exists []; reflexivity|]. cbn [app lstrip]. destruct (is_space d); [exact IHu|]. exists (d :: u). reflexivity. }
        cbn [rev]. destruct (L (rev (argument p))) as [w E]. rewrite E, rev_app_distr. exists (rev w). reflexivity. }
      destruct Z as [v Z]. rewrite Z in Y |- *. cbn in Y. injection Y as Y. exact Y. }
    cbv zeta. rewrite S1.
    assert (S2 : strip (blank p ++ exponent p ++ [")"%char]) = exponent p ++ [")"%char]).
    { unfold strip. rewrite lstrip_space by exact B. destruct (exponent p) as [|d e] eqn:EE; [contradiction|]. cbn [app]. rewrite lstrip_first by (apply digit_not_space; inversion D; assumption).
      change (d :: e ++ [")"%char]) with ((d :: e) ++ [")"%char]). rewrite rev_app_distr. cbn [rev app]. rewrite lstrip_first by reflexivity. cbn [rev]. rewrite rev_app_distr, rev_involutive. reflexivity. }
    rewrite S2, removelast_last. rewrite <- (app_nil_l (exponent p)) at 1. rewrite py_int_digits by (try assumption; constructor). cbn [bind]. unfold copies. rewrite Nat2Z.id. reflexivity.
  - intros k L O. assert (X := occ_at _ _ _ 0 O ltac:(cbn; lia)). rewrite Nat.add_0_r, nth_error_app1 in X by exact L. cbn [nth_error txt list_ascii_of_string] in X.
    destruct k as [|k]; [discriminate|]. exact (CO _ _ NC X).
  - intros k O. assert (X := occ_at _ _ _ 0 O ltac:(cbn; lia)). rewrite Nat.add_0_r in X. cbn [nth_error txt list_ascii_of_string] in X.
    revert X. apply CO. apply all_app. split; [apply (ND is_space); [intros d H ->; discriminate|exact B]|]. apply all_app. split; [apply (ND is_digit); [intros d H ->; discriminate|exact D]|repeat constructor].
Qed.

Lemma pow2mul_calls : forall l tail, calls_apart l tail -> ~ contains (txt "**") (call_source l tail) ->
  pow2mul_text (call_source l tail) = Ok (call_target l tail).
Proof.
  intros l tail A N. unfold pow2mul_text.
  assert (F1 : findall pattern_powers (call_source l tail) = []) by (apply (findall_source [] true (call_source l tail)); split; [exact N|left; reflexivity]). rewrite F1. cbn [old_new bind].
  rewrite (call_findall l tail A).
  assert (F : Forall plain_call (map snd l)).
  { apply Forall_forall. intros p I. apply in_map_iff in I. destruct I as [[t p'] [<- I]]. apply (proj1 A t p' I). }
  assert (ON : forall qs, Forall plain_call qs -> old_new expand_pow (map call_text qs) = Ok (map cpair qs)).
  { induction 1 as [|q qs Q _ IH]; [reflexivity|]. cbn [map old_new]. rewrite (call_expand q Q). cbn [bind]. rewrite IH. reflexivity. }
  rewrite (ON _ F). cbn [bind]. f_equal. change (replace_each (longest_first []) (call_source l tail)) with (crender (fun _ => false) l tail).
  rewrite (call_replace_many (map snd l) (fun _ => false) l tail A F). unfold crender, call_target. f_equal. f_equal. apply map_ext_in. intros [t p] I. cbn [fst snd]. unfold cshown.
  rewrite (proj2 (cadds_true (map snd l) (fun _ => false) (call_text p))); [reflexivity|]. right. apply in_map, in_map_iff. exists (t, p). auto.
Qed.
