(** Printed expressions can be read back, even without their spaces. *)
From Coq Require Import List Bool Arith Ascii String Lia.
From Verif Require Import Num Py Pow2mul SpecPow FPow.
Import ListNotations.
Local Notation length := List.length.

(** [print] without the spaces *)
Fixpoint dense (e : expr) : text :=
  match e with
  | Sym x => x
  | Int d => d
  | Pow b d => dense b ++ txt "**" ++ d
  | Paren a => txt "(" ++ dense a ++ txt ")"
  | Call f a => f ++ txt "(" ++ dense a ++ txt ")"
  | Mul a b => dense a ++ txt "*" ++ dense b
  | Div a b => dense a ++ txt "/" ++ dense b
  | Add a b => dense a ++ txt "+" ++ dense b
  | Sub a b => dense a ++ txt "-" ++ dense b
  | Neg a => txt "-" ++ dense a
  end.
Lemma dense_print : forall e, printable e -> nospace (print e) = dense e.
Proof.
  induction e; intros P; cbn [print dense printable] in *; rewrite ?nospace_app.
  - apply nospace_word, P.
  - apply digits_nospace, P.
  - rewrite IHe by tauto. rewrite (digits_nospace digits) by apply P. reflexivity.
  - rewrite IHe by tauto. reflexivity.
  - rewrite IHe by tauto. rewrite (nospace_word name) by apply P. reflexivity.
  - rewrite IHe1, IHe2 by tauto. reflexivity.
  - rewrite IHe1, IHe2 by tauto. reflexivity.
  - rewrite IHe1, IHe2 by tauto. reflexivity.
  - rewrite IHe1, IHe2 by tauto. reflexivity.
  - rewrite IHe by tauto. reflexivity.
Qed.

Definition obind {A B} (x : option A) (f : A -> option B) : option B := match x with Some a => f a | None => None end.

Fixpoint p_sum (n : nat) (s : text) : option (expr * text) :=
  match n with
  | O => None
  | S n => match strip_prefix (txt "-") s with
           | Some r => obind (p_prod n r) (fun ar => p_sum_rest n (Neg (fst ar)) (snd ar))
           | None => obind (p_prod n s) (fun ar => p_sum_rest n (fst ar) (snd ar))
           end
  end
with p_sum_rest (n : nat) (acc : expr) (s : text) : option (expr * text) :=
  match n with
  | O => None
  | S n => match strip_prefix (txt "+") s with
           | Some r => obind (p_prod n r) (fun ar => p_sum_rest n (Add acc (fst ar)) (snd ar))
           | None => match strip_prefix (txt "-") s with
                     | Some r => obind (p_prod n r) (fun ar => p_sum_rest n (Sub acc (fst ar)) (snd ar))
                     | None => Some (acc, s)
                     end
           end
  end
with p_prod (n : nat) (s : text) : option (expr * text) :=
  match n with
  | O => None
  | S n => obind (p_power n s) (fun ar => p_prod_rest n (fst ar) (snd ar))
  end
with p_prod_rest (n : nat) (acc : expr) (s : text) : option (expr * text) :=
  match n with
  | O => None
  | S n => match strip_prefix (txt "*") s with
           | Some r => obind (p_power n r) (fun ar => p_prod_rest n (Mul acc (fst ar)) (snd ar))
           | None => match strip_prefix (txt "/") s with
                     | Some r => obind (p_power n r) (fun ar => p_prod_rest n (Div acc (fst ar)) (snd ar))
                     | None => Some (acc, s)
                     end
           end
  end
with p_power (n : nat) (s : text) : option (expr * text) :=
  match n with
  | O => None
  | S n => obind (p_atom n s) (fun ar =>
             match strip_prefix (txt "**") (snd ar) with
             | Some r => Some (Pow (fst ar) (firstn (run is_digit r) r), skipn (run is_digit r) r)
             | None => Some ar
             end)
  end
with p_atom (n : nat) (s : text) : option (expr * text) :=
  match n with
  | O => None
  | S n => match strip_prefix (txt "(") s with
           | Some r => obind (p_sum n r) (fun ar => obind (strip_prefix (txt ")") (snd ar)) (fun r => Some (Paren (fst ar), r)))
           | None =>
               let w := firstn (run is_word s) s in
               let s' := skipn (run is_word s) s in
               if match w with c :: _ => is_digit c | [] => false end then Some (Int w, s')
               else match strip_prefix (txt "(") s' with
                    | Some r => obind (p_sum n r) (fun ar => obind (strip_prefix (txt ")") (snd ar)) (fun r => Some (Call w (fst ar), r)))
                    | None => Some (Sym w, s')
                    end
           end
  end.

Definition Ev (f : nat -> option (expr * text)) (v : expr * text) : Prop := exists N, forall n, N <= n -> f n = Some v.
Lemma ev_bind : forall f g v w (h : nat -> option (expr * text)), Ev f v -> Ev (fun n => g n v) w -> (forall n, h (S n) = obind (f n) (g n)) -> Ev h w.
Proof.
  intros f g v w h [N1 H1] [N2 H2] E. exists (S (N1 + N2)). intros [|n] L; [lia|]. rewrite E, H1 by lia. cbn. apply H2. lia.
Qed.
Lemma ev_ret : forall v h, (forall n, h (S n) = Some v) -> Ev h v.
Proof. intros v h H. exists 1. intros [|n] L; [lia|]. apply H. Qed.

(** what may follow a product, and a power *)
Definition followP (r : text) : Prop := match r with [] => True | c :: _ => c = "+"%char \/ c = "-"%char \/ c = ")"%char end.
Definition followQ (r : text) : Prop :=
  match r with
  | [] => True
  | c :: r' => c = "+"%char \/ c = "-"%char \/ c = ")"%char \/ c = "/"%char \/ (c = "*"%char /\ nth_error r' 0 <> Some "*"%char)
  end.
Definition followA (r : text) : Prop := match r with [] => True | c :: _ => is_word c = false /\ c <> "("%char end.
Lemma followPQ : forall r, followP r -> followQ r.
Proof. intros [|c r]; [trivial|]. cbn. tauto. Qed.
Lemma followQA : forall r, followQ r -> followA r.
Proof. intros [|c r]; [trivial|]. cbn. intros [->|[->|[->|[->|[-> _]]]]]; split; (reflexivity || discriminate). Qed.

Lemma strip_first : forall p s, nth_error s 0 <> nth_error p 0 -> p <> [] -> strip_prefix p s = None.
Proof.
  intros [|c p] [|d s] H N; try contradiction; [reflexivity|]. cbn. destruct (Ascii.eqb c d) eqn:E; [|reflexivity]. apply Ascii.eqb_eq in E. subst. cbn in H. congruence.
Qed.
Lemma strip_app : forall p s, strip_prefix p (p ++ s) = Some s.
Proof. intros. apply strip_prefix_some. reflexivity. Qed.
Lemma strip_app1 : forall c s, strip_prefix [c] (c :: s) = Some s.
Proof. intros. apply strip_prefix_some. reflexivity. Qed.

(** the first character *)
Definition starts_atom (s : text) : Prop := match s with c :: _ => is_word c = true \/ c = "("%char | [] => False end.
Lemma word_starts : forall x r, x <> [] -> all is_word x -> starts_atom (x ++ r).
Proof. intros [|c x] r N W; [contradiction|]. left. inversion W; assumption. Qed.
Lemma digits_words : forall d, all is_digit d -> all is_word d.
Proof. intros d D. unfold all in *. rewrite Forall_forall in *. intros c I. apply digit_word, D, I. Qed.
Lemma level_starts : forall e r, printable e -> 1 <= level e -> starts_atom (dense e ++ r).
Proof.
  induction e; intros r P L; cbn [dense printable level] in *; try lia; rewrite <- ?app_assoc.
  - apply word_starts; apply P.
  - apply word_starts; [apply P|apply digits_words, P].
  - apply IHe; [apply P|]. destruct P as [_ [A _]]. destruct e; cbn in *; try contradiction; lia.
  - right; reflexivity.
  - apply word_starts; apply P.
  - apply IHe1; tauto.
  - apply IHe1; tauto.
Qed.
Lemma starts_not : forall c s, starts_atom s -> is_word c = false -> c <> "("%char -> nth_error s 0 <> Some c.
Proof. intros c [|d s] H W N; [destruct H|]. destruct H as [H|H]; cbn; congruence. Qed.

Lemma run_follow : forall w r, all is_word w -> followA r -> run is_word (w ++ r) = length w.
Proof. intros w [|c r] W F; apply run_eq; auto. apply F. Qed.
Lemma firstn_run : forall w r : text, firstn (length w) (w ++ r) = w.
Proof. intros. rewrite firstn_app, firstn_all, Nat.sub_diag. cbn. apply app_nil_r. Qed.

Definition claims (e : expr) : Prop :=
  (forall r v, followP r -> Ev (fun n => p_sum_rest n e r) v -> Ev (fun n => p_sum n (dense e ++ r)) v) /\
  (1 <= level e -> forall r v, followQ r -> Ev (fun n => p_prod_rest n e r) v -> Ev (fun n => p_prod n (dense e ++ r)) v) /\
  (2 <= level e -> forall r, followQ r -> Ev (fun n => p_power n (dense e ++ r)) (e, r)).

(** from powers to products to sums *)
Lemma prod_of_power : forall e, (forall r, followQ r -> Ev (fun n => p_power n (dense e ++ r)) (e, r)) ->
  forall r v, followQ r -> Ev (fun n => p_prod_rest n e r) v -> Ev (fun n => p_prod n (dense e ++ r)) v.
Proof. intros e H r v F R. apply (ev_bind _ (fun n ar => p_prod_rest n (fst ar) (snd ar)) _ _ _ (H r F) R). reflexivity. Qed.
Lemma prod_rest_end : forall e r, followP r -> Ev (fun n => p_prod_rest n e r) (e, r).
Proof.
  intros e r F. apply ev_ret. intros n. cbn [p_prod_rest]. rewrite !strip_first; [reflexivity| |discriminate| |discriminate]; destruct r as [|c r]; cbn in *; try discriminate; destruct F as [->|[->| ->]]; discriminate.
Qed.
Lemma sum_of_prod : forall e, printable e -> 1 <= level e -> (forall r v, followQ r -> Ev (fun n => p_prod_rest n e r) v -> Ev (fun n => p_prod n (dense e ++ r)) v) ->
  forall r v, followP r -> Ev (fun n => p_sum_rest n e r) v -> Ev (fun n => p_sum n (dense e ++ r)) v.
Proof.
  intros e P L H r v F R.
  apply (ev_bind _ (fun n ar => p_sum_rest n (fst ar) (snd ar)) _ _ _ (H r (e, r) (followPQ r F) (prod_rest_end e r F)) R).
  intros n. cbn [p_sum]. rewrite strip_first; [reflexivity| |discriminate]. apply starts_not; [apply level_starts; assumption|reflexivity|discriminate].
Qed.
Lemma claims_power : forall e, printable e -> 2 <= level e -> (forall r, followQ r -> Ev (fun n => p_power n (dense e ++ r)) (e, r)) -> claims e.
Proof.
  intros e P L H. assert (H1 := prod_of_power e H). split; [|split]; [|intros _; exact H1|intros _; exact H].
  apply sum_of_prod; [exact P|lia|exact H1].
Qed.
Lemma power_of_atom : forall e, (forall r, followA r -> Ev (fun n => p_atom n (dense e ++ r)) (e, r)) ->
  forall r, followQ r -> Ev (fun n => p_power n (dense e ++ r)) (e, r).
Proof.
  intros e H r F. apply (ev_bind _ (fun n ar => match strip_prefix (txt "**") (snd ar) with
    | Some r => Some (Pow (fst ar) (firstn (run is_digit r) r), skipn (run is_digit r) r) | None => Some ar end) _ _ _ (H r (followQA r F))); [|reflexivity].
  apply ev_ret. intros _. cbn [snd]. destruct (strip_prefix (txt "**") r) eqn:E; [|reflexivity]. exfalso. apply strip_prefix_some in E. subst r.
  cbn in F. destruct F as [F|[F|[F|[F|[_ F]]]]]; try discriminate. apply F. reflexivity.
Qed.

(** a sum in parentheses *)
Lemma sum_closed : forall a r, claims a -> Ev (fun n => p_sum n (dense a ++ txt ")" ++ r)) (a, txt ")" ++ r).
Proof.
  intros a r [H _]. apply H; [right; right; reflexivity|]. apply ev_ret. intros n. cbn [p_sum_rest]. rewrite !strip_first by discriminate. reflexivity.
Qed.

Lemma claims_ok : forall e, printable e -> claims e /\ (is_atom e -> forall r, followA r -> Ev (fun n => p_atom n (dense e ++ r)) (e, r)).
Proof.
  induction e as [x|d|b IHb d|a IHa|f a IHa|a IHa b IHb|a IHa b IHb|a IHa b IHb|a IHa b IHb|a IHa]; intros P; cbn [printable] in P.
  - assert (A : forall r, followA r -> Ev (fun n => p_atom n (dense (Sym x) ++ r)) (Sym x, r)).
    { intros r F. apply ev_ret. intros n. cbn [p_atom dense]. destruct P as [N [W D]]. rewrite strip_first; [| |discriminate].
      2: { destruct x as [|c x]; [contradiction|]. cbn. inversion W; subst. intros E. injection E as ->. discriminate. }
      rewrite (run_follow x r W F), firstn_run, skipn_len. destruct x as [|c x]; [contradiction|]. cbn in D. rewrite D.
      rewrite strip_first; [reflexivity| |discriminate]. destruct r as [|e r]; [discriminate|]. destruct F as [_ F]. cbn. congruence. }
    split; [|intros _; exact A]. apply claims_power; [exact P|cbn; lia|]. apply power_of_atom, A.
  - assert (A : forall r, followA r -> Ev (fun n => p_atom n (dense (Int d) ++ r)) (Int d, r)).
    { intros r F. apply ev_ret. intros n. cbn [p_atom dense]. destruct P as [N D]. assert (W := digits_words d D). rewrite strip_first; [| |discriminate].
      2: { destruct d as [|c d]; [contradiction|]. cbn. inversion W; subst. intros E. injection E as ->. discriminate. }
      rewrite (run_follow d r W F), firstn_run, skipn_len. destruct d as [|c d]; [contradiction|]. inversion D; subst. rewrite H1. reflexivity. }
    split; [|intros _; exact A]. apply claims_power; [exact P|cbn; lia|]. apply power_of_atom, A.
  - split; [|intros []]. destruct P as [Pb [Ab [ND D]]]. destruct (IHb Pb) as [_ HA]. apply claims_power; [cbn; unfold is_number; auto|cbn; lia|].
    intros r F. assert (FB : followA (txt "**" ++ d ++ r)) by (split; [reflexivity|discriminate]).
    cbn [dense]. replace ((dense b ++ txt "**" ++ d) ++ r) with (dense b ++ txt "**" ++ d ++ r) by (rewrite <- !app_assoc; reflexivity).
    apply (ev_bind _ (fun n ar => match strip_prefix (txt "**") (snd ar) with
      | Some r => Some (Pow (fst ar) (firstn (run is_digit r) r), skipn (run is_digit r) r) | None => Some ar end) _ _ _ (HA Ab _ FB)); [|reflexivity].
    apply ev_ret. intros _. cbn [snd fst]. rewrite strip_app.
    assert (R : run is_digit (d ++ r) = length d).
    { apply run_eq; [exact D|]. destruct r as [|c r]; [exact I|]. apply followQA in F. destruct F as [F _]. destruct (is_digit c) eqn:E; [|reflexivity]. rewrite (digit_word c E) in F. discriminate. }
    rewrite R, firstn_run, skipn_len. reflexivity.
  - assert (A : forall r, followA r -> Ev (fun n => p_atom n (dense (Paren a) ++ r)) (Paren a, r)).
    { intros r F. cbn [dense]. replace ((txt "(" ++ dense a ++ txt ")") ++ r) with (txt "(" ++ dense a ++ txt ")" ++ r) by (rewrite <- !app_assoc; reflexivity).
      apply (ev_bind _ (fun n ar => obind (strip_prefix (txt ")") (snd ar)) (fun r => Some (Paren (fst ar), r))) _ _ _ (sum_closed a r (proj1 (IHa P)))).
      - apply ev_ret. intros _. cbn [snd fst]. rewrite strip_app. reflexivity.
      - intros n. cbn [p_atom]. rewrite strip_app. reflexivity. }
    split; [|intros _; exact A]. apply claims_power; [exact P|cbn; lia|]. apply power_of_atom, A.
  - assert (A : forall r, followA r -> Ev (fun n => p_atom n (dense (Call f a) ++ r)) (Call f a, r)).
    { destruct P as [[N [W D]] P]. intros r F. cbn [dense]. replace ((f ++ txt "(" ++ dense a ++ txt ")") ++ r) with (f ++ txt "(" ++ dense a ++ txt ")" ++ r) by (rewrite <- !app_assoc; reflexivity).
      apply (ev_bind _ (fun n ar => obind (strip_prefix (txt ")") (snd ar)) (fun r => Some (Call f (fst ar), r))) _ _ _ (sum_closed a r (proj1 (IHa P)))).
      - apply ev_ret. intros _. cbn [snd fst]. rewrite strip_app. reflexivity.
      - intros n. cbn [p_atom]. rewrite strip_first; [| |discriminate].
        2: { destruct f as [|c f]; [contradiction|]. cbn. inversion W; subst. intros E. injection E as ->. discriminate. }
        rewrite (run_eq is_word f) by (try assumption; reflexivity). rewrite firstn_run, skipn_len. destruct f as [|c f]; [contradiction|]. cbn in D. rewrite D.
        rewrite strip_app. reflexivity. }
    split; [|intros _; exact A]. apply claims_power; [exact P|cbn; lia|]. apply power_of_atom, A.
  - split; [|intros []]. destruct P as [Pa [Pb [La Lb]]]. destruct (IHa Pa) as [[_ [HA _]] _]. destruct (IHb Pb) as [[_ [_ HB]] _].
    assert (X : forall r v, followQ r -> Ev (fun n => p_prod_rest n (Mul a b) r) v -> Ev (fun n => p_prod n (dense (Mul a b) ++ r)) v).
    { intros r v F R. cbn [dense]. replace ((dense a ++ txt "*" ++ dense b) ++ r) with (dense a ++ txt "*" ++ dense b ++ r) by (rewrite <- !app_assoc; reflexivity).
      apply (HA La).
      - right; right; right; right. split; [reflexivity|]. apply starts_not; [apply level_starts; [exact Pb|lia]|reflexivity|discriminate].
      - apply (ev_bind _ (fun n ar => p_prod_rest n (Mul a (fst ar)) (snd ar)) _ _ _ (HB Lb r F) R). intros n. cbn [p_prod_rest]. rewrite strip_app. reflexivity. }
    split; [|split]; [|intros _; exact X|cbn; lia]. apply sum_of_prod; [cbn; auto|cbn; lia|exact X].
  - split; [|intros []]. destruct P as [Pa [Pb [La Lb]]]. destruct (IHa Pa) as [[_ [HA _]] _]. destruct (IHb Pb) as [[_ [_ HB]] _].
    assert (X : forall r v, followQ r -> Ev (fun n => p_prod_rest n (Div a b) r) v -> Ev (fun n => p_prod n (dense (Div a b) ++ r)) v).
    { intros r v F R. cbn [dense]. replace ((dense a ++ txt "/" ++ dense b) ++ r) with (dense a ++ txt "/" ++ dense b ++ r) by (rewrite <- !app_assoc; reflexivity).
      apply (HA La).
      - right; right; right; left. reflexivity.
      - apply (ev_bind _ (fun n ar => p_prod_rest n (Div a (fst ar)) (snd ar)) _ _ _ (HB Lb r F) R). intros n. cbn [p_prod_rest]. rewrite strip_first by discriminate. rewrite strip_app. reflexivity. }
    split; [|split]; [|intros _; exact X|cbn; lia]. apply sum_of_prod; [cbn; auto|cbn; lia|exact X].
  - split; [|intros []]. destruct P as [Pa [Pb Lb]]. destruct (IHa Pa) as [[HA _] _]. destruct (IHb Pb) as [[_ [HB _]] _].
    split; [|split]; [|cbn; lia|cbn; lia]. intros r v F R. cbn [dense].
    replace ((dense a ++ txt "+" ++ dense b) ++ r) with (dense a ++ txt "+" ++ dense b ++ r) by (rewrite <- !app_assoc; reflexivity).
    apply HA; [left; reflexivity|].
    apply (ev_bind _ (fun n ar => p_sum_rest n (Add a (fst ar)) (snd ar)) _ _ _ (HB Lb r (b, r) (followPQ r F) (prod_rest_end b r F)) R).
    intros n. cbn [p_sum_rest]. rewrite strip_app. reflexivity.
  - split; [|intros []]. destruct P as [Pa [Pb Lb]]. destruct (IHa Pa) as [[HA _] _]. destruct (IHb Pb) as [[_ [HB _]] _].
    split; [|split]; [|cbn; lia|cbn; lia]. intros r v F R. cbn [dense].
    replace ((dense a ++ txt "-" ++ dense b) ++ r) with (dense a ++ txt "-" ++ dense b ++ r) by (rewrite <- !app_assoc; reflexivity).
    apply HA; [right; left; reflexivity|].
    apply (ev_bind _ (fun n ar => p_sum_rest n (Sub a (fst ar)) (snd ar)) _ _ _ (HB Lb r (b, r) (followPQ r F) (prod_rest_end b r F)) R).
    intros n. cbn [p_sum_rest]. replace (strip_prefix (txt "+") (txt "-" ++ dense b ++ r)) with (@None text) by reflexivity. rewrite strip_app. reflexivity.
  - split; [|intros []]. destruct P as [Pa La]. destruct (IHa Pa) as [[_ [HA _]] _].
    split; [|split]; [|cbn; lia|cbn; lia]. intros r v F R. cbn [dense].
    replace ((txt "-" ++ dense a) ++ r) with (txt "-" ++ dense a ++ r) by (rewrite <- !app_assoc; reflexivity).
    apply (ev_bind _ (fun n ar => p_sum_rest n (Neg (fst ar)) (snd ar)) _ _ _ (HA La r (a, r) (followPQ r F) (prod_rest_end a r F)) R).
    intros n. cbn [p_sum]. rewrite strip_app. reflexivity.
Qed.

Lemma dense_injective : forall e1 e2, printable e1 -> printable e2 -> dense e1 = dense e2 -> e1 = e2.
Proof.
  assert (X : forall e, printable e -> Ev (fun n => p_sum n (dense e)) (e, [])).
  { intros e P. rewrite <- (app_nil_r (dense e)). destruct (claims_ok e P) as [[H _] _]. apply H; [exact I|]. apply ev_ret. reflexivity. }
  intros e1 e2 P1 P2 E. destruct (X e1 P1) as [N1 H1]. destruct (X e2 P2) as [N2 H2].
  specialize (H1 (N1 + N2) ltac:(lia)). specialize (H2 (N1 + N2) ltac:(lia)). rewrite E in H1. rewrite H1 in H2. injection H2. auto.
Qed.
Lemma reads_unique : forall t e1 e2, reads t e1 -> reads t e2 -> e1 = e2.
Proof.
  intros t e1 e2 [P1 E1] [P2 E2]. apply dense_injective; [assumption|assumption|]. rewrite <- !dense_print by assumption. congruence.
Qed.
