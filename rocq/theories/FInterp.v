(** Lagrange interpolation. *)
From Coq Require Import ZArith Reals List Bool Arith Lra Lia Permutation.
From Verif Require Import Num Py Mesh Interp Spec SpecInterp FSum.
Import ListNotations.
Local Open Scope R_scope.

(** ** Polynomials *)

Fixpoint horner (c : list R) (x : R) : R := match c with [] => 0 | a :: c' => a + x * horner c' x end.
Definition is_poly (n : nat) (f : R -> R) : Prop := exists c, length c = n /\ forall x, f x = horner c x.

Lemma horner_zeros : forall n x, horner (repeat 0 n) x = 0.
Proof. induction n; intros; cbn; [reflexivity|]. rewrite IHn; ring. Qed.
Lemma poly_zero : forall n, is_poly n (fun _ => 0).
Proof. intros n. exists (repeat 0 n). split; [apply repeat_length|]. intros; rewrite horner_zeros; reflexivity. Qed.
Lemma poly_ext : forall n f g, (forall x, f x = g x) -> is_poly n f -> is_poly n g.
Proof. intros n f g E [c [L H]]. exists c. split; [exact L|]. intros; rewrite <- E; apply H. Qed.
Fixpoint addl (c d : list R) : list R :=
  match c, d with a :: c', b :: d' => a + b :: addl c' d' | _, _ => [] end.
Lemma addl_len : forall c d, length c = length d -> length (addl c d) = length c.
Proof. induction c; intros [|b d] H; cbn in *; try lia. rewrite IHc; lia. Qed.
Lemma addl_horner : forall c d x, length c = length d -> horner (addl c d) x = horner c x + horner d x.
Proof. induction c; intros [|b d] x H; cbn in *; try lia; [ring|]. rewrite IHc by lia. ring. Qed.
Lemma poly_add : forall n f g, is_poly n f -> is_poly n g -> is_poly n (fun x => f x + g x).
Proof.
  intros n f g [c [L H]] [d [L' H']]. exists (addl c d). split; [rewrite addl_len; lia|].
  intros x. rewrite addl_horner, H, H' by lia. reflexivity.
Qed.
Lemma horner_scal : forall a c x, horner (map (Rmult a) c) x = a * horner c x.
Proof. induction c; intros; cbn; [ring|]. rewrite IHc; ring. Qed.
Lemma poly_scal : forall n a f, is_poly n f -> is_poly n (fun x => a * f x).
Proof. intros n a f [c [L H]]. exists (map (Rmult a) c). split; [rewrite map_length; exact L|]. intros; rewrite horner_scal, H; reflexivity. Qed.
Lemma horner_app0 : forall c n x, horner (c ++ repeat 0 n) x = horner c x.
Proof. induction c; intros; cbn; [apply horner_zeros|]. rewrite IHc; reflexivity. Qed.
Lemma poly_le : forall n k f, (n <= k)%nat -> is_poly n f -> is_poly k f.
Proof.
  intros n k f L [c [E H]]. exists (c ++ repeat 0 (k - n)). split; [rewrite app_length, repeat_length; lia|].
  intros; rewrite horner_app0; apply H.
Qed.
Lemma poly_x : forall n f, is_poly n f -> is_poly (S n) (fun x => x * f x).
Proof. intros n f [c [L H]]. exists (0 :: c). split; [cbn; lia|]. intros; cbn. rewrite H; ring. Qed.
Lemma poly_lin : forall n a f, is_poly n f -> is_poly (S n) (fun x => (x - a) * f x).
Proof.
  intros n a f H. apply (poly_ext _ (fun x => x * f x + (- a) * f x)); [intros; ring|].
  apply poly_add; [apply poly_x, H|]. apply (poly_le n); [lia|]. apply poly_scal, H.
Qed.
Lemma poly_pow : forall i, is_poly (S i) (fun x => x ^ i).
Proof.
  induction i; [exists [1]; split; [reflexivity|intros; cbn; ring]|].
  apply (poly_ext _ (fun x => x * x ^ i)); [intros; reflexivity|]. apply poly_x, IHi.
Qed.
Lemma poly_Sum : forall A (f : A -> R -> R) l n, (forall a, In a l -> is_poly n (f a)) -> is_poly n (fun x => Sum (fun a => f a x) l).
Proof.
  intros A f l n. induction l as [|a l IH]; intros H.
  - apply (poly_ext _ (fun _ => 0)); [intros; reflexivity|apply poly_zero].
  - apply (poly_ext _ (fun x => f a x + Sum (fun a => f a x) l)); [intros; rewrite Sum_cons; reflexivity|].
    apply poly_add; [apply H; left; reflexivity|apply IH; intros; apply H; right; assumption].
Qed.

(** synthetic division *)
Lemma divide : forall c r, exists q, length q = pred (length c) /\ forall x, horner c x = horner c r + (x - r) * horner q x.
Proof.
  induction c as [|a c IH]; intros r; [exists []; split; [reflexivity|intros; cbn; ring]|].
  destruct (IH r) as [q [L H]]. destruct c as [|b c].
  - exists []. split; [reflexivity|]. intros; cbn. ring.
  - exists (horner (b :: c) r :: q). split; [cbn [length pred] in *; lia|]. intros x. specialize (H x).
    change (horner (a :: b :: c) x) with (a + x * horner (b :: c) x). change (horner (a :: b :: c) r) with (a + r * horner (b :: c) r).
    change (horner (horner (b :: c) r :: q) x) with (horner (b :: c) r + x * horner q x). rewrite H. ring.
Qed.
Lemma many_roots : forall n c rs, length c = n -> length rs = n -> NoDup rs -> (forall r, In r rs -> horner c r = 0) -> forall x, horner c x = 0.
Proof.
  induction n; intros c rs Lc Lr ND Z x.
  - destruct c; [reflexivity|discriminate].
  - destruct rs as [|r rs]; [discriminate|]. inversion ND as [|? ? N1 N2]; subst. destruct (divide c r) as [q [Lq H]].
    rewrite (H x), (Z r) by (left; reflexivity). rewrite (IHn q rs); [ring|lia|cbn in Lr; lia|exact N2|].
    intros s Hs. assert (X := H s). rewrite (Z s), (Z r) in X by (cbn; auto). assert (s - r <> 0) by (intros E; apply N1; replace r with s by lra; exact Hs).
    apply (Rmult_eq_reg_l (s - r)); [lra|assumption].
Qed.
Lemma poly_unique : forall n f g rs, is_poly n f -> is_poly n g -> length rs = n -> NoDup rs -> (forall r, In r rs -> f r = g r) -> forall x, f x = g x.
Proof.
  intros n f g rs Hf Hg L ND E x.
  assert (P : is_poly n (fun x => f x + (-1) * g x)) by (apply poly_add; [exact Hf|apply poly_scal, Hg]).
  destruct P as [c [Lc H]]. assert (Z := many_roots n c rs Lc L ND). assert (X : horner c x = 0).
  { apply Z. intros r Hr. rewrite <- H, (E r Hr). ring. }
  rewrite <- H in X. lra.
Qed.

(** ** Lagrange basis *)

Definition factor (a x b : R) : R := if Req_EM_T (a - b) 0 then 1 else (x - b) / (a - b).
Fixpoint basis (a : R) (xs : list R) (x : R) : R :=
  match xs with [] => 1 | b :: xs' => factor a x b * basis a xs' x end.

Lemma basis_perm : forall a xs xs' x, Permutation xs xs' -> basis a xs x = basis a xs' x.
Proof. intros a xs xs' x P. induction P; cbn; [reflexivity|rewrite IHP; reflexivity|ring|congruence]. Qed.
Lemma factor_self : forall a x, factor a x a = 1.
Proof. intros a x. unfold factor. destruct (Req_EM_T (a - a) 0) as [|N]; [reflexivity|exfalso; apply N; ring]. Qed.
Lemma basis_own : forall a xs, basis a xs a = 1.
Proof.
  intros a; induction xs as [|b xs IH]; [reflexivity|]. cbn. rewrite IH. unfold factor.
  destruct (Req_EM_T (a - b) 0); [ring|]. field. exact n.
Qed.
Lemma basis_other : forall a b xs, In b xs -> a <> b -> basis a xs b = 0.
Proof.
  intros a b; induction xs as [|c xs IH]; intros H N; [destruct H|]. cbn. destruct H as [->|H].
  - unfold factor. destruct (Req_EM_T (a - b) 0) as [E|E]; [exfalso; apply N; lra|]. field. exact E.
  - rewrite (IH H N). ring.
Qed.
Lemma basis_poly' : forall a xs, is_poly (S (length xs)) (basis a xs).
Proof.
  intros a; induction xs as [|b xs IH].
  - exists [1]. split; [reflexivity|]. intros; cbn; ring.
  - cbn [length basis]. unfold factor. destruct (Req_EM_T (a - b) 0) as [E|E].
    + apply (poly_le (S (length xs))); [lia|]. apply (poly_ext _ (basis a xs)); [intros; ring|exact IH].
    + apply (poly_ext _ (fun x => / (a - b) * ((x - b) * basis a xs x))); [intros; field; exact E|].
      apply poly_scal, poly_lin, IH.
Qed.
Lemma basis_poly : forall a xs, In a xs -> is_poly (length xs) (basis a xs).
Proof.
  intros a xs H. destruct (in_split _ _ H) as [l1 [l2 ->]]. assert (P := Permutation_middle l1 l2 a).
  apply (poly_ext _ (basis a (l1 ++ l2))).
  - intros x. rewrite <- (basis_perm a (a :: l1 ++ l2) _ x P). cbn. rewrite factor_self. ring.
  - replace (length (l1 ++ a :: l2)) with (S (length (l1 ++ l2))) by (rewrite !app_length; cbn; lia). apply basis_poly'.
Qed.

(** the interpolant of one variable *)
Definition lin1 (xs : list R) (f : nat -> R) (x : R) : R := Sum (fun m => basis (at_ xs m) xs x * f m) (seq 0 (length xs)).

Lemma at_in : forall xs m, (m < length xs)%nat -> In (at_ xs m) xs.
Proof. intros; apply nth_In; assumption. Qed.
Lemma at_inj : forall xs m n, NoDup xs -> (m < length xs)%nat -> (n < length xs)%nat -> at_ xs m = at_ xs n -> m = n.
Proof. intros xs m n ND Hm Hn E. apply (proj1 (NoDup_nth xs 0) ND m n Hm Hn E). Qed.

Lemma lin1_node : forall xs f n, NoDup xs -> (n < length xs)%nat -> lin1 xs f (at_ xs n) = f n.
Proof.
  intros xs f n ND Hn. unfold lin1.
  rewrite (Sum_ext_in _ _ (fun m => f m * delta n m)).
  - rewrite Sum_delta by exact Hn. reflexivity.
  - intros m Hm. apply in_seq in Hm. unfold delta. destruct (Nat.eqb_spec m n) as [->|N].
    + rewrite basis_own. ring.
    + rewrite basis_other; [ring|apply at_in, Hn|]. intros E. apply N, (at_inj xs); auto. lia.
Qed.
(** the same with more nodes in the basis than values: the values belong to the first [P] nodes *)
Lemma lin1_prefix : forall xs P f n, NoDup xs -> (P <= length xs)%nat -> (n < P)%nat ->
  Sum (fun m => basis (at_ xs m) xs (at_ xs n) * f m) (seq 0 P) = f n.
Proof.
  intros xs P f n ND HP Hn.
  rewrite (Sum_ext_in _ _ (fun m => f m * delta n m)).
  - rewrite Sum_delta by exact Hn. reflexivity.
  - intros m Hm. apply in_seq in Hm. unfold delta. destruct (Nat.eqb_spec m n) as [->|N].
    + rewrite basis_own. ring.
    + rewrite basis_other; [ring|apply at_in; lia|]. intros E. apply N, (at_inj xs); auto; lia.
Qed.
Lemma lin1_poly : forall xs f, is_poly (length xs) (lin1 xs f).
Proof.
  intros xs f. unfold lin1. apply poly_Sum. intros m Hm. apply in_seq in Hm.
  apply (poly_ext _ (fun x => f m * basis (at_ xs m) xs x)); [intros; ring|]. apply poly_scal, basis_poly, at_in. lia.
Qed.
Lemma lin1_pow : forall xs i x, NoDup xs -> (i < length xs)%nat -> lin1 xs (fun m => at_ xs m ^ i) x = x ^ i.
Proof.
  intros xs i x ND Hi. apply (poly_unique (length xs) _ (fun x => x ^ i) xs).
  - apply lin1_poly.
  - apply (poly_le (S i)); [lia|apply poly_pow].
  - reflexivity.
  - exact ND.
  - intros r Hr. destruct (In_nth _ _ 0 Hr) as [m [Hm <-]]. apply (lin1_node xs (fun m => at_ xs m ^ i) m ND Hm).
Qed.

(** ** numpy values *)

Lemma bcast_points : forall op K a b, points K a -> points K b ->
  exists c, bcast op a b = Ok c /\ points K c /\ (is_array c <-> is_array a \/ is_array b) /\
    forall k, (k < K)%nat -> value c k = op (value a k) (value b k).
Proof.
  intros op K a b Ha Hb. destruct a as [u|l], b as [v|l']; cbn [points bcast] in *.
  - exists (Scalar (op u v)). cbn. tauto.
  - exists (Array (map (op u) l')). cbn [points is_array value]. rewrite map_length. repeat split; try tauto.
    intros k Hk. rewrite (nth_indep _ 0 (op u 0)) by (rewrite map_length; lia). apply (map_nth (op u)).
  - exists (Array (map (fun u => op u v) l)). cbn [points is_array value]. rewrite map_length. repeat split; try tauto.
    intros k Hk. rewrite (nth_indep _ 0 (op 0 v)) by (rewrite map_length; lia). apply (map_nth (fun u => op u v)).
  - rewrite Ha, Hb, Nat.eqb_refl. eexists. split; [reflexivity|]. cbn [points is_array value].
    rewrite map_length, combine_length. split; [lia|]. split; [tauto|]. intros k Hk.
    rewrite (nth_indep _ 0 (op (fst (0, 0)) (snd (0, 0)))) by (rewrite map_length, combine_length; lia).
    rewrite (map_nth (fun p => op (fst p) (snd p)) _ (0, 0)), combine_nth by lia. reflexivity.
Qed.
Lemma bcast_in_points : forall op K a b, points K a -> points K b ->
  exists c, bcast_in op a b = Ok c /\ points K c /\ (is_array c <-> is_array a \/ is_array b) /\
    forall k, (k < K)%nat -> value c k = op (value a k) (value b k).
Proof.
  intros op K a b Ha Hb. destruct (bcast_points op K a b Ha Hb) as [c [E [P [A V]]]]. exists c. split; [|auto].
  unfold bcast_in. rewrite E. cbn [bind]. destruct a as [u|l], c as [w|l']; try reflexivity. cbn in *. rewrite Ha, P, Nat.eqb_refl. reflexivity.
Qed.

(** the product computed by the code: the factor of position [m] is skipped too *)
Fixpoint gbasis (i m : nat) (a : R) (xs : list R) (x : R) : R :=
  match xs with
  | [] => 1
  | b :: xs' => (if Nat.eqb i m then 1 else factor a x b) * gbasis (S i) m a xs' x
  end.
Lemma gbasis_basis : forall a m xs i x, (forall b, nth_error xs (m - i) = Some b -> (i <= m)%nat -> b = a) ->
  gbasis i m a xs x = basis a xs x.
Proof.
  intros a m; induction xs as [|b xs IH]; intros i x H; [reflexivity|]. cbn [gbasis basis]. rewrite IH.
  - destruct (Nat.eqb_spec i m) as [->|]; [|reflexivity]. rewrite (H b); [rewrite factor_self; ring|rewrite Nat.sub_diag; reflexivity|lia].
  - intros b' E L. apply H; [|lia]. replace (m - i)%nat with (S (m - S i)) by lia. exact E.
Qed.
Lemma gbasis_own : forall a m xs i, gbasis i m a xs a = 1.
Proof.
  intros a m; induction xs as [|b xs IH]; intros i; [reflexivity|]. cbn. rewrite IH. unfold factor.
  destruct (Nat.eqb i m); [ring|]. destruct (Req_EM_T (a - b) 0); [ring|]. field. exact n.
Qed.
(** the factor of some node other than the one at position [m] is used *)
Fixpoint gactive (i m : nat) (a : R) (xs : list R) : Prop :=
  match xs with [] => False | b :: xs' => (i <> m /\ b <> a) \/ gactive (S i) m a xs' end.
Lemma gactive_other : forall a m xs i, (forall b, nth_error xs (m - i) = Some b -> (i <= m)%nat -> b = a) ->
  (gactive i m a xs <-> exists b, In b xs /\ b <> a).
Proof.
  intros a m; induction xs as [|b xs IH]; intros i H; cbn [gactive In]; [split; [tauto|intros [b [[] _]]]|].
  rewrite IH.
  - split.
    + intros [[_ N]|[b' [I N]]]; [exists b|exists b']; auto.
    + intros [b' [[<-|I] N]]; [left|right; exists b'; auto]. split; [|exact N]. intros ->. apply N, H; [rewrite Nat.sub_diag; reflexivity|lia].
  - intros b' E L. apply H; [|lia]. replace (m - i)%nat with (S (m - S i)) by lia. exact E.
Qed.

Lemma lag_loop_points : forall K x m xm nodes i fx, points K x -> points K fx ->
  exists c, lag_loop x m xm i nodes fx = Ok c /\ points K c /\
    (is_array c <-> is_array fx \/ (is_array x /\ gactive i m xm nodes)) /\
    forall k, (k < K)%nat -> value c k = value fx k * gbasis i m xm nodes (value x k).
Proof.
  intros K x m xm; induction nodes as [|b nodes IH]; intros i fx Px Pf.
  - exists fx. cbn. split; [reflexivity|]. split; [exact Pf|]. split; [tauto|]. intros; ring.
  - cbn [lag_loop gbasis gactive]. unfold factor. rnum.
    destruct (Nat.eqb_spec i m) as [EI|NI]; cbn [negb andb].
    { destruct (IH (S i) fx Px Pf) as [c [Ec [Pc [Ac Vc]]]]. exists c. split; [exact Ec|]. split; [exact Pc|]. split; [rewrite Ac; tauto|].
      intros k Hk. rewrite (Vc k Hk). ring. }
    destruct (Req_EM_T (xm - b) 0) as [E|N]; cbn [negb].
    + destruct (IH (S i) fx Px Pf) as [c [Ec [Pc [Ac Vc]]]]. exists c. split; [exact Ec|]. split; [exact Pc|]. split.
      * rewrite Ac. assert (b = xm) by lra. tauto.
      * intros k Hk. rewrite (Vc k Hk). ring.
    + destruct (bcast_points Rminus K x (Scalar b) Px) as [a1 [E1 [P1 [A1 V1]]]]; [exact Logic.I|].
      destruct (bcast_points Rdiv K a1 (Scalar (xm - b)) P1) as [a2 [E2 [P2 [A2 V2]]]]; [exact Logic.I|].
      destruct (bcast_in_points Rmult K fx a2 Pf P2) as [a3 [E3 [P3 [A3 V3]]]].
      rewrite E1; cbn [bind]. rewrite E2; cbn [bind]. rewrite E3; cbn [bind].
      destruct (IH (S i) a3 Px P3) as [c [Ec [Pc [Ac Vc]]]]. exists c. split; [exact Ec|]. split; [exact Pc|]. split.
      * rewrite Ac, A3, A2, A1. cbn [is_array]. assert (b <> xm) by lra. tauto.
      * intros k Hk. rewrite (Vc k Hk), (V3 k Hk), (V2 k Hk), (V1 k Hk). cbn [value]. ring.
Qed.

Lemma lag_points_gen : forall K x m xm nodes, points K x ->
  exists c, lag x m xm nodes = Ok c /\ points K c /\ (is_array c <-> is_array x /\ gactive 0 m xm nodes) /\
    forall k, (k < K)%nat -> value c k = gbasis 0 m xm nodes (value x k).
Proof.
  intros K x m xm nodes Px. unfold lag.
  destruct (lag_loop_points K x m xm nodes 0 (Scalar 1) Px Logic.I) as [c [E [P [A V]]]].
  exists c. split; [exact E|]. split; [exact P|]. split; [rewrite A; cbn; tauto|]. intros k Hk. rewrite (V k Hk). cbn. ring.
Qed.
Lemma lag_points : forall K x m xm nodes, points K x -> (forall b, nth_error nodes m = Some b -> b = xm) ->
  exists c, lag x m xm nodes = Ok c /\ points K c /\ (is_array c <-> is_array x /\ exists b, In b nodes /\ b <> xm) /\
    forall k, (k < K)%nat -> value c k = basis xm nodes (value x k).
Proof.
  intros K x m xm nodes Px H. destruct (lag_points_gen K x m xm nodes Px) as [c [E [P [A V]]]].
  assert (H' : forall b, nth_error nodes (m - 0) = Some b -> (0 <= m)%nat -> b = xm) by (intros b Hb _; apply H; rewrite Nat.sub_0_r in Hb; exact Hb).
  exists c. split; [exact E|]. split; [exact P|]. split; [rewrite A, (gactive_other xm m nodes 0 H'); tauto|].
  intros k Hk. rewrite (V k Hk). apply gbasis_basis, H'.
Qed.

(** a loop that adds a term for each node *)
Lemma for_nodes_points : forall K (body : nat -> R -> nval R -> res (nval R)) (g : nat -> nat -> R) (Q : nat -> Prop) nodes i f,
  (forall j a f, nth_error nodes (j - i) = Some a -> (i <= j)%nat -> points K f -> exists c, body j a f = Ok c /\ points K c /\
     (is_array c <-> is_array f \/ Q j) /\ forall k, (k < K)%nat -> value c k = value f k + g j k) ->
  points K f ->
  exists c, for_nodes i nodes body f = Ok c /\ points K c /\
    (is_array c <-> is_array f \/ exists j, (i <= j < i + length nodes)%nat /\ Q j) /\
    forall k, (k < K)%nat -> value c k = value f k + Sum (fun j => g j k) (seq i (length nodes)).
Proof.
  intros K body g Q; induction nodes as [|a nodes IH]; intros i f H Pf.
  - exists f. cbn. split; [reflexivity|]. split; [exact Pf|]. split; [split; [auto|intros [X|[j [L _]]]; [exact X|lia]]|].
    intros; unfold Sum; cbn; ring.
  - destruct (H i a f) as [c [E [P [A V]]]]; [rewrite Nat.sub_diag; reflexivity|lia|exact Pf|].
    cbn [for_nodes]. rewrite E; cbn [bind].
    destruct (IH (S i) c) as [c' [E' [P' [A' V']]]].
    + intros j b f' Hb L Pf'. apply H; [|lia|exact Pf']. replace (j - i)%nat with (S (j - S i)) by lia. exact Hb.
    + exact P.
    + exists c'. split; [exact E'|]. split; [exact P'|]. split.
      * rewrite A', A. split.
        -- intros [[X|X]|[j [L X]]]; [auto|right; exists i; cbn; split; [lia|exact X]|right; exists j; cbn; split; [lia|exact X]].
        -- intros [X|[j [L X]]]; [auto|]. cbn in L. destruct (Nat.eq_dec j i) as [->|N]; [auto|]. right. exists j. split; [lia|exact X].
      * intros k Hk. rewrite (V' k Hk), (V k Hk). cbn [length seq]. rewrite Sum_cons. ring.
Qed.

Lemma nth_at : forall (xs : list R) m a, nth_error xs m = Some a -> a = at_ xs m.
Proof. intros xs m a H. unfold at_. symmetry. apply nth_error_nth, H. Qed.

(** the node [a] is not the only value in [xs] *)
Definition active (x : nval R) (a : R) (xs : list R) : Prop := is_array x /\ exists b, In b xs /\ b <> a.

Theorem interp2_points : forall K x y xs ys F, points K x -> points K y -> shape F = [length xs; length ys] ->
  exists v, interpolate_lagrange_2D x y xs ys F = Ok v /\ points K v /\
    (is_array v <-> exists m n, (m < length xs)%nat /\ (n < length ys)%nat /\ (active x (at_ xs m) xs \/ active y (at_ ys n) ys)) /\
    forall k, (k < K)%nat -> value v k =
      Sum (fun m => Sum (fun n => basis (at_ xs m) xs (value x k) * basis (at_ ys n) ys (value y k) * fget F [m; n]) (seq 0 (length ys))) (seq 0 (length xs)).
Proof.
  intros K x y xs ys F Px Py SH. unfold interpolate_lagrange_2D, shape_ok. rewrite SH.
  destruct (list_eq_dec Nat.eq_dec _ _) as [_|N]; [|congruence]. cbn [negb].
  match goal with |- context [for_nodes 0 xs ?b _] => set (body := b) end.
  destruct (for_nodes_points K body
    (fun m k => Sum (fun n => basis (at_ xs m) xs (value x k) * basis (at_ ys n) ys (value y k) * fget F [m; n]) (seq 0 (length ys)))
    (fun m => exists n, (n < length ys)%nat /\ (active x (at_ xs m) xs \/ active y (at_ ys n) ys)) xs 0 (Scalar 0)) as [v [E [P [A V]]]].
  - intros m a f Ha _ Pf. rewrite Nat.sub_0_r in Ha. assert (EA := nth_at _ _ _ Ha). unfold body.
    destruct (lag_points K x m a xs Px) as [fx [Ex [Pfx [Afx Vfx]]]]; [intros b Hb; congruence|]. rewrite Ex; cbn [bind].
    match goal with |- context [for_nodes 0 ys ?b _] => set (body2 := b) end.
    destruct (for_nodes_points K body2
      (fun n k => basis (at_ xs m) xs (value x k) * basis (at_ ys n) ys (value y k) * fget F [m; n])
      (fun n => active x (at_ xs m) xs \/ active y (at_ ys n) ys) ys 0 f) as [c [Ec [Pc [Ac Vc]]]]; [|exact Pf|].
    + intros n b g Hb _ Pg. rewrite Nat.sub_0_r in Hb. assert (EB := nth_at _ _ _ Hb). unfold body2.
      destruct (lag_points K y n b ys Py) as [fy [Ey [Pfy [Afy Vfy]]]]; [intros b' Hb'; congruence|]. rewrite Ey; cbn [bind].
      destruct (bcast_points Rmult K fx fy Pfx Pfy) as [t1 [E1 [P1 [A1 V1]]]]. rnum. rewrite E1; cbn [bind].
      destruct (bcast_points Rmult K t1 (Scalar (fget F [m; n])) P1 Logic.I) as [t2 [E2 [P2 [A2 V2]]]]. rewrite E2; cbn [bind].
      destruct (bcast_in_points Rplus K g t2 Pg P2) as [t3 [E3 [P3 [A3 V3]]]]. exists t3. split; [exact E3|]. split; [exact P3|]. split.
      * rewrite A3, A2, A1, Afx, Afy. cbn [is_array]. unfold active. rewrite <- EA, <- EB. tauto.
      * intros k Hk. rewrite (V3 k Hk), (V2 k Hk), (V1 k Hk), (Vfx k Hk), (Vfy k Hk), <- EA, <- EB. cbn [value]. ring.
    + exists c. split; [exact Ec|]. split; [exact Pc|]. split; [rewrite Ac|exact Vc].
      split; (intros [H|[j [L H]]]; [auto|right; exists j; split; [lia|exact H]]).
  - exact Logic.I.
  - exists v. split; [exact E|]. split; [exact P|]. split.
    + rewrite A. cbn [is_array]. split.
      * intros [[]|[m [L [n [L' H]]]]]. exists m, n. repeat split; [lia|exact L'|exact H].
      * intros [m [n [L [L' H]]]]. right. exists m. split; [lia|]. exists n. auto.
    + intros k Hk. rewrite (V k Hk). cbn [value]. ring.
Qed.

(** the code's basis in the third direction: the nodes of the second, without the one at the same position *)
Theorem interp3_points : forall K x y z xs ys zs F, points K x -> points K y -> points K z ->
  shape F = [length xs; length ys; length zs] ->
  exists v, interpolate_lagrange_3D x y z xs ys zs F = Ok v /\ points K v /\
    (is_array v <-> exists m n p, (m < length xs)%nat /\ (n < length ys)%nat /\ (p < length zs)%nat /\
       (active x (at_ xs m) xs \/ active y (at_ ys n) ys \/ (is_array z /\ gactive 0 p (at_ zs p) ys))) /\
    forall k, (k < K)%nat -> value v k =
      Sum (fun m => Sum (fun n => Sum (fun p => basis (at_ xs m) xs (value x k) * basis (at_ ys n) ys (value y k) * gbasis 0 p (at_ zs p) ys (value z k)
        * fget F [m; n; p]) (seq 0 (length zs))) (seq 0 (length ys))) (seq 0 (length xs)).
Proof.
  intros K x y z xs ys zs F Px Py Pz SH. unfold interpolate_lagrange_3D, shape_ok. rewrite SH.
  destruct (list_eq_dec Nat.eq_dec _ _) as [_|N]; [|congruence]. cbn [negb].
  match goal with |- context [for_nodes 0 xs ?b _] => set (body := b) end.
  destruct (for_nodes_points K body
    (fun m k => Sum (fun n => Sum (fun p => basis (at_ xs m) xs (value x k) * basis (at_ ys n) ys (value y k) * gbasis 0 p (at_ zs p) ys (value z k)
        * fget F [m; n; p]) (seq 0 (length zs))) (seq 0 (length ys)))
    (fun m => exists n p, (n < length ys)%nat /\ (p < length zs)%nat /\ (active x (at_ xs m) xs \/ active y (at_ ys n) ys \/ (is_array z /\ gactive 0 p (at_ zs p) ys))) xs 0 (Scalar 0)) as [v [E [P [A V]]]].
  - intros m a f Ha _ Pf. rewrite Nat.sub_0_r in Ha. assert (EA := nth_at _ _ _ Ha). unfold body.
    destruct (lag_points K x m a xs Px) as [fx [Ex [Pfx [Afx Vfx]]]]; [intros b Hb; congruence|]. rewrite Ex; cbn [bind].
    match goal with |- context [for_nodes 0 ys ?b _] => set (body2 := b) end.
    destruct (for_nodes_points K body2
      (fun n k => Sum (fun p => basis (at_ xs m) xs (value x k) * basis (at_ ys n) ys (value y k) * gbasis 0 p (at_ zs p) ys (value z k)
        * fget F [m; n; p]) (seq 0 (length zs)))
      (fun n => exists p, (p < length zs)%nat /\ (active x (at_ xs m) xs \/ active y (at_ ys n) ys \/ (is_array z /\ gactive 0 p (at_ zs p) ys))) ys 0 f) as [c [Ec [Pc [Ac Vc]]]]; [|exact Pf|].
    + intros n b g Hb _ Pg. rewrite Nat.sub_0_r in Hb. assert (EB := nth_at _ _ _ Hb). unfold body2.
      destruct (lag_points K y n b ys Py) as [fy [Ey [Pfy [Afy Vfy]]]]; [intros b' Hb'; congruence|]. rewrite Ey; cbn [bind].
      match goal with |- context [for_nodes 0 zs ?b _] => set (body3 := b) end.
      destruct (for_nodes_points K body3
        (fun p k => basis (at_ xs m) xs (value x k) * basis (at_ ys n) ys (value y k) * gbasis 0 p (at_ zs p) ys (value z k) * fget F [m; n; p])
        (fun p => active x (at_ xs m) xs \/ active y (at_ ys n) ys \/ (is_array z /\ gactive 0 p (at_ zs p) ys)) zs 0 g) as [c [Ec [Pc [Ac Vc]]]]; [|exact Pg|].
      * intros p d h Hd _ Ph. rewrite Nat.sub_0_r in Hd. assert (ED := nth_at _ _ _ Hd). unfold body3.
        assert (Lp : (p < length zs)%nat) by (apply nth_error_Some; congruence).
        destruct (lag_points_gen K z p d ys Pz) as [fz [Ez [Pfz [Afz Vfz]]]]. rewrite Ez; cbn [bind].
        destruct (bcast_points Rmult K fx fy Pfx Pfy) as [t1 [E1 [P1 [A1 V1]]]]. rnum. rewrite E1; cbn [bind].
        destruct (bcast_points Rmult K t1 fz P1 Pfz) as [t0 [E0 [P0 [A0 V0]]]]. rewrite E0; cbn [bind].
        destruct (bcast_points Rmult K t0 (Scalar (fget F [m; n; p])) P0 Logic.I) as [t2 [E2 [P2 [A2 V2]]]]. rewrite E2; cbn [bind].
        destruct (bcast_in_points Rplus K h t2 Ph P2) as [t3 [E3 [P3 [A3 V3]]]]. exists t3. split; [exact E3|]. split; [exact P3|]. split.
        -- rewrite A3, A2, A0, A1, Afx, Afy, Afz. cbn [is_array]. unfold active. rewrite <- EA, <- EB, <- ED. tauto.
        -- intros k Hk. rewrite (V3 k Hk), (V2 k Hk), (V0 k Hk), (V1 k Hk), (Vfx k Hk), (Vfy k Hk), (Vfz k Hk), <- EA, <- EB, <- ED. cbn [value]. ring.
      * exists c. split; [exact Ec|]. split; [exact Pc|]. split; [rewrite Ac|exact Vc].
        split; (intros [H|[j [L H]]]; [auto|right; exists j; split; [lia|exact H]]).
    + exists c. split; [exact Ec|]. split; [exact Pc|]. split; [rewrite Ac|exact Vc]. split.
      * intros [H|[n [L [p [Lp H]]]]]; [auto|right; exists n, p; repeat split; [lia|exact Lp|exact H]].
      * intros [H|[n [p [L [Lp H]]]]]; [auto|right; exists n; split; [lia|exists p; auto]].
  - exact Logic.I.
  - exists v. split; [exact E|]. split; [exact P|]. split.
    + rewrite A. cbn [is_array]. split.
      * intros [[]|[m [L [n [p [L' [Lp H]]]]]]]. exists m, n, p. repeat split; [lia|exact L'|exact Lp|exact H].
      * intros [m [n [p [L [L' [Lp H]]]]]]. right. exists m. split; [lia|]. exists n, p. auto.
    + intros k Hk. rewrite (V k Hk). cbn [value]. ring.
Qed.

(** ** Consequences *)

Lemma active_two : forall x xs, (exists m, (m < length xs)%nat /\ active x (at_ xs m) xs) <-> is_array x /\ two_nodes xs.
Proof.
  intros x xs. split.
  - intros [m [L [A [b [I N]]]]]. split; [exact A|]. exists (at_ xs m), b. auto using at_in.
  - intros [A [a [b [Ia [Ib N]]]]]. destruct (In_nth _ _ 0 Ia) as [m [L E]]. exists m. split; [exact L|]. split; [exact A|].
    exists b. split; [exact Ib|]. unfold at_. congruence.
Qed.
Lemma nonempty_len : forall A (l : list A), l <> [] <-> (0 < length l)%nat.
Proof. intros A [|a l]; cbn; split; intros; try lia; congruence. Qed.

Theorem interp2_array : forall K x y xs ys F v, points K x -> points K y -> interpolate_lagrange_2D x y xs ys F = Ok v ->
  points K v /\ shape F = [length xs; length ys] /\
  (is_array v <-> (is_array x /\ two_nodes xs /\ ys <> []) \/ (is_array y /\ two_nodes ys /\ xs <> [])).
Proof.
  intros K x y xs ys F v Px Py E. destruct (list_eq_dec Nat.eq_dec (shape F) [length xs; length ys]) as [SH|N].
  - destruct (interp2_points K x y xs ys F Px Py SH) as [v' [E' [P' [A' _]]]]. rewrite E in E'; injection E' as <-.
    split; [exact P'|]. split; [exact SH|]. rewrite A'. rewrite !nonempty_len. split.
    + intros [m [n [Lm [Ln [A|A]]]]].
      * left. destruct (proj1 (active_two x xs)) as [? ?]; [exists m; auto|]. repeat split; auto; lia.
      * right. destruct (proj1 (active_two y ys)) as [? ?]; [exists n; auto|]. repeat split; auto; lia.
    + intros [[A [T L]]|[A [T L]]].
      * destruct (proj2 (active_two x xs) (conj A T)) as [m [Lm H]]. exists m, 0%nat. auto.
      * destruct (proj2 (active_two y ys) (conj A T)) as [n [Ln H]]. exists 0%nat, n. auto.
  - unfold interpolate_lagrange_2D, shape_ok in E. destruct (list_eq_dec Nat.eq_dec _ _); [contradiction|discriminate].
Qed.

Lemma points_eq : forall K v w, (0 < K)%nat -> points K v -> points K w -> (is_array v <-> is_array w) ->
  (forall k, (k < K)%nat -> value v k = value w k) -> v = w.
Proof.
  intros K [a|l] [b|l'] HK Pv Pw A V; cbn in *.
  - rewrite (V 0%nat HK). reflexivity.
  - tauto.
  - tauto.
  - f_equal. apply (nth_ext _ _ 0 0); [congruence|]. rewrite Pv. exact V.
Qed.
