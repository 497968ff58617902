(** Rounding errors of the Lagrange interpolation: the sum. *)
From Coq Require Import ZArith Reals List Bool Arith Lra Lia.
From Flocq Require Import Core.
From Verif Require Import Num Float Py Mesh Interp Spec SpecInterp SpecRound SpecRound5 FSum FInterp FFloat FRound3 FRel FInterp2.
Import ListNotations.
Local Open Scope R_scope.

Lemma gbasis_seq : forall m a x l i, (forall j, (i <= j < i + List.length l)%nat -> j <> m -> nth (j - i) l 0 <> a) ->
  gbasis i m a l x = fold_right Rmult 1 (map (fun j => (x - nth (j - i) l 0) / (a - nth (j - i) l 0)) (filter (fun j => negb (Nat.eqb j m)) (seq i (List.length l)))).
Proof.
  intros m a x. induction l as [|b l IH]; intros i H; [reflexivity|]. cbn [gbasis List.length seq filter].
  assert (E : gbasis (S i) m a l x = fold_right Rmult 1 (map (fun j => (x - nth (j - i) (b :: l) 0) / (a - nth (j - i) (b :: l) 0)) (filter (fun j => negb (Nat.eqb j m)) (seq (S i) (List.length l))))).
  { rewrite IH.
    - f_equal. apply map_ext_in. intros j Hj. apply filter_In in Hj. destruct Hj as [Hj _]. apply in_seq in Hj. replace (j - i)%nat with (S (j - S i)) by lia. reflexivity.
    - intros j Hj N. assert (X := H j ltac:(cbn [List.length]; lia) N). replace (j - i)%nat with (S (j - S i)) in X by lia. exact X. }
  rewrite E. destruct (Nat.eqb_spec i m) as [EI|NI]; cbn [negb]; [ring|]. cbn [map fold_right]. rewrite Nat.sub_diag. cbn [nth]. unfold factor.
  destruct (Req_EM_T (a - b) 0) as [Z|_]; [|reflexivity]. exfalso. assert (X := H i ltac:(cbn [List.length]; lia) NI). rewrite Nat.sub_diag in X. apply X. cbn. lra.
Qed.
Lemma gbasis_lagrange : forall xs m x, NoDup xs -> (m < List.length xs)%nat -> gbasis 0 m (at_ xs m) xs x = lagrange xs m x.
Proof.
  intros xs m x ND Hm. rewrite gbasis_seq.
  - unfold lagrange. f_equal. apply map_ext. intros j. rewrite Nat.sub_0_r. reflexivity.
  - intros j Hj N E. rewrite Nat.sub_0_r in E. apply N. apply (at_inj xs); [exact ND|lia|exact Hm|exact E].
Qed.
Lemma basis_lagrange : forall xs m x, NoDup xs -> (m < List.length xs)%nat -> basis (at_ xs m) xs x = lagrange xs m x.
Proof.
  intros xs m x ND Hm. rewrite <- (gbasis_lagrange xs m x ND Hm). symmetry. apply gbasis_basis. intros b Hb _. rewrite Nat.sub_0_r in Hb. apply nth_at, Hb.
Qed.

Lemma Sum_shift : forall (f : nat -> R) n a, Sum f (seq a n) = Sum (fun i => f (a + i)%nat) (seq 0 n).
Proof.
  intros f n a. revert f. induction a as [|a IH]; intros f; [apply Sum_ext; intros; reflexivity|]. rewrite <- seq_shift, Sum_map, (IH (fun i => f (S i))). apply Sum_ext. intros; reflexivity.
Qed.
Lemma Sum_last : forall (f : nat -> R) n, Sum f (seq 0 (S n)) = Sum f (seq 0 n) + f n.
Proof. intros f n. rewrite seq_S, Sum_app, Sum_cons, Sum_nil. cbn [Nat.add]. ring. Qed.
Lemma Sum_grid : forall (f : nat -> nat -> R) N M, Sum (fun q => f (q / N)%nat (q mod N)) (seq 0 (M * N)) = Sum (fun m => Sum (fun n => f m n) (seq 0 N)) (seq 0 M).
Proof.
  intros f N M. induction M as [|M IH]; [reflexivity|]. rewrite Sum_last, <- IH. replace (S M * N)%nat with (M * N + N)%nat by lia. rewrite seq_app, Sum_app. f_equal.
  rewrite Sum_shift. apply Sum_ext_in. intros n Hn. apply in_seq in Hn. cbn [Nat.add]. replace (M * N + n)%nat with (n + M * N)%nat by lia.
  rewrite Nat.div_add, Nat.mod_add, Nat.div_small, Nat.mod_small by lia. reflexivity.
Qed.

(** a loop with an invariant *)
Lemma for_nodes_inv : forall (T : Type) (N : Num T) (P : nat -> nval T -> Prop) (body : nat -> T -> nval T -> res (nval T)) nodes i f,
  (forall j a f, nth_error nodes (j - i) = Some a -> (i <= j)%nat -> P j f -> exists c, body j a f = Ok c /\ P (S j) c) -> P i f ->
  exists c, for_nodes i nodes body f = Ok c /\ P (i + List.length nodes)%nat c.
Proof.
  intros T N P body. induction nodes as [|a nodes IH]; intros i f H Hf; [exists f; cbn; rewrite Nat.add_0_r; auto|].
  destruct (H i a f) as [c [E Pc]]; [rewrite Nat.sub_diag; reflexivity|lia|exact Hf|]. cbn [for_nodes]. rewrite E; cbn [bind].
  destruct (IH (S i) c) as [c' [E' P']].
  - intros j b f' Hb L Pf'. apply H; [|lia|exact Pf']. replace (j - i)%nat with (S (j - S i)) by lia. exact Hb.
  - exact Pc.
  - exists c'. split; [exact E'|]. cbn [List.length]. replace (i + S (List.length nodes))%nat with (S i + List.length nodes)%nat by lia. exact P'.
Qed.

Section Two.
  Variables (K : nat) (x y : nval double) (xs ys : list double) (F : ndarray double) (dx dy : R) (e : nat).
  Hypothesis IS : interp_scale K x y xs ys F dx dy e.
  Let M := List.length xs.
  Let N := List.length ys.
  Let X k := val (at_point x k).
  Let Y k := val (at_point y k).
  Let L m k := gbasis 0 m (at_ (map val xs) m) (map val xs) (X k).
  Let J n k := gbasis 0 n (at_ (map val ys) n) (map val ys) (Y k).
  Let term m n k := L m k * J n k * val (fget F [m; n]).
  Let T q k := term (q / N)%nat (q mod N) k.
  Let Sm q k := Sum (fun q => T q k) (seq 0 q).
  Let Bm q k := Sum (fun q => Rabs (T q k)) (seq 0 q).
  Let c0 := (4 * (M + N) + 2)%nat.
  (** point [k] is node (m, n) *)
  Let node k m n := (m < M)%nat /\ (n < N)%nat /\ X k = at_ (map val xs) m /\ Y k = at_ (map val ys) n.
  Let st q f := pts K f /\ forall k, (k < K)%nat -> nr (c0 + q) (at_point f k) (Sm q k) (Bm q k) /\
    forall m n, node k m n -> val (at_point f k) = if (m * N + n <? q)%nat then val (fget F [m; n]) else 0.

  Let PX : pts K x.
  Proof. apply pts_val, (in_x _ _ _ _ _ _ _ _ _ IS). Qed.
  Let PY : pts K y.
  Proof. apply pts_val, (in_y _ _ _ _ _ _ _ _ _ IS). Qed.
  Let MN : (M + N <= 500)%nat.
  Proof. destruct (in_few _ _ _ _ _ _ _ _ _ IS) as [A B]. fold M N in B. nia. Qed.
  Let EM : (e * M <= 500)%nat.
  Proof. destruct (in_few _ _ _ _ _ _ _ _ _ IS) as [A B]. fold M N in B. nia. Qed.
  Let EN : (e * N <= 500)%nat.
  Proof. destruct (in_few _ _ _ _ _ _ _ _ _ IS) as [A B]. fold M N in B. nia. Qed.
  Let gamA : forall n, (Z.of_nat n <= 300000)%Z -> gam n <= 1.
  Proof. intros n H. eapply Rle_trans; [apply gam_lin; lia|]. assert (I : INR (S n) <= 300001) by (rewrite INR_IZR_INZ; apply IZR_le; lia). unfold roundoff. lra. Qed.
  Let MN2 : (Z.of_nat (M * N) <= 250000)%Z.
  Proof. assert (M <= 500 /\ N <= 500)%nat as [A B] by lia. rewrite Nat2Z.inj_mul. nia. Qed.

  Lemma own : forall m k, (m < M)%nat -> X k = at_ (map val xs) m -> L m k = 1.
  Proof. intros m k Hm E. unfold L. rewrite E. apply gbasis_own. Qed.
  Lemma own' : forall n k, (n < N)%nat -> Y k = at_ (map val ys) n -> J n k = 1.
  Proof. intros m k Hm E. unfold J. rewrite E. apply gbasis_own. Qed.
  Lemma other : forall l a b x, NoDup l -> (a < List.length l)%nat -> (b < List.length l)%nat -> a <> b -> x = at_ l b -> gbasis 0 a (at_ l a) l x = 0.
  Proof.
    intros l a b z ND Ha Hb NE ->. rewrite gbasis_basis.
    - apply basis_other; [apply at_in, Hb|]. intros E. apply NE, (at_inj l); assumption.
    - intros c Hc _. rewrite Nat.sub_0_r in Hc. apply nth_at, Hc.
  Qed.
  Lemma lenx : List.length (map val xs) = M. Proof. apply map_length. Qed.
  Lemma leny : List.length (map val ys) = N. Proof. apply map_length. Qed.
  Lemma term_node : forall k m n m' n', node k m n -> (m' < M)%nat -> (n' < N)%nat -> term m' n' k = if ((m' =? m) && (n' =? n))%nat then val (fget F [m; n]) else 0.
  Proof.
    intros k m n m' n' [Hm [Hn [Ex Ey]]] Hm' Hn'. unfold term. destruct (Nat.eqb_spec m' m) as [->|NM]; cbn [andb].
    - destruct (Nat.eqb_spec n' n) as [->|NN]; [rewrite own, own' by assumption; ring|].
      unfold J. rewrite (other (map val ys) n' n); rewrite ?leny; try assumption; [ring|apply (in_ys _ _ _ _ _ _ _ _ _ IS)].
    - unfold L. rewrite (other (map val xs) m' m); rewrite ?lenx; try assumption; [ring|apply (in_xs _ _ _ _ _ _ _ _ _ IS)].
  Qed.
  Lemma Bm_step : forall q k, Bm (S q) k = Bm q k + Rabs (T q k).
  Proof. intros. apply (Sum_last (fun q => Rabs (T q k))). Qed.
  Lemma Sm_step : forall q k, Sm (S q) k = Sm q k + T q k.
  Proof. intros. apply (Sum_last (fun q => T q k)). Qed.

  (** a term *)
  Lemma term_rl : forall m n k a b, (m < M)%nat -> (n < N)%nat -> rl (4 * M) a (L m k) -> rl (4 * N) b (J n k) -> sz (Z.of_nat (e * M)) (L m k) -> sz (Z.of_nat (e * N)) (J n k) ->
    (X k = at_ (map val xs) m -> val a = 1) -> (Y k = at_ (map val ys) n -> val b = 1) ->
    rl c0 (nmul (nmul a b) (fget F [m; n])) (term m n k) /\ sz 900 (term m n k) /\
    forall m' n', node k m' n' -> val (nmul (nmul a b) (fget F [m; n])) = if ((m =? m') && (n =? n'))%nat then val (fget F [m'; n']) else 0.
  Proof.
    intros m n k a b Hm Hn A B SA SB OA OB. destruct (in_field _ _ _ _ _ _ _ _ _ IS m n Hm Hn) as [FF FS].
    assert (ZF : sz 400 (val (fget F [m; n]))) by (destruct FS as [Z|[F1 F2]]; [left; exact Z|right; rewrite (pow2_bpow 400) in F2; rewrite (inv2_bpow 400) in F1; exact (conj F1 F2)]).
    assert (Z1 := sz_mul _ _ _ _ SA SB). assert (EF := proj2 (in_few _ _ _ _ _ _ _ _ _ IS)). fold M N in EF. rewrite Nat.mul_add_distr_l in EF.
    assert (Z1' : sz 500 (L m k * J n k)) by (eapply sz_le; [|exact Z1]; lia).
    assert (Z2 : sz 900 (term m n k)) by (apply (sz_mul 500 400); assumption).
    assert (R1 : rl (S (4 * M + 4 * N)) (nmul a b) (L m k * J n k)) by (apply rl_mul; [exact A|exact B|eapply sz_le; [|exact Z1']; lia|apply gamA; lia]).
    assert (R2 : rl c0 (nmul (nmul a b) (fget F [m; n])) (term m n k)).
    { replace c0 with (S (S (4 * M + 4 * N) + 0)) by (unfold c0; lia). apply rl_mul; [exact R1|apply rl_val, FF|eapply sz_le; [|exact Z2]; lia|apply gamA; lia]. }
    split; [exact R2|]. split; [exact Z2|]. intros m' n' HN. assert (TN := term_node k m' n' m n HN Hm Hn).
    destruct (Nat.eqb_spec m m') as [<-|NM]; cbn [andb] in *; [|rewrite TN in R2; apply (rl_zero _ _ R2)].
    destruct (Nat.eqb_spec n n') as [<-|NN]; [|rewrite TN in R2; apply (rl_zero _ _ R2)].
    destruct HN as [_ [_ [Ex Ey]]]. specialize (OA Ex). specialize (OB Ey).
    assert (V1 : val (nmul a b) = 1).
    { destruct (fl_mul a b (proj1 A) (proj1 B)) as [_ E]; rewrite OA, OB, Rmult_1_l in *; [rewrite Rabs_R1; change 1 with (bpow radix2 0); apply bpow_le; lia|]. rewrite E. apply rnd_1. }
    destruct (fl_mul (nmul a b) _ (proj1 R1) FF) as [_ E]; rewrite V1, Rmult_1_l in *.
    - eapply Rle_trans; [apply (sz_abs _ _ ZF)|]. apply bpow_le. lia.
    - rewrite E. apply rnd_fmt, val_fmt, FF.
  Qed.
  Lemma pos_mn : forall m n, (n < N)%nat -> ((m * N + n) / N)%nat = m /\ ((m * N + n) mod N)%nat = n.
  Proof. intros m n Hn. rewrite Nat.add_comm, Nat.div_add, Nat.mod_add, Nat.div_small, Nat.mod_small by lia. auto. Qed.
  Definition good q k := Bm q k <= INR q * bpow radix2 900.

  Lemma add_step : forall m n k f t, (m < M)%nat -> (n < N)%nat -> (k < K)%nat -> good (m * N + n) k ->
    nr (c0 + (m * N + n)) f (Sm (m * N + n) k) (Bm (m * N + n) k) -> (forall m' n', node k m' n' -> val f = if (m' * N + n' <? m * N + n)%nat then val (fget F [m'; n']) else 0) ->
    rl c0 t (term m n k) -> sz 900 (term m n k) -> (forall m' n', node k m' n' -> val t = if ((m =? m') && (n =? n'))%nat then val (fget F [m'; n']) else 0) ->
    good (S (m * N + n)) k /\ nr (c0 + S (m * N + n)) (nadd f t) (Sm (S (m * N + n)) k) (Bm (S (m * N + n)) k) /\
    forall m' n', node k m' n' -> val (nadd f t) = if (m' * N + n' <? S (m * N + n))%nat then val (fget F [m'; n']) else 0.
  Proof.
    intros m n k f t Hm Hn Hk G Hf Nf Ht Zt Nt. assert (ET : T (m * N + n) k = term m n k) by (unfold T; destruct (pos_mn m n Hn) as [-> ->]; reflexivity).
    assert (QL : (m * N + n < M * N)%nat) by nia. set (q := (m * N + n)%nat) in *. assert (At := sz_abs _ _ Zt).
    assert (G' : good (S q) k) by (unfold good in *; rewrite Bm_step, ET, S_INR; lra).
    split; [exact G'|]. rewrite Sm_step, Bm_step, ET. split.
    - rewrite <- plus_n_Sm. apply nr_add; [exact Hf|apply (rl_le c0); [lia|exact Ht]|apply gamA; unfold c0; lia|].
      rewrite <- ET, <- Bm_step. eapply Rle_trans; [exact G'|]. apply Rle_trans with (bpow radix2 20 * bpow radix2 900); [|rewrite <- bpow_plus; apply bpow_le; lia].
      apply Rmult_le_compat_r; [apply bpow_ge_0|]. change (bpow radix2 20) with 1048576. rewrite INR_IZR_INZ. apply IZR_le. lia.
    - intros m' n' HN. specialize (Nf m' n' HN). specialize (Nt m' n' HN). destruct HN as [Hm' [Hn' _]]. destruct Hf as [Ff _]. destruct Ht as [Ft _].
      assert (SZ : forall z, finite z -> val z = val (fget F [m'; n']) -> Rabs (val z) <= bpow radix2 1000).
      { intros z _ ->. destruct (in_field _ _ _ _ _ _ _ _ _ IS m' n' Hm' Hn') as [_ [->|[_ B]]]; [rewrite Rabs_R0; apply bpow_ge_0|]. eapply Rle_trans; [exact B|].
        replace (2 ^ 400) with (bpow radix2 400) by (symmetry; apply (pow2_bpow 400)). apply bpow_le. lia. }
      assert (EQ : ((m =? m') && (n =? n'))%nat = (m' * N + n' =? q)%nat).
      { destruct (Nat.eqb_spec (m' * N + n') q) as [E|NE].
        - destruct (pos_mn m' n' Hn') as [E1 E2]. rewrite E in E1, E2. destruct (pos_mn m n Hn) as [E3 E4]. fold q in E3, E4. rewrite <- E1, E3, <- E2, E4, !Nat.eqb_refl. reflexivity.
        - destruct (Nat.eqb_spec m m') as [<-|]; [|reflexivity]. destruct (Nat.eqb_spec n n') as [<-|]; [|reflexivity]. exfalso. apply NE. reflexivity. }
      rewrite EQ in Nt. clear EQ. destruct (Nat.eqb_spec (m' * N + n') q) as [E|NE].
      + rewrite E in *. rewrite Nat.ltb_irrefl in Nf. replace (q <? S q)%nat with true by (symmetry; apply Nat.ltb_lt; lia).
        destruct (fl_add f t Ff Ft) as [_ V]; rewrite Nf, Rplus_0_l in *; [apply (SZ t Ft Nt)|]. rewrite V, <- Nt. apply rnd_fmt, val_fmt, Ft.
      + assert (LT : (m' * N + n' <? S q)%nat = (m' * N + n' <? q)%nat) by (destruct (Nat.ltb_spec (m' * N + n') q); [apply Nat.ltb_lt|apply Nat.ltb_ge]; lia).
        rewrite LT, <- Nf. destruct (fl_add f t Ff Ft) as [_ V]; rewrite Nt, Rplus_0_r in *; [|rewrite V; apply rnd_fmt, val_fmt, Ff].
        destruct (m' * N + n' <? q)%nat; [apply (SZ f Ff Nf)|rewrite Nf, Rabs_R0; apply bpow_ge_0].
  Qed.

  Lemma interp2_pts : exists v, interpolate_lagrange_2D x y xs ys F = Ok v /\ pts K v /\ forall k, (k < K)%nat ->
    nr (c0 + M * N) (at_point v k) (Sum (fun m => Sum (fun n => term m n k) (seq 0 N)) (seq 0 M)) (Sum (fun m => Sum (fun n => Rabs (term m n k)) (seq 0 N)) (seq 0 M)) /\
    forall m n, node k m n -> val (at_point v k) = val (fget F [m; n]).
  Proof.
    unfold interpolate_lagrange_2D, shape_ok. rewrite (in_shape _ _ _ _ _ _ _ _ _ IS). destruct (list_eq_dec Nat.eq_dec _ _) as [_|NE]; [|congruence]. cbn [negb].
    set (sg := fun q f => st q f /\ forall k, (k < K)%nat -> good q k).
    match goal with |- context [for_nodes 0 xs ?b _] => set (body := b) end.
    destruct (for_nodes_inv double NumF (fun m f => sg (m * N)%nat f) body xs 0 (Scalar (nofZ 0))) as [v [E [[P V] _]]].
    - intros m xm f Hx _ [[Pf Hf] Gf]. rewrite Nat.sub_0_r in Hx. assert (Hm : (m < M)%nat) by (apply nth_error_Some; congruence). assert (Ix := nth_error_In _ _ Hx).
      assert (Ex : val xm = at_ (map val xs) m) by (apply nth_at; rewrite nth_error_map, Hx; reflexivity). unfold body.
      destruct (lag_pts K x xs dx e PX (in_dx _ _ _ _ _ _ _ _ _ IS) M EM ltac:(lia) m xm Ix eq_refl) as [fx [Efx [Pfx Vfx]]]. rewrite Efx; cbn [bind].
      match goal with |- context [for_nodes 0 ys ?b _] => set (body2 := b) end.
      destruct (for_nodes_inv double NumF (fun n f => sg (m * N + n)%nat f) body2 ys 0 f) as [c [Ec Sc]].
      + intros n yn g Hy _ [[Pg Hg] Gg]. rewrite Nat.sub_0_r in Hy. assert (Hn : (n < N)%nat) by (apply nth_error_Some; congruence). assert (Iy := nth_error_In _ _ Hy).
        assert (Ey : val yn = at_ (map val ys) n) by (apply nth_at; rewrite nth_error_map, Hy; reflexivity). unfold body2.
        destruct (lag_pts K y ys dy e PY (in_dy _ _ _ _ _ _ _ _ _ IS) N EN ltac:(lia) n yn Iy eq_refl) as [fy [Efy [Pfy Vfy]]]. rewrite Efy; cbn [bind].
        destruct (bcast_pts nmul K fx fy Pfx Pfy) as [t1 [E1 [P1 V1]]]. rewrite E1; cbn [bind].
        destruct (bcast_pts nmul K t1 (Scalar (fget F [m; n])) P1 Logic.I) as [t2 [E2 [P2 V2]]]. rewrite E2; cbn [bind].
        destruct (bcast_in_pts nadd K g t2 Pg P2) as [t3 [E3 [P3 V3]]]. exists t3. split; [exact E3|].
        assert (ALL : forall k, (k < K)%nat -> good (S (m * N + n)) k /\ nr (c0 + S (m * N + n)) (at_point t3 k) (Sm (S (m * N + n)) k) (Bm (S (m * N + n)) k) /\
          forall m' n', node k m' n' -> val (at_point t3 k) = if (m' * N + n' <? S (m * N + n))%nat then val (fget F [m'; n']) else 0).
        { intros k Hk. rewrite (V3 k Hk), (V2 k Hk), (V1 k Hk). cbn [at_point]. destruct (Vfx k Hk) as [X1 [X2 X3]]. destruct (Vfy k Hk) as [Y1 [Y2 Y3]]. rewrite Ex in X1, X2, X3. rewrite Ey in Y1, Y2, Y3.
          destruct (term_rl m n k (at_point fx k) (at_point fy k) Hm Hn X1 Y1 X2 Y2 X3 Y3) as [T1 [T2 T3]]. destruct (Hg k Hk) as [G1 G2]. apply (add_step m n k); auto. }
        rewrite <- plus_n_Sm. split; [split; [exact P3|]|]; intros k Hk; apply (ALL k Hk).
      + rewrite Nat.add_0_r. split; [split; assumption|assumption].
      + exists c. split; [exact Ec|]. cbn [Nat.add] in Sc. replace (S m * N)%nat with (m * N + N)%nat by lia. exact Sc.
    - cbn [Nat.mul]. split; [split; [exact Logic.I|]|].
      + intros k Hk. cbn [at_point]. split; [|intros m n _; cbn; apply zero]. unfold Sm, Bm. cbn [seq]. rewrite !Sum_nil. split; [apply zero|]. rewrite (proj2 zero), Rminus_0_r, Rabs_R0. lra.
      + intros k Hk. unfold good, Bm. cbn [seq INR]. rewrite Sum_nil. lra.
    - exists v. split; [exact E|]. split; [exact P|]. intros k Hk. destruct (V k Hk) as [V1 V2]. cbn [Nat.add] in V1, V2. fold M in V1, V2. split.
      + rewrite <- (Sum_grid (fun m n => term m n k) N M), <- (Sum_grid (fun m n => Rabs (term m n k)) N M). exact V1.
      + intros m n HN. rewrite (V2 m n HN). destruct HN as [Hm [Hn _]]. replace (m * N + n <? M * N)%nat with true; [reflexivity|]. symmetry. apply Nat.ltb_lt. nia.
  Qed.
End Two.
