(** Perturbations of symmetric positive definite systems by errors of bounded row sums. *)
From Coq Require Import ZArith Reals List Bool Arith Lra Lia.
From Verif Require Import Num Py Mesh Utils Spec SpecStab SpecStat SpecRound6 FSum FMat FAsm FLin FLin2 FLin3.
Import ListNotations.
Local Open Scope R_scope.

Lemma len_pos : forall n u, 0 <= len n u.
Proof. intros. apply sqrt_pos. Qed.
Lemma sq_nonneg : forall n (u : nat -> R), 0 <= Sum (fun i => u i * u i) (seq 0 n).
Proof. intros n u. apply Sum_nonneg. intros i _. apply Rle_0_sqr. Qed.
Lemma len_sq : forall n u, (len n u)^2 = Sum (fun i => u i * u i) (seq 0 n).
Proof. intros n u. unfold len. rewrite <- Rsqr_pow2. apply Rsqr_sqrt, sq_nonneg. Qed.
Lemma len_zero : forall n u, len n u = 0 -> forall i, (i < n)%nat -> u i = 0.
Proof.
  intros n u H i Hi. assert (Z : Sum (fun i => u i * u i) (seq 0 n) = 0) by (rewrite <- len_sq, H; ring).
  destruct (in_split i (seq 0 n)) as [l1 [l2 E]]; [apply in_seq; lia|]. rewrite E, Sum_app, Sum_cons in Z.
  assert (X : forall l', 0 <= Sum (fun i => u i * u i) l') by (intros l'; apply Sum_nonneg; intros; apply Rle_0_sqr).
  assert (X1 := X l1). assert (X2 := X l2). assert (X3 := Rle_0_sqr (u i)). unfold Rsqr in X3. assert (Q : u i * u i = 0) by lra. apply Rmult_integral in Q. destruct Q; assumption.
Qed.

(** Schur's test *)
Lemma schur : forall n b eps u v, (forall i j, (i < n)%nat -> (j < n)%nat -> 0 <= b i j) -> (forall i j, (i < n)%nat -> (j < n)%nat -> b i j = b j i) -> row_sums n b eps ->
  Sum (fun i => Sum (fun j => Rabs (u i) * b i j * Rabs (v j)) (seq 0 n)) (seq 0 n) <= eps * (len n u * len n v).
Proof.
  intros n b eps u v P SY RS. set (l := seq 0 n). set (T := Sum _ l).
  assert (IL : forall i, In i l -> (i < n)%nat) by (intros i H; apply in_seq in H; lia).
  destruct (len_pos n u) as [PU|ZU].
  2: { symmetry in ZU. rewrite ZU. assert (Z : T = 0); [|rewrite Z; lra]. apply Sum_zero. intros i Hi. apply Sum_zero. intros j _. rewrite (len_zero n u ZU i (IL i Hi)), Rabs_R0. ring. }
  destruct (len_pos n v) as [PV|ZV].
  2: { symmetry in ZV. rewrite ZV. assert (Z : T = 0); [|rewrite Z; lra]. apply Sum_zero. intros i Hi. apply Sum_zero. intros j Hj. rewrite (len_zero n v ZV j (IL j Hj)), Rabs_R0. ring. }
  set (a := len n u) in *. set (c := len n v) in *. set (t := c / a). assert (PT : 0 < t) by (apply Rdiv_lt_0_compat; assumption).
  assert (B : T <= / 2 * (t * Sum (fun i => Sum (fun j => b i j) l * (u i * u i)) l + / t * Sum (fun j => Sum (fun i => b j i) l * (v j * v j)) l)).
  { assert (E2 : Sum (fun j => Sum (fun i => b j i) l * (v j * v j)) l = Sum (fun i => Sum (fun j => b i j * (v j * v j)) l) l).
    { rewrite Sum_swap. apply Sum_ext_in. intros j Hj. rewrite <- Sum_scal_r. apply Sum_ext_in. intros i Hi. rewrite (SY j i) by auto. reflexivity. }
    rewrite E2. replace (Sum (fun i => Sum (fun j => b i j) l * (u i * u i)) l) with (Sum (fun i => Sum (fun j => b i j * (u i * u i)) l) l) by (apply Sum_ext; intros i; apply Sum_scal_r).
    rewrite <- !Sum_scal, <- Sum_plus, <- Sum_scal. apply Sum_le. intros i Hi. rewrite <- !Sum_scal, <- Sum_plus, <- Sum_scal. apply Sum_le. intros j Hj.
    assert (Q : Rabs (u i) * Rabs (v j) <= / 2 * (t * (u i * u i) + / t * (v j * v j))).
    { assert (S1 := Rle_0_sqr (t * Rabs (u i) - Rabs (v j))). unfold Rsqr in S1.
      assert (U2 : Rabs (u i) * Rabs (u i) = u i * u i) by (rewrite <- Rabs_mult; apply Rabs_right, Rle_ge, Rle_0_sqr).
      assert (V2 : Rabs (v j) * Rabs (v j) = v j * v j) by (rewrite <- Rabs_mult; apply Rabs_right, Rle_ge, Rle_0_sqr).
      apply Rmult_le_reg_l with (2 * t); [lra|]. replace (2 * t * (/ 2 * (t * (u i * u i) + / t * (v j * v j)))) with (t * t * (u i * u i) + v j * v j) by (field; lra).
      rewrite <- U2, <- V2. lra. }
    assert (X := Rmult_le_compat_l _ _ _ (P i j (IL i Hi) (IL j Hj)) Q). lra. }
  assert (R1 : forall w, Sum (fun i => Sum (fun j => b i j) l * (w i * w i)) l <= eps * (len n w)^2).
  { intros w. rewrite len_sq, <- Sum_scal. apply Sum_le. intros i Hi. apply Rmult_le_compat_r; [apply Rle_0_sqr|apply RS, IL, Hi]. }
  assert (B1 := R1 u). assert (B2 := R1 v). fold a in B1. fold c in B2.
  apply (Rmult_le_compat_l t) in B1; [|lra]. apply (Rmult_le_compat_l (/ t)) in B2; [|apply Rlt_le, Rinv_0_lt_compat, PT].
  replace (eps * (a * c)) with (/ 2 * (t * (eps * a ^ 2) + / t * (eps * c ^ 2))) by (unfold t; field; lra). lra.
Qed.

(** errors of the entries and of the form *)
Lemma form_diff : forall (k K : matrix R) b eps u v, mdim k = mdim K ->
  (forall i j, (i < mdim K)%nat -> (j < mdim K)%nat -> Rabs (mentry k i j - mentry K i j) <= b i j) ->
  (forall i j, (i < mdim K)%nat -> (j < mdim K)%nat -> b i j = b j i) -> row_sums (mdim K) b eps ->
  Rabs (form k u v - form K u v) <= eps * (len (mdim K) u * len (mdim K) v).
Proof.
  intros k K b eps u v D H SY RS. eapply Rle_trans; [|apply (schur (mdim K) b eps u v); try assumption].
  - unfold form. rewrite D. set (l := seq 0 (mdim K)).
    replace (Sum (fun i => Sum (fun j => u i * mentry k i j * v j) l) l - Sum (fun i => Sum (fun j => u i * mentry K i j * v j) l) l)
      with (Sum (fun i => Sum (fun j => u i * (mentry k i j - mentry K i j) * v j) l) l).
    + assert (SA : forall (A : Type) (f g : A -> R) l, (forall a, In a l -> Rabs (f a) <= g a) -> Rabs (Sum f l) <= Sum g l).
      { intros A f g l0 X. induction l0 as [|a l0 IH]; [unfold Sum; cbn; rewrite Rabs_R0; lra|]. rewrite !Sum_cons. eapply Rle_trans; [apply Rabs_triang|].
        apply Rplus_le_compat; [apply X; left; reflexivity|apply IH; intros a' Ha; apply X; right; exact Ha]. }
      apply SA. intros i Hi. apply SA. intros j Hj. apply in_seq in Hi, Hj. rewrite !Rabs_mult. apply Rmult_le_compat_r; [apply Rabs_pos|]. apply Rmult_le_compat_l; [apply Rabs_pos|]. apply H; lia.
    + unfold Rminus. replace (- Sum (fun i => Sum (fun j => u i * mentry K i j * v j) l) l) with (-1 * Sum (fun i => Sum (fun j => u i * mentry K i j * v j) l) l) by ring.
      rewrite <- Sum_scal, <- Sum_plus. apply Sum_ext. intros i. rewrite <- Sum_scal, <- Sum_plus. apply Sum_ext. intros j. ring.
  - intros i j Hi Hj. eapply Rle_trans; [apply Rabs_pos|apply (H i j Hi Hj)].
Qed.

Lemma dot_len : forall n (u v : nat -> R), Sum (fun i => u i * v i) (seq 0 n) <= len n u * len n v.
Proof.
  intros n u v. assert (X := schur n (fun i j => if Nat.eqb i j then 1 else 0) 1 u v).
  rewrite Rmult_1_l in X. eapply Rle_trans; [|apply X].
  - apply Sum_le. intros i Hi. apply in_seq in Hi.
    assert (E : Sum (fun j => Rabs (u i) * (if Nat.eqb i j then 1 else 0) * Rabs (v j)) (seq 0 n) = Rabs (u i) * Rabs (v i)).
    { rewrite <- (Sum_delta (fun j => Rabs (u i) * Rabs (v j)) i n) by lia. apply Sum_ext. intros j. unfold delta. rewrite (Nat.eqb_sym i j). destruct (Nat.eqb j i); cbv beta; ring. }
    rewrite E, <- Rabs_mult. apply Rle_abs.
  - intros i j _ _. destruct (Nat.eqb i j); lra.
  - intros i j _ _. rewrite Nat.eqb_sym. reflexivity.
  - intros i Hi. right. transitivity (Sum (fun j => (fun _ => 1) j * delta i j) (seq 0 n)); [|apply (Sum_delta (fun _ => 1)), Hi]. apply Sum_ext. intros j. unfold delta. rewrite (Nat.eqb_sym i j). destruct (Nat.eqb j i); ring.
Qed.

Section Perturbed.
  Variables k K : matrix R.
  Variable S : nat -> bool.
  Variable b : nat -> nat -> R.
  Variables mu eps : R.
  Hypothesis D : mdim k = mdim K.
  Hypothesis H : forall i j, (i < mdim K)%nat -> (j < mdim K)%nat -> Rabs (mentry k i j - mentry K i j) <= b i j.
  Hypothesis BS : forall i j, (i < mdim K)%nat -> (j < mdim K)%nat -> b i j = b j i.
  Hypothesis RS : row_sums (mdim K) b eps.
  Hypothesis ST : stiffness_at_least K S mu.
  Hypothesis LT : eps < mu.
  Let n := mdim K.

  Lemma pert_stiff : stiffness_at_least k S (mu - eps).
  Proof.
    intros u A. rewrite D in A |- *. fold n in A |- *. assert (X := form_diff k K b eps u u D H BS RS). fold n in X. assert (Y := ST u A). fold n in Y.
    assert (Z := Rle_abs (- (form k u u - form K u u))). rewrite Rabs_Ropp in Z. lra.
  Qed.
  Lemma stiff_pd : forall (M : matrix R) c, 0 < c -> stiffness_at_least M S c -> forall u, (forall i, (i < mdim M)%nat -> S i = true -> u i = 0) ->
    0 <= form M u u /\ (form M u u = 0 -> forall i, (i < mdim M)%nat -> u i = 0).
  Proof.
    intros M c C X u A. specialize (X u A). assert (L := pow2_ge_0 (len (mdim M) u)). assert (CL : 0 <= c * len (mdim M) u ^ 2) by (apply Rmult_le_pos; lra). split; [lra|].
    intros Z. apply len_zero. assert (Q : c * len (mdim M) u ^ 2 = 0) by lra. apply Rmult_integral in Q. destruct Q as [Q|Q]; [lra|]. rewrite <- Rsqr_pow2 in Q. apply Rsqr_0_uniq, Q.
  Qed.

  Lemma pert_solve : forall load, exists d, only_solution k S load d.
  Proof. intros load. apply (solve_unique k S (stiff_pd k (mu - eps) ltac:(lra) pert_stiff) load). Qed.
  Lemma exact_solve : 0 < mu -> forall load, exists d, only_solution K S load d.
  Proof. intros P load. apply (solve_unique K S (stiff_pd K mu P ST) load). Qed.

  Lemma pert_close : forall load d x, solves K S load d -> admissible n S x ->
    (mu - eps) * len n (fun i => x i - d i) <= eps * len n d + len n (residual k S load x).
  Proof.
    intros load d x HD AX. assert (AD := solves_admissible K S load d HD). fold n in AD. set (e := fun i => x i - d i).
    assert (AE : admissible n S e) by (intros i Hi Si; unfold e; rewrite (AX i Hi Si), (AD i Hi Si); ring).
    assert (L := pert_stiff e ltac:(rewrite D; exact AE)). rewrite D in L. fold n in L.
    assert (E : form k e e = Sum (fun i => e i * residual k S load x i) (seq 0 n) + (form K e d - form k e d)).
    { rewrite !form_mulv. rewrite D. fold n. 
      replace (Sum (fun i => e i * residual k S load x i) (seq 0 n) + (Sum (fun i => e i * mulv K d i) (seq 0 n) - Sum (fun i => e i * mulv k d i) (seq 0 n)))
        with (Sum (fun i => e i * residual k S load x i) (seq 0 n) + (Sum (fun i => e i * mulv K d i) (seq 0 n) + -1 * Sum (fun i => e i * mulv k d i) (seq 0 n))) by ring.
      rewrite <- Sum_scal, <- !Sum_plus. apply Sum_ext_in. intros i Hi. apply in_seq in Hi. unfold residual. assert (Q := HD i ltac:(fold n; lia)).
      destruct (S i) eqn:Si; [rewrite (AE i) by (auto; lia); ring|]. rewrite Q.
      assert (ME : mulv k e i = mulv k x i - mulv k d i).
      { assert (Y := mulv_lin k 1 (-1) x d i). replace (mulv k e i) with (mulv k (fun j => 1 * x j + -1 * d j) i) by (unfold mulv; apply Sum_ext; intros j; unfold e; ring). rewrite Y. ring. }
      rewrite ME. ring. }
    assert (X1 := dot_len n e (residual k S load x)). assert (X2 := form_diff k K b eps e d D H BS RS). fold n in X2.
    assert (X3 := Rle_abs (- (form k e d - form K e d))). rewrite Rabs_Ropp in X3.
    assert (B : (mu - eps) * len n e ^ 2 <= len n e * len n (residual k S load x) + eps * (len n e * len n d)) by lra.
    destruct (len_pos n e) as [P|Z].
    - apply Rmult_le_reg_l with (len n e); [exact P|]. change (fun i => x i - d i) with e. replace (len n e * ((mu - eps) * len n e)) with ((mu - eps) * len n e ^ 2) by ring. lra.
    - change (fun i => x i - d i) with e. rewrite <- Z, Rmult_0_r.
      destruct (Rle_or_lt 0 eps) as [PE|NE].
      + assert (Y1 := len_pos n (residual k S load x)). assert (Y2 := Rmult_le_pos _ _ PE (len_pos n d)). lra.
      + assert (N0 : n = 0%nat).
        { destruct (Nat.eq_dec n 0) as [Q|Q]; [exact Q|exfalso]. assert (R0 := RS 0%nat ltac:(fold n; lia)). cbv beta in R0. fold n in R0.
          assert (0 <= Sum (fun j => b 0%nat j) (seq 0 n)); [|lra]. apply Sum_nonneg. intros j Hj. apply in_seq in Hj. eapply Rle_trans; [apply Rabs_pos|apply H; fold n; lia]. }
        rewrite N0. unfold len. cbn [seq]. rewrite !Sum_nil, sqrt_0. lra.
  Qed.
End Perturbed.
