(** The smallest load factor of a buckling problem. *)
From Coq Require Import ZArith Reals List Bool Arith Lra Lia Classical_Prop.
From Verif Require Import Num Py Mesh Utils Spec SpecStab SpecStat FSum FMat FLin FLin2.
Import ListNotations.
Local Open Scope R_scope.
Implicit Types (m : mesh R).

Definition pencil (K KG : matrix R) (a : R) : matrix R := Matrix (mdim K) (fun i j => mentry K i j + a * mentry KG i j).

Lemma pencil_mulv : forall K KG a v i, mdim KG = mdim K -> mulv (pencil K KG a) v i = mulv K v i + a * mulv KG v i.
Proof.
  intros K KG a v i D. unfold mulv. rewrite D. cbn [pencil mdim mentry]. rewrite <- Sum_scal, <- Sum_plus. apply Sum_ext; intros j; ring.
Qed.
Lemma pencil_form : forall K KG a u v, mdim KG = mdim K -> form (pencil K KG a) u v = form K u v + a * form KG u v.
Proof.
  intros K KG a u v D. rewrite !form_mulv. rewrite D. change (mdim (pencil K KG a)) with (mdim K). rewrite <- Sum_scal, <- Sum_plus. apply Sum_ext; intros i.
  rewrite (pencil_mulv K KG a v i D). ring.
Qed.

Section Forms.
  Variable M : matrix R.
  Variable S : nat -> bool.
  Hypothesis SY : forall u v, form M u v = form M v u.
  Hypothesis P : forall u, admissible (mdim M) S u -> 0 <= form M u u.

  Lemma adm_lin : forall n c d u v, admissible n S u -> admissible n S v -> admissible n S (fun i => c * u i + d * v i).
  Proof. intros n c d u v A B i Hi Si. rewrite (A i Hi Si), (B i Hi Si). ring. Qed.

  Lemma cauchy : forall u v, admissible (mdim M) S u -> admissible (mdim M) S v -> form M u v * form M u v <= form M u u * form M v v.
  Proof.
    intros u v A B.
    assert (Q : forall t, 0 <= form M u u + 2 * t * form M u v + t * t * form M v v).
    { intros t. assert (X := P _ (adm_lin _ 1 t u v A B)). rewrite form_lin_l, !form_lin_r, (SY v u) in X. lra. }
    assert (PU := P u A). assert (PV := P v B).
    set (a := form M u u) in *. set (b := form M u v) in *. set (c := form M v v) in *. clearbody a b c.
    destruct PV as [PV|PV].
    - specialize (Q (- b / c)). replace (a + 2 * (- b / c) * b + - b / c * (- b / c) * c) with (a - b * b / c) in Q by (field; lra).
      assert (X : c * (b * b / c) <= c * a) by (apply Rmult_le_compat_l; lra). replace (c * (b * b / c)) with (b * b) in X by (field; lra). lra.
    - subst c. destruct (Req_dec b 0) as [->|N]; [lra|]. exfalso. specialize (Q (- (a + 1) / (2 * b))).
      replace (a + 2 * (- (a + 1) / (2 * b)) * b + - (a + 1) / (2 * b) * (- (a + 1) / (2 * b)) * 0) with (-1) in Q by (field; exact N). lra.
  Qed.

  (** a displacement without energy is in the kernel of the free rows *)
  Lemma null_rows : forall u, admissible (mdim M) S u -> form M u u = 0 -> forall i, (i < mdim M)%nat -> S i = false -> mulv M u i = 0.
  Proof.
    intros u A Z i Hi Si.
    assert (B : admissible (mdim M) S (delta i)).
    { intros j Hj Sj. unfold delta. destruct (Nat.eqb_spec j i) as [->|X]; [congruence|reflexivity]. }
    assert (X := cauchy u (delta i) A B). rewrite Z, Rmult_0_l, SY in X.
    assert (Y : form M (delta i) u = mulv M u i).
    { rewrite form_mulv. rewrite <- (Sum_delta (mulv M u) i (mdim M) Hi). apply Sum_ext; intros j; ring. }
    rewrite Y in X. assert (Q := Rle_0_sqr (mulv M u i)). unfold Rsqr in Q.
    assert (R0 : mulv M u i * mulv M u i = 0) by lra. apply Rmult_integral in R0. destruct R0; assumption.
  Qed.

  Hypothesis PZ : forall u, admissible (mdim M) S u -> form M u u = 0 -> forall i, (i < mdim M)%nat -> u i = 0.

  (** a positive definite form is bounded below *)
  Lemma coercive : exists C, 0 <= C /\ forall u, admissible (mdim M) S u -> Sum (fun i => u i * u i) (seq 0 (mdim M)) <= C * form M u u.
  Proof.
    assert (G : forall l, (forall i, In i l -> (i < mdim M)%nat) -> exists C, 0 <= C /\ forall u, admissible (mdim M) S u -> Sum (fun i => u i * u i) l <= C * form M u u).
    { induction l as [|i l IH]; intros H.
      - exists 0. split; [lra|]. intros u _. unfold Sum; cbn. lra.
      - destruct IH as [C [HC IH]]; [intros j Hj; apply H; right; exact Hj|].
        assert (Hi := H i (or_introl eq_refl)).
        destruct (solve_unique M S (fun u A => conj (P u A) (PZ u A)) (delta i)) as [z [HZ _]].
        assert (AZ := solves_admissible M S (delta i) z HZ).
        exists (form M z z + C). split; [assert (X := P z AZ); lra|]. intros u A. rewrite Sum_cons.
        assert (E : form M u z = u i).
        { rewrite (solves_work M S (delta i) z u HZ A). unfold load_work.
          rewrite <- (Sum_delta u i (mdim M) Hi). apply Sum_ext; intros j; ring. }
        assert (X := cauchy u z A AZ). rewrite E in X. specialize (IH u A). lra. }
    apply G. intros i Hi. apply in_seq in Hi. lia.
  Qed.
End Forms.

Lemma Sum_abs_le : forall (A : Type) (f g : A -> R) l, (forall a, In a l -> - g a <= f a) -> - Sum g l <= Sum f l.
Proof.
  intros A f g l H. replace (- Sum g l) with (Sum (fun a => - g a) l).
  - apply Sum_le. exact H.
  - replace (- Sum g l) with (-1 * Sum g l) by ring. rewrite <- Sum_scal. apply Sum_ext; intros a; ring.
Qed.

(** every form is bounded *)
Lemma form_bounded : forall M, exists C, 0 <= C /\ forall u, - (C * Sum (fun i => u i * u i) (seq 0 (mdim M))) <= form M u u.
Proof.
  intros M. set (l := seq 0 (mdim M)).
  exists (Sum (fun i => Sum (fun j => Rabs (mentry M i j)) l) l). split.
  - apply Sum_nonneg; intros i _. apply Sum_nonneg; intros j _. apply Rabs_pos.
  - intros u. set (q := Sum (fun i => u i * u i) l).
    assert (QI : forall i, In i l -> u i * u i <= q).
    { intros i Hi. unfold q. destruct (in_split i l Hi) as [l1 [l2 E]]. rewrite E, Sum_app, Sum_cons.
      assert (X : forall l', 0 <= Sum (fun i => u i * u i) l') by (intros l'; apply Sum_nonneg; intros; apply Rle_0_sqr).
      assert (X1 := X l1). assert (X2 := X l2). lra. }
    rewrite Rmult_comm, <- Sum_scal. unfold form. fold l. apply Sum_abs_le. intros i Hi. rewrite <- Sum_scal. apply Sum_abs_le. intros j Hj.
    assert (Q1 := QI i Hi). assert (Q2 := QI j Hj). set (a := mentry M i j). set (x := u i) in *. set (y := u j) in *.
    assert (Z : Rabs (x * y) <= q).
    { assert (S1 := Rle_0_sqr (x + y)). assert (S2 := Rle_0_sqr (x - y)). unfold Rsqr in S1, S2. apply Rabs_le. split; lra. }
    assert (W : Rabs (x * a * y) <= q * Rabs a).
    { replace (x * a * y) with (x * y * a) by ring. rewrite Rabs_mult. apply Rmult_le_compat_r; [apply Rabs_pos|exact Z]. }
    assert (V := Rle_abs (- (x * a * y))). rewrite Rabs_Ropp in V. lra.
Qed.

Section Critical.
  Variables K KG : matrix R.
  Variable S : nat -> bool.
  Hypothesis D : mdim KG = mdim K.
  Hypothesis SY : forall u v, form K u v = form K v u.
  Hypothesis SG : forall u v, form KG u v = form KG v u.
  Hypothesis PD : forall u, (forall i, (i < mdim K)%nat -> S i = true -> u i = 0) -> 0 <= form K u u /\
    (form K u u = 0 -> forall i, (i < mdim K)%nat -> u i = 0).

  Lemma grow : forall a, 0 <= a -> (forall u, admissible (mdim K) S u -> 0 <= form (pencil K KG a) u u /\
      (form (pencil K KG a) u u = 0 -> forall i, (i < mdim K)%nat -> u i = 0)) ->
    exists e, 0 < e /\ forall u, admissible (mdim K) S u -> 0 <= form (pencil K KG (a + e)) u u.
  Proof.
    intros a Ha H.
    assert (SP : forall u v, form (pencil K KG a) u v = form (pencil K KG a) v u) by (intros u v; rewrite !pencil_form, SY, SG by exact D; reflexivity).
    destruct (coercive (pencil K KG a) S SP (fun u A => proj1 (H u A)) (fun u A => proj2 (H u A))) as [C [HC CO]].
    destruct (form_bounded KG) as [B [HB BO]]. cbn [pencil mdim] in CO. rewrite D in BO.
    exists (/ (C * B + 1)). assert (CB : 0 <= C * B) by (apply Rmult_le_pos; assumption).
    split; [apply Rinv_0_lt_compat; lra|]. intros u A. rewrite pencil_form by exact D.
    specialize (CO u A). rewrite pencil_form in CO by exact D. specialize (BO u).
    assert (HU := proj1 (H u A)). rewrite pencil_form in HU by exact D.
    set (q := Sum (fun i => u i * u i) (seq 0 (mdim K))) in *. set (k := form K u u) in *. set (g := form KG u u) in *.
    assert (X : B * q <= B * (C * (k + a * g))) by (apply Rmult_le_compat_l; assumption).
    assert (Y : 0 <= (k + a * g) * (C * B + 1) + g) by lra.
    replace (k + (a + / (C * B + 1)) * g) with (((k + a * g) * (C * B + 1) + g) * / (C * B + 1)) by (field; lra).
    apply Rmult_le_pos; [exact Y|apply Rlt_le, Rinv_0_lt_compat; lra].
  Qed.

  Lemma critical : (exists v, admissible (mdim K) S v /\ form KG v v < 0) ->
    exists a x, 0 < a /\ buckling_mode K KG S a 0 x (fun _ => 0) /\ nonzero (mdim K) x /\
      (forall b v, 0 <= b < a -> admissible (mdim K) S v -> nonzero (mdim K) v -> 0 < form K v v + b * form KG v v) /\
      (forall b, a < b -> form K x x + b * form KG x x < 0).
  Proof.
    intros [x0 [A0 N0]].
    set (E := fun a => 0 <= a /\ forall u, admissible (mdim K) S u -> 0 <= form K u u + a * form KG u u).
    assert (UB : forall u a, admissible (mdim K) S u -> form KG u u < 0 -> E a -> a <= form K u u / - form KG u u).
    { intros u a A N [_ H]. specialize (H u A). apply Rmult_le_reg_r with (- form KG u u); [lra|].
      unfold Rdiv. rewrite Rmult_assoc, Rinv_l by lra. lra. }
    assert (E0 : E 0) by (split; [lra|intros u A; assert (X := proj1 (PD u A)); lra]).
    destruct (completeness E) as [a [U L]].
    - exists (form K x0 x0 / - form KG x0 x0). intros b Eb. apply UB; assumption.
    - exists 0. exact E0.
    - assert (Ha : 0 <= a) by (apply U, E0).
      assert (EA : forall u, admissible (mdim K) S u -> 0 <= form (pencil K KG a) u u).
      { intros u A. rewrite pencil_form by exact D. destruct (Rlt_le_dec (form KG u u) 0) as [N|N].
        - assert (X : a <= form K u u / - form KG u u) by (apply L; intros b Eb; apply UB; assumption).
          apply (Rmult_le_compat_r (- form KG u u)) in X; [|lra]. unfold Rdiv in X. rewrite Rmult_assoc, Rinv_l in X by lra. lra.
        - assert (X := proj1 (PD u A)). assert (Y : 0 <= a * form KG u u) by (apply Rmult_le_pos; assumption). lra. }
      assert (NE : forall e, 0 < e -> ~ E (a + e)) by (intros e He X; apply U in X; lra).
      assert (PA : 0 < a).
      { destruct Ha as [Ha|Ha]; [exact Ha|]. exfalso. subst a.
        destruct (grow 0 (Rle_refl 0)) as [e [He G]].
        - intros u A. rewrite pencil_form by exact D. replace (form K u u + 0 * form KG u u) with (form K u u) by ring. apply PD, A.
        - apply (NE e He). split; [lra|]. intros u A. specialize (G u A). rewrite pencil_form in G by exact D. exact G. }
      assert (X : exists x, admissible (mdim K) S x /\ form (pencil K KG a) x x = 0 /\ nonzero (mdim K) x).
      { apply NNPP. intros NX. destruct (grow a Ha) as [e [He G]].
        - intros u A. split; [apply EA, A|]. intros Z i Hi. apply NNPP. intros Q. apply NX. exists u. repeat split; try assumption. exists i. auto.
        - apply (NE e He). split; [lra|]. intros u A. specialize (G u A). rewrite pencil_form in G by exact D. exact G. }
      destruct X as [x [AX [ZX NX]]].
      assert (SP : forall u v, form (pencil K KG a) u v = form (pencil K KG a) v u) by (intros u v; rewrite !pencil_form, SY, SG by exact D; reflexivity).
      assert (PX : 0 < form K x x).
      { destruct (PD x AX) as [Q Z]. destruct Q as [Q|Q]; [exact Q|]. destruct NX as [i [Hi NX]]. exfalso. apply NX, Z; [symmetry; exact Q|exact Hi]. }
      exists a, x. split; [exact PA|]. split; [|split; [exact NX|split]].
      + split; [exact AX|]. split; [intros i _ _; reflexivity|]. intros i Hi Si.
        assert (R0 := null_rows (pencil K KG a) S SP EA x AX ZX i Hi Si). rewrite pencil_mulv in R0 by exact D.
        assert (Z0 : forall M, mulv M (fun _ => 0) i = 0) by (intros M; apply Sum_zero; intros; ring). rewrite !Z0. split; lra.
      + intros b v [B1 B2] AV [i [Hi NV]].
        assert (PV : 0 < form K v v).
        { destruct (PD v AV) as [Q Z]. destruct Q as [Q|Q]; [exact Q|]. exfalso. apply NV, Z; [symmetry; exact Q|exact Hi]. }
        assert (Q := EA v AV). rewrite pencil_form in Q by exact D.
        replace (form K v v + b * form KG v v) with ((a - b) / a * form K v v + b / a * (form K v v + a * form KG v v)) by (field; lra).
        assert (C1 : 0 < (a - b) / a) by (apply Rdiv_lt_0_compat; lra).
        assert (C2 : 0 <= b / a) by (apply Rmult_le_pos; [exact B1|apply Rlt_le, Rinv_0_lt_compat, PA]).
        assert (Y1 := Rmult_lt_0_compat _ _ C1 PV). assert (Y2 := Rmult_le_pos _ _ C2 Q). lra.
      + intros b B. rewrite pencil_form in ZX by exact D.
        assert (G : form KG x x < 0).
        { apply Rnot_le_lt. intros G. assert (Y := Rmult_le_pos _ _ Ha G). lra. }
        assert (Y : 0 < (b - a) * - form KG x x) by (apply Rmult_lt_0_compat; lra). lra.
  Qed.
End Critical.
