(** Consequences of symmetry and definiteness for solutions of linear systems. *)
From Coq Require Import ZArith Reals List Bool Arith Lra Lia.
From Verif Require Import Num Py Mesh Utils Spec SpecStab SpecStat FSum FMat FLin.
Import ListNotations.
Local Open Scope R_scope.
Implicit Types (m : mesh R).

Lemma form_lin_l : forall K c d u v w, form K (fun i => c * u i + d * v i) w = c * form K u w + d * form K v w.
Proof.
  intros. rewrite !form_mulv, <- !Sum_scal, <- Sum_plus. apply Sum_ext; intros i. ring.
Qed.
Lemma mulv_lin : forall K c d u v i, mulv K (fun i => c * u i + d * v i) i = c * mulv K u i + d * mulv K v i.
Proof. intros. unfold mulv. rewrite <- !Sum_scal, <- Sum_plus. apply Sum_ext; intros j. ring. Qed.
Lemma form_lin_r : forall K c d u v w, form K w (fun i => c * u i + d * v i) = c * form K w u + d * form K w v.
Proof.
  intros. rewrite !form_mulv, <- !Sum_scal, <- Sum_plus. apply Sum_ext; intros i. rewrite mulv_lin. ring.
Qed.

Section Problem.
  Variable K : matrix R.
  Variable S : nat -> bool.
  Hypothesis SY : forall u v, form K u v = form K v u.

  Lemma solves_work : forall load d v, solves K S load d -> admissible (mdim K) S v -> form K v d = load_work (mdim K) load v.
  Proof.
    intros load d v H A. rewrite form_mulv. unfold load_work. apply Sum_ext_in. intros i Hi. apply in_seq in Hi.
    assert (X := H i ltac:(lia)). destruct (S i) eqn:E; [rewrite (A i ltac:(lia) E); ring|rewrite X; ring].
  Qed.
  Lemma solves_admissible : forall load d, solves K S load d -> admissible (mdim K) S d.
  Proof. intros load d H i Hi E. assert (X := H i Hi). rewrite E in X. exact X. Qed.

  Lemma reciprocity : forall l1 l2 d1 d2, solves K S l1 d1 -> solves K S l2 d2 -> load_work (mdim K) l1 d2 = load_work (mdim K) l2 d1.
  Proof.
    intros l1 l2 d1 d2 H1 H2. rewrite <- (solves_work l1 d1 d2 H1), <- (solves_work l2 d2 d1 H2); [apply SY|..].
    - apply (solves_admissible l1), H1.
    - apply (solves_admissible l2), H2.
  Qed.

  Lemma potential_at : forall load d v, solves K S load d -> admissible (mdim K) S v ->
    potential K load v = potential K load d + form K (fun i => 1 * v i + -1 * d i) (fun i => 1 * v i + -1 * d i) / 2.
  Proof.
    intros load d v H A. assert (B := solves_admissible load d H). unfold potential.
    rewrite form_lin_l, !form_lin_r. rewrite (SY d v), <- (solves_work load d v H A), <- (solves_work load d d H B). field.
  Qed.
  Lemma potential_sol : forall load d, solves K S load d -> potential K load d = - load_work (mdim K) load d / 2.
  Proof.
    intros load d H. unfold potential. rewrite (solves_work load d d H (solves_admissible load d H)). field.
  Qed.
End Problem.

Lemma compliance : forall K1 K2 S load d1 d2, mdim K2 = mdim K1 -> (forall u v, form K1 u v = form K1 v u) -> (forall u, 0 <= form K1 u u) ->
  (forall u, form K1 u u <= form K2 u u) -> solves K1 S load d1 -> solves K2 S load d2 ->
  load_work (mdim K1) load d2 <= load_work (mdim K1) load d1.
Proof.
  intros K1 K2 S load d1 d2 D SY P LE H1 H2.
  assert (A2 : admissible (mdim K1) S d2) by (rewrite <- D; apply (solves_admissible K2 S load), H2).
  assert (X := potential_at K1 S SY load d1 d2 H1 A2). rewrite (potential_sol K1 S load d1 H1) in X.
  assert (Y := potential_sol K2 S load d2 H2). unfold potential in X, Y. rewrite D in Y.
  assert (Q := P (fun i => 1 * d2 i + -1 * d1 i)). assert (Z := LE d2). lra.
Qed.

Section Buckling.
  Variables K KG : matrix R.
  Variable S : nat -> bool.
  Hypothesis D : mdim KG = mdim K.
  Hypothesis SY : forall u v, form K u v = form K v u.
  Hypothesis SG : forall u v, form KG u v = form KG v u.
  Hypothesis PD : forall u, (forall i, (i < mdim K)%nat -> S i = true -> u i = 0) -> 0 <= form K u u /\
    (form K u u = 0 -> forall i, (i < mdim K)%nat -> u i = 0).

  Lemma mode_form : forall a b x y v, buckling_mode K KG S a b x y -> admissible (mdim K) S v ->
    form K v x + (a * form KG v x - b * form KG v y) = 0 /\ form K v y + (a * form KG v y + b * form KG v x) = 0.
  Proof.
    intros a b x y v [Ax [Ay H]] Av. rewrite !form_mulv, D.
    split.
    - rewrite <- (Sum_zero _ (fun i => v i * (mulv K x i + (a * mulv KG x i - b * mulv KG y i))) (seq 0 (mdim K))).
      + match goal with |- ?p + (a * ?q - b * ?r) = _ => replace (p + (a * q - b * r)) with (p + (a * q + (- b) * r)) by ring end.
        rewrite <- !Sum_scal, <- !Sum_plus. apply Sum_ext; intros i; ring.
      + intros i Hi. apply in_seq in Hi. destruct (S i) eqn:E; [rewrite (Av i ltac:(lia) E); ring|].
        rewrite (proj1 (H i ltac:(lia) E)); ring.
    - rewrite <- (Sum_zero _ (fun i => v i * (mulv K y i + (a * mulv KG y i + b * mulv KG x i))) (seq 0 (mdim K))).
      + rewrite <- !Sum_scal, <- !Sum_plus. apply Sum_ext; intros i; ring.
      + intros i Hi. apply in_seq in Hi. destruct (S i) eqn:E; [rewrite (Av i ltac:(lia) E); ring|].
        rewrite (proj2 (H i ltac:(lia) E)); ring.
  Qed.

  Lemma factor_real : forall a b x y, buckling_mode K KG S a b x y -> nonzero (mdim K) x \/ nonzero (mdim K) y -> b = 0.
  Proof.
    intros a b x y M NZ. destruct (M) as [Ax [Ay _]].
    destruct (mode_form a b x y x M Ax) as [X1 X2]. destruct (mode_form a b x y y M Ay) as [Y1 Y2].
    rewrite (SY y x), (SG y x) in *.
    destruct (Req_dec b 0) as [B|B]; [exact B|exfalso].
    assert (P : form KG x x + form KG y y = 0).
    { assert (Q : b * (form KG x x + form KG y y) = 0) by lra. apply Rmult_integral in Q. destruct Q as [Q|Q]; [contradiction|exact Q]. }
    assert (Q : form K x x + form K y y = 0).
    { assert (E : form K x x + form K y y + a * (form KG x x + form KG y y) = 0) by lra. rewrite P in E. lra. }
    destruct (PD x Ax) as [Px Zx]. destruct (PD y Ay) as [Py Zy].
    destruct NZ as [[i [Hi N]]|[i [Hi N]]]; apply N; [apply Zx|apply Zy]; lra || exact Hi.
  Qed.

  Lemma mode_work : forall a x, buckling_mode K KG S a 0 x (fun _ => 0) -> nonzero (mdim K) x -> 0 < form K x x /\ form K x x = - a * form KG x x.
  Proof.
    intros a x M [i [Hi N]]. destruct (M) as [Ax [Ay _]]. destruct (mode_form a 0 x _ x M Ax) as [X1 _].
    destruct (PD x Ax) as [P Z]. split; [|lra]. destruct P as [P|P]; [exact P|]. exfalso. apply N, Z; [lra|exact Hi].
  Qed.

  Lemma modes_orthogonal : forall a1 a2 x1 x2, buckling_mode K KG S a1 0 x1 (fun _ => 0) -> buckling_mode K KG S a2 0 x2 (fun _ => 0) -> a1 <> a2 ->
    form K x1 x2 = 0 /\ form KG x1 x2 = 0.
  Proof.
    intros a1 a2 x1 x2 M1 M2 N. destruct (M1) as [A1 _]. destruct (M2) as [A2 _].
    destruct (mode_form a1 0 x1 _ x2 M1 A2) as [X1 _]. destruct (mode_form a2 0 x2 _ x1 M2 A1) as [X2 _].
    rewrite (SY x2 x1), (SG x2 x1) in X1.
    assert (Q : (a1 - a2) * form KG x1 x2 = 0) by lra. apply Rmult_integral in Q. destruct Q as [Q|Q]; [exfalso; apply N; lra|].
    split; [|exact Q]. rewrite Q in X1. lra.
  Qed.
End Buckling.
