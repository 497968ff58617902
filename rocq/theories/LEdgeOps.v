(** Lemmas for the property C85. *)
(* P: Num Py Mesh Utils Pow2mul Mprint EdgeOps Spec SpecK0 SpecK0s Ex0 *)
From Coq Require Import Reals ZArith List Bool Arith Ascii String Lia Lra.
From Verif Require Import Num Py Mesh Utils Pow2mul SpecPow FPow Mprint EdgeOps Spec SpecK0 SpecK0s FDict FWf SpecMprint FMprint Ex0 Ex.
Import ListNotations.
Local Open Scope list_scope.
Local Open Scope nat_scope.

Lemma number_end : forall p q c r r', all is_digit p -> all is_digit q -> is_digit c = false -> p ++ c :: r = q ++ c :: r' -> p = q /\ r = r'.
Proof.
  induction p as [|x p IH]; intros [|y q] c r r' P Q D E; cbn [app] in E.
  - injection E as ->. auto.
  - injection E as -> _. inversion Q; subst. congruence.
  - injection E as -> _. inversion P; subst. congruence.
  - injection E as -> E. inversion P; inversion Q; subst. destruct (IH q c r r') as [-> ->]; auto.
Qed.

(** Two edges of a mesh with the same text are the same. *)
Lemma c85_names : forall (T : Type) (NT : Num T) (m : mesh T) k e k' e', wf_mesh m -> In (k, e) (edges m) -> In (k', e') (edges m) ->
  edge_str e = edge_str e' -> k = k' /\ e = e'.
Proof.
  intros T NT m k e k' e' W I I' E. unfold edge_str in E. cbn [txt list_ascii_of_string app] in E. injection E as E.
  destruct (nat_text_ok (en1 e)) as [D1 [A1 _]], (nat_text_ok (en1 e')) as [D1' [A1' _]].
  destruct (nat_text_ok (en2 e)) as [D2 [A2 _]], (nat_text_ok (en2 e')) as [D2' [A2' _]].
  apply number_end in E; [|assumption|assumption|reflexivity]. destruct E as [E1 E]. injection E as E.
  apply number_end in E; [|assumption|assumption|reflexivity]. destruct E as [E2 _].
  assert (K : k = k').
  { destruct (wf_edge_ends m W k e I) as [<- _]. destruct (wf_edge_ends m W k' e' I') as [<- _]. f_equal; congruence. }
  split; [exact K|]. subst k'.
  assert (G : forall x, In (k, x) (edges m) -> dget pair_eqb k (edges m) = Some x).
  { intros x X. apply (in_dget pair_eqb); [exact pair_eqb_spec|exact (wf_edges m W)|exact X]. }
  assert (G1 := G e I). assert (G2 := G e' I'). congruence.
Qed.

(** The midpoint: half way between the ends, and the centroid of every triangle on the edge lies at two thirds of
    the way from the third vertex to it. *)
Lemma c85_mid : forall (m : mesh R) k e, wf_mesh m -> In (k, e) (edges m) -> exists p,
  edge_getMid m e = Ok p /\
  (let half (f : vec3 R -> R) := (f p = (f (pos m (fst k)) + f (pos m (snd k))) / 2)%R in half vx /\ half vy /\ half vz) /\
  (forall n, n = fst k \/ n = snd k -> sqrt (dot (vsub p (pos m n)) (vsub p (pos m n))) = (dist m (fst k) (snd k) / 2)%R) /\
  forall t, In t (tris_on m k) -> let q := pos m (third t k) in
    let at_two_thirds (f : vec3 R -> R) := (f (centroid m t) = f q + 2 / 3 * (f p - f q))%R in at_two_thirds vx /\ at_two_thirds vy /\ at_two_thirds vz.
Proof.
  intros m [a b] e W I. assert (KI : In (a, b) (edge_keys m)) by (apply in_map_iff; exists (a, b, e); auto).
  destruct (wf_edge_ends m W (a, b) e I) as [EE _]. injection EE as E1 E2.
  assert (KK : In a (node_keys m) /\ In b (node_keys m)).
  { destruct (tris_on m (a, b)) as [|t ts] eqn:TS; [destruct (tris_on_nonempty m W (a, b) KI TS)|].
    assert (TI : In t (tris_on m (a, b))) by (rewrite TS; left; reflexivity). apply (edge_tria m W) in TI; [|exact KI]. tauto. }
  destruct KK as [Ka Kb]. destruct (node_found m W a Ka) as [da [Ga [_ [Xa _]]]]. destruct (node_found m W b Kb) as [db [Gb [_ [Xb _]]]].
  eexists. split; [unfold edge_getMid; rewrite E1, E2, Ga, Gb; reflexivity|]. cbn [fst snd]. rewrite Xa, Xb.
  destruct (pos m a) as [x1 y1 z1] eqn:PA, (pos m b) as [x2 y2 z2] eqn:PB. unfold vscale, vadd. cbn [vx vy vz]. rnum.
  split; [repeat split; field|]. split.
  - intros n N. unfold dist. rewrite PA, PB. cbn [vx vy vz].
    assert (Q : forall u, (0 <= u)%R -> sqrt (u / 4) = (sqrt u / 2)%R).
    { intros u U. rewrite sqrt_div by lra. f_equal. replace 4%R with (2 * 2)%R by lra. apply sqrt_square. lra. }
    rewrite <- Q by (apply Rplus_le_le_0_compat; [apply Rplus_le_le_0_compat|]; apply Rle_0_sqr). f_equal. destruct N as [->| ->]; [rewrite PA|rewrite PB]; unfold dot, vsub; cbn [vx vy vz]; rnum; field.
  - intros t TI. assert (P := proj1 (edge_tria m W _ _ KI TI)). cbn [fst snd] in P. cbn zeta. set (q := pos m (third t (a, b))).
    assert (C : centroid m t = mid3 (pos m a) (pos m b) q).
    { unfold centroid. change (mid3 (pos m (tn1 t)) (pos m (tn2 t)) (pos m (tn3 t)) = mid3 (pos m a) (pos m b) q). apply mid3_perm, P. }
    rewrite C, PA, PB. unfold mid3, vdivs, vadd. cbn [vx vy vz]. rnum. repeat split; field.
Qed.
(** The edge between the second and the fifth node of the example. *)
Lemma c85_ex : wf_mesh ex_read /\ exists e, In ((2, 5), e) (edges ex_read) /\ edge_str e = txt "Edge (2, 5)" /\
  edge_getMid ex_read e = Ok (V3 (5 / 2) (1 / 2) 0)%R.
Proof.
  split; [exact ex_wf_read|]. eexists. split; [right; left; reflexivity|]. split; [reflexivity|].
  cbn. unfold vscale, vadd. cbn [vx vy vz]. rnum. f_equal. f_equal; field.
Qed.
