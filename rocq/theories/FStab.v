(** Every set of triangles of a plate has a side that belongs to only one of them;
    displacements without energy. *)
From Coq Require Import ZArith Reals List Bool Arith Lra Lia.
From Verif Require Import Num Py Mesh Utils Spec SpecK0 SpecK0s SpecStab FSum FMat FDict FGeom FWf FAsm FTensor FSmooth.
Import ListNotations.
Local Open Scope R_scope.
Implicit Types (m : mesh R).

Lemma list_max : forall A (le : A -> A -> Prop) (l : list A),
  (forall a b, In a l -> In b l -> le a b \/ le b a) ->
  (forall a b c, In a l -> In b l -> In c l -> le a b -> le b c -> le a c) ->
  (forall a, le a a) ->
  l <> [] -> exists x, In x l /\ forall y, In y l -> le y x.
Proof.
  intros A le l. induction l as [|a l IH]; intros T TR RF NE; [congruence|].
  destruct l as [|b l].
  - exists a. split; [left; reflexivity|]. intros y [<-|[]]. apply RF.
  - destruct IH as [x [Hx Mx]].
    + intros; apply T; right; assumption.
    + intros p q r Hp Hq Hr; apply TR; right; assumption.
    + exact RF.
    + discriminate.
    + destruct (T a x (or_introl eq_refl) (or_intror Hx)) as [H|H].
      * exists x. split; [right; exact Hx|]. intros y [<-|Hy]; [exact H|apply Mx, Hy].
      * exists a. split; [left; reflexivity|]. intros y [<-|Hy]; [apply RF|].
        apply (TR y x a); [right; exact Hy|right; exact Hx|left; reflexivity|apply Mx, Hy|exact H].
Qed.

(** order of points by x, then y *)
Definition lexle (p q : vec3 R) : Prop := vx p < vx q \/ (vx p = vx q /\ vy p <= vy q).
Definition lexlt (p q : vec3 R) : Prop := vx p < vx q \/ (vx p = vx q /\ vy p < vy q).

Lemma lexle_total : forall p q, lexle p q \/ lexle q p.
Proof.
  intros p q. unfold lexle. destruct (Rtotal_order (vx p) (vx q)) as [H|[H|H]]; [auto| |auto].
  destruct (Rle_or_lt (vy p) (vy q)); [left; right; auto|right; right; split; [auto|lra]].
Qed.
Lemma lexle_trans : forall p q r, lexle p q -> lexle q r -> lexle p r.
Proof. unfold lexle; intros p q r [H|[H1 H2]] [H'|[H1' H2']]; [left; lra|left; lra|left; lra|right; split; lra]. Qed.
Lemma lexle_strict : forall p q, lexle p q -> ~ (vx p = vx q /\ vy p = vy q) -> lexlt p q.
Proof. unfold lexle, lexlt; intros p q [H|[H1 H2]] N; [auto|right; split; [exact H1|lra]]. Qed.

(** seen from the last point all directions lie in a half plane *)
Lemma det_trans : forall v a b c, lexlt a v -> lexlt b v -> lexlt c v ->
  0 <= det2 v b a -> 0 <= det2 v c b -> 0 <= det2 v c a.
Proof.
  intros v a b c A B C H1 H2.
  set (ax := vx a - vx v). set (ay := vy a - vy v). set (bx := vx b - vx v). set (by_ := vy b - vy v).
  set (cx := vx c - vx v). set (cy := vy c - vy v).
  assert (E1 : det2 v b a = bx * ay - ax * by_) by reflexivity.
  assert (E2 : det2 v c b = cx * by_ - bx * cy) by reflexivity.
  assert (E3 : det2 v c a = cx * ay - ax * cy) by reflexivity.
  rewrite E1 in H1. rewrite E2 in H2. rewrite E3.
  assert (LA : ax < 0 \/ (ax = 0 /\ ay < 0)) by (unfold ax, ay; destruct A as [A|[A A']]; [left; lra|right; lra]).
  assert (LB : bx < 0 \/ (bx = 0 /\ by_ < 0)) by (unfold bx, by_; destruct B as [B|[B B']]; [left; lra|right; lra]).
  assert (LC : cx < 0 \/ (cx = 0 /\ cy < 0)) by (unfold cx, cy; destruct C as [C|[C C']]; [left; lra|right; lra]).
  clearbody ax ay bx by_ cx cy. clear E1 E2 E3 A B C.
  assert (I : bx * (cx * ay - ax * cy) = cx * (bx * ay - ax * by_) + ax * (cx * by_ - bx * cy)) by ring.
  assert (NA : ax <= 0) by lra. assert (NC : cx <= 0) by lra.
  destruct LB as [LB|[LB LB']].
  - assert (X : bx * (cx * ay - ax * cy) <= 0) by (rewrite I; nra).
    destruct (Rle_or_lt 0 (cx * ay - ax * cy)) as [G|G]; [exact G|]. exfalso. nra.
  - subst bx. assert (cx * by_ >= 0) by lra. assert (Z : 0 <= cx * ay - ax * cy); [|exact Z].
    assert (ax * by_ <= 0) by lra. assert (ax = 0 \/ ax < 0) as [->|LT] by lra.
    + destruct LA as [LA|[_ LA]]; [lra|]. nra.
    + exfalso. nra.
Qed.

Section Outer.
  Variable m : mesh R.
  Hypothesis W : wf_mesh m.
  Hypothesis PL : plate m.

  Lemma trias_nodup : NoDup (trias_of m).
  Proof.
    unfold trias_of. assert (H := wf_elements m W). assert (E := wf_eid m W).
    induction (elements m) as [|[k t] l IH]; [constructor|]. cbn [map] in *. inversion H as [|x y N1 N2]; subst. constructor.
    - intros I. apply in_map_iff in I. destruct I as [[k' t'] [Q I]]. cbn in Q. subst t'. apply N1.
      assert (X := E k t (or_introl eq_refl)). assert (Y := E k' t (or_intror I)). cbn [fst]. rewrite <- X, Y.
      apply in_map_iff. exists (k', t). auto.
    - apply IH; [exact N2|]. intros; apply E; right; assumption.
  Qed.
  Lemma tris_nodup : forall k, NoDup (tris_on m k).
  Proof. intros k. apply NoDup_filter, trias_nodup. Qed.

  Lemma side_key : forall t a b, In t (trias_of m) -> vertex t a -> vertex t b -> a <> b ->
    let k := (Nat.min a b, Nat.max a b) in In k (edge_keys m) /\ In t (tris_on m k) /\ ((a, b) = k \/ (b, a) = k).
  Proof.
    intros t a b Ht Va Vb N k.
    assert (Q : (a, b) = k \/ (b, a) = k).
    { unfold k. destruct (Nat.le_ge_cases a b).
      - left. rewrite Nat.min_l, Nat.max_r by assumption; reflexivity.
      - right. rewrite Nat.min_r, Nat.max_l by assumption; reflexivity. }
    assert (VV : vertex t (fst k) /\ vertex t (snd k)) by (destruct Q as [<-|<-]; auto).
    split; [|split; [|exact Q]].
    - apply (wf_edge_keys m W). exists t. split; [exact Ht|]. apply vertices_sides; unfold k in *; cbn [fst snd] in *; try tauto. lia.
    - apply tris_on_in. tauto.
  Qed.

  Variable L : list (tria R).
  Hypothesis LS : forall t, In t L -> In t (trias_of m).
  Hypothesis LN : L <> [].

  Lemma outer_side : exists t k, In t L /\ In k (edge_keys m) /\ In t (tris_on m k) /\
    forall t', In t' L -> In t' (tris_on m k) -> t' = t.
  Proof.
    set (ns := flat_map (fun t => [tn1 t; tn2 t; tn3 t]) L).
    assert (INS : forall t n, In t L -> vertex t n -> In n ns).
    { intros t n Ht V. apply in_flat_map. exists t. split; [exact Ht|]. cbn [In]. unfold vertex in V. intuition congruence. }
    assert (NE : ns <> []) by (unfold ns; destruct L; [congruence|discriminate]).
    destruct (list_max nat (fun a b => lexle (pos m a) (pos m b)) ns) as [v [Hv Mv]].
    { intros; apply lexle_total. } { intros a b c _ _ _; apply lexle_trans. } { intros a. right; split; [reflexivity|lra]. } { exact NE. }
    apply in_flat_map in Hv. destruct Hv as [t0 [Ht0 Vt0]].
    assert (V0 : vertex t0 v) by (cbn [In] in Vt0; unfold vertex; intuition).
    set (nb := flat_map (fun t => if is_vertex v t then filter (fun n => negb (Nat.eqb n v)) [tn1 t; tn2 t; tn3 t] else []) L).
    assert (INB : forall n, In n nb <-> exists t, In t L /\ vertex t v /\ vertex t n /\ n <> v).
    { intros n. unfold nb. rewrite in_flat_map. split.
      - intros [t [Ht Hn]]. exists t. destruct (is_vertex v t) eqn:E; [|destruct Hn]. apply is_vertex_iff in E.
        apply filter_In in Hn. destruct Hn as [Hn Q]. apply negb_true_iff, Nat.eqb_neq in Q. cbn [In] in Hn. unfold vertex in *. intuition.
      - intros [t [Ht [Vv [Vn Q]]]]. exists t. split; [exact Ht|]. rewrite (proj2 (is_vertex_iff v t) Vv).
        apply filter_In. split; [cbn [In]; unfold vertex in Vn; intuition|apply negb_true_iff, Nat.eqb_neq, Q]. }
    assert (LT : forall n, In n nb -> lexlt (pos m n) (pos m v)).
    { intros n Hn. assert (Hn' := Hn). apply INB in Hn. destruct Hn as [t [Ht [Vv [Vn Q]]]]. apply lexle_strict.
      - apply Mv. apply (INS t); assumption.
      - intros [X Y]. destruct (side_key t v n (LS t Ht) Vv Vn (not_eq_sym Q)) as [K1 [K2 K3]].
        destruct (tria_node m _ t v n W K1 K3 K2) as [P _]. assert (D := pl_nondeg m PL t (LS t Ht)).
        destruct (tdet_perm m t v n _ P) as [E|E]; rewrite E in D; apply D; unfold det2; rewrite X, Y; ring. }
    assert (NB : nb <> []).
    { assert (X : exists n, In n nb).
      { destruct (wf_distinct m W t0 (LS t0 Ht0)) as [D1 [D2 D3]]. destruct (Nat.eq_dec (tn1 t0) v) as [E|E].
        - exists (tn2 t0). apply INB. exists t0. unfold vertex. intuition congruence.
        - exists (tn1 t0). apply INB. exists t0. unfold vertex in *. intuition. }
      destruct X as [n Hn]. intros E. rewrite E in Hn. destruct Hn. }
    destruct (list_max nat (fun a b => 0 <= det2 (pos m v) (pos m b) (pos m a)) nb) as [x [Hx Mx]].
    { intros a b Ha Hb. destruct (Rle_or_lt 0 (det2 (pos m v) (pos m b) (pos m a))) as [H|H]; [left; exact H|right].
      assert (E : det2 (pos m v) (pos m a) (pos m b) = - det2 (pos m v) (pos m b) (pos m a)) by (unfold det2; ring). lra. }
    { intros a b c Ha Hb Hc H1 H2. apply (det_trans _ _ (pos m b)); auto. }
    { intros a. unfold det2. lra. } { exact NB. }
    assert (Hx' := Hx). apply INB in Hx'. destruct Hx' as [t [Ht [Vv [Vx Nx]]]].
    destruct (side_key t v x (LS t Ht) Vv Vx (not_eq_sym Nx)) as [K1 [K2 K3]]. set (k := (Nat.min v x, Nat.max v x)) in *.
    exists t, k. split; [exact Ht|]. split; [exact K1|]. split; [exact K2|].
    assert (SD : forall t', In t' L -> In t' (tris_on m k) -> 0 < det2 (pos m v) (pos m x) (pos m (third t' k))).
    { intros t' Ht' K2'. destruct (tria_node m k t' v x W K1 K3 K2') as [P [O1 [O2 [_ Hm]]]].
      destruct (perm3_vertex t' v x _ P) as [P1 [P2 P3]].
      assert (Y : In (third t' k) nb) by (apply INB; exists t'; auto).
      assert (D := pl_nondeg m PL t' Hm). specialize (Mx _ Y).
      destruct (tdet_perm m t' v x _ P) as [E|E]; rewrite E in D; lra. }
    intros t' Ht' K2'.
    assert (S1 := SD t Ht K2). assert (S2 := SD t' Ht' K2'). assert (L2 := pl_two m PL k K1). assert (ND := tris_nodup k).
    assert (PS := pl_sides m PL k).
    destruct (tris_on m k) as [|a [|b [|c l]]] eqn:E; [destruct K2| | |cbn in L2; lia].
    - destruct K2 as [<-|[]]; destruct K2' as [<-|[]]; reflexivity.
    - specialize (PS a b K1 eq_refl).
      assert (SG : forall o, det2 (pos m (fst k)) (pos m (snd k)) o = det2 (pos m v) (pos m x) o \/
                             det2 (pos m (fst k)) (pos m (snd k)) o = - det2 (pos m v) (pos m x) o).
      { intros o. destruct K3 as [<-|<-]; cbn [fst snd]; [left; reflexivity|right; unfold det2; ring]. }
      assert (PS' : det2 (pos m v) (pos m x) (pos m (third a k)) * det2 (pos m v) (pos m x) (pos m (third b k)) < 0).
      { destruct K3 as [<-|<-]; cbn [fst snd] in PS; [exact PS|].
        assert (R1 : forall o, det2 (pos m x) (pos m v) o = - det2 (pos m v) (pos m x) o) by (intros; unfold det2; ring).
        rewrite !R1 in PS. lra. }
      cbn [In] in K2, K2'. destruct K2 as [<-|[<-|[]]], K2' as [<-|[<-|[]]]; try reflexivity; exfalso; nra.
  Qed.
End Outer.

(** ** Means that vanish on all edges *)

Section Zero.
  Variable m : mesh R.
  Hypothesis W : wf_mesh m.
  Hypothesis PL : plate m.

  Lemma area_pos : forall t, In t (trias_of m) -> 0 < tarea m t.
  Proof. intros t Ht. unfold tarea. assert (D := Rabs_pos_lt _ (pl_nondeg m PL t Ht)). lra. Qed.

  Lemma Sum_single : forall A (f : A -> R) l a, NoDup l -> In a l -> (forall b, In b l -> b <> a -> f b = 0) -> Sum f l = f a.
  Proof.
    intros A f l a ND H Z. induction l as [|b l IH]; [destruct H|]. rewrite Sum_cons. inversion ND as [|x y N1 N2]; subst.
    destruct H as [->|H].
    - rewrite (Sum_zero _ f l); [ring|]. intros c Hc. apply Z; [right; exact Hc|]. intros ->. contradiction.
    - rewrite IH; [|exact N2|exact H|intros; apply Z; [right|]; assumption].
      rewrite (Z b (or_introl eq_refl)); [ring|]. intros ->. contradiction.
  Qed.

  Lemma means_zero : forall e : tria R -> R,
    (forall k, In k (edge_keys m) -> Sum (fun t => tarea m t * e t) (tris_on m k) = 0) ->
    forall t, In t (trias_of m) -> e t = 0.
  Proof.
    intros e H t Ht. destruct (Req_EM_T (e t) 0) as [E|E]; [exact E|exfalso].
    set (L := filter (fun t => if Req_EM_T (e t) 0 then false else true) (trias_of m)).
    assert (IL : forall t, In t L <-> In t (trias_of m) /\ e t <> 0).
    { intros t1. unfold L. rewrite filter_In. destruct (Req_EM_T (e t1) 0); intuition discriminate. }
    destruct (outer_side m W PL L) as [t1 [k [H1 [H2 [H3 H4]]]]].
    - intros t1 I. apply IL in I; tauto.
    - intros Q. assert (X : In t L) by (apply IL; auto). rewrite Q in X; destruct X.
    - apply IL in H1. destruct H1 as [H1 N1]. specialize (H k H2).
      rewrite (Sum_single _ _ _ t1 (tris_nodup m W k) H3) in H.
      + assert (A := area_pos t1 H1). apply Rmult_integral in H. destruct H; [lra|contradiction].
      + intros b Hb Nb. destruct (Req_EM_T (e b) 0) as [->|Eb]; [ring|]. exfalso. apply Nb, H4; [|exact Hb].
        apply IL. split; [apply tris_on_in in Hb; tauto|exact Eb].
  Qed.

  (** ** Gradients and values *)

  Lemma grad_diff : forall t q n n', In t (trias_of m) -> vertex t n -> vertex t n' ->
    q n' - q n = tgx m t q * (vx (pos m n') - vx (pos m n)) + tgy m t q * (vy (pos m n') - vy (pos m n)).
  Proof.
    intros t q n n' Ht V V'. assert (D := pl_nondeg m PL t Ht). unfold tgx, tgy. unfold tdet, det2 in *.
    destruct V as [->|[->| ->]], V' as [->|[->| ->]]; field; exact D.
  Qed.

  (** gradient from the values in the vertices *)
  Lemma grad_is : forall t q a b c, In t (trias_of m) -> (forall n, vertex t n -> q n = a + b * vx (pos m n) + c * vy (pos m n)) ->
    tgx m t q = b /\ tgy m t q = c.
  Proof.
    intros t q a b c Ht H. assert (D := pl_nondeg m PL t Ht).
    unfold tgx, tgy. rewrite (H (tn1 t)), (H (tn2 t)), (H (tn3 t)) by (unfold vertex; auto).
    unfold tdet, det2 in *. split; field; exact D.
  Qed.

  Definition flat_pair (t : tria R) (a b : nat -> R) : Prop := tgx m t a = 0 /\ tgy m t b = 0 /\ tgy m t a + tgx m t b = 0.

  Lemma linked_in : forall t t', In t (trias_of m) -> linked m t t' -> In t' (trias_of m).
  Proof. intros t t' Ht H. induction H as [|t1 t2 k H IH Hk H1 H2]; [exact Ht|]. apply tris_on_in in H2; tauto. Qed.

  Lemma side_apart : forall t k, In k (edge_keys m) -> In t (tris_on m k) ->
    vertex t (fst k) /\ vertex t (snd k) /\ ~ (vx (pos m (snd k)) - vx (pos m (fst k)) = 0 /\ vy (pos m (snd k)) - vy (pos m (fst k)) = 0).
  Proof.
    intros t k Hk Ht. destruct (edge_tria m W k t Hk Ht) as [P _]. destruct (perm3_vertex _ _ _ _ P) as [V1 [V2 _]].
    split; [exact V1|]. split; [exact V2|]. intros [X Y]. apply tris_on_in in Ht. destruct Ht as [Ht _].
    assert (D := pl_nondeg m PL t Ht).
    assert (X' : vx (pos m (snd k)) = vx (pos m (fst k))) by lra. assert (Y' : vy (pos m (snd k)) = vy (pos m (fst k))) by lra.
    destruct (tdet_perm m t _ _ _ P) as [E|E]; rewrite E in D; apply D; unfold det2; rewrite X', Y'; ring.
  Qed.

  (** no strain in any triangle: every part moves as a rigid body in the plane *)
  Lemma flat_motion : forall a b t, In t (trias_of m) -> (forall t', linked m t t' -> flat_pair t' a b) ->
    plane_motion m (in_part m t) a b.
  Proof.
    intros a b t Ht F. set (th := tgx m t b).
    exists (a (tn1 t) + th * vy (pos m (tn1 t))), (b (tn1 t) - th * vx (pos m (tn1 t))), th.
    assert (X : forall t', linked m t t' -> forall n, vertex t' n ->
       a n = a (tn1 t) + th * vy (pos m (tn1 t)) - th * vy (pos m n) /\ b n = b (tn1 t) - th * vx (pos m (tn1 t)) + th * vx (pos m n)).
    { intros t' Lk. induction Lk as [|t1 t2 k Lk IH Hk H1 H2].
      - intros n V. destruct (F t (linked_self m t)) as [A1 [A2 A3]]. fold th in A3.
        assert (G1 := grad_diff t a (tn1 t) n Ht (or_introl eq_refl) V). assert (G2 := grad_diff t b (tn1 t) n Ht (or_introl eq_refl) V).
        rewrite A1 in G1. rewrite A2 in G2. fold th in G2. assert (A4 : tgy m t a = - th) by lra. rewrite A4 in G1. split; lra.
      - assert (L2 : linked m t t2) by (eapply linked_next; eassumption).
        destruct (F t2 L2) as [A1 [A2 A3]]. assert (T2 := linked_in t t2 Ht L2).
        destruct (side_apart t1 k Hk H1) as [U1 [U2 AP]]. destruct (side_apart t2 k Hk H2) as [V1 [V2 _]].
        destruct (IH (fst k) U1) as [E1 E2]. destruct (IH (snd k) U2) as [E3 E4].
        assert (G1 := grad_diff t2 a (fst k) (snd k) T2 V1 V2). assert (G2 := grad_diff t2 b (fst k) (snd k) T2 V1 V2).
        rewrite A1 in G1. rewrite A2 in G2. set (th2 := tgx m t2 b) in *. assert (A4 : tgy m t2 a = - th2) by lra. rewrite A4 in G1.
        assert (TH : th2 = th).
        { set (dx := vx (pos m (snd k)) - vx (pos m (fst k))) in *. set (dy := vy (pos m (snd k)) - vy (pos m (fst k))) in *.
          assert (Z1 : (th2 - th) * dy = 0) by (unfold dy in *; lra). assert (Z2 : (th2 - th) * dx = 0) by (unfold dx in *; lra).
          apply Rmult_integral in Z1. apply Rmult_integral in Z2. destruct Z1 as [Z1|Z1]; [lra|]. destruct Z2 as [Z2|Z2]; [lra|]. exfalso; auto. }
        intros n V.
        assert (G3 := grad_diff t2 a (fst k) n T2 V1 V). assert (G4 := grad_diff t2 b (fst k) n T2 V1 V).
        rewrite A1, A4, TH in G3. rewrite A2 in G4. fold th2 in G4. rewrite TH in G4. split; lra. }
    intros n [t' [Lk V]]. destruct (X t' Lk n V) as [E1 E2]. split; [rewrite E1; ring|rewrite E2; ring].
  Qed.

  Lemma motion_flat : forall a b (P : nat -> Prop) t, In t (trias_of m) -> (forall n, vertex t n -> P n) -> plane_motion m P a b -> flat_pair t a b.
  Proof.
    intros a b P t Ht HP [tx [ty [th H]]].
    destruct (grad_is t a tx 0 (- th) Ht) as [G1 G2]; [intros n V; rewrite (proj1 (H n (HP n V))); ring|].
    destruct (grad_is t b ty th 0 Ht) as [G3 G4]; [intros n V; rewrite (proj2 (H n (HP n V))); ring|].
    unfold flat_pair. rewrite G1, G2, G3, G4. repeat split; ring.
  Qed.
End Zero.
