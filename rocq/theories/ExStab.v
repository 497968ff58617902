(** Plates and displacements for the theorems on energy-free displacements. *)
From Coq Require Import ZArith Reals List Bool Arith Lra Lia.
From Verif Require Import Num Py Mesh Utils CalcK0 AddK0s Spec SpecRead SpecK0 SpecKG SpecK0s SpecStab FSum FDict FWf FConn FSmooth FRenum Ex ExK0 ExK0s.
Import ListNotations.
Local Open Scope R_scope.
Implicit Types (m : mesh R).

Lemma ex_pos_def : forall c, 0 < c -> pos_def (ex_prop c).
Proof.
  intros c Hc e Ne. unfold dens, quad3, ex_prop; cbn [pA pB pD m00 m01 m02 m11 m12 m22].
  destruct e as [a b d x y z]; cbn [exx eyy exy kxx kyy kxy].
  assert (H : a*a + b*b + d*d + (x*x + y*y + z*z) <= 10*a*a + 8*b*b + 4*d*d + 6*a*b + 2*a*d + 2*b*d + 2*(a*x + b*y + d*z)
             + 20*x*x + 16*y*y + 8*z*z + 12*x*y + 4*x*z + 4*y*z).
  { assert (0 <= (a + b)*(a+b)) by apply Rle_0_sqr. assert (0 <= (b+d)*(b+d)) by apply Rle_0_sqr.
    assert (0 <= (a+d)*(a+d)) by apply Rle_0_sqr. assert (0 <= (a+x)*(a+x)) by apply Rle_0_sqr.
    assert (0 <= (b+y)*(b+y)) by apply Rle_0_sqr. assert (0 <= (d+z)*(d+z)) by apply Rle_0_sqr.
    assert (0 <= (x+y)*(x+y)) by apply Rle_0_sqr. assert (0 <= (x+z)*(x+z)) by apply Rle_0_sqr.
    assert (0 <= (y+z)*(y+z)) by apply Rle_0_sqr. assert (0 <= a*a) by apply Rle_0_sqr. assert (0 <= b*b) by apply Rle_0_sqr.
    assert (0 <= d*d) by apply Rle_0_sqr. assert (0 <= x*x) by apply Rle_0_sqr. assert (0 <= y*y) by apply Rle_0_sqr.
    assert (0 <= z*z) by apply Rle_0_sqr. nra. }
  assert (P : 0 < a*a + b*b + d*d + (x*x + y*y + z*z)).
  { assert (S : forall r, 0 <= r * r) by (intros r; apply Rle_0_sqr).
    assert (N : forall r, r <> 0 -> 0 < r * r) by (intros r Hr; destruct (Rtotal_order r 0) as [?|[?|?]]; [nra|contradiction|nra]).
    assert (Sa := S a). assert (Sb := S b). assert (Sd := S d). assert (Sx := S x). assert (Sy := S y). assert (Sz := S z).
    destruct (Req_dec a 0) as [->|Q]; [|apply N in Q; lra]. destruct (Req_dec b 0) as [->|Q]; [|apply N in Q; lra].
    destruct (Req_dec d 0) as [->|Q]; [|apply N in Q; lra]. destruct (Req_dec x 0) as [->|Q]; [|apply N in Q; lra].
    destruct (Req_dec y 0) as [->|Q]; [|apply N in Q; lra]. destruct (Req_dec z 0) as [->|Q]; [|apply N in Q; lra]. congruence. }
  match goal with |- 0 < ?t => replace t with (c * (10*a*a + 8*b*b + 4*d*d + 6*a*b + 2*a*d + 2*b*d + 2*(a*x + b*y + d*z)
             + 20*x*x + 16*y*y + 8*z*z + 12*x*y + 4*x*z + 4*y*z)) by ring end.
  apply Rmult_lt_0_compat; lra.
Qed.
Lemma ex_shear_pos : forall c, 0 < c -> shear_pos (ex_prop c).
Proof. intros c Hc. unfold shear_pos, ex_prop; cbn. repeat split; lra. Qed.

(** the laminates of the plate of Ex.v *)
Lemma ex_all_pos : forall P : prop R -> Prop, (forall c, 0 < c -> P (ex_prop c)) -> all_props ex_mesh P.
Proof.
  intros P HP. split.
  - intros n p H. unfold nodeprop in H.
    destruct n as [|[|[|[|[|[|[|n]]]]]]]; cbn in H; try discriminate; injection H as <-; apply HP; lra.
  - intros t p Ht. assert (E : map tprop (trias_of ex_mesh) = [Some (ex_prop 1); Some (ex_prop 2); Some (ex_prop 1); Some (ex_prop 3)])
      by reflexivity.
    intros Hp. apply (in_map tprop) in Ht. rewrite E, Hp in Ht. cbn [In] in Ht.
    repeat (destruct Ht as [Ht|Ht]; [injection Ht as <-; apply HP; lra|]). destruct Ht.
Qed.
Lemma ex_all_pd : all_props ex_mesh pos_def.
Proof. apply ex_all_pos, ex_pos_def. Qed.
Lemma ex_all_sp : all_props ex_mesh shear_pos.
Proof. apply ex_all_pos, ex_shear_pos. Qed.

(** the triangles of the plate of Ex.v *)
Definition ex_t (i : nat) : tria R := nth i (trias_of ex_mesh) {| eid := 0; tn1 := 0; tn2 := 0; tn3 := 0; tprop := None; tedges := [] |}.
Lemma ex_trias_list : trias_of ex_mesh = [ex_t 0; ex_t 1; ex_t 2; ex_t 3].
Proof. reflexivity. Qed.
Lemma ex_neighbours : forall t, In t (trias_of ex_mesh) -> has_neighbour ex_mesh t.
Proof.
  intros t Ht. rewrite ex_trias_list in Ht. cbn [In] in Ht.
  assert (E25 : tris_on ex_mesh (2, 5)%nat = [ex_t 0; ex_t 1]) by reflexivity.
  assert (E45 : tris_on ex_mesh (4, 5)%nat = [ex_t 2; ex_t 3]) by reflexivity.
  assert (D : forall i j, tn1 (ex_t i) <> tn1 (ex_t j) -> ex_t i <> ex_t j) by (intros i j Q E; apply Q; rewrite E; reflexivity).
  destruct Ht as [<-|[<-|[<-|[<-|[]]]]].
  - exists (2, 5)%nat, (ex_t 1). rewrite E25. rewrite ex_edge_keys. cbn [In]. repeat split; auto; apply D; cbn; discriminate.
  - exists (2, 5)%nat, (ex_t 0). rewrite E25. rewrite ex_edge_keys. cbn [In]. repeat split; auto; apply D; cbn; discriminate.
  - exists (4, 5)%nat, (ex_t 3). rewrite E45. rewrite ex_edge_keys. cbn [In]. repeat split; auto 10; apply D; cbn; discriminate.
  - exists (4, 5)%nat, (ex_t 2). rewrite E45. rewrite ex_edge_keys. cbn [In]. repeat split; auto 10; apply D; cbn; discriminate.
Qed.
Lemma ex_linked : forall t t', In t (trias_of ex_mesh) -> In t' (trias_of ex_mesh) -> linked ex_mesh t t'.
Proof.
  assert (E25 : tris_on ex_mesh (2, 5)%nat = [ex_t 0; ex_t 1]) by reflexivity.
  assert (E35 : tris_on ex_mesh (3, 5)%nat = [ex_t 1; ex_t 2]) by reflexivity.
  assert (E45 : tris_on ex_mesh (4, 5)%nat = [ex_t 2; ex_t 3]) by reflexivity.
  assert (E15 : tris_on ex_mesh (1, 5)%nat = [ex_t 0; ex_t 3]) by reflexivity.
  assert (S : forall t k a b, linked ex_mesh t a -> In k (edge_keys ex_mesh) -> tris_on ex_mesh k = [a; b] \/ tris_on ex_mesh k = [b; a] -> linked ex_mesh t b).
  { intros t k a b L Hk [E|E]; apply (linked_next ex_mesh t a b k L Hk); rewrite E; cbn; auto. }
  assert (K : In (2, 5)%nat (edge_keys ex_mesh) /\ In (3, 5)%nat (edge_keys ex_mesh) /\ In (4, 5)%nat (edge_keys ex_mesh) /\ In (1, 5)%nat (edge_keys ex_mesh))
    by (rewrite ex_edge_keys; cbn; auto 12).
  destruct K as [K1 [K2 [K3 K4]]].
  assert (L0 : forall t, In t (trias_of ex_mesh) -> linked ex_mesh t (ex_t 0)).
  { intros t Ht. rewrite ex_trias_list in Ht. cbn [In] in Ht. destruct Ht as [<-|[<-|[<-|[<-|[]]]]].
    - constructor.
    - apply (S _ (2, 5)%nat (ex_t 1)); [constructor|exact K1|auto].
    - apply (S _ (2, 5)%nat (ex_t 1)); [apply (S _ (3, 5)%nat (ex_t 2)); [constructor|exact K2|auto]|exact K1|auto].
    - apply (S _ (1, 5)%nat (ex_t 3)); [constructor|exact K4|auto]. }
  intros t t' Ht Ht'. specialize (L0 t Ht). rewrite ex_trias_list in Ht'. cbn [In] in Ht'. destruct Ht' as [<-|[<-|[<-|[<-|[]]]]].
  - exact L0.
  - apply (S _ (2, 5)%nat (ex_t 0)); [exact L0|exact K1|auto].
  - apply (S _ (3, 5)%nat (ex_t 1)); [apply (S _ (2, 5)%nat (ex_t 0)); [exact L0|exact K1|auto]|exact K2|auto].
  - apply (S _ (1, 5)%nat (ex_t 0)); [exact L0|exact K4|auto].
Qed.

(** clockwise triangle (3, 2, 5): its gap node is 2, across from the side (3, 5) *)
Lemma ex_gaps : gaps_spread ex_mesh.
Proof.
  intros t Ht. exists (ex_t 1), (ex_t 2), (3, 5)%nat.
  assert (E35 : tris_on ex_mesh (3, 5)%nat = [ex_t 1; ex_t 2]) by reflexivity.
  split; [apply ex_linked; [exact Ht|rewrite ex_trias_list; cbn; auto]|]. rewrite ex_edge_keys, E35.
  split; [cbn; auto 8|]. split; [cbn; auto|]. split; [cbn; auto|]. split.
  - intros E. apply (f_equal (@tn1 R)) in E. cbn in E. discriminate.
  - assert (G : gap_node ex_mesh (ex_t 1) = 2%nat).
    { destruct ex_pos as [P1 [P2 [P3 [P4 [P5 P6]]]]]. unfold gap_node, tdet.
      change (tn1 (ex_t 1)) with 3%nat. change (tn2 (ex_t 1)) with 2%nat. change (tn3 (ex_t 1)) with 5%nat. rewrite P2, P3, P5.
      unfold det2; cbn [vx vy]. destruct (Rlt_dec _ _) as [_|N]; [reflexivity|exfalso; apply N; lra]. }
    rewrite G. cbn. split; discriminate.
Qed.

(** the two triangles of ExK0s.v *)
Definition duo : mesh R := two (ex_prop 1).
Definition duo_t (i : nat) : tria R := nth i (trias_of duo) {| eid := 0; tn1 := 0; tn2 := 0; tn3 := 0; tprop := None; tedges := [] |}.
Lemma duo_trias : trias_of duo = [duo_t 0; duo_t 1].
Proof. reflexivity. Qed.
Lemma duo_edge : In (1, 3)%nat (edge_keys duo) /\ tris_on duo (1, 3)%nat = [duo_t 0; duo_t 1] /\ duo_t 0 <> duo_t 1.
Proof.
  split; [change (edge_keys duo) with (edge_keys two_read); rewrite two_edge_keys; cbn; auto|]. split; [reflexivity|].
  intros E. apply (f_equal (@tn2 R)) in E. cbn in E. discriminate.
Qed.
Lemma duo_neighbours : forall t, In t (trias_of duo) -> has_neighbour duo t.
Proof.
  destruct duo_edge as [K [E N]]. intros t Ht. rewrite duo_trias in Ht. destruct Ht as [<-|[<-|[]]]; exists (1, 3)%nat.
  - exists (duo_t 1). rewrite E. cbn. repeat split; auto.
  - exists (duo_t 0). rewrite E. cbn. repeat split; auto.
Qed.
Lemma duo_piece : in_one_piece duo.
Proof.
  destruct duo_edge as [K [E N]]. exists (duo_t 0). split; [rewrite duo_trias; left; reflexivity|].
  intros n Hn. change (node_keys duo) with [1; 2; 3; 4]%nat in Hn. cbn [In] in Hn.
  destruct Hn as [<-|[<-|[<-|[<-|[]]]]].
  - exists (duo_t 0). split; [constructor|left; reflexivity].
  - exists (duo_t 0). split; [constructor|right; left; reflexivity].
  - exists (duo_t 0). split; [constructor|right; right; reflexivity].
  - exists (duo_t 1). split; [|right; right; reflexivity]. eapply linked_next; [constructor|exact K| |]; rewrite E; cbn; auto.
Qed.
Lemma duo_pd : all_props duo pos_def.
Proof. apply with_one; [apply two_wf|apply ex_pos_def; lra]. Qed.
Lemma duo_sp : all_props duo shear_pos.
Proof. apply with_one; [apply two_wf|apply ex_shear_pos; lra]. Qed.
Lemma duo_pos : pos duo 1 = V3 0 0 0 /\ pos duo 2 = V3 1 0 0 /\ pos duo 3 = V3 1 1 0 /\ pos duo 4 = V3 0 1 0.
Proof. repeat split; reflexivity. Qed.
Lemma lone_pd : all_props (tri (ex_prop 1)) pos_def.
Proof. apply with_one; [apply tri_wf|apply ex_pos_def; lra]. Qed.
Lemma lone_sp : all_props (tri (ex_prop 1)) shear_pos.
Proof. apply with_one; [apply tri_wf|apply ex_shear_pos; lra]. Qed.
Lemma lone_piece : in_one_piece (tri (ex_prop 1)).
Proof.
  exists (nth 0 (trias_of (tri (ex_prop 1))) {| eid := 0; tn1 := 0; tn2 := 0; tn3 := 0; tprop := None; tedges := [] |}).
  split; [left; reflexivity|]. intros n Hn. change (node_keys (tri (ex_prop 1))) with [1; 2; 3]%nat in Hn. cbn [In] in Hn.
  eexists; split; [constructor|]. unfold vertex; cbn. intuition.
Qed.

(** phi = s (yc - y, x - xc) *)
Definition spin (m : mesh R) (xc yc : R) : nat -> R := field m (fun i n => match i with
  | 3%nat => yc - vy (pos m n) | 4%nat => vx (pos m n) - xc | _ => 0 end).
