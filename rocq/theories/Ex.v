(** The mesh of Ex0.v as a plate with different laminates in the nodes and triangles. *)
From Coq Require Import ZArith Reals List Bool Arith Lra Lia.
From Verif Require Import Num Py Mesh Utils Spec SpecRead SpecK0 FDict FWf CalcK0 Ops FOps FRead FRead2 LRead FConn.
From Verif Require Export Ex0.
Import ListNotations.
Local Open Scope R_scope.
Implicit Types (m : mesh R).

(** a laminate with coupling, A = [[10,3,1],[3,8,1],[1,1,4]] c, B = I c, D = 2 A *)
Definition ex_prop (c : R) : prop R := {|
  pA := M3 (10*c) (3*c) (1*c) (3*c) (8*c) (1*c) (1*c) (1*c) (4*c);
  pB := M3 (1*c) 0 0 0 (1*c) 0 0 0 (1*c);
  pD := M3 (20*c) (6*c) (2*c) (6*c) (16*c) (2*c) (2*c) (2*c) (8*c);
  pE := M2 (5*c) 0 0 (6*c); ph := 1/10; pk13 := 5/6; pk23 := 4/5 |}.

Definition ex_ops : list (op R) :=
  [OpNodeProp 1 (Some (ex_prop 1)); OpNodeProp 2 (Some (ex_prop 2)); OpNodeProp 3 (Some (ex_prop 1));
   OpNodeProp 4 (Some (ex_prop 3)); OpNodeProp 5 (Some (ex_prop 2));
   OpTriaProp 1 (Some (ex_prop 1)); OpTriaProp 2 (Some (ex_prop 2)); OpTriaProp 3 (Some (ex_prop 1));
   OpTriaProp 4 (Some (ex_prop 3))].

Definition ex_mesh : mesh R := Eval lazy -[IZR ex_prop] in run ex_ops ex_read.
Lemma ex_run : run ex_ops ex_read = ex_mesh.
Proof. lazy -[IZR ex_prop]. reflexivity. Qed.

Lemma ex_distinct : forall t, In t (trias_of ex_read) -> distinct t.
Proof.
  intros t H.
  assert (E : map (fun t => (tn1 t, tn2 t, tn3 t)) (trias_of ex_read) = [(1, 2, 5); (3, 2, 5); (5, 3, 4); (4, 5, 1)]%nat)
    by reflexivity.
  apply (in_map (fun t => (tn1 t, tn2 t, tn3 t))) in H. rewrite E in H. unfold distinct. cbn [In] in H.
  repeat (destruct H as [H|H]; [injection H; intros <- <- <-; repeat split; discriminate|]). destruct H.
Qed.

Lemma ex_wf_read : wf_mesh ex_read.
Proof. apply reads_wf; [apply (reads_delaunay _ _ _ ex_reads)|exact ex_distinct]. Qed.

Lemma ex_wf : wf_mesh ex_mesh.
Proof. rewrite <- ex_run. apply wf_run, ex_wf_read. Qed.

Lemma ex_keys : node_keys ex_mesh = [1; 2; 3; 4; 5; 6]%nat.
Proof. reflexivity. Qed.
Lemma ex_edge_keys : edge_keys ex_mesh = [(1, 2); (2, 5); (1, 5); (2, 3); (3, 5); (3, 4); (4, 5); (1, 4)]%nat.
Proof. reflexivity. Qed.

Lemma ex_pos : pos ex_mesh 1 = V3 0 0 0 /\ pos ex_mesh 2 = V3 4 0 0 /\ pos ex_mesh 3 = V3 4 3 0 /\
  pos ex_mesh 4 = V3 0 3 0 /\ pos ex_mesh 5 = V3 1 1 0 /\ pos ex_mesh 6 = V3 9 9 0.
Proof. repeat split; reflexivity. Qed.

Lemma ex_trias : map (fun t => (tn1 t, tn2 t, tn3 t)) (trias_of ex_mesh) = [(1, 2, 5); (3, 2, 5); (5, 3, 4); (4, 5, 1)]%nat.
Proof. reflexivity. Qed.

Lemma ex_plate : plate ex_mesh.
Proof.
  destruct ex_pos as [P1 [P2 [P3 [P4 [P5 P6]]]]]. constructor.
  - exists 0. rewrite ex_keys. intros n H. cbn [In] in H.
    destruct H as [<-|[<-|[<-|[<-|[<-|[<-|[]]]]]]]; rewrite ?P1, ?P2, ?P3, ?P4, ?P5, ?P6; reflexivity.
  - intros t H. apply (in_map (fun t => (tn1 t, tn2 t, tn3 t))) in H. rewrite ex_trias in H. cbn [In] in H.
    unfold tdet, det2.
    repeat (destruct H as [H|H]; [injection H; intros <- <- <-; rewrite ?P1, ?P2, ?P3, ?P4, ?P5, ?P6; cbn [vx vy]; lra|]).
    destruct H.
  - intros k H. rewrite ex_edge_keys in H. cbn [In] in H.
    repeat (destruct H as [H|H]; [subst k; cbn; lia|]). destruct H.
  - intros k t1 t2 H E. rewrite ex_edge_keys in H. cbn [In] in H.
    assert (X : forall f : tria R -> nat, map f (tris_on ex_mesh k) = [f t1; f t2]) by (intros f; rewrite E; reflexivity).
    assert (Y := X (fun t => third t k)). clear X E.
    repeat (destruct H as [H|H]; [subst k; cbn in Y; first [discriminate Y |
       injection Y; intros Y1 Y2; cbn [fst snd]; unfold det2;
       first [rewrite <- Y1, <- Y2 | rewrite <- Y1 | rewrite <- Y2]; rewrite ?P1, ?P2, ?P3, ?P4, ?P5; cbn [vx vy]; lra]|]).
    destruct H.
Qed.

Lemma ex_props : forall pfn, props_complete ex_mesh pfn.
Proof.
  intros [|]; unfold props_complete.
  - rewrite ex_edge_keys. intros k H. cbn [In] in H.
    repeat (destruct H as [H|H]; [subst k; cbn; split; discriminate|]). destruct H.
  - assert (E : map (fun t => match tprop t with None => false | Some _ => true end) (trias_of ex_mesh) = [true; true; true; true])
      by reflexivity.
    intros t H Z. apply (in_map (fun t => match tprop t with None => false | Some _ => true end)) in H.
    rewrite E, Z in H. cbn [In] in H. intuition discriminate.
Qed.

Lemma ex_nodes : nodes ex_mesh <> [].
Proof. discriminate. Qed.

Lemma ex_valid : forall pfn, valid ex_mesh pfn.
Proof. intros pfn; constructor; [exact ex_wf|exact ex_plate|apply ex_props|exact ex_nodes]. Qed.
