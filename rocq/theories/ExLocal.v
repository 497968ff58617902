(** The mesh of Ex.v with one laminate, and with another one in the triangle 3. *)
From Coq Require Import ZArith Reals List Bool Arith Lra Lia.
From Verif Require Import Num Py Mesh Utils Spec SpecK0 SpecKG SpecK0s SpecLocal FSmooth FRenum FK0s Ex ExK0 ExK0s.
Import ListNotations.
Local Open Scope R_scope.

Definition ex_patch (c : R) : mesh R := with_props (fun _ => Some (ex_prop 1)) (fun e => Some (ex_prop (if Nat.eqb e 3 then c else 1))) ex_mesh.

Lemma ex_patch_valid : forall c pfn, valid (ex_patch c) pfn.
Proof. intros c pfn. apply ex_with_valid; discriminate. Qed.
Lemma ex_patch_thick : forall c, thick (ex_patch c).
Proof.
  intros c. split.
  - intros n p H. unfold nodeprop in H. destruct n as [|[|[|[|[|[|[|n]]]]]]]; cbn in H; try discriminate; injection H as <-; cbn; lra.
  - intros t p Ht H. unfold ex_patch in Ht. rewrite (wp_trias ex_mesh ex_wf) in Ht. apply in_map_iff in Ht. destruct Ht as [t0 [<- _]]. cbn in H. injection H as <-. cbn. lra.
Qed.
Lemma ex_patch_call : forall c pfn alpha, 0 <= alpha -> exists m', call_ok (ex_patch c) m' pfn alpha (zeros 30).
Proof.
  intros c pfn alpha A. destruct (prepare (ex_patch c) pfn (ex_patch_valid c pfn)) as [m' P]. exists m'.
  constructor; [exact P|apply (va_props _ _ (ex_patch_valid c pfn))|apply ex_patch_thick|exact A|reflexivity].
Qed.

Lemma ex_patch_on : forall c k n, on_domain (ex_patch c) k n <-> on_domain ex_mesh k n.
Proof.
  intros c k n. unfold on_domain, ex_patch. rewrite (wp_tris_on ex_mesh ex_wf). split.
  - intros [t [Ht V]]. apply in_map_iff in Ht. destruct Ht as [t0 [<- H]]. exists t0. split; [exact H|exact V].
  - intros [t [Ht V]]. eexists. split; [apply in_map; exact Ht|exact V].
Qed.
Lemma ex_patch_node : forall c c' n, same_node (ex_patch c) (ex_patch c') n.
Proof. intros c c' n. split; reflexivity. Qed.

(** the nodes 1 and 2 are on the edges 12, 25 and 15 *)
Lemma ex_patch_keys : forall c k, couples (ex_patch c) k 1 2 -> k = (1, 2)%nat \/ k = (2, 5)%nat \/ k = (1, 5)%nat.
Proof.
  intros c k [Hk [O1 O2]]. unfold ex_patch in Hk. rewrite wp_edges, ex_edge_keys in Hk. rewrite ex_patch_on in O1, O2.
  destruct Hk as [<-|[<-|[<-|[<-|[<-|[<-|[<-|[<-|[]]]]]]]]]; auto; exfalso;
  destruct O1 as [t [Ht V]]; destruct O2 as [t' [Ht' V']]; cbn in Ht, Ht'; repeat destruct Ht as [<-|Ht]; try contradiction; repeat destruct Ht' as [<-|Ht']; try contradiction;
  unfold vertex in V, V'; cbn in V, V'; lia.
Qed.

Lemma ex_patch_coupling : forall c c', same_coupling (ex_patch c) (ex_patch c') 1 2.
Proof.
  intros c c'. split.
  - intros k. unfold couples. rewrite !ex_patch_on. reflexivity.
  - intros k C. split; [|intros; apply ex_patch_node].
    destruct (ex_patch_keys c k C) as [-> |[-> | ->]]; cbn; repeat constructor.
Qed.
Lemma ex_patch_trias : forall c c', same_trias (ex_patch c) (ex_patch c') 1 2.
Proof. intros c c'. split; [cbn; repeat constructor|intros; apply ex_patch_node]. Qed.
