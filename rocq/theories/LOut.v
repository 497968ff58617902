(** Double precision, calls in the wrong order, and stale smoothing domains. *)
(* P: Num Float Py Mesh Utils CalcK0 CalcKG AddK0s Ops Spec SpecRead SpecK0 SpecK0s ExFloat *)
From Coq Require Import ZArith String List Bool Arith Lia.
From Verif Require Import Num Float Py Mesh Utils CalcK0 CalcKG AddK0s Ops Spec SpecRead SpecK0 SpecK0s ExFloat.
From Verif Require Import FDict FWf FOps FConn FRead FRead2 FOut FOut2 FOut3 LRead.
Import ListNotations.

(** ** Doubles *)

Definition differ (x y : double) : bool :=
  match SpecFloat.SFcompare x y with Some Eq => false | None => false | _ => true end.
Lemma differ_neq : forall x y, differ x y = true -> x <> y.
Proof. unfold differ. intros x y H E. subst y. destruct x as [[]|[]| |[] m e]; cbn in H; try discriminate;
  rewrite ?Z.compare_refl, ?Pos.compare_cont_refl in H; discriminate. Qed.

Definition at2 (r : res (matrix double)) (i j : nat) : bool :=
  match r with Ok K => Nat.eqb (mdim K) 20 && differ (mentry K i j) (mentry K j i) | Raise _ => false end.
Lemma at2_spec : forall r i j, at2 r i j = true -> exists K, r = Ok K /\ mdim K = 20 /\ mentry K i j <> mentry K j i.
Proof.
  intros [K|e] i j H; [|discriminate]. cbn [at2] in H. apply andb_true_iff in H. destruct H as [H1 H2].
  exists K. split; [reflexivity|]. split; [apply Nat.eqb_eq; exact H1|apply differ_neq; exact H2].
Qed.

Lemma ok_pair : forall A B (c : A * res B) a (f : B -> bool),
  (let (x, r) := c in (x, match r with Ok K => f K | _ => false end)) = (a, true) -> exists K, c = (a, Ok K) /\ f K = true.
Proof. intros A B [a [b|]] a' f E; [injection E as <- E; eauto|discriminate]. Qed.

Lemma fread_reads : reads fread.
Proof. apply (reads_delaunay fpoints fsimplices). vm_compute. reflexivity. Qed.
Lemma fread_wf : wf_mesh fread.
Proof.
  apply reads_wf; [exact fread_reads|]. intros t [<-|[<-|[]]]; unfold distinct; cbn; repeat split; discriminate.
Qed.

Lemma fwarped_run : fwarped = run (fops ++ fmoves) fread.
Proof. vm_compute. reflexivity. Qed.
Lemma fmesh_run : fmesh = run fops fread.
Proof. vm_compute. reflexivity. Qed.
Lemma fmesh_wf : wf_mesh fmesh.
Proof. rewrite fmesh_run. apply wf_run, fread_wf. Qed.

(** the result of calc_k0 as far as it is needed *)
Lemma fk0_ok : exists K, calc_k0 fmesh false = (fk0, Ok K) /\ mdim K = 20 /\ mentry K 0 6 <> mentry K 6 0.
Proof.
  destruct (ok_pair _ _ (calc_k0 fmesh false) fk0 (fun K => at2 (Ok K) 0 6)) as [K [E H]].
  - vm_compute; reflexivity.
  - exists K. split; [exact E|]. apply at2_spec in H. destruct H as [K' [E' H]]. injection E' as <-. exact H.
Qed.
Lemma fwk0_ok : exists K, calc_k0 fwarped false = (fwk0, Ok K) /\ mdim K = 20.
Proof.
  destruct (ok_pair _ _ (calc_k0 fwarped false) fwk0 (fun K => Nat.eqb (mdim K) 20)) as [K [E H]]; [vm_compute; reflexivity|].
  exists K. split; [exact E|]. apply Nat.eqb_eq, H.
Qed.
Lemma fmk0_ok : exists K, calc_k0 (run fmove fk0) false = (fmk0, Ok K) /\ mdim K = 20.
Proof.
  destruct (ok_pair _ _ (calc_k0 (run fmove fk0) false) fmk0 (fun K => Nat.eqb (mdim K) 20)) as [K [E H]]; [vm_compute; reflexivity|].
  exists K. split; [exact E|]. apply Nat.eqb_eq, H.
Qed.

(** In double precision the matrix of calc_k0 is not exactly symmetric. *)
Lemma c72_k0_refuted : exists (m m0 : mesh double) ops m' pfn K i j, reads m0 /\ m = run ops m0 /\
  calc_k0 m pfn = (m', Ok K) /\ i < mdim K /\ j < mdim K /\ mentry K i j <> mentry K j i.
Proof.
  destruct fk0_ok as [K [E [D N]]]. exists fmesh, fread, fops, fk0, false, K, 0, 6. rewrite D.
  split; [exact fread_reads|split; [exact fmesh_run|split; [exact E|split; [lia|split; [lia|exact N]]]]].
Qed.

(** What add_k0s adds to a zero matrix is not exactly symmetric either, for any method. *)
Lemma c72_add_refuted : forall method, In method methods ->
  exists (m m0 : mesh double) ops m' pfn K k i j, reads m0 /\ m = run ops m0 /\ calc_k0 m pfn = (m', Ok K) /\
  add_k0s lits_src (zeros (mdim K)) m' pfn method (nofZ 1) false = (k, Ok tt) /\
  i < mdim k /\ j < mdim k /\ mentry k i j <> mentry k j i.
Proof.
  intros method H. destruct fwk0_ok as [K [E D]].
  assert (Q : exists i j, i < 20 /\ j < 20 /\
    (let r := add_k0s lits_src (zeros 20) fwk0 false method (nofZ 1) false in at2 (bind (snd r) (fun _ => Ok (fst r))) i j) = true).
  { destruct H as [<-|[<-|[<-|[]]]]; [exists 2, 14|exists 2, 9|exists 2, 3]; (split; [lia|split; [lia|]]); vm_compute; reflexivity. }
  destruct Q as [i [j [Hi [Hj Q]]]]. cbv zeta in Q. apply at2_spec in Q. destruct Q as [k [Q1 [Q2 Q3]]].
  exists fwarped, fread, (fops ++ fmoves), fwk0, false, K, k, i, j. rewrite D, Q2.
  split; [exact fread_reads|]. split; [exact fwarped_run|]. split; [exact E|].
  split; [|auto]. destruct (add_k0s lits_src (zeros 20) fwk0 false method (nofZ 1) false) as [k' [[]|e]]; [|discriminate Q1].
  cbn [bind fst snd] in Q1. injection Q1 as ->. reflexivity.
Qed.

(** nor is the matrix of calc_kG *)
Lemma c72_kG_refuted : exists (m m0 : mesh double) ops m' pfn K d KG i j, reads m0 /\ m = run ops m0 /\
  calc_k0 m pfn = (m', Ok K) /\ List.length d = mdim K /\ calc_kG d m' pfn = Ok KG /\
  i < mdim KG /\ j < mdim KG /\ mentry KG i j <> mentry KG j i.
Proof.
  destruct fwk0_ok as [K [E D]].
  assert (Q : at2 (calc_kG fdisp fwk0 false) 2 7 = true) by (vm_compute; reflexivity).
  apply at2_spec in Q. destruct Q as [k [Q1 [Q2 Q3]]].
  exists fwarped, fread, (fops ++ fmoves), fwk0, false, K, fdisp, k, 2, 7. rewrite D, Q2.
  split; [exact fread_reads|]. split; [exact fwarped_run|]. split; [exact E|].
  split; [reflexivity|]. split; [exact Q1|]. split; [lia|split; [lia|exact Q3]].
Qed.

(** ** Calls after calc_k0 *)

(** Once calc_k0 has returned, and after any assignments, add_k0s and calc_kG succeed in any
    arithmetic, provided the properties asked for are there and the arrays are large enough. *)
Lemma c73_progress : forall (T : Type) (NT : Num T) (m m' : mesh T) pfn K ops pfn', wf_mesh m ->
  calc_k0 m pfn = (m', Ok K) -> forallb is_assignment ops = true -> props_complete (run ops m') pfn' ->
  (forall L method k alpha mfa, In method methods -> mdim K <= mdim k ->
     exists k', add_k0s L k (run ops m') pfn' method alpha mfa = (k', Ok tt) /\ mdim k' = mdim k) /\
  (forall d, mdim K <= List.length d -> exists KG, calc_kG d (run ops m') pfn' = Ok KG /\ mdim KG = List.length d / 5 * 5).
Proof.
  intros T NT m m' pfn K ops pfn' W E A P.
  destruct (progress m m' pfn K ops W E A) as [W1 [I1 [L1 S1]]].
  assert (D : mdim K = List.length (nodes (run ops m')) * 5).
  { destruct (calc_k0_any m pfn W) as [[_ X]|[[_ [_ [X _]]]|[[_ [_ [_ X]]]|[_ [_ [_ [_ [m1 [K1 [X [D _]]]]]]]]]]];
      rewrite E in X; try discriminate X. injection X as <- <-. rewrite D, L1. reflexivity. }
  rewrite D. split.
  - intros L method k alpha mfa H Q. apply add_k0s_prog; assumption.
  - intros d Q. apply calc_kG_prog; assumption.
Qed.

(** doubles; the move is an assignment after calc_k0 *)
Lemma c73_progress_ex : wf_mesh fmesh /\ forallb is_assignment fmove = true /\
  exists m' K, calc_k0 fmesh false = (m', Ok K) /\ props_complete (run fmove m') true /\ props_complete (run fmove m') false.
Proof.
  split; [exact fmesh_wf|split; [reflexivity|]]. destruct fk0_ok as [K [E _]]. exists fk0, K. split; [exact E|].
  set (n := run fmove fk0). split.
  - assert (X : forallb (fun k => match nodeprop n (fst k), nodeprop n (snd k) with Some _, Some _ => true | _, _ => false end) (edge_keys n) = true)
      by (vm_compute; reflexivity).
    rewrite forallb_forall in X. intros k Hk. specialize (X k Hk).
    destruct (nodeprop n (fst k)); [|discriminate]. destruct (nodeprop n (snd k)); [|discriminate]. split; discriminate.
  - assert (X : forallb (fun t => match tprop t with Some _ => true | _ => false end) (trias_of n) = true)
      by (vm_compute; reflexivity).
    rewrite forallb_forall in X. intros t Ht. specialize (X t Ht). destruct (tprop t); discriminate.
Qed.

(** ** Calls before calc_k0 *)

(** On a mesh that has elements and has not been through calc_k0, add_k0s and calc_kG raise an
    exception, whatever has been assigned, and add_k0s leaves the matrix as it is. *)
Lemma c74_order : forall (T : Type) (NT : Num T) (m : mesh T) ops, reads m -> (forall t, In t (trias_of m) -> distinct t) ->
  elements m <> [] -> (forall b, ~ In (OpCalcK0 b) ops) ->
  (forall L method k pfn alpha mfa, exists e, add_k0s L k (run ops m) pfn method alpha mfa = (k, Raise e)) /\
  (forall d pfn, exists e, calc_kG d (run ops m) pfn = Raise e).
Proof.
  intros T NT m ops H D NE O.
  assert (W : wf_mesh (run ops m)) by (apply wf_run, reads_wf; assumption).
  assert (U : untouched (run ops m)) by (apply forget_untouched, run_forget; [exact O|apply reads_forget; exact H]).
  assert (E : elements (run ops m) <> []).
  { assert (Q := conn_el_keys _ _ (conn_run ops m)). intros X. rewrite X in Q. destruct (elements m); [congruence|discriminate]. }
  split; [intros L method k pfn alpha mfa; apply add_never|intros d pfn; apply kG_never]; assumption.
Qed.

(** all properties assigned and the nodes moved *)
Lemma c74_order_ex : reads fread /\ (forall t, In t (trias_of fread) -> distinct t) /\ elements fread <> [] /\
  (forall b, ~ In (OpCalcK0 b) (fops ++ fmoves)) /\
  add_k0s lits_src (zeros 20) (run (fops ++ fmoves) fread) true "cell-based"%string (nofZ 1) false = (zeros 20, Raise TypeError) /\
  add_k0s lits_src (zeros 20) (run (fops ++ fmoves) fread) true "edge-based"%string (nofZ 1) false = (zeros 20, Raise AttributeError) /\
  calc_kG fdisp (run (fops ++ fmoves) fread) true = Raise ValueError.
Proof.
  split; [exact fread_reads|]. split; [|split; [discriminate|split; [|split; [|split]]]].
  - intros t [<-|[<-|[]]]; unfold distinct; cbn; repeat split; discriminate.
  - intros b H. repeat destruct H as [H|H]; try discriminate H; destruct H.
  - rewrite <- fwarped_run. vm_compute. reflexivity.
  - rewrite <- fwarped_run. vm_compute. reflexivity.
  - rewrite <- fwarped_run. vm_compute. reflexivity.
Qed.

(** ** Stale smoothing domains *)

(** After calc_k0 and any assignments, moved nodes included, the cell-based methods add what
    they would add after another calc_k0. *)
Lemma c75_cell : forall (T : Type) (NT : Num T) (m m' m2 : mesh T) pfn K ops pfn2 K2, calc_k0 m pfn = (m', Ok K) ->
  forallb is_assignment ops = true -> calc_k0 (run ops m') pfn2 = (m2, Ok K2) ->
  forall L method k b alpha mfa, In method cell_methods ->
  add_k0s L k (run ops m') b method alpha mfa = add_k0s L k m2 b method alpha mfa.
Proof. intros T NT m m' m2 pfn K ops pfn2 K2 E A E2 L method k b alpha mfa H. apply (cell_stale L method m m' m2 pfn pfn2 K K2 ops); assumption. Qed.

Lemma c75_cell_ex : exists m' K m2 K2, calc_k0 fmesh false = (m', Ok K) /\
  forallb is_assignment fmove = true /\ calc_k0 (run fmove m') false = (m2, Ok K2).
Proof.
  destruct fk0_ok as [K [E _]]. destruct fmk0_ok as [K2 [E2 _]]. exists fk0, K, fmk0, K2. auto.
Qed.

(** The method "edge-based" and calc_kG use the domains of the last calc_k0: after a node has
    been moved they silently return something else than after a new calc_k0. *)
Lemma c75_edge_refuted : exists (m m' m2 : mesh double) pfn K ops K2 k k2 i j, wf_mesh m /\ calc_k0 m pfn = (m', Ok K) /\
  forallb is_assignment ops = true /\ calc_k0 (run ops m') pfn = (m2, Ok K2) /\
  add_k0s lits_src (zeros (mdim K)) (run ops m') pfn "edge-based"%string (nofZ 1) false = (k, Ok tt) /\
  add_k0s lits_src (zeros (mdim K)) m2 pfn "edge-based"%string (nofZ 1) false = (k2, Ok tt) /\ mentry k i j <> mentry k2 i j.
Proof.
  destruct fk0_ok as [K [E [D _]]]. destruct fmk0_ok as [K2 [E2 _]].
  set (r := fun m => add_k0s lits_src (zeros 20) m false "edge-based"%string (nofZ 1) false).
  assert (Q : (let (k, x) := r (run fmove fk0) in let (k2, x2) := r fmk0 in
    match x, x2 with Ok _, Ok _ => differ (mentry k 2 2) (mentry k2 2 2) | _, _ => false end) = true) by (vm_compute; reflexivity).
  destruct (r (run fmove fk0)) as [k [[]|]] eqn:E3; [|destruct (r fmk0); discriminate].
  destruct (r fmk0) as [k2 [[]|]] eqn:E4; [|discriminate].
  exists fmesh, fk0, fmk0, false, K, fmove, K2, k, k2, 2, 2.
  rewrite D. split; [exact fmesh_wf|]. split; [exact E|]. split; [reflexivity|]. split; [exact E2|].
  split; [exact E3|]. split; [exact E4|]. apply differ_neq. exact Q.
Qed.

Lemma c75_kG_refuted : exists (m m' m2 : mesh double) pfn K ops K2 d k k2 i j, wf_mesh m /\ calc_k0 m pfn = (m', Ok K) /\
  forallb is_assignment ops = true /\ calc_k0 (run ops m') pfn = (m2, Ok K2) /\ List.length d = mdim K /\
  calc_kG d (run ops m') pfn = Ok k /\ calc_kG d m2 pfn = Ok k2 /\ mentry k i j <> mentry k2 i j.
Proof.
  destruct fk0_ok as [K [E [D _]]]. destruct fmk0_ok as [K2 [E2 _]].
  set (r := fun m => calc_kG fdisp m false).
  assert (Q : match r (run fmove fk0), r fmk0 with Ok k, Ok k2 => differ (mentry k 2 2) (mentry k2 2 2) | _, _ => false end = true)
    by (vm_compute; reflexivity).
  destruct (r (run fmove fk0)) as [k|] eqn:E3; [|discriminate]. destruct (r fmk0) as [k2|] eqn:E4; [|discriminate].
  exists fmesh, fk0, fmk0, false, K, fmove, K2, fdisp, k, k2, 2, 2.
  rewrite D. split; [exact fmesh_wf|]. split; [exact E|]. split; [reflexivity|]. split; [exact E2|].
  split; [reflexivity|]. split; [exact E3|]. split; [exact E4|]. apply differ_neq. exact Q.
Qed.
