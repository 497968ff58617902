(** More concrete meshes and displacements for the hypotheses of the theorems on calc_k0. *)
From Coq Require Import ZArith Reals List Bool Arith Lra Lia Permutation.
From Verif Require Import Num Py Mesh Utils Spec SpecRead SpecK0 FSum FDict FWf CalcK0 Ops FOps FRead FRead2 LRead FConn FSmooth FRenum Ex.
Import ListNotations.
Local Open Scope R_scope.
Implicit Types (m : mesh R).

Lemma nth_index_in : forall l n, In n l -> nth (index_in n l) l 0%nat = n.
Proof.
  induction l as [|a l IH]; intros n H; [destruct H|]. cbn [index_in]. destruct (Nat.eqb_spec n a) as [->|N]; [reflexivity|].
  destruct H as [->|H]; [congruence|]. cbn [nth]. apply IH; exact H.
Qed.

Lemma field_comp : forall m q c n, (c < 5)%nat -> In n (node_keys m) -> comp m (field m q) c n = q c n.
Proof.
  intros m q c n Hc Hn. unfold comp, field.
  rewrite Nat.add_comm, Nat.mod_add, (Nat.mod_small c 5), Nat.div_add, (Nat.div_small c 5) by lia.
  cbn [Nat.add]. unfold rank. rewrite nth_index_in by exact Hn. reflexivity.
Qed.

(** the area of the plate is 12 *)
Lemma ex_area : total_area ex_mesh = 12.
Proof.
  assert (E : total_area ex_mesh = Sum (fun x => Rabs (det2 (pos ex_mesh (fst (fst x))) (pos ex_mesh (snd (fst x))) (pos ex_mesh (snd x))) / 2)
     (map (fun t => (tn1 t, tn2 t, tn3 t)) (trias_of ex_mesh))) by (rewrite Sum_map; reflexivity).
  rewrite E, ex_trias. destruct ex_pos as [P1 [P2 [P3 [P4 [P5 P6]]]]].
  unfold Sum; cbn [map rsum fold_right fst snd]. rewrite P1, P2, P3, P4, P5. unfold det2; cbn [vx vy].
  replace ((4 - 0) * (1 - 0) - (1 - 0) * (0 - 0)) with 4 by ring.
  replace ((4 - 4) * (1 - 3) - (1 - 4) * (0 - 3)) with (-9) by ring.
  replace ((4 - 1) * (3 - 1) - (0 - 1) * (3 - 1)) with 8 by ring.
  replace ((1 - 0) * (0 - 3) - (0 - 0) * (1 - 3)) with (-3) by ring.
  rewrite (Rabs_right 4), (Rabs_left (-9)), (Rabs_right 8), (Rabs_left (-3)) by lra. unfold rsum, fold_right. lra.
Qed.

Lemma ex_psd : forall c, 0 <= c -> psd (ex_prop c).
Proof.
  intros c Hc e. unfold dens, quad3, ex_prop; cbn [pA pB pD m00 m01 m02 m11 m12 m22].
  set (a := exx e); set (b := eyy e); set (d := exy e); set (x := kxx e); set (y := kyy e); set (z := kxy e).
  assert (H : 0 <= 10*a*a + 8*b*b + 4*d*d + 6*a*b + 2*a*d + 2*b*d + 2*(a*x + b*y + d*z)
             + 20*x*x + 16*y*y + 8*z*z + 12*x*y + 4*x*z + 4*y*z).
  { assert (0 <= (3*a + b)*(3*a+b)) by apply Rle_0_sqr. assert (0 <= (b+d)*(b+d)) by apply Rle_0_sqr.
    assert (0 <= (a+d)*(a+d)) by apply Rle_0_sqr. 
    assert (0 <= (4*x + y)*(4*x+y)) by apply Rle_0_sqr. assert (0 <= (a+x)*(a+x)) by apply Rle_0_sqr.
    assert (0 <= (b+y)*(b+y)) by apply Rle_0_sqr. assert (0 <= (d+z)*(d+z)) by apply Rle_0_sqr.
    assert (0 <= (x+y)*(x+y)) by apply Rle_0_sqr. assert (0 <= (x+z)*(x+z)) by apply Rle_0_sqr.
    assert (0 <= (y+z)*(y+z)) by apply Rle_0_sqr. assert (0 <= a*a) by apply Rle_0_sqr. assert (0 <= b*b) by apply Rle_0_sqr.
    assert (0 <= d*d) by apply Rle_0_sqr. assert (0 <= x*x) by apply Rle_0_sqr. assert (0 <= y*y) by apply Rle_0_sqr.
    assert (0 <= z*z) by apply Rle_0_sqr. nra. }
  match goal with |- 0 <= ?t => replace t with (c * (10*a*a + 8*b*b + 4*d*d + 6*a*b + 2*a*d + 2*b*d + 2*(a*x + b*y + d*z)
             + 20*x*x + 16*y*y + 8*z*z + 12*x*y + 4*x*z + 4*y*z)) by ring end.
  apply Rmult_le_pos; assumption.
Qed.

Lemma ex_all_psd : all_props ex_mesh psd.
Proof.
  split.
  - intros n p H. unfold nodeprop in H.
    destruct n as [|[|[|[|[|[|[|n]]]]]]]; cbn in H; try discriminate; injection H as <-; apply ex_psd; lra.
  - intros t p Ht. assert (E : map tprop (trias_of ex_mesh) = [Some (ex_prop 1); Some (ex_prop 2); Some (ex_prop 1); Some (ex_prop 3)])
      by reflexivity.
    intros Hp. apply (in_map tprop) in Ht. rewrite E, Hp in Ht. cbn [In] in Ht.
    repeat (destruct Ht as [Ht|Ht]; [injection Ht as <-; apply ex_psd; lra|]). destruct Ht.
Qed.

(** a rotation by 2 about (1, 1) with a bump in w *)
Definition ex_rot : nat -> R := field ex_mesh (fun c n => match c with
  | 0%nat => 2 - 2 * vy (pos ex_mesh n) | 1%nat => -2 + 2 * vx (pos ex_mesh n) | 2%nat => INR n | _ => 7 end).
Lemma ex_rigid : rigid ex_mesh ex_rot.
Proof.
  exists 2, (-2), 2, 7, 7. intros n Hn. unfold ex_rot. rewrite !field_comp by (try lia; assumption). repeat split.
Qed.

(** a displacement with the strain (1, 3, 2 + 5) and the curvature (0, 4, 6) *)
Definition ex_lin : nat -> R := field ex_mesh (fun c n => match c with
  | 0%nat => affine ex_mesh 1 1 2 n | 1%nat => affine ex_mesh 0 5 3 n | 2%nat => INR n
  | 3%nat => affine ex_mesh 0 0 6 n | _ => affine ex_mesh 2 0 4 n end).
Lemma ex_affine : affine_field ex_mesh ex_lin (fun c => match c with 0%nat => 1 | 1%nat => 0 | 3%nat => 0 | _ => 2 end)
  (fun c => match c with 0%nat => 1 | 1%nat => 5 | _ => 0 end)
  (fun c => match c with 0%nat => 2 | 1%nat => 3 | 3%nat => 6 | _ => 4 end).
Proof.
  intros c n Hc H2 Hn. unfold ex_lin. rewrite field_comp by assumption.
  destruct c as [|[|[|[|[|c]]]]]; try lia; reflexivity.
Qed.

(** one property for the whole plate *)
Definition ex_one : mesh R := with_props (fun _ => Some (ex_prop 2)) (fun _ => Some (ex_prop 2)) ex_mesh.
Lemma ex_with_valid : forall np tp pfn, (forall n, np n <> None) -> (forall e, tp e <> None) ->
  valid (with_props np tp ex_mesh) pfn.
Proof.
  intros np tp pfn HN HT. constructor.
  - apply wp_wf, ex_wf.
  - apply wp_plate; [apply ex_wf|apply ex_plate].
  - destruct pfn; unfold props_complete.
    + intros k Hk. rewrite wp_edges in Hk.
      destruct (FAsm.ready_nodes ex_mesh k (fst k) (snd k) ex_wf Hk) as [Ka [Kb _]]; [left; destruct k; reflexivity|].
      rewrite !(wp_prop ex_mesh np tp) by assumption. auto.
    + intros t. rewrite (wp_trias ex_mesh ex_wf np tp). intros Ht. apply in_map_iff in Ht. destruct Ht as [t0 [<- _]]. apply HT.
  - intros H. discriminate H.
Qed.
Lemma ex_one_valid : forall pfn, valid ex_one pfn.
Proof. intros pfn; apply ex_with_valid; discriminate. Qed.
Lemma ex_one_props : all_props ex_one (fun q => q = ex_prop 2).
Proof.
  split.
  - intros n p. unfold ex_one, nodeprop. rewrite (wp_dget ex_mesh).
    destruct (dget Nat.eqb n (nodes ex_mesh)); cbn; congruence.
  - intros t p. unfold ex_one. rewrite (wp_trias ex_mesh ex_wf). intros Ht. apply in_map_iff in Ht.
    destruct Ht as [t0 [<- _]]. cbn. congruence.
Qed.
Lemma ex_one_affine : affine_field ex_one ex_lin (fun c => match c with 0%nat => 1 | 1%nat => 0 | 3%nat => 0 | _ => 2 end)
  (fun c => match c with 0%nat => 1 | 1%nat => 5 | _ => 0 end)
  (fun c => match c with 0%nat => 2 | 1%nat => 3 | 3%nat => 6 | _ => 4 end).
Proof.
  intros c n Hc H2 Hn. unfold ex_one in *. rewrite (wp_keys ex_mesh) in Hn.
  assert (X := ex_affine c n Hc H2 Hn). unfold affine in *. rewrite (wp_pos ex_mesh). rewrite <- X.
  unfold comp, rank. rewrite (wp_keys ex_mesh). reflexivity.
Qed.

(** the same plate with other element order and other vertex order *)
Definition ex_simplices2 : list (list Z) := [[4; 2; 1]; [0; 3; 4]; [2; 3; 4]; [4; 0; 1]]%Z.
Definition ex_ops2 : list (op R) :=
  [OpNodeProp 1 (Some (ex_prop 1)); OpNodeProp 2 (Some (ex_prop 2)); OpNodeProp 3 (Some (ex_prop 1));
   OpNodeProp 4 (Some (ex_prop 3)); OpNodeProp 5 (Some (ex_prop 2));
   OpTriaProp 1 (Some (ex_prop 2)); OpTriaProp 2 (Some (ex_prop 3)); OpTriaProp 3 (Some (ex_prop 1));
   OpTriaProp 4 (Some (ex_prop 1))].
Definition ex_read2 : mesh R := Eval lazy -[IZR] in
  match read_delaunay ex_points ex_simplices2 with Ok m => m | Raise _ => {| nodes := []; elements := []; edges := [] |} end.
Lemma ex_reads2 : read_delaunay ex_points ex_simplices2 = Ok ex_read2.
Proof. lazy -[IZR]. reflexivity. Qed.
Definition ex_mesh2 : mesh R := Eval lazy -[IZR ex_prop] in run ex_ops2 ex_read2.
Lemma ex_run2 : run ex_ops2 ex_read2 = ex_mesh2.
Proof. lazy -[IZR ex_prop]. reflexivity. Qed.
Lemma ex_distinct2 : forall t, In t (trias_of ex_read2) -> distinct t.
Proof.
  intros t H.
  assert (E : map (fun t => (tn1 t, tn2 t, tn3 t)) (trias_of ex_read2) = [(5, 3, 2); (1, 4, 5); (3, 4, 5); (5, 1, 2)]%nat)
    by reflexivity.
  apply (in_map (fun t => (tn1 t, tn2 t, tn3 t))) in H. rewrite E in H. unfold distinct. cbn [In] in H.
  repeat (destruct H as [H|H]; [injection H; intros <- <- <-; repeat split; discriminate|]). destruct H.
Qed.
Lemma ex_wf2 : wf_mesh ex_mesh2.
Proof. rewrite <- ex_run2. apply wf_run. apply reads_wf; [apply (reads_delaunay _ _ _ ex_reads2)|exact ex_distinct2]. Qed.
Lemma ex_same_plate : same_plate_as ex_mesh ex_mesh2.
Proof.
  constructor.
  { reflexivity. }
  { intros n. destruct n as [|[|[|[|[|[|[|n]]]]]]]; reflexivity. }
  { intros n. destruct n as [|[|[|[|[|[|[|n]]]]]]]; reflexivity. }
  exists (match trias_of ex_mesh with [a; b; c; d] => [b; d; c; a] | l => l end). split.
  - cbn [ex_mesh trias_of map elements snd]. 
    match goal with |- Permutation [?a; ?b; ?c; ?d] _ =>
      apply (Permutation_trans (l' := [b; a; c; d])); [apply perm_swap|]; apply perm_skip;
      apply (Permutation_trans (l' := [a; d; c])); [apply perm_skip, perm_swap|];
      apply (Permutation_trans (l' := [d; a; c])); [apply perm_swap|]; apply perm_skip, perm_swap end.
  - cbn [ex_mesh ex_mesh2 trias_of map elements snd].
    repeat (apply Forall2_cons || apply Forall2_nil); split; cbn [tn1 tn2 tn3 tprop]; try reflexivity.
    + apply (Permutation_trans (l' := [3;5;2]%nat)); [apply perm_skip, perm_swap|apply perm_swap].
    + apply (Permutation_trans (l' := [4;1;5]%nat)); [apply perm_skip, perm_swap|apply perm_swap].
    + apply (Permutation_trans (l' := [3;5;4]%nat)); [apply perm_swap|apply perm_skip, perm_swap].
    + apply (Permutation_trans (l' := [1;5;2]%nat)); [apply perm_skip, perm_swap|apply perm_swap].
Qed.

(** three triangles on the edge (1, 2) *)
Definition ex_three_read : mesh R := Eval lazy -[IZR] in
  match read_delaunay [[0; 0]; [4; 0]; [4; 3]; [0; 3]; [1; 1]] [[0; 1; 2]; [1; 0; 3]; [0; 1; 4]]%Z with
  | Ok m => m | Raise _ => {| nodes := []; elements := []; edges := [] |} end.
Lemma ex_three_reads : read_delaunay [[0; 0]; [4; 0]; [4; 3]; [0; 3]; [1; 1]] [[0; 1; 2]; [1; 0; 3]; [0; 1; 4]]%Z = Ok ex_three_read.
Proof. lazy -[IZR]. reflexivity. Qed.
Definition ex_three : mesh R := with_props (fun _ => Some (ex_prop 1)) (fun _ => Some (ex_prop 1)) ex_three_read.
Lemma ex_three_wf : wf_mesh ex_three.
Proof.
  apply wp_wf. apply reads_wf; [apply (reads_delaunay _ _ _ ex_three_reads)|].
  intros t H.
  assert (E : map (fun t => (tn1 t, tn2 t, tn3 t)) (trias_of ex_three_read) = [(1, 2, 3); (2, 1, 4); (1, 2, 5)]%nat)
    by reflexivity.
  apply (in_map (fun t => (tn1 t, tn2 t, tn3 t))) in H. rewrite E in H. unfold distinct. cbn [In] in H.
  repeat (destruct H as [H|H]; [injection H; intros <- <- <-; repeat split; discriminate|]). destruct H.
Qed.
Lemma ex_three_props : forall pfn, props_complete ex_three pfn.
Proof.
  intros [|]; unfold props_complete.
  - assert (E : edge_keys ex_three = [(1, 2); (2, 3); (1, 3); (1, 4); (2, 4); (2, 5); (1, 5)]%nat) by reflexivity.
    rewrite E. intros k H. cbn [In] in H.
    repeat (destruct H as [H|H]; [subst k; cbn; split; discriminate|]). destruct H.
  - intros t Ht. unfold trias_of in Ht. apply in_map_iff in Ht. destruct Ht as [[e t'] [<- Ht]].
    unfold ex_three, with_props in Ht; cbn [elements] in Ht. apply in_map_iff in Ht. destruct Ht as [x [Hx _]].
    injection Hx as _ <-. discriminate.
Qed.

(** two elements with the same vertices *)
Definition ex_twins_read : mesh R := Eval lazy -[IZR] in
  match read_delaunay [[0; 0]; [4; 0]; [4; 3]] [[0; 1; 2]; [1; 0; 2]]%Z with
  | Ok m => m | Raise _ => {| nodes := []; elements := []; edges := [] |} end.
Lemma ex_twins_reads : read_delaunay [[0; 0]; [4; 0]; [4; 3]] [[0; 1; 2]; [1; 0; 2]]%Z = Ok ex_twins_read.
Proof. lazy -[IZR]. reflexivity. Qed.
Definition ex_twins : mesh R := with_props (fun _ => Some (ex_prop 1)) (fun _ => Some (ex_prop 1)) ex_twins_read.
Lemma ex_twins_wf : wf_mesh ex_twins.
Proof.
  apply wp_wf. apply reads_wf; [apply (reads_delaunay _ _ _ ex_twins_reads)|].
  intros t H.
  assert (E : map (fun t => (tn1 t, tn2 t, tn3 t)) (trias_of ex_twins_read) = [(1, 2, 3); (2, 1, 3)]%nat)
    by reflexivity.
  apply (in_map (fun t => (tn1 t, tn2 t, tn3 t))) in H. rewrite E in H. unfold distinct. cbn [In] in H.
  repeat (destruct H as [H|H]; [injection H; intros <- <- <-; repeat split; discriminate|]). destruct H.
Qed.
Lemma ex_twins_props : forall pfn, props_complete ex_twins pfn.
Proof.
  intros [|]; unfold props_complete.
  - assert (E : edge_keys ex_twins = [(1, 2); (2, 3); (1, 3)]%nat) by reflexivity.
    rewrite E. intros k H. cbn [In] in H.
    repeat (destruct H as [H|H]; [subst k; cbn; split; discriminate|]). destruct H.
  - intros t Ht. unfold trias_of in Ht. apply in_map_iff in Ht. destruct Ht as [[e t'] [<- Ht]].
    unfold ex_twins, with_props in Ht; cbn [elements] in Ht. apply in_map_iff in Ht. destruct Ht as [x [Hx _]].
    injection Hx as _ <-. discriminate.
Qed.
Lemma ex_twins_manifold : manifold ex_twins.
Proof.
  intros k H. assert (E : edge_keys ex_twins = [(1, 2); (2, 3); (1, 3)]%nat) by reflexivity. rewrite E in H. cbn [In] in H.
  repeat (destruct H as [H|H]; [subst k; vm_compute; repeat constructor|]). destruct H.
Qed.
Lemma ex_twins_twins : has_twins ex_twins.
Proof.
  exists (nth 0 (trias_of ex_twins) {| eid := 0; tn1 := 0; tn2 := 0; tn3 := 0; tprop := None; tedges := [] |}),
    (nth 1 (trias_of ex_twins) {| eid := 0; tn1 := 0; tn2 := 0; tn3 := 0; tprop := None; tedges := [] |}).
  split; [left; reflexivity|]. split; [right; left; reflexivity|]. split; [cbn; discriminate|].
  intros n. unfold vertex; cbn. tauto.
Qed.

Lemma ex_missing : forall pfn, ~ props_complete ex_read pfn.
Proof.
  intros [|] H; unfold props_complete in H.
  - destruct (H (1, 2)%nat) as [H1 _]; [left; reflexivity|]. apply H1. reflexivity.
  - apply (H (nth 0 (trias_of ex_read) {| eid := 0; tn1 := 0; tn2 := 0; tn3 := 0; tprop := None; tedges := [] |})).
    + left; reflexivity.
    + reflexivity.
Qed.

Lemma ex_lin_opt : forall n : nat, lin_opt 2 3 (Some (ex_prop (2 * INR n + 3 * 5))) (Some (ex_prop (INR n))) (Some (ex_prop 5)).
Proof. intros n. cbn [lin_opt]. unfold lin_prop, lin3, ex_prop; cbn. repeat split; f_equal; ring. Qed.
