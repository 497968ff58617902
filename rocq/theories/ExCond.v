(** The grid: every node is used, by at most 8 triangles. *)
From Coq Require Import ZArith Reals List Bool Arith Lra Lia.
From Verif Require Import Num Py Mesh Utils Spec SpecCond FWf FRead2 FRenum Ex ExK0s ExGrid ExGrid2.
Import ListNotations.

Section G.
  Variable n : nat.
  Hypothesis n_pos : 0 < n.

  Lemma grid_used : all_used (grid_mesh n).
  Proof. intros a Ha. apply (node_in n n_pos a Ha). Qed.

  Lemma filter_pull : forall A B (g : A -> B) f l, List.length (filter f (map g l)) = List.length (filter (fun x => f (g x)) l).
  Proof. intros A B g f l. induction l as [|x l IH]; [reflexivity|]. cbn [map filter]. destruct (f (g x)); cbn [List.length]; rewrite IH; reflexivity. Qed.
  Lemma list_nth : forall A (d : A) l, l = map (fun i => nth i l d) (seq 0 (List.length l)).
  Proof.
    intros A d l. apply nth_ext with (d := d) (d' := d); [rewrite map_length, seq_length; reflexivity|].
    intros i Hi. rewrite (nth_indep (map _ _) d (nth 0 l d)) by (rewrite map_length, seq_length; exact Hi). rewrite (map_nth (fun i => nth i l d)), seq_nth by exact Hi. reflexivity.
  Qed.

  Lemma grid_valence : valence_le 8 (grid_mesh n).
  Proof.
    intros a Ha. unfold grid_mesh, all_same. rewrite (wp_trias _ (grid_wf n n_pos)). rewrite filter_pull.
    change (fun x => has_vertex (wp_tria (fun _ => Some (ex_prop 1)) x) a) with (fun x : tria R => has_vertex x a).
    unfold trias_of. rewrite filter_pull. destruct (grid_tria n n_pos 0 ltac:(nia)) as [t0 _].
    rewrite (list_nth _ (1, t0) (elements (grid_read n))), filter_pull, (elements_len n n_pos).
    set (x := (a - 1) / S n). set (y := (a - 1) mod S n).
    assert (L : List.length [2 * (x * n + y); 2 * (x * n + y) + 1; 2 * ((x - 1) * n + y); 2 * ((x - 1) * n + y) + 1;
      2 * (x * n + (y - 1)); 2 * (x * n + (y - 1)) + 1; 2 * ((x - 1) * n + (y - 1)); 2 * ((x - 1) * n + (y - 1)) + 1] = 8) by reflexivity.
    rewrite <- L. apply NoDup_incl_length; [apply NoDup_filter, seq_NoDup|]. intros c H. apply filter_In in H. destruct H as [Hc HV]. apply in_seq in Hc.
    destruct (grid_tria n n_pos c ltac:(lia)) as [t [E C]]. rewrite (nth_error_nth _ _ _ E) in HV. cbn [snd] in HV.
    assert (DM := Nat.div_mod (c / 2) n ltac:(lia)). assert (D2 := Nat.div_mod c 2 ltac:(lia)). assert (U2 := Nat.mod_upper_bound c 2 ltac:(lia)).
    set (i := c / 2 / n) in *. set (j := (c / 2) mod n) in *. destruct C as [Hi [Hj [T1 [T2 T3]]]].
    assert (XY : (x = i \/ x = S i) /\ (y = j \/ y = S j)).
    { unfold has_vertex in HV. rewrite !orb_true_iff, !Nat.eqb_eq in HV.
      assert (ID : forall i' j', a = S (grid_id n i' j') -> j' <= n -> x = i' /\ y = j').
      { intros i' j' -> Hj'. unfold x, y. replace (S (grid_id n i' j') - 1) with (grid_id n i' j') by lia. rewrite id_div, id_mod by assumption. auto. }
      destruct HV as [[V|V]|V]; [rewrite T1 in V|rewrite T2 in V|rewrite T3 in V]; try destruct (negb (Nat.even c)); apply ID in V; lia. }
    assert (CC : c = 2 * (i * n + j) \/ c = 2 * (i * n + j) + 1) by (rewrite (Nat.mul_comm i n), <- DM; lia).
    clear - XY CC. clearbody x y i j. destruct XY as [[EX|EX] [EY|EY]]; rewrite EX, EY, ?Nat.sub_succ, ?Nat.sub_0_r; destruct CC as [EC|EC]; rewrite EC; cbn [In]; auto 12.
  Qed.
End G.
