(** A thin plate and supports that make it lock. *)
From Coq Require Import ZArith Reals List Bool Arith Lra Lia String.
From Verif Require Import Num Py Mesh Utils CalcK0 AddK0s Spec SpecK0 SpecK0s SpecStab SpecStat SpecThin FSum FDict FStab3 Ex ExK0 ExK0s ExStab.
Import ListNotations.
Local Open Scope R_scope.

Lemma ex_tdets : map (tdet ex_mesh) (trias_of ex_mesh) = [4; -9; 8; -3].
Proof.
  destruct ex_pos as [P1 [P2 [P3 [P4 [P5 P6]]]]].
  cbn [ex_mesh trias_of map elements snd]. unfold tdet; cbn [tn1 tn2 tn3]. rewrite P1, P2, P3, P4, P5. unfold det2; cbn [vx vy].
  assert (C4 : forall a b c d a' b' c' d' : R, a = a' -> b = b' -> c = c' -> d = d' -> [a; b; c; d] = [a'; b'; c'; d']) by (intros; subst; reflexivity).
  apply C4; ring.
Qed.
Lemma ex_thinner : thinner ex_mesh true (3 / 20) (1 / 20).
Proof.
  exists (1 / 10). split; [apply ex_all_pos; intros c _; cbn; lra|]. intros t Ht. apply (in_map (tdet ex_mesh)) in Ht. rewrite ex_tdets in Ht.
  unfold tria_size. rewrite sqrt_sqrt by (unfold tarea; assert (X := Rabs_pos (tdet ex_mesh t)); lra). unfold tarea. cbn [In] in Ht.
  destruct Ht as [<-|[<-|[<-|[<-|[]]]]]; [rewrite Rabs_pos_eq by lra| rewrite Rabs_left by lra|rewrite Rabs_pos_eq by lra|rewrite Rabs_left by lra]; lra.
Qed.

(** everything is held but node 5 *)
Definition ex_only5 (i : nat) : bool := negb (i / 5 =? 4)%nat.

Lemma ex_no_pure : no_pure_bending "cell-based-no-smoothing" ex_mesh ex_only5.
Proof.
  intros u A H. destruct ex_pos as [P1 [P2 [P3 [P4 [P5 P6]]]]].
  assert (Z : forall i, (i < 30)%nat -> (i < 22 \/ 24 < i)%nat -> u i = 0).
  { intros i Hi Hn. apply A; [exact Hi|]. do 30 (destruct i as [|i]; [try reflexivity; exfalso; lia|]). exfalso; lia. }
  assert (T : forall t, In t [ex_t 0; ex_t 2] -> strain_ns ex_mesh u t = (0, 0)) by (intros t Ht; apply (H t); rewrite ex_trias_list; cbn [In] in *; tauto).
  assert (T0 := T (ex_t 0) (or_introl eq_refl)). assert (T2 := T (ex_t 2) (or_intror (or_introl eq_refl))). clear T H A.
  assert (Q := ex_tdets). rewrite ex_trias_list in Q. cbn [map] in Q. injection Q as D0 _ D2 _.
  unfold strain_ns in T0, T2. rewrite D0 in T0. rewrite D2 in T2.
  destruct (Rlt_dec 4 0) as [X|_]; [lra|]. destruct (Rlt_dec 8 0) as [X|_]; [lra|].
  change (tn1 (ex_t 0)) with 1%nat in T0. change (tn2 (ex_t 0)) with 2%nat in T0. change (tn3 (ex_t 0)) with 5%nat in T0.
  change (tn1 (ex_t 2)) with 5%nat in T2. change (tn2 (ex_t 2)) with 3%nat in T2. change (tn3 (ex_t 2)) with 4%nat in T2.
  unfold at_node in T0, T2. rewrite P1, P2, P5 in T0. rewrite P3, P4, P5 in T2.
  assert (R1 : forall i, comp ex_mesh u i 1 = u i) by reflexivity. assert (R2 : forall i, comp ex_mesh u i 2 = u (5 + i)%nat) by reflexivity.
  assert (R3 : forall i, comp ex_mesh u i 3 = u (10 + i)%nat) by reflexivity. assert (R4 : forall i, comp ex_mesh u i 4 = u (15 + i)%nat) by reflexivity.
  assert (R5 : forall i, comp ex_mesh u i 5 = u (20 + i)%nat) by reflexivity.
  rewrite !R1, !R2, !R5 in T0. rewrite !R3, !R4, !R5 in T2. cbn [Nat.add] in T0, T2.
  rewrite (Z 2%nat), (Z 3%nat), (Z 4%nat), (Z 7%nat), (Z 8%nat), (Z 9%nat) in T0 by lia.
  rewrite (Z 12%nat), (Z 13%nat), (Z 14%nat), (Z 17%nat), (Z 18%nat), (Z 19%nat) in T2 by lia.
  unfold dsg, gap, pdet in T0, T2. cbn [ptx pty ptw ptfx ptfy vx vy] in T0, T2. injection T0 as X1 X2. injection T2 as X3 X4.
  assert (Y : u 22%nat = 0 /\ u 23%nat = 0 /\ u 24%nat = 0) by lra. destruct Y as [Y1 [Y2 Y3]].
  intros i Hi. destruct (Nat.eq_dec i 22) as [->|N1]; [exact Y1|]. destruct (Nat.eq_dec i 23) as [->|N2]; [exact Y2|]. destruct (Nat.eq_dec i 24) as [->|N3]; [exact Y3|].
  apply Z; [exact Hi|lia].
Qed.

Lemma duo_thinner : thinner duo false 1 (1 / 100).
Proof.
  exists (1 / 10). destruct duo_pos as [P1 [P2 [P3 P4]]]. split; [apply with_one; [exact two_wf|cbn; lra]|]. intros t Ht.
  assert (X : 1 <= tria_size duo false t).
  { rewrite duo_trias in Ht. cbn [In] in Ht. unfold tria_size. destruct Ht as [<-|[<-|[]]].
    - apply Rle_trans with (2 := Rmax_l _ _). change (dist duo (tn1 (duo_t 0)) (tn2 (duo_t 0))) with (dist duo 1 2). unfold dist. rewrite P1, P2. cbn [vx vy vz].
      rewrite <- sqrt_1 at 1. apply sqrt_le_1_alt. lra.
    - apply Rle_trans with (2 := Rmax_l _ _). change (dist duo (tn1 (duo_t 1)) (tn2 (duo_t 1))) with (dist duo 1 3). unfold dist. rewrite P1, P3. cbn [vx vy vz].
      rewrite <- sqrt_1 at 1. apply sqrt_le_1_alt. lra. }
  assert (Y : 1 * 1 <= tria_size duo false t * tria_size duo false t) by (apply Rmult_le_compat; lra). lra.
Qed.
