(** The unit square cut into 2 n^2 triangles, for every n. *)
From Coq Require Import ZArith Reals List Bool Arith Lra Lia.
From Verif Require Import Num Py Mesh Utils Spec SpecRead SpecK0 FDict FWf CalcK0 Ops FOps FRead FRead2 LRead FConn FSum FOut.
From Verif Require Import SpecKG SpecConv FSmooth FRenum FStab LKG Ex ExK0 ExK0s.
Import ListNotations.

(** vertex (i, j) is point number i (n+1) + j, with the coordinates (i/n, j/n) *)
Definition grid_points (n : nat) : list (list R) :=
  map (fun k => [INR (k / S n) / INR n; INR (k mod S n) / INR n]%R) (seq 0 (S n * S n)).

Definition grid_id (n i j : nat) : nat := i * S n + j.
(** the square (i, j) has the triangles number 2 (i n + j) and 2 (i n + j) + 1 *)
Definition grid_simplex (n c : nat) : list Z :=
  let i := c / 2 / n in let j := (c / 2) mod n in
  map Z.of_nat (if Nat.even c then [grid_id n i j; grid_id n (S i) j; grid_id n (S i) (S j)]
                else [grid_id n i j; grid_id n (S i) (S j); grid_id n i (S j)]).
Definition grid_simplices (n : nat) : list (list Z) := map (grid_simplex n) (seq 0 (2 * (n * n))).

Definition grid_read (n : nat) : mesh R :=
  match read_delaunay (grid_points n) (grid_simplices n) with Ok m => m | Raise _ => {| nodes := []; elements := []; edges := [] |} end.

(** the same laminate everywhere *)
Definition grid_mesh (n : nat) : mesh R := all_same (ex_prop 1) (grid_read n).
Definition unit_square (p : R * R) : Prop := (0 <= fst p <= 1 /\ 0 <= snd p <= 1)%R.

Lemma Sum_same : forall A (l : list A) c, Sum (fun _ => c) l = (INR (length l) * c)%R.
Proof. intros A l c; induction l as [|x l IH]; [rewrite Sum_nil; cbn; lra|]. rewrite Sum_cons, IH. cbn [length]. rewrite S_INR. lra. Qed.

Section Grid.
  Variable n : nat.
  Hypothesis n_pos : 0 < n.

  Lemma id_lt : forall i j, i <= n -> j <= n -> grid_id n i j < S n * S n.
  Proof. intros i j Hi Hj. unfold grid_id. nia. Qed.
  Lemma id_div : forall i j, j <= n -> grid_id n i j / S n = i.
  Proof. intros i j Hj. unfold grid_id. rewrite Nat.div_add_l by lia. rewrite Nat.div_small by lia. lia. Qed.
  Lemma id_mod : forall i j, j <= n -> grid_id n i j mod S n = j.
  Proof. intros i j Hj. unfold grid_id. rewrite Nat.add_comm, Nat.mod_add by lia. apply Nat.mod_small; lia. Qed.

  Lemma points_len : length (grid_points n) = S n * S n.
  Proof. unfold grid_points. rewrite map_length, seq_length. reflexivity. Qed.

  (** the square of the triangle number c *)
  Lemma cell_lt : forall c, c < 2 * (n * n) -> c / 2 / n < n /\ (c / 2) mod n < n.
  Proof.
    intros c H. split; [|apply Nat.mod_upper_bound; lia].
    apply Nat.div_lt_upper_bound; [lia|]. apply Nat.div_lt_upper_bound; [lia|]. nia.
  Qed.

  Lemma grid_ok : exists m, read_delaunay (grid_points n) (grid_simplices n) = Ok m.
  Proof.
    apply (proj1 (c01_read_delaunay R _ (grid_points n) (grid_simplices n))). split; apply Forall_forall.
    - intros p H. unfold grid_points in H. apply in_map_iff in H. destruct H as [k [<- _]]. left; reflexivity.
    - intros s H. unfold grid_simplices in H. apply in_map_iff in H. destruct H as [c [<- H]]. apply in_seq in H.
      destruct (cell_lt c) as [Hi Hj]; [lia|]. rewrite points_len. unfold grid_simplex, simplex_ok, idx_ok.
      set (i := c / 2 / n) in *. set (j := (c / 2) mod n) in *.
      assert (L := id_lt i j). assert (L1 := id_lt (S i) j). assert (L2 := id_lt i (S j)). assert (L3 := id_lt (S i) (S j)).
      destruct (Nat.even c); (split; [reflexivity|]); repeat constructor; lia.
  Qed.

  Lemma grid_reads : read_delaunay (grid_points n) (grid_simplices n) = Ok (grid_read n).
  Proof. unfold grid_read. destruct grid_ok as [m ->]. reflexivity. Qed.

  (** [t] is the lower or the upper triangle of the square (i, j) *)
  Definition cell (t : tria R) (i j : nat) (up : bool) : Prop :=
    i < n /\ j < n /\ tn1 t = S (grid_id n i j) /\
    tn2 t = S (if up then grid_id n (S i) (S j) else grid_id n (S i) j) /\
    tn3 t = S (if up then grid_id n i (S j) else grid_id n (S i) (S j)).

  Lemma point_id_of : forall N k, point_id N (Z.of_nat k) = S k.
  Proof. intros N k. unfold point_id. destruct (Z.leb_spec 0 (Z.of_nat k)); lia. Qed.

  Lemma grid_tria : forall c, c < 2 * (n * n) -> exists t, nth_error (elements (grid_read n)) c = Some (S c, t) /\
    cell t (c / 2 / n) ((c / 2) mod n) (negb (Nat.even c)).
  Proof.
    intros c H. destruct (proj2 (c01_read_delaunay R _ _ _) _ grid_reads) as [_ [_ [_ Q]]].
    destruct (Q c (grid_simplex n c)) as [i1 [i2 [i3 [t [E [E2 [_ [T1 [T2 T3]]]]]]]]].
    { unfold grid_simplices. apply map_nth_error. rewrite nth_error_nth' with (d := 0) by (rewrite seq_length; lia).
      rewrite seq_nth by lia. reflexivity. }
    exists t. split; [exact E2|]. destruct (cell_lt c H) as [Hi Hj]. unfold cell. split; [exact Hi|]. split; [exact Hj|].
    assert (Q1 : forall x y z x' y' z' : Z, [x; y; z] = [x'; y'; z'] -> x' = x /\ y' = y /\ z' = z)
      by (intros x y z x' y' z' X; injection X as <- <- <-; auto).
    unfold grid_simplex in E. destruct (Nat.even c); cbn [map negb] in *; apply Q1 in E; destruct E as [-> [-> ->]];
      rewrite T1, T2, T3, !point_id_of; repeat split; reflexivity.
  Qed.

  Lemma elements_len : length (elements (grid_read n)) = 2 * (n * n).
  Proof.
    destruct (proj2 (c01_read_delaunay R _ _ _) _ grid_reads) as [_ [_ [L _]]]. rewrite L.
    unfold grid_simplices. rewrite map_length, seq_length. reflexivity.
  Qed.

  Lemma in_grid : forall k t, In (k, t) (elements (grid_read n)) -> exists c, c < 2 * (n * n) /\ k = S c /\
    cell t (c / 2 / n) ((c / 2) mod n) (negb (Nat.even c)).
  Proof.
    intros k t H. apply In_nth_error in H. destruct H as [c H].
    assert (L : c < 2 * (n * n)) by (rewrite <- elements_len; apply nth_error_Some; congruence).
    destruct (grid_tria c L) as [t' [E C]]. rewrite H in E. injection E as -> <-. exists c; auto.
  Qed.

  (** coordinates of a node *)
  Definition nx (a : nat) : Z := Z.of_nat ((a - 1) / S n).
  Definition ny (a : nat) : Z := Z.of_nat ((a - 1) mod S n).
  Lemma nx_id : forall i j, j <= n -> nx (S (grid_id n i j)) = Z.of_nat i.
  Proof. intros i j H. unfold nx. replace (S (grid_id n i j) - 1) with (grid_id n i j) by lia. rewrite id_div by exact H. reflexivity. Qed.
  Lemma ny_id : forall i j, j <= n -> ny (S (grid_id n i j)) = Z.of_nat j.
  Proof. intros i j H. unfold ny. replace (S (grid_id n i j) - 1) with (grid_id n i j) by lia. rewrite id_mod by exact H. reflexivity. Qed.

  Definition zdet (a b c : nat) : Z := ((nx b - nx a) * (ny c - ny a) - (nx c - nx a) * (ny b - ny a))%Z.

  Lemma cell_coords : forall t i j up, cell t i j up ->
    nx (tn1 t) = Z.of_nat i /\ ny (tn1 t) = Z.of_nat j /\
    nx (tn2 t) = (Z.of_nat i + 1)%Z /\ ny (tn2 t) = (if up then Z.of_nat j + 1 else Z.of_nat j)%Z /\
    nx (tn3 t) = (if up then Z.of_nat i else Z.of_nat i + 1)%Z /\ ny (tn3 t) = (Z.of_nat j + 1)%Z.
  Proof.
    intros t i j up [Hi [Hj [-> [-> ->]]]]. destruct up; rewrite !nx_id, !ny_id by lia; lia.
  Qed.

  Lemma cell_distinct : forall t i j up, cell t i j up -> distinct t.
  Proof.
    intros t i j up C. destruct (cell_coords t i j up C) as [X1 [Y1 [X2 [Y2 [X3 Y3]]]]]. unfold distinct.
    repeat split; intros E; rewrite E in *; destruct up; lia.
  Qed.

  Lemma cell_det : forall t i j up, cell t i j up ->
    zdet (tn1 t) (tn2 t) (tn3 t) = 1%Z /\ zdet (tn2 t) (tn3 t) (tn1 t) = 1%Z /\ zdet (tn3 t) (tn1 t) (tn2 t) = 1%Z /\
    zdet (tn2 t) (tn1 t) (tn3 t) = (-1)%Z /\ zdet (tn3 t) (tn2 t) (tn1 t) = (-1)%Z /\ zdet (tn1 t) (tn3 t) (tn2 t) = (-1)%Z.
  Proof.
    intros t i j up C. destruct (cell_coords t i j up C) as [X1 [Y1 [X2 [Y2 [X3 Y3]]]]].
    unfold zdet. rewrite ?X1, ?Y1, ?X2, ?Y2, ?X3, ?Y3. generalize (Z.of_nat i) (Z.of_nat j). intros x y.
    destruct up; repeat split; ring.
  Qed.

  Lemma cell_sign : forall t i j up a b c, cell t i j up -> vertex t a -> vertex t b -> vertex t c -> a <> b -> c <> a -> c <> b ->
    zdet a b c = 1%Z \/ zdet a b c = (-1)%Z.
  Proof.
    intros t i j up a b c C Va Vb Vc N1 N2 N3. destruct (cell_det t i j up C) as [D1 [D2 [D3 [D4 [D5 D6]]]]].
    destruct Va as [-> | [-> | ->]]; destruct Vb as [-> | [-> | ->]]; try congruence; destruct Vc as [-> | [-> | ->]]; try congruence; auto.
  Qed.

  (** the ordered pair of vertices and the side of the third determine the square *)
  Definition pair_at (t : tria R) (i j : nat) (up : bool) (a b : nat) (s : Z) : Prop :=
    cell t i j up /\ exists c, vertex t a /\ vertex t b /\ vertex t c /\ a <> b /\ c <> a /\ c <> b /\ zdet a b c = s.

  Lemma pair_cases : forall t i j up a b s, pair_at t i j up a b s ->
    s = 1%Z /\ ((nx a, ny a, nx b, ny b) = (nx (tn1 t), ny (tn1 t), nx (tn2 t), ny (tn2 t)) \/
                (nx a, ny a, nx b, ny b) = (nx (tn2 t), ny (tn2 t), nx (tn3 t), ny (tn3 t)) \/
                (nx a, ny a, nx b, ny b) = (nx (tn3 t), ny (tn3 t), nx (tn1 t), ny (tn1 t))) \/
    s = (-1)%Z /\ ((nx b, ny b, nx a, ny a) = (nx (tn1 t), ny (tn1 t), nx (tn2 t), ny (tn2 t)) \/
                (nx b, ny b, nx a, ny a) = (nx (tn2 t), ny (tn2 t), nx (tn3 t), ny (tn3 t)) \/
                (nx b, ny b, nx a, ny a) = (nx (tn3 t), ny (tn3 t), nx (tn1 t), ny (tn1 t))).
  Proof.
    intros t i j up a b s [C [c [Va [Vb [Vc [N1 [N2 [N3 E]]]]]]]]. destruct (cell_det t i j up C) as [D1 [D2 [D3 [D4 [D5 D6]]]]].
    destruct Va as [-> | [-> | ->]]; destruct Vb as [-> | [-> | ->]]; try congruence; destruct Vc as [-> | [-> | ->]]; try congruence;
      first [left; split; [congruence|auto] | right; split; [congruence|auto]].
  Qed.

  Lemma pair_next : forall t i j up t' i' j' up', cell t i j up -> cell t' i' j' up' -> forall x y x' y',
    ((x, y, x', y') = (nx (tn1 t), ny (tn1 t), nx (tn2 t), ny (tn2 t)) \/
     (x, y, x', y') = (nx (tn2 t), ny (tn2 t), nx (tn3 t), ny (tn3 t)) \/
     (x, y, x', y') = (nx (tn3 t), ny (tn3 t), nx (tn1 t), ny (tn1 t))) ->
    ((x, y, x', y') = (nx (tn1 t'), ny (tn1 t'), nx (tn2 t'), ny (tn2 t')) \/
     (x, y, x', y') = (nx (tn2 t'), ny (tn2 t'), nx (tn3 t'), ny (tn3 t')) \/
     (x, y, x', y') = (nx (tn3 t'), ny (tn3 t'), nx (tn1 t'), ny (tn1 t'))) ->
    i = i' /\ j = j' /\ up = up'.
  Proof.
    intros t i j up t' i' j' up' C C' x y x' y' H H'.
    destruct (cell_coords t i j up C) as [X1 [Y1 [X2 [Y2 [X3 Y3]]]]].
    destruct (cell_coords t' i' j' up' C') as [X1' [Y1' [X2' [Y2' [X3' Y3']]]]].
    rewrite X1, Y1, X2, Y2, X3, Y3 in H. rewrite X1', Y1', X2', Y2', X3', Y3' in H'.
    clear - H H'.
    destruct H as [H | [H | H]]; injection H as -> -> -> ->; destruct H' as [H' | [H' | H']]; injection H'; clear H'; intros;
      destruct up, up'; try (exfalso; lia); repeat split; lia.
  Qed.

  Lemma cell_same : forall t i j up t' i' j' up' a b s, pair_at t i j up a b s -> pair_at t' i' j' up' a b s -> i = i' /\ j = j' /\ up = up'.
  Proof.
    intros t i j up t' i' j' up' a b s H H'. assert (C := proj1 H). assert (C' := proj1 H').
    apply pair_cases in H. apply pair_cases in H'.
    destruct H as [[S H]|[S H]]; destruct H' as [[S' H']|[S' H']]; try (exfalso; congruence); eapply pair_next; eassumption.
  Qed.

  Lemma pair_unique : forall t t' a b c c', In t (trias_of (grid_read n)) -> In t' (trias_of (grid_read n)) ->
    vertex t a -> vertex t b -> vertex t c -> a <> b -> c <> a -> c <> b ->
    vertex t' a -> vertex t' b -> vertex t' c' -> c' <> a -> c' <> b -> zdet a b c = zdet a b c' -> t = t'.
  Proof.
    intros t t' a b c c' H H' Va Vb Vc N1 N2 N3 Va' Vb' Vc' N2' N3' E.
    unfold trias_of in H, H'. apply in_map_iff in H, H'. destruct H as [[k t0] [<- H]]. destruct H' as [[k' t0'] [<- H']]. cbn [snd] in *.
    destruct (in_grid k t0 H) as [e [L [-> C]]]. destruct (in_grid k' t0' H') as [e' [L' [-> C']]].
    destruct (cell_same t0 _ _ _ t0' _ _ _ a b (zdet a b c)
      (conj C (ex_intro _ c (conj Va (conj Vb (conj Vc (conj N1 (conj N2 (conj N3 eq_refl))))))))
      (conj C' (ex_intro _ c' (conj Va' (conj Vb' (conj Vc' (conj N1 (conj N2' (conj N3' (eq_sym E))))))))))
      as [Ei [Ej Eu]].
    assert (Q : e / 2 = e' / 2).
    { rewrite (Nat.div_mod (e / 2) n), (Nat.div_mod (e' / 2) n), Ei, Ej by lia. reflexivity. }
    assert (EE : e = e').
    { rewrite (Nat.div_mod e 2), (Nat.div_mod e' 2), Q by lia. f_equal.
      rewrite <- !Nat.bit0_mod, !Nat.bit0_odd, <- !Nat.negb_even, Eu. reflexivity. }
    subst e'. destruct (grid_tria e L) as [t1 [E1 _]].
    assert (U : forall x, In (S e, x) (elements (grid_read n)) -> x = t1).
    { intros x Hx. apply In_nth_error in Hx. destruct Hx as [g Hg].
      assert (Lg : g < 2 * (n * n)) by (rewrite <- elements_len; apply nth_error_Some; congruence).
      destruct (grid_tria g Lg) as [t2 [E2 _]]. rewrite Hg in E2. injection E2 as <- ->. rewrite E1 in Hg. injection Hg as ->. reflexivity. }
    rewrite (U t0 H), (U t0' H'). reflexivity.
  Qed.

  Lemma grid_distinct : forall t, In t (trias_of (grid_read n)) -> distinct t.
  Proof.
    intros t H. unfold trias_of in H. apply in_map_iff in H. destruct H as [[k t0] [<- H]].
    destruct (in_grid k t0 H) as [c [_ [_ C]]]. apply (cell_distinct _ _ _ _ C).
  Qed.
  Lemma grid_wf : wf_mesh (grid_read n).
  Proof. apply reads_wf; [apply (reads_delaunay _ _ _ grid_reads)|exact grid_distinct]. Qed.

  Local Open Scope R_scope.
  Lemma npos : 0 < INR n.
  Proof. apply (lt_INR 0); exact n_pos. Qed.

  Lemma nth_points : forall k, (k < S n * S n)%nat ->
    nth_error (grid_points n) k = Some [INR (k / S n) / INR n; INR (k mod S n) / INR n].
  Proof.
    intros k H. unfold grid_points. apply map_nth_error with (f := fun k => [INR (k / S n) / INR n; INR (k mod S n) / INR n]).
    rewrite nth_error_nth' with (d := 0%nat) by (rewrite seq_length; exact H). rewrite seq_nth by exact H. reflexivity.
  Qed.

  Lemma grid_node : forall a, In a (node_keys (grid_read n)) -> (1 <= a <= S n * S n)%nat /\
    pos (grid_read n) a = V3 (IZR (nx a) / INR n) (IZR (ny a) / INR n) 0.
  Proof.
    intros a H. destruct (proj2 (c01_read_delaunay R _ _ _) _ grid_reads) as [L [Q _]]. rewrite points_len in L.
    unfold node_keys in H. apply in_map_iff in H. destruct H as [[a' nd] [<- H]]. cbn [fst].
    assert (G := in_dget Nat.eqb nat_eqb_spec a' nd _ (wf_nodes _ grid_wf) H).
    apply In_nth_error in H. destruct H as [k Hk].
    assert (Lk : (k < S n * S n)%nat) by (rewrite <- L; apply nth_error_Some; congruence).
    destruct (Q k _ (nth_points k Lk)) as [nd' [E [_ P]]]. rewrite Hk in E. injection E as -> <-.
    split; [lia|]. unfold pos. rewrite G. unfold nx, ny. replace (S k - 1)%nat with k by lia. rewrite <- !INR_IZR_INZ.
    destruct P as [[P Z]|P]; [|discriminate]. injection P as P1 P2. destruct (nxyz nd) as [x y z]; cbn in *. congruence.
  Qed.

  Lemma det_grid : forall a b c, In a (node_keys (grid_read n)) -> In b (node_keys (grid_read n)) -> In c (node_keys (grid_read n)) ->
    det2 (pos (grid_read n) a) (pos (grid_read n) b) (pos (grid_read n) c) = IZR (zdet a b c) / (INR n * INR n).
  Proof.
    intros a b c Ha Hb Hc. destruct (grid_node a Ha) as [_ ->]. destruct (grid_node b Hb) as [_ ->]. destruct (grid_node c Hc) as [_ ->].
    unfold det2, zdet; cbn [vx vy]. rewrite !minus_IZR, !mult_IZR, !minus_IZR. field. assert (Z := npos); lra.
  Qed.

  Lemma tria_cell : forall t, In t (trias_of (grid_read n)) -> exists i j up, cell t i j up.
  Proof.
    intros t H. unfold trias_of in H. apply in_map_iff in H. destruct H as [[k t0] [<- H]].
    destruct (in_grid k t0 H) as [c [_ [_ C]]]. eauto.
  Qed.

  Lemma grid_det : forall t, In t (trias_of (grid_read n)) -> tdet (grid_read n) t = 1 / (INR n * INR n).
  Proof.
    intros t H. unfold tdet. rewrite det_grid by (apply (wf_vertices _ grid_wf t); [exact H|unfold vertex; auto]).
    destruct (tria_cell t H) as [i [j [up C]]]. rewrite (proj1 (cell_det _ _ _ _ C)). reflexivity.
  Qed.
  Lemma grid_area : forall t, In t (trias_of (grid_read n)) -> tarea (grid_read n) t = 1 / 2 * (1 / INR n * (1 / INR n)).
  Proof.
    intros t H. unfold tarea. rewrite (grid_det t H). assert (Z := npos). rewrite Rabs_right.
    - field. lra.
    - apply Rle_ge. apply Rlt_le, Rdiv_lt_0_compat; [lra|apply Rmult_lt_0_compat; exact Z].
  Qed.

  Lemma on_grid : forall k t, In k (edge_keys (grid_read n)) -> In t (tris_on (grid_read n) k) ->
    In t (trias_of (grid_read n)) /\ vertex t (fst k) /\ vertex t (snd k) /\ vertex t (third t k) /\ fst k <> snd k /\
    third t k <> fst k /\ third t k <> snd k.
  Proof.
    intros k t Hk Ht. destruct (third_in (grid_read n) k t (fst k) (snd k) grid_wf Hk) as [P [O1 [O2 [_ I]]]]; [left; destruct k; reflexivity|exact Ht|].
    assert (D := grid_distinct t I). unfold distinct in D.
    assert (E := wf_edge_keys _ grid_wf k). apply E in Hk. destruct Hk as [t0 [It0 Hs]].
    assert (NE : fst k <> snd k).
    { assert (D0 := grid_distinct t0 It0). unfold distinct in D0. unfold sides in Hs. destruct Hs as [<-|[<-|[<-|[]]]]; cbn [fst snd]; lia. }
    unfold perm3 in P. unfold vertex. intuition congruence.
  Qed.

  Lemma grid_plate : plate (grid_read n).
  Proof.
    assert (W := grid_wf). constructor.
    - exists 0. intros a Ha. destruct (grid_node a Ha) as [_ ->]. reflexivity.
    - intros t H. rewrite (grid_det t H). apply Rgt_not_eq. assert (Z := npos). apply Rdiv_lt_0_compat; [lra|apply Rmult_lt_0_compat; exact Z].
    - intros k Hk. assert (ND : NoDup (tris_on (grid_read n) k)) by (apply NoDup_filter, trias_nodup; exact W).
      destruct (tris_on (grid_read n) k) as [|t1 [|t2 [|t3 l]]] eqn:E; cbn [length]; try lia. exfalso.
      assert (I1 : In t1 (tris_on (grid_read n) k)) by (rewrite E; cbn; auto).
      assert (I2 : In t2 (tris_on (grid_read n) k)) by (rewrite E; cbn; auto).
      assert (I3 : In t3 (tris_on (grid_read n) k)) by (rewrite E; cbn; auto).
      inversion ND as [|? ? N1 ND1]; subst. inversion ND1 as [|? ? N2 ND2]; subst.
      assert (X12 : t1 <> t2) by (intros ->; apply N1; left; reflexivity).
      assert (X13 : t1 <> t3) by (intros ->; apply N1; right; left; reflexivity).
      assert (X23 : t2 <> t3) by (intros ->; apply N2; left; reflexivity).
      apply on_grid in I1; [|exact Hk]. apply on_grid in I2; [|exact Hk]. apply on_grid in I3; [|exact Hk].
      destruct I1 as [T1 [A1 [B1 [C1 [D1 [F1 G1]]]]]]. destruct I2 as [T2 [A2 [B2 [C2 [D2 [F2 G2]]]]]]. destruct I3 as [T3 [A3 [B3 [C3 [D3 [F3 G3]]]]]].
      destruct (tria_cell t1 T1) as [i1 [j1 [u1 K1]]]. destruct (tria_cell t2 T2) as [i2 [j2 [u2 K2]]]. destruct (tria_cell t3 T3) as [i3 [j3 [u3 K3]]].
      assert (U12 := pair_unique t1 t2 (fst k) (snd k) (third t1 k) (third t2 k) T1 T2 A1 B1 C1 D1 F1 G1 A2 B2 C2 F2 G2).
      assert (U13 := pair_unique t1 t3 (fst k) (snd k) (third t1 k) (third t3 k) T1 T3 A1 B1 C1 D1 F1 G1 A3 B3 C3 F3 G3).
      assert (U23 := pair_unique t2 t3 (fst k) (snd k) (third t2 k) (third t3 k) T2 T3 A2 B2 C2 D2 F2 G2 A3 B3 C3 F3 G3).
      destruct (cell_sign t1 _ _ _ (fst k) (snd k) (third t1 k) K1) as [S1|S1]; try assumption;
      destruct (cell_sign t2 _ _ _ (fst k) (snd k) (third t2 k) K2) as [S2|S2]; try assumption;
      destruct (cell_sign t3 _ _ _ (fst k) (snd k) (third t3 k) K3) as [S3|S3]; try assumption;
      rewrite S1, S2, S3 in *; auto.
    - intros k t1 t2 Hk E. assert (ND : NoDup (tris_on (grid_read n) k)) by (apply NoDup_filter, trias_nodup; exact W).
      assert (I1 : In t1 (tris_on (grid_read n) k)) by (rewrite E; cbn; auto).
      assert (I2 : In t2 (tris_on (grid_read n) k)) by (rewrite E; cbn; auto).
      rewrite E in ND. inversion ND as [|? ? N1 ND1]; subst.
      assert (X12 : t1 <> t2) by (intros ->; apply N1; left; reflexivity).
      apply on_grid in I1; [|exact Hk]. apply on_grid in I2; [|exact Hk].
      destruct I1 as [T1 [A1 [B1 [C1 [D1 [F1 G1]]]]]]. destruct I2 as [T2 [A2 [B2 [C2 [D2 [F2 G2]]]]]].
      destruct (tria_cell t1 T1) as [i1 [j1 [u1 K1]]]. destruct (tria_cell t2 T2) as [i2 [j2 [u2 K2]]].
      assert (U12 := pair_unique t1 t2 (fst k) (snd k) (third t1 k) (third t2 k) T1 T2 A1 B1 C1 D1 F1 G1 A2 B2 C2 F2 G2).
      assert (Z := npos). assert (ZZ : 0 < INR n * INR n) by (apply Rmult_lt_0_compat; exact Z).
      assert (V := wf_vertices _ W).
      rewrite (det_grid _ _ (third t1 k)) by (apply (V t1 _ T1); assumption). rewrite (det_grid _ _ (third t2 k)) by (apply (V t2 _ T2); assumption).
      assert (J : 0 < / (INR n * INR n)) by (apply Rinv_0_lt_compat; exact ZZ).
      destruct (cell_sign t1 _ _ _ (fst k) (snd k) (third t1 k) K1) as [S1|S1]; try assumption;
      destruct (cell_sign t2 _ _ _ (fst k) (snd k) (third t2 k) K2) as [S2|S2]; try assumption;
      rewrite S1, S2 in *; try (exfalso; apply X12, U12; reflexivity); unfold Rdiv; nra.
  Qed.

  Lemma grid_nodes_ne : nodes (grid_read n) <> [].
  Proof.
    destruct (proj2 (c01_read_delaunay R _ _ _) _ grid_reads) as [L _]. rewrite points_len in L. intros E. rewrite E in L. cbn in L. lia.
  Qed.

  Lemma grid_valid : forall pfn, valid (grid_mesh n) pfn.
  Proof. intros pfn. apply (reads_valid _ _ _ _ _ _ grid_reads grid_distinct grid_plate grid_nodes_ne); discriminate. Qed.

  Lemma grid_total : total_area (grid_mesh n) = 1.
  Proof.
    unfold total_area, grid_mesh, all_same. rewrite (wp_trias _ grid_wf), Sum_map.
    rewrite (Sum_ext_in _ _ (fun _ => 1 / 2 * (1 / INR n * (1 / INR n)))).
    - rewrite Sum_same. unfold trias_of. rewrite map_length, elements_len, !mult_INR. replace (INR 2) with 2 by reflexivity.
      assert (Z := npos). field. lra.
    - intros t Ht. rewrite <- (grid_area t Ht). unfold tarea, tdet. rewrite (wp_pos (grid_read n)). reflexivity.
  Qed.

  Lemma grid_bounded : bounded 20 (grid_mesh n).
  Proof.
    apply with_one; [exact grid_wf|]. unfold mat3_bounded, ex_prop; cbn [pA pB pD m00 m01 m02 m10 m11 m12 m20 m21 m22].
    repeat split; apply Rabs_le; lra.
  Qed.

  Lemma vertex_close : forall t a b, In t (trias_of (grid_read n)) -> vertex t a -> vertex t b ->
    (-1 <= nx a - nx b <= 1)%Z /\ (-1 <= ny a - ny b <= 1)%Z.
  Proof.
    intros t a b H Va Vb. destruct (tria_cell t H) as [i [j [up C]]]. destruct (cell_coords t i j up C) as [X1 [Y1 [X2 [Y2 [X3 Y3]]]]].
    destruct Va as [-> | [-> | ->]]; destruct Vb as [-> | [-> | ->]]; rewrite ?X1, ?Y1, ?X2, ?Y2, ?X3, ?Y3; destruct up; lia.
  Qed.

  Lemma node_range : forall a, In a (node_keys (grid_read n)) -> (0 <= nx a <= Z.of_nat n)%Z /\ (0 <= ny a <= Z.of_nat n)%Z.
  Proof.
    intros a H. destruct (grid_node a H) as [B _]. unfold nx, ny.
    assert (X : ((a - 1) / S n < S n)%nat) by (apply Nat.div_lt_upper_bound; lia).
    assert (Y : ((a - 1) mod S n < S n)%nat) by (apply Nat.mod_upper_bound; lia). lia.
  Qed.

  (** the point of an edge is its first node *)
  Definition grid_point (k : nat * nat) : R * R := (vx (pos (grid_mesh n) (fst k)), vy (pos (grid_mesh n) (fst k))).

  Lemma grid_fine : fine unit_square (grid_mesh n) (1 / INR n) (1 / 2) grid_point.
  Proof.
    assert (Z := npos). assert (PE : pos (grid_mesh n) = pos (grid_read n)) by (apply (wp_pos (grid_read n))).
    assert (J : 0 < / INR n) by (apply Rinv_0_lt_compat; exact Z).
    assert (IN : forall a, In a (node_keys (grid_read n)) -> unit_square (vx (pos (grid_read n) a), vy (pos (grid_read n) a))).
    { intros a H. destruct (grid_node a H) as [_ ->]. cbn [vx vy]. unfold unit_square; cbn [fst snd].
      destruct (node_range a H) as [[X1 X2] [Y1 Y2]]. apply IZR_le in X1, X2, Y1, Y2. rewrite <- INR_IZR_INZ in X2, Y2.
      unfold Rdiv. assert (I1 : INR n * / INR n = 1) by (apply Rinv_r; lra). repeat split; nra. }
    assert (EK : forall k, In k (edge_keys (grid_read n)) -> In (fst k) (node_keys (grid_read n))).
    { intros k Hk. apply (wf_edge_keys _ grid_wf) in Hk. destruct Hk as [t [Ht Hs]]. apply (wf_vertices _ grid_wf t); [exact Ht|].
      unfold vertex. unfold sides in Hs. destruct Hs as [<-|[<-|[<-|[]]]]; cbn [fst]; lia. }
    split; [|split; [|split]].
    - intros a H. unfold grid_mesh, all_same in H. rewrite (wp_keys (grid_read n)) in H. rewrite PE. apply (IN a H).
    - intros k Hk. unfold grid_point. rewrite PE. apply (IN _ (EK k Hk)).
    - intros k a Hk [t [Ht Va]]. change (edge_keys (grid_mesh n)) with (edge_keys (grid_read n)) in Hk.
      unfold grid_mesh, all_same in Ht. rewrite (wp_tris_on _ grid_wf) in Ht. apply in_map_iff in Ht. destruct Ht as [t0 [<- Ht]].
      change (vertex t0 a) in Va. destruct (on_grid k t0 Hk Ht) as [T [A _]].
      unfold near, grid_point. rewrite PE. cbn [fst snd].
      destruct (grid_node a (wf_vertices _ grid_wf t0 a T Va)) as [_ ->]. destruct (grid_node (fst k) (EK k Hk)) as [_ ->]. cbn [vx vy].
      destruct (vertex_close t0 a (fst k) T Va A) as [[X1 X2] [Y1 Y2]]. apply IZR_le in X1, X2, Y1, Y2. rewrite minus_IZR in X1, X2, Y1, Y2.
      unfold Rdiv. split; apply Rabs_le; nra.
    - intros t. unfold grid_mesh, all_same. rewrite (wp_trias _ grid_wf). intros Ht. apply in_map_iff in Ht. destruct Ht as [t0 [<- Ht]].
      right. rewrite <- (grid_area t0 Ht). unfold tarea, tdet. rewrite (wp_pos (grid_read n)). reflexivity.
  Qed.

  (** the point of a triangle is its first vertex *)
  Definition grid_tpoint (t : tria R) : R * R := (vx (pos (grid_mesh n) (tn1 t)), vy (pos (grid_mesh n) (tn1 t))).

  Lemma grid_fine_trias : fine_trias unit_square (grid_mesh n) (1 / INR n) (1 / 2) grid_tpoint.
  Proof.
    destruct grid_fine as [F1 [_ [_ F4]]]. split; [exact F1|]. assert (Z := npos). assert (J : 0 < / INR n) by (apply Rinv_0_lt_compat; exact Z).
    assert (PE : pos (grid_mesh n) = pos (grid_read n)) by (apply (wp_pos (grid_read n))).
    intros t Ht. assert (A := F4 t Ht). unfold grid_mesh, all_same in Ht. rewrite (wp_trias _ grid_wf) in Ht. apply in_map_iff in Ht.
    destruct Ht as [t0 [<- Ht]]. unfold grid_tpoint. change (tn1 (wp_tria (fun _ => Some (ex_prop 1)) t0)) with (tn1 t0).
    assert (I1 : In (tn1 t0) (node_keys (grid_read n))) by (apply (wf_vertices _ grid_wf t0); [exact Ht|left; reflexivity]).
    split; [|split; [|exact A]].
    - apply F1. unfold grid_mesh, all_same. rewrite (wp_keys (grid_read n)). exact I1.
    - intros a Va. change (vertex t0 a) in Va. unfold near. rewrite PE. cbn [fst snd].
      destruct (grid_node a (wf_vertices _ grid_wf t0 a Ht Va)) as [_ ->]. destruct (grid_node (tn1 t0) I1) as [_ ->]. cbn [vx vy].
      destruct (vertex_close t0 a (tn1 t0) Ht Va (or_introl eq_refl)) as [[X1 X2] [Y1 Y2]]. apply IZR_le in X1, X2, Y1, Y2. rewrite minus_IZR in X1, X2, Y1, Y2.
      unfold Rdiv. split; apply Rabs_le; nra.
  Qed.

  Lemma grid_shear_bounded : shear_bounded 20 (1 / 10) (grid_mesh n).
  Proof.
    apply with_one; [exact grid_wf|]. unfold ex_prop; cbn [pk13 pk23 pE ph e00 e11].
    repeat split; try apply Rabs_le; lra.
  Qed.
End Grid.

(** grids are as fine as needed *)
Lemma grid_small : forall h0 : R, (0 < h0)%R -> exists n, 0 < n /\ (0 < 1 / INR n <= h0)%R.
Proof.
  intros h0 H. destruct (archimed (/ h0)) as [A _]. assert (J : (0 < / h0)%R) by (apply Rinv_0_lt_compat; exact H).
  assert (Zp : (0 < up (/ h0))%Z) by (apply lt_IZR; lra). exists (Z.to_nat (up (/ h0))). split; [lia|].
  assert (E : INR (Z.to_nat (up (/ h0))) = IZR (up (/ h0))) by (rewrite INR_IZR_INZ, Z2Nat.id by lia; reflexivity). rewrite E.
  assert (P : (0 < IZR (up (/ h0)))%R) by lra. split; [apply Rdiv_lt_0_compat; lra|].
  apply Rmult_le_reg_r with (IZR (up (/ h0))); [exact P|]. unfold Rdiv. rewrite Rmult_1_l, Rinv_l by lra.
  apply Rmult_le_reg_l with (/ h0)%R; [exact J|]. rewrite Rmult_1_r, <- Rmult_assoc, Rinv_l, Rmult_1_l by lra. lra.
Qed.

(** a motion of the unit square *)
Definition poly (f fx fy : R -> R -> R) : scalar := {| fval := f; fdx := fx; fdy := fy |}.
Local Open Scope R_scope.
Definition ex_motion : motion := {|
  fu := poly (fun x y => x * x + y) (fun x y => 2 * x) (fun x y => 1);
  fv := poly (fun x y => x * y) (fun x y => y) (fun x y => x);
  fw := poly (fun x y => x * x - y * y) (fun x y => 2 * x) (fun x y => - 2 * y);
  ffx := poly (fun x y => x * y - y) (fun x y => y) (fun x y => x - 1);
  ffy := poly (fun x y => x + y) (fun x y => 1) (fun x y => 1) |}.

Lemma quad_smooth : forall a b c d e g f, (forall x y, fval f x y = a * (x * x) + b * (x * y) + c * (y * y) + d * x + e * y + g) ->
  (forall x y, fdx f x y = 2 * a * x + b * y + d) -> (forall x y, fdy f x y = b * x + 2 * c * y + e) ->
  - 1 <= a <= 1 -> - 1 <= b <= 1 -> - 1 <= c <= 1 -> Rabs a + Rabs b <= 1 -> Rabs b + Rabs c <= 1 ->
  (forall x y, unit_square (x, y) -> - 2 <= fdx f x y <= 2 /\ - 2 <= fdy f x y <= 2) -> smooth unit_square 1 2 f.
Proof.
  intros a b c d e g f V X Y Ha Hb Hc H1 H2 B. split.
  - intros x y x' y' _ _. rewrite !V, X, Y.
    match goal with |- Rabs ?t <= _ => replace t with (a * ((x' - x) * (x' - x)) + b * ((x' - x) * (y' - y)) + c * ((y' - y) * (y' - y))) by ring end.
    set (p := x' - x). set (q := y' - y).
    assert (0 <= p * p) by apply Rle_0_sqr. assert (0 <= q * q) by apply Rle_0_sqr.
    assert (0 <= (p - q) * (p - q)) by apply Rle_0_sqr. assert (0 <= (p + q) * (p + q)) by apply Rle_0_sqr.
    assert (Q : Rabs (p * q) <= (p * p + q * q) / 2) by (apply Rabs_le; lra).
    eapply Rle_trans; [apply Rabs_triang|]. eapply Rle_trans; [apply Rplus_le_compat_r, Rabs_triang|].
    rewrite (Rabs_mult a), (Rabs_mult b), (Rabs_mult c), (Rabs_right (p * p)), (Rabs_right (q * q)) by lra.
    assert (A0 := Rabs_pos a). assert (B0 := Rabs_pos b). assert (C0 := Rabs_pos c).
    assert (Rabs b * Rabs (p * q) <= Rabs b * ((p * p + q * q) / 2)) by (apply Rmult_le_compat_l; assumption).
    assert (Rabs a * (p * p) <= (1 - Rabs b) * (p * p)) by (apply Rmult_le_compat_r; lra).
    assert (Rabs c * (q * q) <= (1 - Rabs b) * (q * q)) by (apply Rmult_le_compat_r; lra).
    assert (0 <= Rabs b * (p * p)) by (apply Rmult_le_pos; assumption). assert (0 <= Rabs b * (q * q)) by (apply Rmult_le_pos; assumption). lra.
  - intros x y O. destruct (B x y O). split; apply Rabs_le; lra.
Qed.

Lemma ex_motion_smooth : motion_smooth unit_square 1 2 ex_motion.
Proof.
  assert (A0 : Rabs 0 = 0) by apply Rabs_R0. assert (A1 : Rabs 1 = 1) by (apply Rabs_right; lra). assert (A2 : Rabs (-1) = 1) by (rewrite Rabs_left; lra).
  unfold motion_smooth, ex_motion; cbn [fu fv fw ffx ffy]. split; [|split; [|split; [|split]]].
  - apply (quad_smooth 1 0 0 0 1 0); cbn [poly fval fdx fdy]; try (intros; ring); rewrite ?A0, ?A1, ?A2; try lra. intros x y [X Y]; cbn [fst snd] in *; lra.
  - apply (quad_smooth 0 1 0 0 0 0); cbn [poly fval fdx fdy]; try (intros; ring); rewrite ?A0, ?A1, ?A2; try lra. intros x y [X Y]; cbn [fst snd] in *; lra.
  - apply (quad_smooth 1 0 (-1) 0 0 0); cbn [poly fval fdx fdy]; try (intros; ring); rewrite ?A0, ?A1, ?A2; try lra. intros x y [X Y]; cbn [fst snd] in *; lra.
  - apply (quad_smooth 0 1 0 0 (-1) 0); cbn [poly fval fdx fdy]; try (intros; ring); rewrite ?A0, ?A1, ?A2; try lra. intros x y [X Y]; cbn [fst snd] in *; lra.
  - apply (quad_smooth 0 0 0 1 1 0); cbn [poly fval fdx fdy]; try (intros; ring); rewrite ?A0, ?A1, ?A2; try lra. intros x y [X Y]; cbn [fst snd] in *; lra.
Qed.
Lemma ex_motion_rot : rotations_le unit_square 2 ex_motion.
Proof. intros x y [X Y]; cbn [fst snd] in *. unfold ex_motion; cbn. split; apply Rabs_le; nra. Qed.

(** its values in the nodes of a mesh *)
Definition sampled (m : mesh R) (F : motion) : nat -> R := field m (fun i n =>
  let x := vx (pos m n) in let y := vy (pos m n) in
  match i with 0 => fval (fu F) x y | 1 => fval (fv F) x y | 2 => fval (fw F) x y | 3 => fval (ffx F) x y | _ => fval (ffy F) x y end).
Lemma sampled_ok : forall m F, samples m F (sampled m F).
Proof. intros m F n Hn. unfold sampled. cbv zeta. rewrite !field_comp by (lia || exact Hn). auto. Qed.
Lemma sampled_list : forall m F, let N := (length (nodes m) * 5)%nat in
  samples m F (vec_of (list_of N (sampled m F))) /\ length (list_of N (sampled m F)) = N.
Proof.
  intros m F N. split; [|unfold list_of; rewrite map_length, seq_length; reflexivity].
  intros n Hn. assert (L : (rank m n < length (nodes m))%nat).
  { assert (I : forall l, In n l -> (index_in n l < length l)%nat).
    { induction l as [|a l IH]; intros H; [destruct H|]. cbn [index_in length]. destruct (Nat.eqb_spec n a); [lia|]. destruct H; [congruence|]. specialize (IH H). lia. }
    specialize (I _ Hn). unfold node_keys in I at 2. rewrite map_length in I. exact I. }
  unfold comp. rewrite !vec_list by (unfold N; lia). apply (sampled_ok m F n Hn).
Qed.
