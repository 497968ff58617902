(** Positions of the nodes of a domain in its list of indices, and the smoothed
    gradients that the rows of an edge stand for. *)
From Coq Require Import ZArith Reals List Bool Arith Lra Lia Permutation.
From Verif Require Import Num Py Mesh Utils Spec FSum FMat FTensor FGenK0 FDict FGeom FWf FSetup CalcK0.
Import ListNotations.
Local Open Scope R_scope.
Implicit Types (m : mesh R).

Lemma Zeqb_spec : forall a b, Z.eqb a b = true <-> a = b.
Proof. exact Z.eqb_eq. Qed.

(** ** indexpos *)

Lemma enum_pos_some : forall l i d j p, dget Z.eqb j (enum_pos i l d) = Some p ->
  (i <= p < i + length l /\ nth_error l (p - i) = Some j)%nat \/ dget Z.eqb j d = Some p.
Proof.
  induction l as [|a l IH]; intros i d j p H; [right; exact H|].
  cbn [enum_pos] in H. apply IH in H. destruct H as [[L H]|H].
  - left. cbn [length]. split; [lia|].
    replace (p - i)%nat with (S (p - S i)) by lia. exact H.
  - rewrite (dget_dset Z.eqb Zeqb_spec) in H. destruct (Z.eqb j a) eqn:E; [|right; exact H].
    left. apply Zeqb_spec in E. inversion H; subst. cbn [length]. split; [lia|].
    rewrite Nat.sub_diag; reflexivity.
Qed.

Lemma enum_pos_keep : forall l i d j, dget Z.eqb j d <> None -> dget Z.eqb j (enum_pos i l d) <> None.
Proof.
  induction l as [|a l IH]; intros i d j H; [exact H|]. cbn [enum_pos]. apply IH.
  rewrite (dget_dset Z.eqb Zeqb_spec). destruct (Z.eqb j a); [discriminate|exact H].
Qed.

Lemma enum_pos_in : forall l i d j, In j l -> dget Z.eqb j (enum_pos i l d) <> None.
Proof.
  induction l as [|a l IH]; intros i d j H; [destruct H|]. cbn [enum_pos].
  destruct H as [->|H]; [|apply IH; exact H].
  apply enum_pos_keep. rewrite (dget_dset Z.eqb Zeqb_spec), Z.eqb_refl; discriminate.
Qed.

Lemma indexpos_spec : forall ix j, In j ix ->
  exists p, dget Z.eqb j (indexpos ix) = Some p /\ (p < length ix)%nat /\ nth p ix 0%Z = j.
Proof.
  intros ix j H. unfold indexpos.
  destruct (dget Z.eqb j (enum_pos 0 ix [])) as [p|] eqn:E.
  - exists p; split; [reflexivity|]. apply enum_pos_some in E. destruct E as [[L E]|E]; [|discriminate].
    split; [lia|]. rewrite Nat.sub_0_r in E. apply nth_error_nth; exact E.
  - exfalso. exact (enum_pos_in ix 0 [] j H E).
Qed.

(** value of a nodal field in an integration point *)
Definition seg_sum (ix : list Z) (r : seg R) (g : Z -> R) : R :=
  nth0 0 (s_f r) * g (nth 0 ix 0%Z) + nth0 1 (s_f r) * g (nth 1 ix 0%Z)
  + nth0 2 (s_f r) * g (nth 2 ix 0%Z) + nth0 3 (s_f r) * g (nth 3 ix 0%Z).

Lemma lset_sum : forall (g : nat -> R) p1 p2 p3 f1 f2 f3,
  (p1 < 4)%nat -> (p2 < 4)%nat -> (p3 < 4)%nat -> p1 <> p2 -> p2 <> p3 -> p1 <> p3 ->
  let f := lset p3 f3 (lset p2 f2 (lset p1 f1 [0; 0; 0; 0])) in
  nth0 0 f * g 0%nat + nth0 1 f * g 1%nat + nth0 2 f * g 2%nat + nth0 3 f * g 3%nat
  = f1 * g p1 + f2 * g p2 + f3 * g p3.
Proof.
  intros g p1 p2 p3 f1 f2 f3 L1 L2 L3 N1 N2 N3.
  destruct p1 as [|[|[|[|p1]]]]; [| | | |lia];
  (destruct p2 as [|[|[|[|p2]]]]; [| | | |lia]); try congruence;
  (destruct p3 as [|[|[|[|p3]]]]; [| | | |lia]); try congruence;
  cbn; ring.
Qed.

Section Rows.
  Variable m : mesh R.
  (** index of a node *)
  Variable r : nat -> Z.
  Variable ok : nat -> Prop.
  Hypothesis Hget : forall n, ok n -> get_index m n = Ok (r n).

  Lemma ipt_row_spec : forall ix (p : ipt R), length ix = 4%nat ->
    ok (ipn1 p) -> ok (ipn2 p) -> ok (ipn3 p) ->
    In (r (ipn1 p)) ix -> In (r (ipn2 p)) ix -> In (r (ipn3 p)) ix ->
    r (ipn1 p) <> r (ipn2 p) -> r (ipn2 p) <> r (ipn3 p) -> r (ipn1 p) <> r (ipn3 p) ->
    exists s, ipt_row m (indexpos ix) p = Ok s /\
      s_nx s = ipnx p /\ s_ny s = ipny p /\ s_le s = iple p /\
      forall g, seg_sum ix s g
        = ipf1 p * g (r (ipn1 p)) + ipf2 p * g (r (ipn2 p)) + ipf3 p * g (r (ipn3 p)).
  Proof.
    intros ix p L O1 O2 O3 I1 I2 I3 N1 N2 N3.
    destruct (indexpos_spec ix _ I1) as [p1 [E1 [L1 X1]]].
    destruct (indexpos_spec ix _ I2) as [p2 [E2 [L2 X2]]].
    destruct (indexpos_spec ix _ I3) as [p3 [E3 [L3 X3]]].
    unfold ipt_row. rewrite !Hget by assumption. cbn [bind].
    rewrite E1, E2, E3. cbn [get_or bind].
    eexists; split; [reflexivity|]. cbn [s_nx s_ny s_le s_f].
    repeat (split; [reflexivity|]). intros g. unfold seg_sum; cbn [s_f]. rnum.
    rewrite (lset_sum (fun i => g (nth i ix 0%Z)) p1 p2 p3) by
      (try lia; intros Heq; subst; congruence).
    rewrite X1, X2, X3; reflexivity.
  Qed.

  Lemma dummy_row_sum : forall ix g, seg_sum ix dummy_row g = 0.
  Proof. intros; unfold seg_sum, dummy_row, nth0; cbn; ring. Qed.
End Rows.

(** ** Smoothed derivatives computed from the rows *)

Definition row_x (ix : list Z) (Ac : R) (rows : seg R * seg R * seg R * seg R) (g : Z -> R) : R :=
  let '(r1, r2, r3, r4) := rows in
  (s_le r1 * s_nx r1 * seg_sum ix r1 g + s_le r2 * s_nx r2 * seg_sum ix r2 g
   + s_le r3 * s_nx r3 * seg_sum ix r3 g + s_le r4 * s_nx r4 * seg_sum ix r4 g) / Ac.
Definition row_y (ix : list Z) (Ac : R) (rows : seg R * seg R * seg R * seg R) (g : Z -> R) : R :=
  let '(r1, r2, r3, r4) := rows in
  (s_le r1 * s_ny r1 * seg_sum ix r1 g + s_le r2 * s_ny r2 * seg_sum ix r2 g
   + s_le r3 * s_ny r3 * seg_sum ix r3 g + s_le r4 * s_ny r4 * seg_sum ix r4 g) / Ac.

(** component [c] of the displacement vector [u] for the index [j] *)
Definition gcomp (n : nat) (u : nat -> R) (c : Z) (j : Z) : R := u (nidx n (j * 5 + c)%Z).

Definition row_strain (n : nat) (ix : list Z) (Ac : R) rows (u : nat -> R) : strain :=
  Strain (row_x ix Ac rows (gcomp n u 0)) (row_y ix Ac rows (gcomp n u 1))
         (row_y ix Ac rows (gcomp n u 0) + row_x ix Ac rows (gcomp n u 1))
         (row_x ix Ac rows (gcomp n u 3)) (row_y ix Ac rows (gcomp n u 4))
         (row_y ix Ac rows (gcomp n u 3) + row_x ix Ac rows (gcomp n u 4)).

Lemma strain_eq : forall a b : strain, exx a = exx b -> eyy a = eyy b -> exy a = exy b ->
  kxx a = kxx b -> kyy a = kyy b -> kxy a = kxy b -> a = b.
Proof. intros [] []; cbn; intros; subst; reflexivity. Qed.

Lemma k0_updates_form : forall n ix Ac A B D rows u v, Ac <> 0 ->
  upd_form n (k0_updates ix Ac A B D rows) u v
  = Ac * dens A B D (row_strain n ix Ac rows u) (row_strain n ix Ac rows v).
Proof.
  intros n ix Ac A B D [[[r1 r2] r3] r4] u v H.
  unfold k0_updates. rewrite k0_entries_tensor by exact H. rewrite dens_form.
  assert (E : forall w, comb strain strain0 sadd_s sscale (fun r => w (nidx n r))
    (unit_strains Ac (nth 0 ix 0%Z)
      (nth0 0 (s_f r1)*s_le r1*s_nx r1 + nth0 0 (s_f r2)*s_le r2*s_nx r2
       + nth0 0 (s_f r3)*s_le r3*s_nx r3 + nth0 0 (s_f r4)*s_le r4*s_nx r4)
      (nth0 0 (s_f r1)*s_le r1*s_ny r1 + nth0 0 (s_f r2)*s_le r2*s_ny r2
       + nth0 0 (s_f r3)*s_le r3*s_ny r3 + nth0 0 (s_f r4)*s_le r4*s_ny r4)
     ++ unit_strains Ac (nth 1 ix 0%Z)
      (nth0 1 (s_f r1)*s_le r1*s_nx r1 + nth0 1 (s_f r2)*s_le r2*s_nx r2
       + nth0 1 (s_f r3)*s_le r3*s_nx r3 + nth0 1 (s_f r4)*s_le r4*s_nx r4)
      (nth0 1 (s_f r1)*s_le r1*s_ny r1 + nth0 1 (s_f r2)*s_le r2*s_ny r2
       + nth0 1 (s_f r3)*s_le r3*s_ny r3 + nth0 1 (s_f r4)*s_le r4*s_ny r4)
     ++ unit_strains Ac (nth 2 ix 0%Z)
      (nth0 2 (s_f r1)*s_le r1*s_nx r1 + nth0 2 (s_f r2)*s_le r2*s_nx r2
       + nth0 2 (s_f r3)*s_le r3*s_nx r3 + nth0 2 (s_f r4)*s_le r4*s_nx r4)
      (nth0 2 (s_f r1)*s_le r1*s_ny r1 + nth0 2 (s_f r2)*s_le r2*s_ny r2
       + nth0 2 (s_f r3)*s_le r3*s_ny r3 + nth0 2 (s_f r4)*s_le r4*s_ny r4)
     ++ unit_strains Ac (nth 3 ix 0%Z)
      (nth0 3 (s_f r1)*s_le r1*s_nx r1 + nth0 3 (s_f r2)*s_le r2*s_nx r2
       + nth0 3 (s_f r3)*s_le r3*s_nx r3 + nth0 3 (s_f r4)*s_le r4*s_nx r4)
      (nth0 3 (s_f r1)*s_le r1*s_ny r1 + nth0 3 (s_f r2)*s_le r2*s_ny r2
       + nth0 3 (s_f r3)*s_le r3*s_ny r3 + nth0 3 (s_f r4)*s_le r4*s_ny r4))
    = row_strain n ix Ac (r1, r2, r3, r4) w).
  { intros w. unfold row_strain, row_x, row_y, seg_sum, gcomp, comb, unit_strains.
    cbn [app fold_right fst snd].
    apply strain_eq; cbn [sadd_s sscale strain0 exx eyy exy kxx kyy kxy]; field; exact H. }
  rewrite !E. reflexivity.
Qed.

(** ** Well-formed meshes with numbered nodes *)

Definition indexed (m : mesh R) : Prop :=
  forall n nd, In (n, nd) (nodes m) -> nindex nd = Some (rank m n).

Definition zr (m : mesh R) (n : nat) : Z := Z.of_nat (rank m n).

Lemma get_index_ok : forall m n, wf_mesh m -> indexed m -> In n (node_keys m) ->
  get_index m n = Ok (zr m n).
Proof.
  intros m n W I H. destruct (node_found m W n H) as [nd [E [_ [_ [_ Hin]]]]].
  unfold get_index. rewrite E. cbn [bind]. rewrite (I n nd Hin). reflexivity.
Qed.

Lemma zr_inj : forall m a b, In a (node_keys m) -> In b (node_keys m) -> a <> b -> zr m a <> zr m b.
Proof. intros m a b Ha Hb N E. apply N. apply (rank_inj m); auto. unfold zr in E; lia. Qed.

Lemma gcomp_comp : forall m u c n, In n (node_keys m) -> (c < 5)%nat ->
  gcomp (length (nodes m) * 5) u (Z.of_nat c) (zr m n) = comp m u c n.
Proof.
  intros m u c n H Hc. unfold gcomp, zr, comp.
  replace (Z.of_nat (rank m n) * 5 + Z.of_nat c)%Z with (Z.of_nat (rank m n * 5 + c)) by lia.
  rewrite nidx_nat; [reflexivity|]. apply rank_lt in H. lia.
Qed.

Section Dom.
  Variable m : mesh R.
  Hypothesis W : wf_mesh m.
  Hypothesis I : indexed m.
  Variables n1 n2 : nat.
  Hypothesis K1 : In n1 (node_keys m).
  Hypothesis K2 : In n2 (node_keys m).
  Hypothesis N12 : n1 <> n2.

  Let G := get_index_ok m.

  Lemma set3 : forall o, In o (node_keys m) -> o <> n1 -> o <> n2 ->
    forall t f1 f2 f3 v, ipt_indices m [the_ipt m t n1 n2 o f1 f2 f3 v] []
       = Ok [zr m n1; zr m n2; zr m o].
  Proof.
    intros o Ko D1 D2 t f1 f2 f3 v. cbn [ipt_indices the_ipt ipn1 ipn2 ipn3].
    rewrite !(get_index_ok m) by assumption. cbn [bind].
    rewrite (sadd_new Z.eqb Zeqb_spec (zr m n1)) by (intros []).
    rewrite (sadd_new Z.eqb Zeqb_spec (zr m n2)).
    2: { cbn. intros [E|[]]. apply (zr_inj m n1 n2); auto. }
    rewrite (sadd_new Z.eqb Zeqb_spec (zr m o)).
    2: { cbn. intros [E|[E|[]]]; revert E; apply zr_inj; auto. }
    reflexivity.
  Qed.

  Lemma set_again : forall o s, In o (node_keys m) -> 
    In (zr m n1) s -> In (zr m n2) s -> In (zr m o) s ->
    forall t f1 f2 f3 v l, ipt_indices m (the_ipt m t n1 n2 o f1 f2 f3 v :: l) s
       = ipt_indices m l s.
  Proof.
    intros o s Ko I1 I2 I3 t f1 f2 f3 v l. cbn [ipt_indices the_ipt ipn1 ipn2 ipn3].
    rewrite !(get_index_ok m) by assumption. cbn [bind].
    rewrite (sadd_old Z.eqb Zeqb_spec (zr m n1) s), (sadd_old Z.eqb Zeqb_spec (zr m n2) s),
      (sadd_old Z.eqb Zeqb_spec (zr m o) s) by assumption. reflexivity.
  Qed.

  Lemma set_new : forall o s, In o (node_keys m) -> 
    In (zr m n1) s -> In (zr m n2) s -> ~ In (zr m o) s ->
    forall t f1 f2 f3 v l, ipt_indices m (the_ipt m t n1 n2 o f1 f2 f3 v :: l) s
       = ipt_indices m l (s ++ [zr m o]).
  Proof.
    intros o s Ko I1 I2 I3 t f1 f2 f3 v l. cbn [ipt_indices the_ipt ipn1 ipn2 ipn3].
    rewrite !(get_index_ok m) by assumption. cbn [bind].
    rewrite (sadd_old Z.eqb Zeqb_spec (zr m n1) s), (sadd_old Z.eqb Zeqb_spec (zr m n2) s) by assumption.
    rewrite (sadd_new Z.eqb Zeqb_spec) by assumption. reflexivity.
  Qed.

  Lemma domain_indices3 : forall o dummy t f1 f2 f3 v g1 g2 g3 v' h1 h2 h3 v'',
    In o (node_keys m) -> o <> n1 -> o <> n2 ->
    exists ix, domain_indices m dummy
       [the_ipt m t n1 n2 o f1 f2 f3 v; the_ipt m t n1 n2 o g1 g2 g3 v';
        the_ipt m t n1 n2 o h1 h2 h3 v''] = Ok ix /\ length ix = 4%nat /\
      Permutation ix [zr m n1; zr m n2; zr m o; dummy].
  Proof.
    intros o dummy t f1 f2 f3 v g1 g2 g3 v' h1 h2 h3 v'' Ko D1 D2.
    exists (zsorted [zr m n1; zr m n2; zr m o] ++ [dummy]).
    assert (P := zsorted_perm [zr m n1; zr m n2; zr m o]).
    assert (L := Permutation_length P). cbn [length] in L.
    split; [|split].
    - unfold domain_indices.
      change (ipt_indices m (?a :: ?b :: ?c :: []) []) with (ipt_indices m (a :: b :: c :: []) []).
      assert (E : ipt_indices m
        [the_ipt m t n1 n2 o f1 f2 f3 v; the_ipt m t n1 n2 o g1 g2 g3 v';
         the_ipt m t n1 n2 o h1 h2 h3 v''] [] = Ok [zr m n1; zr m n2; zr m o]).
      { assert (S3 := set3 o Ko D1 D2 t f1 f2 f3 v).
        cbn [ipt_indices] in S3 |- *. revert S3.
        destruct (get_index m (ipn1 (the_ipt m t n1 n2 o f1 f2 f3 v))) as [x1|]; [|discriminate].
        destruct (get_index m (ipn2 (the_ipt m t n1 n2 o f1 f2 f3 v))) as [x2|]; [|discriminate].
        destruct (get_index m (ipn3 (the_ipt m t n1 n2 o f1 f2 f3 v))) as [x3|]; [|discriminate].
        cbn [bind]. intros S3; injection S3 as S3. rewrite S3.
        change (ipt_indices m [the_ipt m t n1 n2 o g1 g2 g3 v'; the_ipt m t n1 n2 o h1 h2 h3 v'']
          [zr m n1; zr m n2; zr m o] = Ok [zr m n1; zr m n2; zr m o]).
        rewrite !set_again by (auto; cbn; auto). reflexivity. }
      rewrite E. cbn [bind]. change (Nat.eqb (length _) 3) with true. cbn [bind].
      rewrite app_length, L. reflexivity.
    - rewrite app_length, L. reflexivity.
    - rewrite P. reflexivity.
  Qed.

  Lemma domain_indices4 : forall o o' dummy t t' f1 f2 f3 v g1 g2 g3 v' h1 h2 h3 v'' i1 i2 i3 v''',
    In o (node_keys m) -> o <> n1 -> o <> n2 ->
    In o' (node_keys m) -> o' <> n1 -> o' <> n2 -> o <> o' ->
    exists ix, domain_indices m dummy
       [the_ipt m t n1 n2 o f1 f2 f3 v; the_ipt m t n1 n2 o g1 g2 g3 v';
        the_ipt m t' n1 n2 o' h1 h2 h3 v''; the_ipt m t' n1 n2 o' i1 i2 i3 v'''] = Ok ix /\
      length ix = 4%nat /\
      Permutation ix [zr m n1; zr m n2; zr m o; zr m o'].
  Proof.
    intros o o' dummy t t' f1 f2 f3 v g1 g2 g3 v' h1 h2 h3 v'' i1 i2 i3 v''' Ko D1 D2 Ko' D1' D2' D3.
    exists (zsorted [zr m n1; zr m n2; zr m o; zr m o']).
    assert (P := zsorted_perm [zr m n1; zr m n2; zr m o; zr m o']).
    assert (L := Permutation_length P). cbn [length] in L.
    split; [|split].
    - unfold domain_indices.
      assert (E : ipt_indices m
        [the_ipt m t n1 n2 o f1 f2 f3 v; the_ipt m t n1 n2 o g1 g2 g3 v';
         the_ipt m t' n1 n2 o' h1 h2 h3 v''; the_ipt m t' n1 n2 o' i1 i2 i3 v'''] []
        = Ok [zr m n1; zr m n2; zr m o; zr m o']).
      { assert (S3 := set3 o Ko D1 D2 t f1 f2 f3 v).
        cbn [ipt_indices] in S3 |- *. revert S3.
        destruct (get_index m (ipn1 (the_ipt m t n1 n2 o f1 f2 f3 v))) as [x1|]; [|discriminate].
        destruct (get_index m (ipn2 (the_ipt m t n1 n2 o f1 f2 f3 v))) as [x2|]; [|discriminate].
        destruct (get_index m (ipn3 (the_ipt m t n1 n2 o f1 f2 f3 v))) as [x3|]; [|discriminate].
        cbn [bind]. intros S3; injection S3 as S3. rewrite S3.
        change (ipt_indices m [the_ipt m t n1 n2 o g1 g2 g3 v'; the_ipt m t' n1 n2 o' h1 h2 h3 v'';
          the_ipt m t' n1 n2 o' i1 i2 i3 v''']
          [zr m n1; zr m n2; zr m o] = Ok [zr m n1; zr m n2; zr m o; zr m o']).
        rewrite set_again by (auto; cbn; auto).
        rewrite set_new.
        - rewrite set_again by (auto; cbn; auto). reflexivity.
        - exact Ko'.
        - cbn; auto.
        - cbn; auto.
        - cbn. intros [X|[X|[X|[]]]]; revert X; apply zr_inj; auto. }
      rewrite E. cbn [bind]. change (Nat.eqb (length (?a :: ?b :: ?c :: ?d :: [])) 3) with false.
      rewrite app_nil_r, L. reflexivity.
    - exact L.
    - exact P.
  Qed.
End Dom.

(** ** The rows of an edge give the smoothed derivatives *)

Lemma ready_nodes : forall m k n1 n2, wf_mesh m -> In k (edge_keys m) ->
  ((n1, n2) = k \/ (n2, n1) = k) ->
  In n1 (node_keys m) /\ In n2 (node_keys m) /\ n1 <> n2.
Proof.
  intros m k n1 n2 W Hk E. assert (NE := tris_on_nonempty m W k Hk).
  destruct (tris_on m k) as [|t l] eqn:T; [contradiction|].
  assert (I1 : In t (tris_on m k)) by (rewrite T; left; reflexivity).
  destruct (edge_tria m W k t Hk I1) as [_ [D [_ [_ [Ka [Kb _]]]]]].
  destruct E as [<-|<-]; cbn [fst snd] in *; auto.
Qed.

Lemma tria_node : forall m k t n1 n2, wf_mesh m -> In k (edge_keys m) ->
  ((n1, n2) = k \/ (n2, n1) = k) -> In t (tris_on m k) ->
  perm3 t n1 n2 (third t k) /\ third t k <> n1 /\ third t k <> n2 /\ In (third t k) (node_keys m)
  /\ In t (trias_of m).
Proof.
  intros m k t n1 n2 W Hk E I1.
  destruct (edge_tria m W k t Hk I1) as [P [D [D1 [D2 [Ka [Kb Ko]]]]]].
  assert (T : In t (trias_of m)) by (apply tris_on_in in I1; tauto).
  destruct E as [<-|<-]; cbn [fst snd] in *; repeat split; auto. apply perm3_swap; exact P.
Qed.

Lemma flat_vec : forall m, plate m -> forall a b, In a (node_keys m) -> In b (node_keys m) ->
  vz (pos m a) = vz (pos m b).
Proof.
  intros m PL a b Ha Hb. destruct (pl_flat m PL) as [z H]. rewrite !H by assumption. reflexivity.
Qed.

Lemma the_ipt_nx : forall m t n1 n2 n3 f1 f2 f3 v, vz v = 0 ->
  iple (the_ipt m t n1 n2 n3 f1 f2 f3 v) * ipnx (the_ipt m t n1 n2 n3 f1 f2 f3 v) = vy v.
Proof. intros; cbn [the_ipt iple ipnx]. apply le_nx; assumption. Qed.
Lemma the_ipt_ny : forall m t n1 n2 n3 f1 f2 f3 v, vz v = 0 ->
  iple (the_ipt m t n1 n2 n3 f1 f2 f3 v) * ipny (the_ipt m t n1 n2 n3 f1 f2 f3 v) = - vx v.
Proof. intros; cbn [the_ipt iple ipny]. apply le_ny; assumption. Qed.

(** smoothed derivatives in terms of the edge nodes *)
Lemma sgx1 : forall m k t n1 n2 q, wf_mesh m -> plate m -> In k (edge_keys m) ->
  ((n1, n2) = k \/ (n2, n1) = k) -> tris_on m k = [t] ->
  let o := third t k in
  sgx m k q = numx (pos m n1) (pos m n2) (pos m o) (q n1) (q n2) (q o)
              / det2 (pos m n1) (pos m n2) (pos m o)
  /\ sgy m k q = numy (pos m n1) (pos m n2) (pos m o) (q n1) (q n2) (q o)
              / det2 (pos m n1) (pos m n2) (pos m o).
Proof.
  intros m k t n1 n2 q W PL Hk E T o.
  assert (I1 : In t (tris_on m k)) by (rewrite T; left; reflexivity).
  destruct (tria_node m k t n1 n2 W Hk E I1) as [P [_ [_ [_ Ht]]]].
  assert (D := pl_nondeg m PL t Ht).
  assert (A : tarea m t <> 0).
  { unfold tarea. apply Rabs_no_R0 in D. lra. }
  unfold sgx, sgy. rewrite T, !Sum_cons, !Sum_nil, !Rplus_0_r.
  rewrite (tgx_perm m t n1 n2 o P q D), (tgy_perm m t n1 n2 o P q D).
  assert (D' : det2 (pos m n1) (pos m n2) (pos m o) <> 0).
  { destruct (tdet_perm m t n1 n2 o P) as [X|X]; rewrite X in D; lra. }
  split; field; auto.
Qed.

Lemma sgx2 : forall m k t t' n1 n2 q, wf_mesh m -> plate m -> In k (edge_keys m) ->
  ((n1, n2) = k \/ (n2, n1) = k) -> tris_on m k = [t; t'] ->
  let o := third t k in let o' := third t' k in
  let D := det2 (pos m n1) (pos m n2) (pos m o) in
  let D' := det2 (pos m n1) (pos m n2) (pos m o') in
  0 < D -> D' < 0 ->
  sgx m k q = (numx (pos m n1) (pos m n2) (pos m o) (q n1) (q n2) (q o)
               - numx (pos m n1) (pos m n2) (pos m o') (q n1) (q n2) (q o')) / (D - D')
  /\ sgy m k q = (numy (pos m n1) (pos m n2) (pos m o) (q n1) (q n2) (q o)
               - numy (pos m n1) (pos m n2) (pos m o') (q n1) (q n2) (q o')) / (D - D').
Proof.
  intros m k t t' n1 n2 q W PL Hk E T o o' D D' HD HD'.
  assert (I1 : In t (tris_on m k)) by (rewrite T; left; reflexivity).
  assert (I2 : In t' (tris_on m k)) by (rewrite T; right; left; reflexivity).
  destruct (tria_node m k t n1 n2 W Hk E I1) as [P [_ [_ [_ Ht]]]].
  destruct (tria_node m k t' n1 n2 W Hk E I2) as [P' [_ [_ [_ Ht']]]].
  assert (Dt := pl_nondeg m PL t Ht). assert (Dt' := pl_nondeg m PL t' Ht').
  unfold sgx, sgy. rewrite T, !Sum_cons, !Sum_nil, !Rplus_0_r.
  rewrite (tgx_perm m t n1 n2 o P q Dt), (tgy_perm m t n1 n2 o P q Dt).
  rewrite (tgx_perm m t' n1 n2 o' P' q Dt'), (tgy_perm m t' n1 n2 o' P' q Dt').
  rewrite (tarea_perm m t n1 n2 o P), (tarea_perm m t' n1 n2 o' P').
  fold D D'. rewrite (Rabs_right D), (Rabs_left D') by lra.
  split; field; repeat split; lra.
Qed.

Section Smooth.
  Variable m : mesh R.
  Hypothesis W : wf_mesh m.
  Hypothesis PL : plate m.
  Hypothesis I : indexed m.
  Variables (k : nat * nat) (e : edge R).
  Hypothesis Hk : In k (edge_keys m).
  Hypothesis RD : ready m k e.

  Lemma dom_area_pos : 0 < dom_area m k.
  Proof.
    unfold dom_area.
    assert (X : forall t, In t (tris_on m k) -> 0 < tarea m t).
    { intros t Ht. unfold tarea. apply tris_on_in in Ht. destruct Ht as [Ht _].
      assert (D := pl_nondeg m PL t Ht). apply Rabs_pos_lt in D. lra. }
    assert (NE := tris_on_nonempty m W k Hk).
    destruct (tris_on m k) as [|t l]; [contradiction|].
    rewrite Sum_cons. assert (0 < tarea m t) by (apply X; left; reflexivity).
    assert (0 <= Sum (tarea m) l) by (apply Sum_nonneg; intros a Ha; left; apply X; right; exact Ha).
    lra.
  Qed.

  (** indices and rows of the edge, for any dummy index *)
  Lemma edge_rows : forall dummy, exists ix rows,
    domain_indices m dummy (eipts e) = Ok ix /\ length ix = 4%nat /\
    (forall j, In j ix -> j = dummy \/ exists n, In n (node_keys m) /\ j = zr m n /\
                exists t, In t (tris_on m k) /\ vertex t n) /\
    ipt_rows m (indexpos ix) (eipts e) = Ok rows /\
    forall g, row_x ix (dom_area m k) rows g = sgx m k (fun n => g (zr m n)) /\
              row_y ix (dom_area m k) rows g = sgy m k (fun n => g (zr m n)).
  Proof.
    intros dummy. destruct (rd_dom m k e RD) as [n1 [n2 [E RR]]].
    destruct (ready_nodes m k n1 n2 W Hk E) as [K1 [K2 N12]].
    destruct RR as [[t R1]|[t [t' R2]]].
    - destruct R1 as [T D _ _ _ EI].
      assert (I1 : In t (tris_on m k)) by (rewrite T; left; reflexivity).
      destruct (tria_node m k t n1 n2 W Hk E I1) as [P [O1 [O2 [Ko Ht]]]].
      set (o := third t k) in *.
      destruct (perm3_vertex t n1 n2 o P) as [V1 [V2 V3]].
      rewrite EI.
      destruct (domain_indices3 m W I n1 n2 K1 K2 N12 o dummy (eid t)
        (2/3) (1/6) (1/6) (vsub (pos m n1) (the_mid m n1 n2 o))
        (1/6) (2/3) (1/6) (vsub (the_mid m n1 n2 o) (pos m n2))
        (1/2) (1/2) 0 (vsub (pos m n2) (pos m n1)) Ko O1 O2) as [ix [EX [L PM]]].
      assert (M : forall j, In j [zr m n1; zr m n2; zr m o; dummy] -> In j ix).
      { intros j; apply Permutation_in; symmetry; exact PM. }
      set (v1 := vsub (pos m n1) (the_mid m n1 n2 o)) in *.
      set (v2 := vsub (the_mid m n1 n2 o) (pos m n2)) in *.
      set (v3 := vsub (pos m n2) (pos m n1)) in *.
      assert (Z1 : vz v1 = 0 /\ vz v2 = 0 /\ vz v3 = 0).
      { unfold v1, v2, v3, the_mid, mid3, vsub, vdivs, vadd; cbn.
        rewrite (flat_vec m PL n2 n1), (flat_vec m PL o n1) by auto.
        repeat split; field. }
      destruct Z1 as [Z1 [Z2 Z3]].
      set (p1 := the_ipt m (eid t) n1 n2 o (2/3) (1/6) (1/6) v1) in *.
      set (p2 := the_ipt m (eid t) n1 n2 o (1/6) (2/3) (1/6) v2) in *.
      set (p3 := the_ipt m (eid t) n1 n2 o (1/2) (1/2) 0 v3) in *.
      assert (ROW : forall p, ipn1 p = n1 -> ipn2 p = n2 -> ipn3 p = o ->
        exists s, ipt_row m (indexpos ix) p = Ok s /\
          s_nx s = ipnx p /\ s_ny s = ipny p /\ s_le s = iple p /\
          forall g, seg_sum ix s g
            = ipf1 p * g (zr m n1) + ipf2 p * g (zr m n2) + ipf3 p * g (zr m o)).
      { intros p E1 E2 E3.
        assert (X := ipt_row_spec m (zr m) (fun n => In n (node_keys m))
                     (fun n => get_index_ok m n W I) ix p L).
        rewrite E1, E2, E3 in X. apply X; auto; try (apply M; cbn; auto); apply zr_inj; auto. }
      destruct (ROW p1) as [s1 [F1 [A1 [B1 [C1 G1]]]]]; try reflexivity.
      destruct (ROW p2) as [s2 [F2 [A2 [B2 [C2 G2]]]]]; try reflexivity.
      destruct (ROW p3) as [s3 [F3 [A3 [B3 [C3 G3]]]]]; try reflexivity.
      exists ix, (s1, s2, s3, dummy_row). split; [exact EX|]. split; [exact L|].
      split.
      { intros j Hj. apply (Permutation_in _ PM) in Hj. cbn [In] in Hj.
        destruct Hj as [<-|[<-|[<-|[<-|[]]]]]; auto; right; eexists; (split; [|split; [reflexivity|]]); eauto. }
      split.
      { cbn [ipt_rows]. rewrite F1, F2, F3. reflexivity. }
      intros g. unfold row_x, row_y.
      rewrite A1, A2, A3, B1, B2, B3, C1, C2, C3, G1, G2, G3.
      unfold p1, p2, p3.
      rewrite !the_ipt_nx, !the_ipt_ny by assumption.
      change (s_le dummy_row) with 0. rewrite !Rmult_0_l, !Rplus_0_r.
      cbn [the_ipt ipf1 ipf2 ipf3].
      destruct (sgx1 m k t n1 n2 (fun n => g (zr m n)) W PL Hk E T) as [SX SY].
      fold o in SX, SY. rewrite SX, SY.
      rewrite (dom_area1 m k t T), (tarea_perm m t n1 n2 o P), Rabs_right by lra.
      assert (CX := contour1_x (pos m n1) (pos m n2) (pos m o) (g (zr m n1)) (g (zr m n2)) (g (zr m o))).
      assert (CY := contour1_y (pos m n1) (pos m n2) (pos m o) (g (zr m n1)) (g (zr m n2)) (g (zr m o))).
      cbv zeta in CX, CY.
      change (mid3 (pos m n1) (pos m n2) (pos m o)) with (the_mid m n1 n2 o) in CX, CY.
      change (vy v1) with (vy (pos m n1) - vy (the_mid m n1 n2 o)).
      change (vy v2) with (vy (the_mid m n1 n2 o) - vy (pos m n2)).
      change (vy v3) with (vy (pos m n2) - vy (pos m n1)).
      change (vx v1) with (vx (pos m n1) - vx (the_mid m n1 n2 o)).
      change (vx v2) with (vx (the_mid m n1 n2 o) - vx (pos m n2)).
      change (vx v3) with (vx (pos m n2) - vx (pos m n1)).
      split.
      + match goal with |- ?s / _ = _ => replace s with
          (numx (pos m n1) (pos m n2) (pos m o) (g (zr m n1)) (g (zr m n2)) (g (zr m o)) / 6) end.
        * field. lra.
        * rewrite <- CX. ring.
      + match goal with |- ?s / _ = _ => replace s with
          (numy (pos m n1) (pos m n2) (pos m o) (g (zr m n1)) (g (zr m n2)) (g (zr m o)) / 6) end.
        * field. lra.
        * rewrite <- CY. ring.
    - destruct R2 as [T D D' _ _ _ EI].
      assert (I1 : In t (tris_on m k)) by (rewrite T; left; reflexivity).
      assert (I2 : In t' (tris_on m k)) by (rewrite T; right; left; reflexivity).
      destruct (tria_node m k t n1 n2 W Hk E I1) as [P [O1 [O2 [Ko Ht]]]].
      destruct (tria_node m k t' n1 n2 W Hk E I2) as [P' [O1' [O2' [Ko' Ht']]]].
      set (o := third t k) in *. set (o' := third t' k) in *.
      assert (NO : o <> o') by (intros X; rewrite X in D; lra).
      destruct (perm3_vertex t n1 n2 o P) as [V1 [V2 V3]].
      destruct (perm3_vertex t' n1 n2 o' P') as [V1' [V2' V3']].
      rewrite EI.
      destruct (domain_indices4 m W I n1 n2 K1 K2 N12 o o' dummy (eid t) (eid t')
        (2/3) (1/6) (1/6) (vsub (pos m n1) (the_mid m n1 n2 o))
        (1/6) (2/3) (1/6) (vsub (the_mid m n1 n2 o) (pos m n2))
        (1/6) (2/3) (1/6) (vsub (pos m n2) (the_mid m n1 n2 o'))
        (2/3) (1/6) (1/6) (vsub (the_mid m n1 n2 o') (pos m n1))
        Ko O1 O2 Ko' O1' O2' NO) as [ix [EX [L PM]]].
      assert (M : forall j, In j [zr m n1; zr m n2; zr m o; zr m o'] -> In j ix).
      { intros j; apply Permutation_in; symmetry; exact PM. }
      set (v1 := vsub (pos m n1) (the_mid m n1 n2 o)) in *.
      set (v2 := vsub (the_mid m n1 n2 o) (pos m n2)) in *.
      set (v3 := vsub (pos m n2) (the_mid m n1 n2 o')) in *.
      set (v4 := vsub (the_mid m n1 n2 o') (pos m n1)) in *.
      assert (Z1 : vz v1 = 0 /\ vz v2 = 0 /\ vz v3 = 0 /\ vz v4 = 0).
      { unfold v1, v2, v3, v4, the_mid, mid3, vsub, vdivs, vadd; cbn.
        rewrite (flat_vec m PL n2 n1), (flat_vec m PL o n1), (flat_vec m PL o' n1) by auto.
        repeat split; field. }
      destruct Z1 as [Z1 [Z2 [Z3 Z4]]].
      set (p1 := the_ipt m (eid t) n1 n2 o (2/3) (1/6) (1/6) v1) in *.
      set (p2 := the_ipt m (eid t) n1 n2 o (1/6) (2/3) (1/6) v2) in *.
      set (p3 := the_ipt m (eid t') n1 n2 o' (1/6) (2/3) (1/6) v3) in *.
      set (p4 := the_ipt m (eid t') n1 n2 o' (2/3) (1/6) (1/6) v4) in *.
      assert (ROW : forall p x, In x (node_keys m) -> x <> n1 -> x <> n2 -> In (zr m x) ix ->
        ipn1 p = n1 -> ipn2 p = n2 -> ipn3 p = x ->
        exists s, ipt_row m (indexpos ix) p = Ok s /\
          s_nx s = ipnx p /\ s_ny s = ipny p /\ s_le s = iple p /\
          forall g, seg_sum ix s g
            = ipf1 p * g (zr m n1) + ipf2 p * g (zr m n2) + ipf3 p * g (zr m x)).
      { intros p x Kx X1 X2 Ix E1 E2 E3.
        assert (X := ipt_row_spec m (zr m) (fun n => In n (node_keys m))
                     (fun n => get_index_ok m n W I) ix p L).
        rewrite E1, E2, E3 in X. apply X; auto; try (apply M; cbn; auto); apply zr_inj; auto. }
      destruct (ROW p1 o) as [s1 [F1 [A1 [B1 [C1 G1]]]]]; try reflexivity; auto; [apply M; cbn; auto|].
      destruct (ROW p2 o) as [s2 [F2 [A2 [B2 [C2 G2]]]]]; try reflexivity; auto; [apply M; cbn; auto|].
      destruct (ROW p3 o') as [s3 [F3 [A3 [B3 [C3 G3]]]]]; try reflexivity; auto; [apply M; cbn; auto|].
      destruct (ROW p4 o') as [s4 [F4 [A4 [B4 [C4 G4]]]]]; try reflexivity; auto; [apply M; cbn; auto|].
      exists ix, (s1, s2, s3, s4). split; [exact EX|]. split; [exact L|].
      split.
      { intros j Hj. apply (Permutation_in _ PM) in Hj. cbn [In] in Hj.
        destruct Hj as [<-|[<-|[<-|[<-|[]]]]]; right; eexists; (split; [|split; [reflexivity|]]); eauto. }
      split.
      { cbn [ipt_rows]. rewrite F1, F2, F3, F4. reflexivity. }
      intros g. unfold row_x, row_y.
      rewrite A1, A2, A3, A4, B1, B2, B3, B4, C1, C2, C3, C4, G1, G2, G3, G4.
      unfold p1, p2, p3, p4.
      rewrite !the_ipt_nx, !the_ipt_ny by assumption.
      cbn [the_ipt ipf1 ipf2 ipf3].
      destruct (sgx2 m k t t' n1 n2 (fun n => g (zr m n)) W PL Hk E T D D') as [SX SY].
      fold o o' in SX, SY. rewrite SX, SY.
      rewrite (dom_area2 m k t t' T), (tarea_perm m t n1 n2 o P), (tarea_perm m t' n1 n2 o' P').
      rewrite (Rabs_right (det2 _ _ (pos m o))), (Rabs_left (det2 _ _ (pos m o'))) by lra.
      assert (CX := contour2_x (pos m n1) (pos m n2) (pos m o) (pos m o')
                      (g (zr m n1)) (g (zr m n2)) (g (zr m o)) (g (zr m o'))).
      assert (CY := contour2_y (pos m n1) (pos m n2) (pos m o) (pos m o')
                      (g (zr m n1)) (g (zr m n2)) (g (zr m o)) (g (zr m o'))).
      cbv zeta in CX, CY.
      change (mid3 (pos m n1) (pos m n2) (pos m o)) with (the_mid m n1 n2 o) in CX, CY.
      change (mid3 (pos m n1) (pos m n2) (pos m o')) with (the_mid m n1 n2 o') in CX, CY.
      change (vy v1) with (vy (pos m n1) - vy (the_mid m n1 n2 o)).
      change (vy v2) with (vy (the_mid m n1 n2 o) - vy (pos m n2)).
      change (vy v3) with (vy (pos m n2) - vy (the_mid m n1 n2 o')).
      change (vy v4) with (vy (the_mid m n1 n2 o') - vy (pos m n1)).
      change (vx v1) with (vx (pos m n1) - vx (the_mid m n1 n2 o)).
      change (vx v2) with (vx (the_mid m n1 n2 o) - vx (pos m n2)).
      change (vx v3) with (vx (pos m n2) - vx (the_mid m n1 n2 o')).
      change (vx v4) with (vx (the_mid m n1 n2 o') - vx (pos m n1)).
      split.
      + match goal with |- ?s / _ = _ => replace s with
          (numx (pos m n1) (pos m n2) (pos m o) (g (zr m n1)) (g (zr m n2)) (g (zr m o)) / 6
           - numx (pos m n1) (pos m n2) (pos m o') (g (zr m n1)) (g (zr m n2)) (g (zr m o')) / 6) end.
        * field. repeat split; lra.
        * rewrite <- CX. ring.
      + match goal with |- ?s / _ = _ => replace s with
          (numy (pos m n1) (pos m n2) (pos m o) (g (zr m n1)) (g (zr m n2)) (g (zr m o)) / 6
           - numy (pos m n1) (pos m n2) (pos m o') (g (zr m n1)) (g (zr m n2)) (g (zr m o')) / 6) end.
        * field. repeat split; lra.
        * rewrite <- CY. ring.
  Qed.
End Smooth.
