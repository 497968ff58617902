(** The shear stiffness of the edge-based method, in doubles and in reals. *)
From Coq Require Import ZArith Reals List Bool Arith Lra Lia QArith Qreals String.
From Flocq Require Import Core.
From Verif Require Import Num Float Py Mesh Utils CalcK0 AddK0s Spec SpecK0 SpecRound SpecRound2 SpecRound4 FGeom FDict FMat FWf FOut FSetup FFloat FTree FK0s FRound FRound2 FRound3 FRound4 FRound5 FRound6 FRound8 FRound9 FRound10 FRound11 FRound12 FRound14 FRound15 FRound16 FRound17 FRound18 FRound19 FRound20 FRound21 FRound25 FRound26.
Import ListNotations.
Local Open Scope R_scope.
Notation tria_val := SpecRound.tria_val.
Notation both := FRound12.both.

(** ** The largest of several lengths *)
Section Max.
  Variable eps : R.
  Hypothesis E0 : roundoff <= eps.
  Definition len2 (x : double) (X : R) : Prop := rel eps 92 x X /\ rng (-84) 66 X.
  Lemma len_len2 : forall x X, len eps x X -> len2 x X.
  Proof. intros x X [A B]. split; [apply (rel_mono eps E0 12); [exact A|lra]|apply (rng_le _ _ _ _ _ B); lia]. Qed.
  Lemma len2_max2 : forall a A x X, len2 a A -> len2 x X -> len2 (nmax2 a x) (nmax2 A X).
  Proof.
    intros a A x X [A1 A2] [X1 X2]. rewrite nmax2_Rmax. split; [apply rel_max; assumption|]. unfold Rmax. destruct (Rle_dec A X); assumption.
  Qed.
  Lemma len2_max : forall ls LS, Forall2 len2 ls LS -> forall a A, len2 a A -> len2 (nmaxl a ls) (nmaxl A LS).
  Proof.
    intros ls LS H. induction H as [|x X ls LS HX _ IH]; intros a A HA; [exact HA|]. cbn [nmaxl]. apply IH. apply len2_max2; assumption.
  Qed.
End Max.

Section Orient.
  Variables h rho s kappa : R.
  Hypothesis SL : scales h rho s (kappa * roundoff).
  Let delta := kappa * roundoff.
  Let eps := delta * rho.
  Let E0 : roundoff <= eps := eps_low h rho s kappa SL.
  Let E1 : eps <= / 1048576 := eps_high h rho s kappa SL.

  Lemma orient_edge_near : forall n1 n2 mid O M, exact h kappa (nxyz n1) (vec_val (nxyz n1)) -> exact h kappa (nxyz n2) (vec_val (nxyz n2)) ->
    tri h rho (vec_val (nxyz n1)) (vec_val (nxyz n2)) O M -> clv h kappa 3 mid M ->
    orient_edge mid n1 n2 = (if Rlt_dec (det2 (vec_val (nxyz n1)) (vec_val (nxyz n2)) O) 0 then (n2, n1) else (n1, n2)) /\
    orient_edge M (node_val n1) (node_val n2) = (if Rlt_dec (det2 (vec_val (nxyz n1)) (vec_val (nxyz n2)) O) 0 then (node_val n2, node_val n1) else (node_val n1, node_val n2)).
  Proof.
    intros n1 n2 mid O M [F1 _] [F2 _] TR CM. set (P1 := vec_val (nxyz n1)) in *. set (P2 := vec_val (nxyz n2)) in *.
    destruct (apart_m h rho s kappa SL _ _ _ _ TR) as [B1 _]. destruct (tr_z _ _ _ _ _ _ TR) as [Z1 [Z2 Z3]]. destruct (tr_mid _ _ _ _ _ _ TR) as [Q1 Q2].
    assert (Mx : vx M = (vx P1 + vx P2 + vx O) / 3) by lra. assert (My : vy M = (vy P1 + vy P2 + vy O) / 3) by lra.
    assert (D : (vx P2 - vx P1) * (vy M - vy P1) - (vy P2 - vy P1) * (vx M - vx P1) = det2 P1 P2 O / 3) by (unfold det2; rewrite Mx, My; field).
    split.
    - unfold orient_edge.
      destruct (seg_vec h rho s kappa SL 0 0 _ _ _ _ F2 F1 ltac:(unfold Qle; cbn; lia) ltac:(unfold Qle; cbn; lia) ltac:(unfold Qle; cbn; lia) (apart_sym _ _ _ (tr_12 _ _ _ _ _ _ TR)) ltac:(congruence)) as [V1 [V2 V3]].
      destruct (seg_vec h rho s kappa SL 3 0 _ _ _ _ CM F1 ltac:(unfold Qle; cbn; lia) ltac:(unfold Qle; cbn; lia) ltac:(unfold Qle; cbn; lia) (apart_sym _ _ _ B1) ltac:(congruence)) as [W1 [W2 W3]].
      rewrite (sign_near h rho s kappa SL _ _ _ _ _ _ V1 V2 V3 W1 W2 W3).
      + rewrite D. destruct (Rlt_dec (det2 P1 P2 O / 3) 0), (Rlt_dec (det2 P1 P2 O) 0); try reflexivity; lra.
      + rewrite D. unfold Rdiv. rewrite Rabs_mult, (Rabs_right (/ 3)) by lra. assert (F := tr_fat _ _ _ _ _ _ TR). lra.
    - unfold orient_edge, dot, cross, vsub, ZGLOBAL. cbn [node_val nxyz vx vy vz]. rnum. fold P1 P2.
      match goal with |- (if ?b then _ else _) = _ => assert (Q : b = if Rlt_dec (det2 P1 P2 O) 0 then true else false) end.
      { unfold nltb; cbn [NumR]. match goal with |- (if Rlt_dec ?x ?y then _ else _) = _ => replace x with (det2 P1 P2 O / 3) by (rewrite <- D; cbn; ring) end.
        destruct (Rlt_dec (det2 P1 P2 O / 3) 0), (Rlt_dec (det2 P1 P2 O) 0); try reflexivity; lra. }
      rewrite Q. destruct (Rlt_dec (det2 P1 P2 O) 0); reflexivity.
  Qed.

  (** the length of a side *)
  Lemma ipt_len : forall p q, near_ipt h rho s kappa p q -> 47 / 100 * (h / rho) <= iple q -> len2 eps (iple p) (iple q).
  Proof.
    intros p q N LD. destruct (ni_le _ _ _ _ _ _ N) as [F [_ [_ [_ [B D]]]]]. unfold sc, leb_ in B, D; cbn [fv frv fd frd fh fs pow] in B, D. change (powerRZ h 1) with (h * 1) in B, D.
    replace (Q2R (Qmake 3 2)) with (3 / 2) in B by (unfold Q2R; cbn; lra). replace (Q2R 26) with 26 in D by (unfold Q2R; cbn; lra).
    assert (HP := h_pos _ _ _ _ SL). assert (DP := d_pos _ _ _ _ SL). fold delta in DP. assert (R1 := sl_rho _ _ _ _ SL).
    assert (HR : 0 < h / rho) by (apply Rdiv_lt_0_compat; lra). assert (XP : 0 < iple q) by lra.
    split.
    - split; [exact F|]. split; [exact XP|]. split; [lra|]. eapply Rle_trans; [exact D|]. unfold eps.
      apply Rle_trans with (92 * (delta * rho * (47 / 100 * (h / rho)))); [replace (delta * rho * (47 / 100 * (h / rho))) with (47 / 100 * (delta * h)) by (field; lra); fold delta; assert (0 < delta * h) by (apply Rmult_lt_0_compat; assumption); lra|].
      replace (92 * (delta * rho) * iple q) with (92 * (delta * rho * iple q)) by ring. apply Rmult_le_compat_l; [lra|]. apply Rmult_le_compat_l; [apply Rmult_le_pos; lra|exact LD].
    - assert (H64 := h_rng h rho s kappa SL). split.
      + apply Rle_trans with (47 / 100 * (h / rho)); [|exact LD]. destruct (rng_div _ _ _ _ _ _ H64 (rho_rng h rho s kappa SL)) as [X _].
        replace (-84)%Z with (-3 + (-64 - 17))%Z by lia. rewrite bpow_plus. assert (Y := bpow_gt_0 radix2 (-64 - 17)). replace (bpow radix2 (-3)) with (/ 8) by (cbn; lra). lra.
      + rewrite Rabs_right in B by lra. replace 66%Z with (2 + 64)%Z by lia. rewrite bpow_plus. replace (bpow radix2 2) with 4 by reflexivity. destruct H64 as [_ X]. lra.
  Qed.
  Lemma norm_low : forall V : vec3 R, vz V = 0 -> 2 * h <= 3 * rho * (Rabs (vx V) + Rabs (vy V)) -> 47 / 100 * (h / rho) <= norm V.
  Proof.
    intros V Z L. assert (X := low_div h rho s kappa SL _ _ L). unfold norm, dot. rewrite Z. exact X.
  Qed.
  Lemma segs_low : forall P1 P2 O M, tri h rho P1 P2 O M -> 47 / 100 * (h / rho) <= norm (vsub P1 M) /\ 47 / 100 * (h / rho) <= norm (vsub M P2) /\
    47 / 100 * (h / rho) <= norm (vsub P2 P1) /\ 47 / 100 * (h / rho) <= norm (vsub P2 M) /\ 47 / 100 * (h / rho) <= norm (vsub M P1).
  Proof.
    intros P1 P2 O M TR. assert (L1 := tri_low h rho s kappa SL _ _ _ _ TR). assert (L2 := tri_low h rho s kappa SL _ _ _ _ (tri_swap _ _ _ _ _ _ TR)). assert (L3 := tri_low2 h rho s kappa SL _ _ _ _ TR).
    destruct (tr_z _ _ _ _ _ _ TR) as [Z1 [Z2 Z3]]. repeat split; apply norm_low; unfold vsub; cbn [vx vy vz]; rnum; try lra;
      rewrite (Rabs_minus_sym (vx M)), (Rabs_minus_sym (vy M)); assumption.
  Qed.
  Lemma sqrt_len : forall a A, finite a -> Rabs (val a - A) <= 30 * (delta * (h * h)) -> h * h <= 3 * rho * A -> A <= h * h -> len2 eps (nsqrt a) (sqrt A).
  Proof.
    intros a A F D L U. assert (HP := h_pos _ _ _ _ SL). assert (HH : 0 < h * h) by (apply Rmult_lt_0_compat; assumption). assert (R1 := sl_rho _ _ _ _ SL).
    assert (RH : h * h <= rho * (h * h)) by (rewrite <- (Rmult_1_l (h * h)) at 1; apply Rmult_le_compat_r; lra).
    assert (GA := area_rng h rho s kappa SL (h * h / 3) ltac:(lra) ltac:(lra) A ltac:(lra) U).
    assert (RA : rel eps 90 a A) by (apply (area_rel h rho s kappa SL); [exact F|exact D|lra|lra|lra]).
    assert (GS : rng (-74) 64 (sqrt A)).
    { destruct GA as [L1 L2]. assert (B1 := bpow_gt_0 radix2 (-74)). assert (B2 := bpow_gt_0 radix2 64). split.
      - rewrite <- (sqrt_square (bpow radix2 (-74))) by lra. apply sqrt_le_1_alt. rewrite <- bpow_plus. eapply Rle_trans; [|exact L1]. apply bpow_le. lia.
      - rewrite <- (sqrt_square (bpow radix2 64)) by lra. apply sqrt_le_1_alt. rewrite <- bpow_plus. exact L2. }
    split; [|apply (rng_le _ _ _ _ _ GS); lia]. replace 92 with (90 + 2) by ring. apply (rel_sqrt eps E0 E1); [exact RA|apply (rng_mid _ _ _ GS); lia|lra].
  Qed.
End Orient.

Section Edges.
  Variables (m : mesh double) (h rho s kappa : R).
  Hypothesis KS : k0_scale m h rho kappa s.
  Hypothesis WM : wf_mesh (mesh_val m).
  Hypothesis PL : plate (mesh_val m).
  Notation M := (mesh_val m).
  Let delta := kappa * roundoff.
  Let eps := delta * rho.
  Let SL := FRound9.SL m h rho s kappa KS.
  Let K1 := FRound9.K1 m h rho s kappa KS.
  Let KX := FRound9.KX m h rho s kappa KS.
  Let Wm := FRound9.Wm m WM.
  Let E0 : roundoff <= eps := eps_low h rho s kappa SL.
  Let E1 : eps <= / 1048576 := eps_high h rho s kappa SL.
  Notation LK := (lock_val m).
  Variables (es : list ((nat * nat) * edge double)) (ES : list ((nat * nat) * edge R)).
  Notation mm := (number m es).
  Notation MM := (number M ES).
  Variable alpha : double.
  Variable pfn : bool.
  Hypothesis SS : shear_scale m s alpha.
  Hypothesis SE : edge_fine m h rho s.
  Hypothesis PC : props_complete M pfn.
  Let FA := proj1 (ss_alpha _ _ _ SS).
  Let VA : val alpha = 0 \/ in64 (val alpha) := proj2 (ss_alpha _ _ _ SS).
  Let nn := List.length (nodes m).

  Lemma node_fine2 : pfn = true -> forall t n, In t (trias_of m) -> vertex t n -> exists p, nodeprop m n = Some p /\ prop_fine2 s p.
  Proof.
    intros PF t n T V. destruct (node_fine m s WM alpha pfn SS PC PF t n T V) as [p [Hp F]]. exists p. split; [exact Hp|]. split; [exact F|]. apply (ef_E01 _ _ _ _ SE). left. exists n. exact Hp.
  Qed.
  Lemma tria_fine2 : pfn = false -> forall t, In t (trias_of m) -> exists p, tprop t = Some p /\ prop_fine2 s p.
  Proof.
    intros PF t T. destruct (tria_fine m s alpha pfn SS PC PF t T) as [p [Hp F]]. exists p. split; [exact Hp|]. split; [exact F|]. apply (ef_E01 _ _ _ _ SE). right. exists t. auto.
  Qed.

  (** a node of the numbered meshes *)
  Record nd_of (a : nat) (n : node double) : Prop := {
    no_g : get_node mm a = Ok n; no_G : get_node MM a = Ok (node_val n); no_x : exact h kappa (nxyz n) (vec_val (nxyz n)); no_v : vec_val (nxyz n) = pos M a;
    no_i : nindex n = Some (rank m a); no_p : nprop n = nodeprop m a; no_k : In a (node_keys m) }.
  Lemma nd_ex : forall a, In a (node_keys m) -> exists n, nd_of a n.
  Proof. intros a H. destruct (num_ex m h rho s kappa KS WM es ES a H) as [n [G1 [G2 [X [V [I P]]]]]]. exists n. constructor; assumption. Qed.
  Lemma nd_lt : forall a n, nd_of a n -> (rank m a < nn)%nat.
  Proof. intros a n H. apply rank_lt, (no_k _ _ H). Qed.

  Section One.
    Variables (k : nat * nat) (e : edge double) (E : edge R).
    Hypothesis Hk : In k (edge_keys m).
    Hypothesis RK : ready M k E.
    Hypothesis NE : near_edge h rho s kappa e E.

    Lemma ends : (en1 e, en2 e) = k /\ (en1 E, en2 E) = k.
    Proof. split; [rewrite (ne_1 _ _ _ _ _ _ NE), (ne_2 _ _ _ _ _ _ NE)|]; apply (rd_ends _ _ _ RK). Qed.

    (** a triangle of the edge *)
    Record td_of (t : tria double) (mid : vec3 double) (o : node double) : Prop := {
      td_g : get_tria mm (eid t) = Ok t; td_G : get_tria MM (eid t) = Ok (tria_val t); td_in : In t (trias_of m); td_on : In t (tris_on m k);
      td_m : getMid mm t = Ok mid; td_M : getMid MM (tria_val t) = Ok (the_mid M (fst k) (snd k) (third t k));
      td_c : clv h kappa 3 mid (the_mid M (fst k) (snd k) (third t k));
      td_t : tri h rho (pos M (fst k)) (pos M (snd k)) (pos M (third t k)) (the_mid M (fst k) (snd k) (third t k));
      td_o : nd_of (third t k) o;
      td_p : perm3 t (fst k) (snd k) (third t k);
      td_d : fst k <> snd k /\ third t k <> fst k /\ third t k <> snd k }.
    Lemma td_ex : forall t, In t (tris_on m k) -> exists mid o, td_of t mid o.
    Proof.
      intros t Ht. assert (T1 : In t (trias_of m)) by (apply tris_on_in in Ht; tauto).
      destruct (edge_tria m Wm k t Hk Ht) as [P [D1 [D2 [D3 [_ [_ Ko]]]]]].
      assert (GT : get_tria mm (eid t) = Ok t) by (change (get_tria mm (eid t)) with (get_tria m (eid t)); apply tria_found; [exact Wm|exact T1]).
      destruct (mid_lock m h rho s kappa KS WM t _ _ _ T1 P) as [mid [G1 [G2 C]]]. destruct (nd_ex _ Ko) as [o HO].
      exists mid, o. constructor; auto.
      - rewrite (get_tria_lock _ _ (lock_number m es ES)), GT. reflexivity.
      - apply mid_number, G1.
      - apply mid_number, G2.
      - apply (tri_perm m h rho s kappa KS WM PL t _ _ _ T1 P).
    Qed.

    (** the lengths of the sides of the domain *)
    Lemma low_ipts : Forall (fun q => 47 / 100 * (h / rho) <= iple q) (eipts E).
    Proof.
      destruct (rd_dom _ _ _ RK) as [n1 [n2 [OR CS]]].
      assert (TR : forall t, In t (tris_on m k) -> tri h rho (pos M n1) (pos M n2) (pos M (third t k)) (the_mid M n1 n2 (third t k))).
      { intros t Ht. destruct (edge_tria m Wm k t Hk Ht) as [P _]. apply (tri_perm m h rho s kappa KS WM PL t); [apply tris_on_in in Ht; tauto|].
        destruct OR as [<-|<-]; cbn [fst snd] in P; [exact P|apply perm3_swap, P]. }
      destruct CS as [[t1 R1]|[t1 [t2 R2]]].
      - assert (Q := r1_tris _ _ _ _ _ _ R1). rewrite (tris_on_lock _ _ LK) in Q. rewrite (r1_ipts _ _ _ _ _ _ R1).
        destruct (tris_on m k) as [|t [|t' l]]; try discriminate. injection Q as <-. change (third (tria_val t) k) with (third t k).
        destruct (segs_low h rho s kappa SL _ _ _ _ (TR t (or_introl eq_refl))) as [A1 [A2 [A3 _]]]. repeat (apply Forall_cons; [cbn [the_ipt iple]; assumption|]); apply Forall_nil.
      - assert (Q := r2_tris _ _ _ _ _ _ _ R2). rewrite (tris_on_lock _ _ LK) in Q. rewrite (r2_ipts _ _ _ _ _ _ _ R2).
        destruct (tris_on m k) as [|t [|t' [|t'' l]]]; try discriminate. injection Q as <- <-. change (third (tria_val t) k) with (third t k). change (third (tria_val t') k) with (third t' k).
        destruct (segs_low h rho s kappa SL _ _ _ _ (TR t (or_introl eq_refl))) as [A1 [A2 _]]. destruct (segs_low h rho s kappa SL _ _ _ _ (TR t' (or_intror (or_introl eq_refl)))) as [_ [_ [_ [A3 A4]]]].
        repeat (apply Forall_cons; [cbn [the_ipt iple]; assumption|]); apply Forall_nil.
    Qed.
    Lemma ipts_len : exists x X, pymax (map iple (eipts e)) = Ok x /\ pymax (map iple (eipts E)) = Ok X /\ len2 eps x X.
    Proof.
      assert (F2 : Forall2 (len2 eps) (map iple (eipts e)) (map iple (eipts E))).
      { assert (L := low_ipts). assert (N := ne_ipts _ _ _ _ _ _ NE). induction N as [|p q l l' HN _ IH]; [constructor|]. inversion_clear L. constructor; [apply (ipt_len h rho s kappa SL); assumption|apply IH; assumption]. }
      assert (NN : map iple (eipts E) <> []).
      { destruct (rd_dom _ _ _ RK) as [n1 [n2 [_ [[t1 R1]|[t1 [t2 R2]]]]]]; [rewrite (r1_ipts _ _ _ _ _ _ R1)|rewrite (r2_ipts _ _ _ _ _ _ _ R2)]; discriminate. }
      destruct F2 as [|x X l l' HX HL]; [contradiction|]. exists (nmaxl x l), (nmaxl X l'). split; [reflexivity|]. split; [reflexivity|]. apply (len2_max eps E0); assumption.
    Qed.
    Variable mfa : bool.
    Lemma len_b : forall a A, finite a -> Rabs (val a - A) <= 30 * (delta * (h * h)) -> h * h <= 3 * rho * A -> A <= h * h -> exists l L, eb_maxl mfa e a = Ok l /\ eb_maxl mfa E A = Ok L /\ len2 eps l L.
    Proof.
      intros a A F D L U. unfold eb_maxl. destruct mfa; [|exact ipts_len]. exists (nsqrt a), (sqrt A). split; [reflexivity|]. split; [reflexivity|]. apply (sqrt_len h rho s kappa SL); assumption.
    Qed.
    Lemma len_i : forall a A, finite a -> Rabs (val a - A) <= 30 * (delta * (h * h)) -> h * h <= 3 * rho * A -> A <= h * h -> exists l L, ei_maxl mm mfa e a = Ok l /\ ei_maxl MM mfa E A = Ok L /\ len2 eps l L.
    Proof.
      intros a A F D L U. unfold ei_maxl. destruct mfa.
      - exists (nsqrt a), (sqrt A). split; [reflexivity|]. split; [reflexivity|]. apply (sqrt_len h rho s kappa SL); assumption.
      - destruct ipts_len as [x [X [Q1 [Q2 HX]]]]. rewrite Q1, Q2. cbn [bind]. rewrite (proj1 ends), (proj2 ends).
        assert (ST : exists t, In t (trias_of m) /\ In k (sides t)) by (apply (wf_edge_keys m Wm), Hk). destruct ST as [t [T1 T2]].
        destruct (side_len m h rho s kappa KS WM PL es ES t k T1 T2) as [y [Y [Q3 [Q4 HY]]]]. rewrite Q3, Q4. cbn [bind].
        exists (nmax2 x y), (nmax2 X Y). split; [reflexivity|]. split; [reflexivity|]. apply (len2_max2 eps E0); [exact HX|apply (len_len2 eps E0), HY].
    Qed.

    (** the area of the domain *)
    Lemma ac_ex : exists a, eAc e = Some a /\ eAc E = Some (dom_area M k) /\ finite a /\ Rabs (val a - dom_area M k) <= 30 * (delta * (h * h)).
    Proof. destruct (ne_Ac _ _ _ _ _ _ NE) as [a [A [Q1 [Q2 [F D]]]]]. rewrite (rd_Ac _ _ _ RK) in *. injection Q2 as <-. exists a. auto. Qed.

    (** the rows and columns of the nodes of the domain *)
    Lemma hits_dom : forall l, NoDup l -> (forall n, In n l -> In n (node_keys m) /\ on_domain m k n) -> forall i j,
      (hits (grid (map (rank m) l)) i j <= if both m (node_at m i) (node_at m j) k then 1 else 0)%nat.
    Proof.
      intros l ND H i j.
      assert (NR : NoDup (map (rank m) l)).
      { clear - ND H. induction ND as [|a l NI N IH]; [constructor|]. cbn [map]. constructor.
        - intros X. apply in_map_iff in X. destruct X as [b [Q Hb]]. apply NI. replace a with b; [exact Hb|]. apply (rank_inj m); [apply H; right; exact Hb|apply H; left; reflexivity|exact Q].
        - apply IH. intros n Hn. apply H. right. exact Hn. }
      destruct (in_dec pair_dec (i, j) (grid (map (rank m) l))) as [I|I].
      - assert (L := hits_nodup (grid (map (rank m) l)) i j (NoDup_prod _ _ _ _ (dofsN_nodup _ NR) (dofsN_nodup _ NR))).
        unfold grid in I. apply in_prod_iff in I. destruct I as [Hi Hj]. apply dofsN_in in Hi, Hj.
        assert (Q : forall x c, In x (map (rank m) l) -> (2 <= c < 5)%nat -> on_domain m k (node_at m (x * 5 + c))).
        { intros x c Hx Hc. apply in_map_iff in Hx. destruct Hx as [n [<- Hn]]. destruct (H n Hn) as [Kn On]. rewrite node_at_rank by (try assumption; lia). exact On. }
        destruct Hi as [x [c [Hx [Hc ->]]]]. destruct Hj as [y [d [Hy [Hd ->]]]]. rewrite (both_true m _ _ k (Q x c Hx Hc) (Q y d Hy Hd)). exact L.
      - rewrite (proj1 (count_occ_not_In pair_dec _ _) I). lia.
    Qed.
    Lemma on_dom : forall t mid o, td_of t mid o -> forall n, In n [fst k; snd k; third t k] -> In n (node_keys m) /\ on_domain m k n.
    Proof.
      intros t mid o TD n Hn. destruct (perm3_vertex _ _ _ _ (td_p _ _ _ TD)) as [Va [Vb Vo]]. assert (V : vertex t n) by (destruct Hn as [<-|[<-|[<-|[]]]]; assumption).
      split; [apply (wf_vertices m Wm t n (td_in _ _ _ TD) V)|]. exists t. split; [apply (td_on _ _ _ TD)|exact V].
    Qed.

    (** a triangle of the edge, with the ends in either order *)
    Lemma td_tri : forall t mid o a b n1 n2, td_of t mid o -> (a, b) = k \/ (b, a) = k -> nd_of a n1 -> nd_of b n2 ->
      tri h rho (vec_val (nxyz n1)) (vec_val (nxyz n2)) (vec_val (nxyz o)) (the_mid M (fst k) (snd k) (third t k)) /\
      tarea M (tria_val t) / 3 = Rabs (det2 (vec_val (nxyz n1)) (vec_val (nxyz n2)) (vec_val (nxyz o))) / 6 /\
      (forall n, In n [n1; n2; o] -> exists c, nprop n = nodeprop m c /\ vertex t c) /\
      Rabs (vz (vec_val (nxyz n1)) - vy (the_mid M (fst k) (snd k) (third t k))) <= rho * h.
    Proof.
      intros t mid o a b n1 n2 TD OR N1 N2. rewrite (no_v _ _ N1), (no_v _ _ N2), (no_v _ _ (td_o _ _ _ TD)).
      assert (P := td_p _ _ _ TD). destruct (perm3_vertex _ _ _ _ P) as [Va [Vb Vo]].
      assert (P' : perm3 t a b (third t k)) by (destruct OR as [<-|<-]; cbn [fst snd] in *; [exact P|apply perm3_swap, P]).
      assert (V1 : vertex t a /\ vertex t b) by (destruct (perm3_vertex _ _ _ _ P') as [X [Y _]]; auto). destruct V1 as [V1 V2].
      split; [|split; [|split]].
      - destruct OR as [Q|Q]; rewrite <- Q in *; cbn [fst snd] in *; assert (X := td_t _ _ _ TD); rewrite <- Q in X; cbn [fst snd] in X; [exact X|apply tri_swap, X].
      - rewrite (tarea_perm M (tria_val t) a b (third t k) P'). field.
      - intros n Hn. destruct Hn as [<-|[<-|[<-|[]]]]; [exists a|exists b|exists (third t k)]; (split; [|assumption]); [apply (no_p _ _ N1)|apply (no_p _ _ N2)|apply (no_p _ _ (td_o _ _ _ TD))].
      - assert (Z1 := ef_z _ _ _ _ SE t a (fst k) (td_in _ _ _ TD) V1 Va). assert (Z2 := ef_z _ _ _ _ SE t a (snd k) (td_in _ _ _ TD) V1 Vb). assert (Z3 := ef_z _ _ _ _ SE t a (third t k) (td_in _ _ _ TD) V1 Vo).
        unfold the_mid, mid3, vdivs, vadd; cbn [vx vy vz]; rnum. apply abs_split in Z1, Z2, Z3. apply abs_join; lra.
    Qed.

    Notation bq := (Bc h rho s 280 345000 5 6).
    Notation eq_ := (Ec h rho s kappa 280 345000 5 6).

    Lemma bnd_lock : forall t mid o a b n1 n2, tris_on m k = [t] -> td_of t mid o -> eother1 E = Some (third t k) -> (a, b) = k \/ (b, a) = k -> nd_of a n1 -> nd_of b n2 ->
      exists us US, boundary_edge lits_src mm pfn alpha mfa e t n1 n2 = Ok us /\ boundary_edge lits_src MM pfn (val alpha) mfa E (tria_val t) (node_val n1) (node_val n2) = Ok US /\
        steps (nn * 5) bq eq_ us US (grid [rank m a; rank m b; rank m (third t k)]).
    Proof.
      intros t mid o a b n1 n2 TK TD OE OR N1 N2. destruct (td_tri _ _ _ _ _ _ _ TD OR N1 N2) as [TR [AR [PR _]]]. destruct ac_ex as [ac [A1 [A2 [FAc EAc]]]].
      assert (DA := dom_area1 M k (tria_val t)). rewrite (tris_on_lock _ _ LK), TK in DA. specialize (DA eq_refl). rewrite AR in DA.
      destruct (dom_bounds m h rho s kappa KS WM PL k Hk) as [B1 [B2 B3]]. assert (HH := Rle_0_sqr h). unfold Rsqr in HH.
      destruct (len_b ac (dom_area M k) FAc EAc B1 ltac:(lra)) as [l [L [L1 [L2 [RL GL]]]]].
      destruct (eb_local h rho s kappa SL alpha FA VA pfn t n1 n2 o mid _ (no_x _ _ N1) (no_x _ _ N2) TR (td_c _ _ _ TD) _ _ _ nn (no_i _ _ N1) (no_i _ _ N2) (no_i _ _ (td_o _ _ _ TD)) ac _ l L FAc EAc RL GL) as [us [US [Q1 [Q2 Q3]]]].
      - intros PF n Hn. destruct (PR n Hn) as [c [-> V]]. apply (node_fine2 PF t c (td_in _ _ _ TD) V).
      - intros PF. apply (tria_fine2 PF t (td_in _ _ _ TD)).
      - exact DA.
      - intros r Hr. destruct Hr as [<-|[<-|[<-|[]]]]; [apply (nd_lt _ _ N1)|apply (nd_lt _ _ N2)|apply (nd_lt _ _ (td_o _ _ _ TD))].
      - exists us, US. split; [|split; [|exact Q3]].
        + eapply boundary_rest; [apply (td_m _ _ _ TD)| |exact A1|exact L1|exact Q1]. rewrite (ne_o1 _ _ _ _ _ _ NE), OE. cbn [other_node get_or bind]. apply (no_g _ _ (td_o _ _ _ TD)).
        + eapply boundary_rest; [apply (td_M _ _ _ TD)| |exact A2|exact L2|exact Q2]. rewrite OE. cbn [other_node get_or bind]. apply (no_G _ _ (td_o _ _ _ TD)).
    Qed.
    Lemma int_lock : forall t1 t2 mid1 mid2 o1 o2 a b n1 n2, tris_on m k = [t1; t2] -> td_of t1 mid1 o1 -> td_of t2 mid2 o2 -> eother1 E = Some (third t1 k) -> eother2 E = Some (third t2 k) ->
      (a, b) = k \/ (b, a) = k -> nd_of a n1 -> nd_of b n2 ->
      exists us US, interior_edge lits_src mm pfn alpha mfa e t1 t2 n1 n2 = Ok us /\ interior_edge lits_src MM pfn (val alpha) mfa E (tria_val t1) (tria_val t2) (node_val n1) (node_val n2) = Ok US /\
        steps (nn * 5) bq eq_ us US (grid [rank m a; rank m b; rank m (third t1 k); rank m (third t2 k)]).
    Proof.
      intros t1 t2 mid1 mid2 o1 o2 a b n1 n2 TK D1 D2 OE1 OE2 OR N1 N2. destruct (td_tri _ _ _ _ _ _ _ D1 OR N1 N2) as [TR1 [AR1 [PR1 ZB]]]. destruct (td_tri _ _ _ _ _ _ _ D2 OR N1 N2) as [TR2 [AR2 [PR2 _]]].
      destruct ac_ex as [ac [A1 [A2 [FAc EAc]]]].
      assert (DA := dom_area2 M k (tria_val t1) (tria_val t2)). rewrite (tris_on_lock _ _ LK), TK in DA. specialize (DA eq_refl).
      replace ((tarea M (tria_val t1) + tarea M (tria_val t2)) / 3) with (tarea M (tria_val t1) / 3 + tarea M (tria_val t2) / 3) in DA by field. rewrite AR1, AR2 in DA.
      destruct (dom_bounds m h rho s kappa KS WM PL k Hk) as [B1 [B2 B3]]. assert (HH := Rle_0_sqr h). unfold Rsqr in HH.
      destruct (len_i ac (dom_area M k) FAc EAc B1 ltac:(lra)) as [l [L [L1 [L2 [RL GL]]]]].
      destruct (ei_local h rho s kappa SL K1 KX alpha FA VA pfn t1 t2 n1 n2 o1 o2 mid1 mid2 _ _ (no_x _ _ N1) (no_x _ _ N2) TR1 (td_c _ _ _ D1) _ _ _ _ nn (no_i _ _ N1) (no_i _ _ N2) (no_i _ _ (td_o _ _ _ D1))
        ac _ l L FAc EAc RL GL TR2 (td_c _ _ _ D2) (no_i _ _ (td_o _ _ _ D2)) ZB) as [us [US [Q1 [Q2 Q3]]]].
      - intros PF n Hn. assert (HC : In n [n1; n2; o1] \/ In n [n1; n2; o2]) by (cbn in *; tauto). destruct HC as [HC|HC].
        + destruct (PR1 n HC) as [c [-> V]]. apply (node_fine2 PF t1 c (td_in _ _ _ D1) V).
        + destruct (PR2 n HC) as [c [-> V]]. apply (node_fine2 PF t2 c (td_in _ _ _ D2) V).
      - intros PF t Ht. apply (tria_fine2 PF t). destruct Ht as [<-|[<-|[]]]; [apply (td_in _ _ _ D1)|apply (td_in _ _ _ D2)].
      - exact DA.
      - intros r Hr. destruct Hr as [<-|[<-|[<-|[<-|[]]]]]; [apply (nd_lt _ _ N1)|apply (nd_lt _ _ N2)|apply (nd_lt _ _ (td_o _ _ _ D1))|apply (nd_lt _ _ (td_o _ _ _ D2))].
      - exists us, US. split; [|split; [|exact Q3]].
        + eapply interior_rest; [apply (td_m _ _ _ D1)|apply (td_m _ _ _ D2)| | |exact A1|exact L1|exact Q1]; [rewrite (ne_o1 _ _ _ _ _ _ NE), OE1|rewrite (ne_o2 _ _ _ _ _ _ NE), OE2]; cbn [other_node get_or bind]; [apply (no_g _ _ (td_o _ _ _ D1))|apply (no_g _ _ (td_o _ _ _ D2))].
        + eapply interior_rest; [apply (td_M _ _ _ D1)|apply (td_M _ _ _ D2)| | |exact A2|exact L2|exact Q2]; [rewrite OE1|rewrite OE2]; cbn [other_node get_or bind]; [apply (no_G _ _ (td_o _ _ _ D1))|apply (no_G _ _ (td_o _ _ _ D2))].
    Qed.

    Lemma edge_lock : exists us US hs, edge_shear lits_src mm pfn alpha mfa e = Ok us /\ edge_shear lits_src MM pfn (val alpha) mfa E = Ok US /\
      steps (nn * 5) bq eq_ us US hs /\ forall i j, (hits hs i j <= if both m (node_at m i) (node_at m j) k then 1 else 0)%nat.
    Proof.
      assert (KK : In (fst k) (node_keys m) /\ In (snd k) (node_keys m)).
      { assert (X := tris_on_nonempty m Wm _ Hk). destruct (tris_on m k) as [|t l] eqn:Q; [contradiction|]. destruct (edge_tria m Wm k t Hk) as [_ [_ [_ [_ [A [B _]]]]]]; [rewrite Q; left; reflexivity|]. auto. }
      destruct (nd_ex _ (proj1 KK)) as [da Na]. destruct (nd_ex _ (proj2 KK)) as [db Nb].
      assert (KE := surjective_pairing k). assert (OR1 : (fst k, snd k) = k \/ (snd k, fst k) = k) by (left; auto). assert (OR2 : (snd k, fst k) = k \/ (fst k, snd k) = k) by (right; auto).
      destruct ends as [En1 En2]. assert (I1 : en1 e = fst k) by (rewrite <- En1; reflexivity). assert (I2 : en2 e = snd k) by (rewrite <- En1; reflexivity). assert (J1 : en1 E = fst k) by (rewrite <- En2; reflexivity). assert (J2 : en2 E = snd k) by (rewrite <- En2; reflexivity).
      unfold edge_shear. rewrite I1, I2, J1, J2, (ne_t _ _ _ _ _ _ NE), (rd_trias _ _ _ RK), (tris_on_lock _ _ LK), map_map.
      rewrite (no_g _ _ Na), (no_g _ _ Nb), (no_G _ _ Na), (no_G _ _ Nb). cbn [bind].
      destruct (rd_dom _ _ _ RK) as [n1 [n2 [OR CS]]]. destruct CS as [[t1 R1]|[t1 [t2 R2]]].
      - assert (Q := r1_tris _ _ _ _ _ _ R1). rewrite (tris_on_lock _ _ LK) in Q. assert (OE := r1_o1 _ _ _ _ _ _ R1). clear R1.
        destruct (tris_on m k) as [|t [|t' l]] eqn:TK; try discriminate. injection Q as <-. change (third (tria_val t) k) with (third t k) in OE.
        destruct (td_ex t) as [mid [o TD]]; [rewrite TK; left; reflexivity|]. cbn [map]. change (eid (tria_val t)) with (eid t).
        rewrite (td_g _ _ _ TD), (td_G _ _ _ TD). cbn [bind]. rewrite (td_m _ _ _ TD), (td_M _ _ _ TD). cbn [bind].
        destruct (td_tri _ _ _ _ _ _ _ TD OR1 Na Nb) as [TR _].
        destruct (orient_edge_near h rho s kappa SL da db mid _ _ (no_x _ _ Na) (no_x _ _ Nb) TR (td_c _ _ _ TD)) as [O1 O2]. rewrite O1, O2.
        assert (DS := td_d _ _ _ TD). destruct DS as [DS1 [DS2 DS3]].
        destruct (Rlt_dec _ 0) as [LT|GE].
        + destruct (bnd_lock t mid o (snd k) (fst k) db da TK TD OE OR2 Nb Na) as [us [US [U1 [U2 U3]]]]. exists us, US. eexists. split; [exact U1|]. split; [exact U2|]. split; [exact U3|].
          apply (hits_dom [snd k; fst k; third t k]).
          * repeat constructor; cbn; intuition congruence.
          * intros n Hn. apply (on_dom _ _ _ TD). cbn in *; tauto.
        + destruct (bnd_lock t mid o (fst k) (snd k) da db TK TD OE OR1 Na Nb) as [us [US [U1 [U2 U3]]]]. exists us, US. eexists. split; [exact U1|]. split; [exact U2|]. split; [exact U3|].
          apply (hits_dom [fst k; snd k; third t k]).
          * repeat constructor; cbn; intuition congruence.
          * intros n Hn. apply (on_dom _ _ _ TD). exact Hn.
      - assert (Q := r2_tris _ _ _ _ _ _ _ R2). rewrite (tris_on_lock _ _ LK) in Q. assert (OE1 := r2_o1 _ _ _ _ _ _ _ R2). assert (OE2 := r2_o2 _ _ _ _ _ _ _ R2).
        assert (DT1 := r2_det1 _ _ _ _ _ _ _ R2). assert (DT2 := r2_det2 _ _ _ _ _ _ _ R2). clear R2.
        destruct (tris_on m k) as [|t [|t' [|t'' l]]] eqn:TK; try discriminate. injection Q as <- <-.
        change (third (tria_val t) k) with (third t k) in *. change (third (tria_val t') k) with (third t' k) in *.
        assert (DO : third t k <> third t' k) by (intros X; rewrite X in DT1; lra).
        destruct (td_ex t) as [mid [o TD]]; [rewrite TK; left; reflexivity|]. destruct (td_ex t') as [mid' [o' TD']]; [rewrite TK; right; left; reflexivity|].
        cbn [map]. change (eid (tria_val t)) with (eid t). change (eid (tria_val t')) with (eid t').
        rewrite (td_g _ _ _ TD), (td_G _ _ _ TD). cbn [bind]. rewrite (td_m _ _ _ TD), (td_M _ _ _ TD). cbn [bind].
        destruct (td_tri _ _ _ _ _ _ _ TD OR1 Na Nb) as [TR _].
        destruct (orient_edge_near h rho s kappa SL da db mid _ _ (no_x _ _ Na) (no_x _ _ Nb) TR (td_c _ _ _ TD)) as [O1 O2]. rewrite O1, O2.
        assert (DS := td_d _ _ _ TD). destruct DS as [DS1 [DS2 DS3]]. assert (DS' := td_d _ _ _ TD'). destruct DS' as [_ [DS4 DS5]].
        destruct (Rlt_dec _ 0) as [LT|GE]; rewrite (td_g _ _ _ TD'), (td_G _ _ _ TD'); cbn [bind].
        + destruct (int_lock t t' mid mid' o o' (snd k) (fst k) db da TK TD TD' OE1 OE2 OR2 Nb Na) as [us [US [U1 [U2 U3]]]]. exists us, US. eexists. split; [exact U1|]. split; [exact U2|]. split; [exact U3|].
          apply (hits_dom [snd k; fst k; third t k; third t' k]).
          * repeat constructor; cbn; intuition congruence.
          * intros n Hn. assert (HC : In n [fst k; snd k; third t k] \/ In n [fst k; snd k; third t' k]) by (cbn in *; tauto). destruct HC; [apply (on_dom _ _ _ TD)|apply (on_dom _ _ _ TD')]; assumption.
        + destruct (int_lock t t' mid mid' o o' (fst k) (snd k) da db TK TD TD' OE1 OE2 OR1 Na Nb) as [us [US [U1 [U2 U3]]]]. exists us, US. eexists. split; [exact U1|]. split; [exact U2|]. split; [exact U3|].
          apply (hits_dom [fst k; snd k; third t k; third t' k]).
          * repeat constructor; cbn; intuition congruence.
          * intros n Hn. assert (HC : In n [fst k; snd k; third t k] \/ In n [fst k; snd k; third t' k]) by (cbn in *; tauto). destruct HC; [apply (on_dom _ _ _ TD)|apply (on_dom _ _ _ TD')]; assumption.
    Qed.
  End One.
End Edges.
