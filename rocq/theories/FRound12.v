(** Assembly of the contributions in doubles and in reals. *)
From Coq Require Import ZArith Reals List Bool Arith Lra Lia QArith Qreals Permutation.
From Flocq Require Import Core.
From Verif Require Import Num Float Py Mesh Utils CalcK0 Spec SpecK0 SpecRound FDict FWf FOut FSetup FMat FAsm FK0 FFloat FTree FRound FRound2 FRound3 FRound4 FRound5 FRound6 FRound7 FRound8 FRound9 FRound10 FRound11.
Import ListNotations.
Local Open Scope R_scope.

Lemma nidx_pos : forall n i, (0 <= i < Z.of_nat n)%Z -> nidx n i = Z.to_nat i.
Proof. intros n i H. unfold nidx, pyidx. destruct (Z.leb_spec 0 i); [|lia]. destruct (Z.ltb_spec i (Z.of_nat n)); [reflexivity|lia]. Qed.

Section Updates.
  Variables h rho s kappa : R.
  Let delta := kappa * roundoff.
  Variables (n : nat) (D : list Z).
  Hypothesis HD : forall d, In d D -> (0 <= d < Z.of_nat n)%Z.

  (** an entry is not changed *)
  Definition kept (x : double) (X : R) (x' : double) (X' : R) : Prop :=
    finite x -> Rabs (val x) <= bpow radix2 1000 -> finite x' /\ val x' = val x /\ X' = X.
  (** or it gets one contribution *)
  Definition got (x : double) (X : R) (x' : double) (X' : R) : Prop :=
    exists y Y, nearF h rho s delta entb y Y /\
      (finite x -> Rabs (val x) <= bpow radix2 1000 -> Rabs (val x + val y) <= bpow radix2 1000 -> finite x' /\ val x' = rnd (val x + val y) /\ X' = X + Y).

  Lemma kept_refl : forall x X, kept x X x X.
  Proof. intros x X F B. auto. Qed.
  Lemma kept_trans : forall x X y Y z Z, kept x X y Y -> kept y Y z Z -> kept x X z Z.
  Proof. intros x X y Y z Z K L F B. destruct (K F B) as [F' [E ->]]. rewrite <- E in B. destruct (L F' B) as [F2 [E2 ->]]. rewrite E2, E. auto. Qed.
  Lemma kept_got : forall x X y Y z Z, kept x X y Y -> got y Y z Z -> got x X z Z.
  Proof.
    intros x X y Y z Z K [w [W [N G]]]. exists w, W. split; [exact N|]. intros F B S. destruct (K F B) as [F' [E ->]]. rewrite <- E in B, S.
    destruct (G F' B S) as [F2 [E2 E3]]. rewrite E2, E. auto.
  Qed.
  Lemma rnd_1000 : forall x, Rabs x <= bpow radix2 1000 -> Rabs (rnd x) <= bpow radix2 1000.
  Proof.
    intros x B. assert (VE := @FLT_exp_valid (-1074) 53 eq_refl). unfold rnd. apply abs_round_le_generic; [exact VE|auto with typeclass_instances| |exact B].
    apply generic_format_bpow. unfold FLT_exp. lia.
  Qed.
  Lemma got_kept : forall x X y Y z Z, got x X y Y -> kept y Y z Z -> got x X z Z.
  Proof.
    intros x X y Y z Z [w [W [N G]]] K. exists w, W. split; [exact N|]. intros F B S. destruct (G F B S) as [F' [E ->]].
    destruct (K F') as [F2 [E2 ->]]; [rewrite E; apply rnd_1000, S|]. rewrite E2, E. auto.
  Qed.
  Lemma zero_kept : forall x X y, finite y -> val y = 0 -> kept x X (nadd x y) (X + 0).
  Proof.
    intros x X y F0 V F B. destruct (fl_add x y F F0) as [F' E]; [rewrite V, Rplus_0_r; exact B|].
    rewrite E, V, Rplus_0_r, (rnd_val x F). split; [exact F'|]. split; [reflexivity|ring].
  Qed.

  Definition zz (i j : nat) : Z * Z := (Z.of_nat i, Z.of_nat j).

  (** one update *)
  Lemma update_step : forall u U k K, upd_near h rho s kappa D u U -> in_range n (fst (fst u)) -> in_range n (snd (fst u)) -> mdim k = n -> mdim K = n ->
    exists k' K', mupdate u k = (k', Ok tt) /\ mupdate U K = (K', Ok tt) /\ mdim k' = n /\ mdim K' = n /\
      forall i j, kept (mentry k i j) (mentry K i j) (mentry k' i j) (mentry K' i j) \/
        (fst u = zz i j /\ In (Z.of_nat i) D /\ In (Z.of_nat j) D /\ got (mentry k i j) (mentry K i j) (mentry k' i j) (mentry K' i j)).
  Proof.
    intros [[r c] x] [[r' c'] X] k K [E H] Ir Ic Dk DK. cbn [fst snd] in *. injection E as <- <-. unfold mupdate. rewrite Dk, DK.
    destruct (pyidx_in_range n r Ir) as [Er Lr]. destruct (pyidx_in_range n c Ic) as [Ec Lc]. rewrite Er, Ec.
    eexists; eexists. split; [reflexivity|]. split; [reflexivity|]. split; [exact Dk|]. split; [exact DK|].
    intros i j. cbn [mentry madd_at]. destruct (Nat.eqb_spec i (nidx n r)) as [Ei|]; [|left; apply kept_refl]. destruct (Nat.eqb_spec j (nidx n c)) as [Ej|]; [|left; apply kept_refl].
    cbn [andb]. destruct H as [[H1 [H2 N]]|[F [V ->]]].
    - right. assert (R := HD r H1). assert (C := HD c H2). rewrite nidx_pos in Ei, Ej by assumption. subst i j. unfold zz. rewrite !Z2Nat.id by lia.
      split; [reflexivity|]. split; [exact H1|]. split; [exact H2|]. exists x, X. split; [exact N|]. intros Fx B S. destruct (fl_add _ _ Fx (proj1 N) S) as [F' E]. split; [exact F'|]. split; [exact E|reflexivity].
    - left. apply (zero_kept (mentry k i j) (mentry K i j) x F V).
  Qed.

  Lemma updates_step : forall us US, Forall2 (upd_near h rho s kappa D) us US -> upds_ok n us -> NoDup (map fst us) -> forall k K, mdim k = n -> mdim K = n ->
    exists k' K', mupdates us k = (k', Ok tt) /\ mupdates US K = (K', Ok tt) /\ mdim k' = n /\ mdim K' = n /\
      forall i j, kept (mentry k i j) (mentry K i j) (mentry k' i j) (mentry K' i j) \/
        (In (zz i j) (map fst us) /\ In (Z.of_nat i) D /\ In (Z.of_nat j) D /\ got (mentry k i j) (mentry K i j) (mentry k' i j) (mentry K' i j)).
  Proof.
    intros us US F. induction F as [|u U us US N F IH]; intros OK ND k K Dk DK.
    - exists k, K. split; [reflexivity|]. split; [reflexivity|]. split; [exact Dk|]. split; [exact DK|]. intros i j. left. apply kept_refl.
    - destruct (update_step u U k K N) as [k1 [K1 [E1 [E2 [D1 [D2 H1]]]]]]; [apply (OK u); left; reflexivity|apply (OK u); left; reflexivity|exact Dk|exact DK|].
      cbn [map] in ND. inversion ND as [|a l NI ND' [EA EL]]; subst.
      destruct (IH (fun x Hx => OK x (or_intror Hx)) ND' k1 K1 D1 D2) as [k2 [K2 [E3 [E4 [D3 [D4 H2]]]]]].
      exists k2, K2. unfold mupdates in *. cbn [for_each]. rewrite E1, E2. split; [exact E3|]. split; [exact E4|]. split; [exact D3|]. split; [exact D4|].
      intros i j. destruct (H1 i j) as [A|[A1 [A2 [A3 A4]]]], (H2 i j) as [B|[B1 [B2 [B3 B4]]]].
      + left. eapply kept_trans; eassumption.
      + right. split; [right; exact B1|]. split; [exact B2|]. split; [exact B3|]. eapply kept_got; eassumption.
      + right. split; [left; exact A1|]. split; [exact A2|]. split; [exact A3|]. eapply got_kept; eassumption.
      + exfalso. apply NI. rewrite A1. exact B1.
  Qed.
End Updates.

(** ** The error after some contributions *)
Section Inv.
  Variables h rho s kappa : R.
  Hypothesis SL : scales h rho s (kappa * roundoff).
  Let delta := kappa * roundoff.
  Definition big : R := 864 * (rho * rho) * s.
  Definition err : R := 675000 * delta * (rho * rho * rho) * s.

  Definition inv (c : nat) (x : double) (X : R) : Prop :=
    finite x /\ Rabs X <= INR c * big /\ Rabs (val x - X) <= 3 / 2 * (INR c * INR c) * err.

  Lemma entb_bounds : forall y Y, nearF h rho s delta entb y Y -> finite y /\ Rabs Y <= big /\ Rabs (val y - Y) <= err.
  Proof.
    intros y Y [F [_ [_ [_ [A B]]]]]. unfold entb, sc in *. cbn [fv frv fd frd fh fs pow powerRZ] in *. unfold big, err.
    change (Q2R 864) with (864 * / 1) in A. change (Q2R 675000) with (675000 * / 1) in B. split; [exact F|]. split; lra.
  Qed.

  Lemma consts : 0 < s /\ 1 <= rho /\ 0 < delta /\ roundoff <= delta /\ 0 < big /\ 0 < err /\ roundoff * big <= / 781 * err /\ eta <= / 1000 * err /\ big <= 2 ^ 110 /\ err <= 2 ^ 110.
  Proof.
    assert (SP := s_pos _ _ _ _ SL). assert (R1 := sl_rho _ _ _ _ SL). assert (DP := d_pos _ _ _ _ SL). fold delta in DP.
    assert (DL := sl_delta _ _ _ _ SL). fold delta in DL. assert (SM := sl_small _ _ _ _ SL). fold delta in SM.
    assert (RM := rho_max rho _ (sl_delta _ _ _ _ SL) (sl_small _ _ _ _ SL)). assert (SS := sl_s _ _ _ _ SL). unfold in64 in SS.
    assert (R2 : 1 <= rho * rho) by (rewrite <- (Rmult_1_r 1) at 1; apply Rmult_le_compat; lra).
    assert (R3 : rho * rho <= rho * rho * rho) by (rewrite <- (Rmult_1_r (rho * rho)) at 1; apply Rmult_le_compat_l; lra).
    assert (UP : 0 < roundoff) by (unfold roundoff; lra).
    assert (P2 : 0 < rho * rho * s) by (repeat apply Rmult_lt_0_compat; lra). assert (P3 : 0 < rho * rho * rho * s) by (repeat apply Rmult_lt_0_compat; lra).
    assert (EP : 0 < err) by (unfold err; replace (675000 * delta * (rho * rho * rho) * s) with (675000 * (delta * (rho * rho * rho * s))) by ring; apply Rmult_lt_0_compat; [lra|apply Rmult_lt_0_compat; assumption]).
    assert (Q : roundoff * (rho * rho * s) <= delta * (rho * rho * rho * s)).
    { apply Rmult_le_compat; [lra|lra|exact DL|]. apply Rmult_le_compat_r; lra. }
    assert (P4 : 0 < delta * (rho * rho * rho * s)) by (apply Rmult_lt_0_compat; lra).
    assert (EE : eta <= roundoff * s).
    { unfold eta. assert (X : bpow radix2 (-1074) <= bpow radix2 (-117)) by (apply bpow_le; lia).
      assert (Y : bpow radix2 (-117) = / 166153499473114484112975882535043072) by reflexivity. rewrite Y in X.
      apply Rle_trans with (roundoff * / 18446744073709551616); [unfold roundoff; lra|]. apply Rmult_le_compat_l; lra. }
    split; [exact SP|]. split; [exact R1|]. split; [exact DP|]. split; [exact DL|].
    split; [unfold big; rewrite Rmult_assoc; apply Rmult_lt_0_compat; lra|]. split; [exact EP|].
    split; [unfold big, err; lra|]. split.
    - apply Rle_trans with (roundoff * s); [exact EE|]. unfold err. apply Rle_trans with (roundoff * (rho * rho * s)); [apply Rmult_le_compat_l; [lra|]; rewrite <- (Rmult_1_l s) at 1; apply Rmult_le_compat_r; lra|]. lra.
    - assert (B2 : rho * rho * s <= 131072 * 131072 * 18446744073709551616).
      { apply Rmult_le_compat; [lra|lra| |lra]. apply Rmult_le_compat; lra. }
      assert (B3 : delta * (rho * rho) * (rho * s) <= / 1048576 * (131072 * 18446744073709551616)).
      { apply Rmult_le_compat; [|apply Rmult_le_pos; lra|exact SM|apply Rmult_le_compat; lra]. apply Rmult_le_pos; lra. }
      unfold big, err. split; [lra|]. replace (675000 * delta * (rho * rho * rho) * s) with (675000 * (delta * (rho * rho) * (rho * s))) by ring. lra.
  Qed.

  Lemma inv_size : forall c x X, inv c x X -> INR c <= 4294967296 -> Rabs (val x) <= bpow radix2 900.
  Proof.
    intros c x X [F [A B]] C. destruct consts as [SP [R1 [DP [DL [BP [EP [_ [_ [BM EM]]]]]]]]]. assert (C0 := pos_INR c).
    assert (X1 : INR c * big <= 4294967296 * 2 ^ 110) by (apply Rmult_le_compat; lra).
    assert (X2 : INR c * INR c <= 4294967296 * 4294967296) by (apply Rmult_le_compat; lra).
    assert (X3 : 3 / 2 * (INR c * INR c) * err <= 3 / 2 * (4294967296 * 4294967296) * 2 ^ 110).
    { apply Rmult_le_compat; [|lra| |exact EM]; [apply Rmult_le_pos; [lra|apply Rmult_le_pos; lra]|]. apply Rmult_le_compat_l; lra. }
    assert (Y : bpow radix2 200 <= bpow radix2 900) by (apply bpow_le; lia). eapply Rle_trans; [|exact Y].
    assert (Z : bpow radix2 200 = 1606938044258990275541962092341162602522202993782792835301376) by reflexivity. rewrite Z.
    apply abs_split in A, B. apply abs_join; lra.
  Qed.

  Lemma inv_mono : forall c c' x X, inv c x X -> (c <= c')%nat -> inv c' x X.
  Proof.
    intros c c' x X [F [A B]] L. apply le_INR in L. destruct consts as [_ [_ [_ [_ [BP [EP _]]]]]]. assert (C0 := pos_INR c).
    split; [exact F|]. split.
    - eapply Rle_trans; [exact A|]. apply Rmult_le_compat_r; lra.
    - eapply Rle_trans; [exact B|]. apply Rmult_le_compat_r; [lra|]. apply Rmult_le_compat_l; [lra|]. apply Rmult_le_compat; lra.
  Qed.

  Lemma inv_kept : forall c x X x' X', inv c x X -> INR c <= 4294967296 -> kept x X x' X' -> inv c x' X'.
  Proof.
    intros c x X x' X' I C K. assert (S := inv_size _ _ _ I C). destruct I as [F [A B]].
    destruct (K F) as [F' [E ->]]; [eapply Rle_trans; [exact S|apply bpow_le; lia]|]. split; [exact F'|]. rewrite E. auto.
  Qed.

  Lemma inv_got : forall c x X x' X', inv c x X -> INR (S c) <= 4294967296 -> got h rho s kappa x X x' X' -> inv (S c) x' X'.
  Proof.
    intros c x X x' X' I C [y [Y [N G]]]. destruct (entb_bounds y Y N) as [Fy [BY EY]].
    assert (CC : INR c <= 4294967296) by (rewrite S_INR in C; lra).
    assert (S := inv_size _ _ _ I CC). pose proof I as [F [A B]]. destruct consts as [SP [R1 [DP [DL [BP [EP [UB [ET [BM EM]]]]]]]]]. assert (C0 := pos_INR c).
    rewrite S_INR in C. assert (UP : 0 < roundoff) by (unfold roundoff; lra).
    assert (H9 : bpow radix2 900 <= bpow radix2 1000) by (apply bpow_le; lia).
    assert (H2 : 4 * 2 ^ 110 <= bpow radix2 900) by (apply Rle_trans with (bpow radix2 200); [assert (Z : bpow radix2 200 = 1606938044258990275541962092341162602522202993782792835301376) by reflexivity; rewrite Z; lra|apply bpow_le; lia]).
    assert (H1 : 2 * bpow radix2 900 <= bpow radix2 1000).
    { replace (2 * bpow radix2 900) with (bpow radix2 1 * bpow radix2 900) by reflexivity. rewrite <- bpow_plus. apply bpow_le. lia. }
    assert (VY : Rabs (val y) <= big + err) by (apply abs_split in BY, EY; apply abs_join; lra).
    destruct (G F) as [F' [E ->]]; [lra|apply abs_split in VY, S; apply abs_join; lra|]. clear S.
    split; [exact F'|]. rewrite S_INR. split; [apply abs_split in A, BY; apply abs_join; lra|].
    assert (RE := rnd_err (val x + val y)). rewrite <- E in RE.
    assert (W : Rabs (val x + val y) <= INR c * big + 3 / 2 * (INR c * INR c) * err + big + err) by (apply abs_split in A, B, VY; apply abs_join; lra).
    assert (W2 : roundoff * Rabs (val x + val y) <= roundoff * (INR c * big + 3 / 2 * (INR c * INR c) * err + big + err)) by (apply Rmult_le_compat_l; lra).
    assert (U1 : INR c * (roundoff * big) <= INR c * (/ 781 * err)) by (apply Rmult_le_compat_l; lra).
    assert (U2 : roundoff * INR c * (INR c * err) <= / 1048576 * (INR c * err)).
    { apply Rmult_le_compat_r; [apply Rmult_le_pos; lra|]. apply Rle_trans with (roundoff * 4294967296); [apply Rmult_le_compat_l; lra|unfold roundoff; lra]. }
    assert (U3 : roundoff * err <= / 1048576 * err) by (apply Rmult_le_compat_r; [lra|unfold roundoff; lra]).
    assert (CE : 0 <= INR c * err) by (apply Rmult_le_pos; lra).
    assert (CCE : 0 <= INR c * INR c * err) by (apply Rmult_le_pos; [apply Rmult_le_pos|]; lra).
    assert (T : roundoff * Rabs (val x + val y) + eta <= / 100 * (INR c * err) + / 100 * err).
    { eapply Rle_trans; [apply Rplus_le_compat; [exact W2|exact ET]|].
      replace (roundoff * (INR c * big + 3 / 2 * (INR c * INR c) * err + big + err)) with (INR c * (roundoff * big) + 3 / 2 * (roundoff * INR c * (INR c * err)) + roundoff * big + roundoff * err) by ring. lra. }
    assert (FIN : roundoff * Rabs (val x + val y) + eta + 3 / 2 * (INR c * INR c) * err + err <= 3 / 2 * ((INR c + 1) * (INR c + 1)) * err).
    { replace (3 / 2 * ((INR c + 1) * (INR c + 1)) * err) with (3 / 2 * (INR c * INR c * err) + 3 * (INR c * err) + 3 / 2 * err) by field.
      replace (3 / 2 * (INR c * INR c) * err) with (3 / 2 * (INR c * INR c * err)) by ring. lra. }
    apply abs_split in RE, B, EY. apply abs_join; lra.
  Qed.
End Inv.

(** ** Checks and setup *)
Section Calc.
  Variables (m : mesh double) (h rho s kappa : R) (pfn : bool).
  Hypothesis KS : k0_scale m h rho kappa s.
  Hypothesis WM : wf_mesh (mesh_val m).
  Hypothesis PL : plate (mesh_val m).
  Hypothesis PC : props_complete (mesh_val m) pfn.
  Hypothesis NN : nodes m <> [].
  Notation M := (mesh_val m).
  Notation sl := (SL m h rho s kappa KS).

  Lemma check_lock : forall l, check_edges M pfn (map (fun x => (fst x, edge_val (snd x))) l) = check_edges m pfn l.
  Proof.
    induction l as [|[k e] l IH]; [reflexivity|]. cbn [map check_edges fst snd]. rewrite IH.
    assert (E : check_edge M pfn (edge_val e) = check_edge m pfn e); [|rewrite E; reflexivity].
    unfold check_edge. destruct pfn.
    - change (en1 (edge_val e)) with (en1 e). change (en2 (edge_val e)) with (en2 e). rewrite !(get_node_lock _ _ (lock_val m)).
      destruct (get_node m (en1 e)) as [a|]; [|reflexivity]. cbn [rmap bind]. cbn [nprop node_val]. destruct (nprop a); [|reflexivity]. cbn [option_map is_none].
      destruct (get_node m (en2 e)) as [b|]; [|reflexivity]. cbn [rmap bind]. cbn [nprop node_val]. destruct (nprop b); reflexivity.
    - change (etrias (edge_val e)) with (etrias e). induction (etrias e) as [|t l' IH']; [reflexivity|]. rewrite (get_tria_lock _ _ (lock_val m)).
      destruct (get_tria m t) as [a|]; [|reflexivity]. cbn [rmap bind]. cbn [tprop tria_val]. destruct (tprop a); [|reflexivity]. cbn [option_map is_none]. exact IH'.
  Qed.

  Definition in_step (x : (nat * nat) * edge double) (X : (nat * nat) * edge R) : Prop := fst x = fst X /\ near_edge h rho s kappa (snd x) (snd X).

  Lemma setups_lock : forall l, (forall x, In x l -> In x (edges m)) -> exists es ES, setup_edges m l = (es, Ok tt) /\
    setup_edges M (map (fun x => (fst x, edge_val (snd x))) l) = (ES, Ok tt) /\ Forall2 in_step es ES /\ map fst es = map fst l.
  Proof.
    induction l as [|[k e] l IH]; intros H.
    - exists [], []. split; [reflexivity|]. split; [reflexivity|]. split; [constructor|reflexivity].
    - destruct (setup_lock m h rho s kappa KS WM PL k e (H _ (or_introl eq_refl))) as [e' [E' [A [B N]]]].
      destruct IH as [es [ES [C [D [F K]]]]]; [intros x Hx; apply H; right; exact Hx|].
      exists ((k, e') :: es), ((k, E') :: ES). cbn [map setup_edges fst snd]. rewrite A, B, C, D. split; [reflexivity|]. split; [reflexivity|].
      split; [constructor; [split; [reflexivity|exact N]|exact F]|]. rewrite K; reflexivity.
  Qed.

  Definition both (n n' : nat) (k : nat * nat) : bool := existsb (is_vertex n) (tris_on m k) && existsb (is_vertex n') (tris_on m k).
  Definition cnt (n n' : nat) (ks : list (nat * nat)) : nat := length (filter (both n n') ks).

  Lemma both_true : forall n n' k, on_domain m k n -> on_domain m k n' -> both n n' k = true.
  Proof.
    intros n n' k [t [T V]] [t' [T' V']]. unfold both. apply andb_true_intro. split; apply existsb_exists; [exists t|exists t']; (split; [assumption|]); apply is_vertex_iff; assumption.
  Qed.

  Section Asm.
    Variables (es : list ((nat * nat) * edge double)) (ES : list ((nat * nat) * edge R)).
    Notation m2 := (number m es).
    Notation M2 := (number M ES).
    Hypothesis EK : map fst ES = edge_keys M.
    Hypothesis RD : forall k e, In (k, e) ES -> ready M k e.

    Lemma assemble_lock : forall l L, Forall2 in_step l L -> (forall x, In x L -> In x ES) -> forall k K, mdim k = (length (nodes m) * 5)%nat -> mdim K = (length (nodes m) * 5)%nat ->
      exists k' K', k0_assemble m2 pfn l k = Ok k' /\ k0_assemble M2 pfn L K = Ok K' /\
        forall n n' a b c, In n (node_keys m) -> In n' (node_keys m) -> (a < 5)%nat -> (b < 5)%nat ->
          let i := (rank m n * 5 + a)%nat in let j := (rank m n' * 5 + b)%nat in
          INR (c + cnt n n' (map fst L)) <= 4294967296 -> inv rho s kappa c (mentry k i j) (mentry K i j) ->
          inv rho s kappa (c + cnt n n' (map fst L)) (mentry k' i j) (mentry K' i j).
    Proof.
      intros l L F. induction F as [|[k0 e] [k0' E] l L [Q N] F IH]; intros HL k K Dk DK.
      - exists k, K. split; [reflexivity|]. split; [reflexivity|]. intros n n' a b c _ _ _ _ i j _ H. cbn [map cnt filter length]. unfold cnt. cbn. rewrite Nat.add_0_r. exact H.
      - cbn [fst snd] in *. subst k0'.
        assert (HE := HL _ (or_introl eq_refl)).
        assert (Hk : In k0 (edge_keys m)) by (rewrite <- edge_keys_val, <- EK; apply in_map_iff; exists (k0, E); auto).
        destruct (edge_lock m h rho s kappa KS WM PL pfn PC es ES EK RD k0 e E Hk HE N) as [us [US [D [X1 [X2 [OK [ND [UF HD]]]]]]]].
        assert (HD' : forall d, In d D -> (0 <= d < Z.of_nat (length (nodes m) * 5))%Z).
        { intros d Hd. destruct (HD d Hd) as [n [c [_ [In_ [C ->]]]]]. apply rank_lt in In_. lia. }
        assert (OK' : upds_ok (length (nodes m) * 5) us).
        { clear -UF OK. intros x Hx. induction UF as [|u U us US [Eu _] UF IH]; [destruct Hx|]. destruct Hx as [->|Hx].
          - rewrite Eu. apply (OK U). left; reflexivity.
          - apply IH; [|exact Hx]. intros y Hy. apply OK. right; exact Hy. }
        destruct (updates_step h rho s kappa _ D HD' us US UF OK' ND k K Dk DK) as [k1 [K1 [Y1 [Y2 [D1 [D2 ST]]]]]].
        destruct (IH (fun x Hx => HL x (or_intror Hx)) k1 K1 D1 D2) as [k2 [K2 [Z1 [Z2 FIN]]]].
        exists k2, K2. cbn [k0_assemble]. rewrite X1, X2. cbn [bind]. rewrite Y1, Y2. split; [exact Z1|]. split; [exact Z2|].
        intros n n' a b c Hn Hn' Ha Hb LE I. set (i := (rank m n * 5 + a)%nat) in *. set (j := (rank m n' * 5 + b)%nat) in *. cbn [map fst] in *.
        destruct (ST i j) as [KP|[_ [Di [Dj G]]]].
        + assert (LC : INR c <= 4294967296) by (eapply Rle_trans; [apply le_INR; apply Nat.le_add_r|exact LE]).
          assert (I1 := inv_kept h rho s kappa sl c _ _ _ _ I LC KP).
          unfold cnt in *. cbn [filter] in *. destruct (both n n' k0); cbn [length] in *.
          * rewrite Nat.add_succ_r in *. apply (FIN n n' a b (S c)); auto. apply (inv_mono h rho s kappa sl c); [exact I1|lia].
          * apply (FIN n n' a b c); auto.
        + assert (B : both n n' k0 = true).
          { destruct (HD _ Di) as [n1 [c1 [O1 [I1 [L1 E1]]]]]. destruct (HD _ Dj) as [n2 [c2 [O2 [I2 [L2 E2]]]]].
            assert (n1 = n) by (apply (rank_inj m); auto; unfold i in E1; lia). assert (n2 = n') by (apply (rank_inj m); auto; unfold j in E2; lia). subst n1 n2. apply both_true; assumption. }
          unfold cnt in *. cbn [filter] in *. rewrite B in *. cbn [length] in *. rewrite Nat.add_succ_r in *.
          apply (FIN n n' a b (S c)); auto. apply (inv_got h rho s kappa sl c) with (x := mentry k i j) (X := mentry K i j); [exact I| |exact G].
          eapply Rle_trans; [apply le_INR|exact LE]. lia.
    Qed.
  End Asm.

  Lemma filter_len : forall A (f : A -> bool) l, (length (filter f l) <= length l)%nat.
  Proof. induction l as [|a l IH]; cbn; [lia|]. destruct (f a); cbn; lia. Qed.

  Theorem calc_lock : exists K KR, snd (calc_k0 m pfn) = Ok K /\ snd (calc_k0 M pfn) = Ok KR /\
    forall n n' a b, In n (node_keys m) -> In n' (node_keys m) -> (a < 5)%nat -> (b < 5)%nat ->
      inv rho s kappa (shared m n n') (mentry K (rank m n * 5 + a) (rank m n' * 5 + b)) (mentry KR (rank m n * 5 + a) (rank m n' * 5 + b)).
  Proof.
    destruct (setups_lock (edges m) (fun x H => H)) as [es [ES [S1 [S2 [F EKm]]]]].
    destruct (setup_edges_ready M (edges M) WM PL (fun x H => H)) as [ES' [S3 [EK RD]]].
    change (map fst (edges M)) with (edge_keys M) in EK.
    assert (ES' = ES) by (change (edges M) with (map (fun x => (fst x, edge_val (snd x))) (edges m)) in S3; congruence). subst ES'.
    destruct (assemble_lock es ES EK RD es ES F (fun x H => H) (zeros (length (nodes m) * 5)) (zeros (length (nodes m) * 5)) eq_refl eq_refl) as [k [K [A1 [A2 G]]]].
    exists k, K. unfold calc_k0.
    assert (CK : check_edges m pfn (edges m) = Ok tt).
    { rewrite <- check_lock. change (map (fun x => (fst x, edge_val (snd x))) (edges m)) with (edges M). exact (check_edges_ok M pfn (edges M) WM PC (fun x H => H)). }
    change (edges M) with (map (fun x => (fst x, edge_val (snd x))) (edges m)). rewrite check_lock, CK, S1, S2.
    assert (EN : nodes M = map (fun x => (fst x, node_val (snd x))) (nodes m)) by reflexivity. assert (LN : length (nodes M) = length (nodes m)) by (rewrite EN; apply map_length).
    split; [|split].
    - destruct (nodes m) as [|x y] eqn:X; [contradiction|]. cbn [snd]. rewrite <- X in *. exact A1.
    - destruct (nodes M) as [|x y] eqn:X; [destruct (nodes m); [contradiction|discriminate]|]. cbn [snd]. rewrite <- X in *. rewrite LN. exact A2.
    - intros n n' a b Hn Hn' Ha Hb. assert (H := G n n' a b 0%nat Hn Hn' Ha Hb). cbn zeta in H. rewrite Nat.add_0_l in H. rewrite EK, edge_keys_val in H. change (cnt n n' (edge_keys m)) with (shared m n n') in H. apply H.
      + assert (L : (shared m n n' <= length (edges m))%nat) by (unfold shared; eapply Nat.le_trans; [apply filter_len|]; unfold edge_keys; rewrite map_length; lia).
        apply Rle_trans with (IZR (Z.of_nat (length (edges m)))); [rewrite <- INR_IZR_INZ; apply le_INR, L|]. apply IZR_le. exact (ks_edges _ _ _ _ _ KS).
      + unfold zeros; cbn [mentry]. destruct (fl_ofZ 0 ltac:(lia)) as [F0 V0]. split; [exact F0|]. rewrite V0. cbn [INR]. rnum. rewrite Rminus_0_r, Rabs_R0. split; lra.
  Qed.
End Calc.
