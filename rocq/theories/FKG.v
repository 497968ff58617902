(** Facts about calc_kG. *)
From Coq Require Import ZArith Reals List Bool Arith Lra Lia.
From Verif Require Import Num Py Mesh Utils GenK0 GenKG CalcK0 CalcKG Spec SpecK0 SpecKG FSum FMat FTensor FGenK0 FGenKG
  FGeom FDict FWf FSetup FAsm FK0 FSmooth FTot FAny.
Import ListNotations.
Local Open Scope R_scope.
Implicit Types (m : mesh R).

Lemma kG_updates_form : forall n ix Ac N rows u v, Ac <> 0 ->
  upd_form n (kG_updates ix Ac N rows) u v
  = Ac * work N (row_x ix Ac rows (gcomp n u 2)) (row_y ix Ac rows (gcomp n u 2))
                (row_x ix Ac rows (gcomp n v 2)) (row_y ix Ac rows (gcomp n v 2)).
Proof.
  intros n ix Ac N [[[r1 r2] r3] r4] u v H. unfold kG_updates. rewrite kG_entries_tensor by exact H.
  rewrite quad2_form. unfold comb; cbn [fold_right fst snd].
  unfold quad2, padd, pscale, pair0, work, row_x, row_y, seg_sum, gcomp; cbn [fst snd]. field. exact H.
Qed.

(** positions of the updates *)
Lemma kG_updates_pos : forall ix Ac N rows x, In x (kG_updates (T := R) ix Ac N rows) ->
  exists a b, (a < 4)%nat /\ (b < 4)%nat /\ fst x = ((nth a ix 0 * 5 + 2)%Z, (nth b ix 0 * 5 + 2)%Z).
Proof.
  intros ix Ac N [[[r1 r2] r3] r4] x H.
  assert (P : forall y, In y (map fst (kG_updates (T := R) ix Ac N (r1, r2, r3, r4))) ->
    exists a b, (a < 4)%nat /\ (b < 4)%nat /\ y = ((nth a ix 0 * 5 + 2)%Z, (nth b ix 0 * 5 + 2)%Z)).
  { unfold kG_updates, kG_entries. cbn [map fst]. intros y Hy. cbn [In] in Hy.
    repeat (destruct Hy as [<-|Hy];
      [first [
        exists 0%nat, 0%nat; split; [lia|split; [lia|reflexivity]] | exists 0%nat, 1%nat; split; [lia|split; [lia|reflexivity]]
      | exists 0%nat, 2%nat; split; [lia|split; [lia|reflexivity]] | exists 0%nat, 3%nat; split; [lia|split; [lia|reflexivity]]
      | exists 1%nat, 0%nat; split; [lia|split; [lia|reflexivity]] | exists 1%nat, 1%nat; split; [lia|split; [lia|reflexivity]]
      | exists 1%nat, 2%nat; split; [lia|split; [lia|reflexivity]] | exists 1%nat, 3%nat; split; [lia|split; [lia|reflexivity]]
      | exists 2%nat, 0%nat; split; [lia|split; [lia|reflexivity]] | exists 2%nat, 1%nat; split; [lia|split; [lia|reflexivity]]
      | exists 2%nat, 2%nat; split; [lia|split; [lia|reflexivity]] | exists 2%nat, 3%nat; split; [lia|split; [lia|reflexivity]]
      | exists 3%nat, 0%nat; split; [lia|split; [lia|reflexivity]] | exists 3%nat, 1%nat; split; [lia|split; [lia|reflexivity]]
      | exists 3%nat, 2%nat; split; [lia|split; [lia|reflexivity]] | exists 3%nat, 3%nat; split; [lia|split; [lia|reflexivity]] ]|]).
    destruct Hy. }
  apply P. apply in_map; exact H.
Qed.

Lemma slice5_ok : forall (d : list R) n i, length d = (n * 5)%nat -> (0 <= i < Z.of_nat n)%Z ->
  exists s, slice5 d i = Ok s /\ forall c, (c < 5)%nat -> nth0 c s = vec_of d (Z.to_nat i * 5 + c).
Proof.
  intros d n i L H. unfold slice5.
  assert (LS : length (firstn 5 (skipn (Z.to_nat (i * 5)) d)) = 5%nat).
  { rewrite firstn_length, skipn_length. lia. }
  rewrite LS; cbn [Nat.eqb]. eexists; split; [reflexivity|]. intros c Hc. unfold nth0, vec_of.
  replace (Z.to_nat i * 5 + c)%nat with (Z.to_nat (i * 5) + c)%nat by lia.
  rewrite <- (firstn_skipn 5 (skipn (Z.to_nat (i * 5)) d)) in LS.
  assert (X : forall k (l : list R), nth (k + c) l 0 = nth c (skipn k l) 0).
  { induction k as [|k IH]; intros l; [reflexivity|]. destruct l as [|a l]; [destruct c; reflexivity|]. cbn [skipn Nat.add nth]. apply IH. }
  rewrite X. change (#0)%num with 0. rewrite <- (firstn_skipn 5 (skipn (Z.to_nat (i * 5)) d)) at 2.
  rewrite app_nth1; [reflexivity|]. rewrite firstn_length, skipn_length. lia.
Qed.

Section Edge.
  Variable m : mesh R.
  Hypothesis W : wf_mesh m.
  Hypothesis PL : plate m.
  Variable pfn : bool.
  Hypothesis PC : props_complete m pfn.
  Variables (k : nat * nat) (e : edge R).
  Hypothesis Hk : In k (edge_keys m).
  Hypothesis RD : ready m k e.
  Hypothesis I : indexed m.
  Variable dummy : Z.

  Let n := length (nodes m).

  Lemma row_smooth : forall ix rows,
    (forall g, row_x ix (dom_area m k) rows g = sgx m k (fun n => g (zr m n)) /\
               row_y ix (dom_area m k) rows g = sgy m k (fun n => g (zr m n))) ->
    forall w c, (c < 5)%nat ->
    row_x ix (dom_area m k) rows (gcomp (n * 5) w (Z.of_nat c)) = sgx m k (comp m w c) /\
    row_y ix (dom_area m k) rows (gcomp (n * 5) w (Z.of_nat c)) = sgy m k (comp m w c).
  Proof.
    intros ix rows G w c Hc. destruct (G (gcomp (n * 5) w (Z.of_nat c))) as [-> ->].
    split; [apply sgx_ext|apply sgy_ext]; intros a Ha; apply gcomp_comp; auto; apply (on_domain_key m W k a Ha).
  Qed.

  Hypothesis DR : (- Z.of_nat n <= dummy < Z.of_nat n)%Z.

  Lemma k0_edge_dummy_ready : exists us,
    k0_edge_dummy dummy m pfn e = Ok us /\ upds_ok (n * 5) us /\
    forall u v, upd_form (n * 5) us u v
      = dom_area m k * dens (edge_stiffness m pfn pA k) (edge_stiffness m pfn pB k)
          (edge_stiffness m pfn pD k) (smoothed_strain m u k) (smoothed_strain m v k).
  Proof.
    assert (POS := dom_area_pos m W PL k Hk).
    destruct (edge_rows m W PL I k e Hk RD dummy) as [ix [rows [E1 [L [B [E2 G]]]]]].
    assert (ETA : exists ta, edge_areas m e = Ok ta)
      by (destruct (edge_areas_ready m W PL k e Hk RD) as [[t1 [_ H]]|[t1 [t2 [_ H]]]]; eauto).
    destruct ETA as [ta Eta].
    destruct (edge_ABD_ready m W PL pfn PC k e Hk RD ta Eta) as [abd [E3 S]].
    exists (k0_updates ix (dom_area m k) (abd pA) (abd pB) (abd pD) rows).
    split; [|split].
    - unfold k0_edge_dummy. rewrite Eta; cbn [bind]. rewrite E1; cbn [bind]. rewrite E2; cbn [bind].
      rewrite (rd_Ac m k e RD); cbn [get_or bind]. rewrite E3; reflexivity.
    - apply k0_updates_range; [exact L|].
      intros j c Hj Hc. unfold in_range. destruct (B j Hj) as [->|[a [Kn [-> _]]]].
      + lia.
      + apply rank_lt in Kn. unfold zr. fold n in Kn. lia.
    - intros u v. rewrite k0_updates_form by lra. rewrite !S.
      assert (RS : forall w, row_strain (n * 5) ix (dom_area m k) rows w = smoothed_strain m w k).
      { intros w. unfold row_strain, smoothed_strain. assert (X := row_smooth ix rows G w).
        destruct (X 0%nat) as [X0 Y0]; [lia|]. destruct (X 1%nat) as [X1 Y1]; [lia|].
        destruct (X 3%nat) as [X3 Y3]; [lia|]. destruct (X 4%nat) as [X4 Y4]; [lia|].
        change (Z.of_nat 0) with 0%Z in *. change (Z.of_nat 1) with 1%Z in *.
        change (Z.of_nat 3) with 3%Z in *. change (Z.of_nat 4) with 4%Z in *.
        rewrite X0, X1, X3, X4, Y0, Y1, Y3, Y4. reflexivity. }
      rewrite !RS. reflexivity.
  Qed.

  Hypothesis DP : (0 <= dummy)%Z.
  Variable d : list R.
  Hypothesis Ld : length d = (n * 5)%nat.

  Lemma kG_edge_dummy_ready : exists us,
    kG_edge_dummy dummy m pfn d e = Ok us /\ upds_ok (n * 5) us /\
    forall u v, upd_form (n * 5) us u v = edge_work m pfn (vec_of d) u v k.
  Proof.
    assert (POS := dom_area_pos m W PL k Hk).
    destruct (edge_rows m W PL I k e Hk RD dummy) as [ix [rows [E1 [L [B [E2 G]]]]]].
    assert (ETA : exists ta, edge_areas m e = Ok ta)
      by (destruct (edge_areas_ready m W PL k e Hk RD) as [[t1 [_ H]]|[t1 [t2 [_ H]]]]; eauto).
    destruct ETA as [ta Eta].
    destruct (edge_ABD_ready m W PL pfn PC k e Hk RD ta Eta) as [abd [E3 S]].
    assert (RNG : forall a, (a < 4)%nat -> (0 <= nth a ix 0%Z < Z.of_nat n)%Z).
    { intros a Ha. destruct (B (nth a ix 0%Z)) as [->|[x [Kn [-> _]]]].
      - apply nth_In; lia.
      - lia.
      - apply rank_lt in Kn. unfold zr. fold n in Kn. lia. }
    destruct (slice5_ok d n (nth 0 ix 0%Z) Ld (RNG 0%nat ltac:(lia))) as [s0 [S0 N0]].
    destruct (slice5_ok d n (nth 1 ix 0%Z) Ld (RNG 1%nat ltac:(lia))) as [s1 [S1 N1]].
    destruct (slice5_ok d n (nth 2 ix 0%Z) Ld (RNG 2%nat ltac:(lia))) as [s2 [S2 N2]].
    destruct (slice5_ok d n (nth 3 ix 0%Z) Ld (RNG 3%nat ltac:(lia))) as [s3 [S3 N3]].
    assert (DC : forall c r, (c < 5)%nat -> dc_entry r s0 s1 s2 s3 c = seg_sum ix r (gcomp (n * 5) (vec_of d) (Z.of_nat c))).
    { intros c r Hc. unfold dc_entry, seg_sum, gcomp. rewrite N0, N1, N2, N3 by exact Hc.
      assert (X : forall a, (a < 4)%nat -> nidx (n * 5) (nth a ix 0 * 5 + Z.of_nat c)%Z = (Z.to_nat (nth a ix 0%Z) * 5 + c)%nat).
      { intros a Ha. assert (Q := RNG a Ha). rewrite <- (nidx_nat (n * 5) (Z.to_nat (nth a ix 0%Z) * 5 + c)) by lia. f_equal. lia. }
      rewrite !X by lia. rnum. reflexivity. }
    assert (MF : membrane_force d ix (dom_area m k) (abd pA) (abd pB) rows
      = Ok (membrane (edge_stiffness m pfn pA k) (edge_stiffness m pfn pB k) (smoothed_strain m (vec_of d) k))).
    { unfold membrane_force. rewrite S0; cbn [bind]. rewrite S1; cbn [bind]. rewrite S2; cbn [bind]. rewrite S3; cbn [bind].
      f_equal. rewrite !S.
      assert (SM : forall c, (c < 5)%nat ->
        1 / dom_area m k * sum4 (fun r => s_le r * s_nx r * dc_entry r s0 s1 s2 s3 c)%R rows = sgx m k (comp m (vec_of d) c) /\
        1 / dom_area m k * sum4 (fun r => s_le r * s_ny r * dc_entry r s0 s1 s2 s3 c)%R rows = sgy m k (comp m (vec_of d) c)).
      { intros c Hc. destruct (row_smooth ix rows G (vec_of d) c Hc) as [<- <-].
        destruct rows as [[[r1 r2] r3] r4]. unfold sum4, row_x, row_y. rewrite !DC by exact Hc. rnum. split; field; lra. }
      assert (ST : forall c1 c2, (c1 < 5)%nat -> (c2 < 5)%nat ->
        strain3 (dom_area m k) rows (fun r => dc_entry r s0 s1 s2 s3 c1) (fun r => dc_entry r s0 s1 s2 s3 c2)
        = V3 (sgx m k (comp m (vec_of d) c1)) (sgy m k (comp m (vec_of d) c2))
             (sgy m k (comp m (vec_of d) c1) + sgx m k (comp m (vec_of d) c2))).
      { intros c1 c2 H1 H2. destruct (SM c1 H1) as [X1 Y1]. destruct (SM c2 H2) as [X2 Y2].
        rewrite <- X1, <- Y1, <- Y2, <- X2. clear. destruct rows as [[[r1 r2] r3] r4].
        unfold strain3, sum4. rnum. f_equal. unfold Rdiv. ring. }
      rewrite !ST by lia. unfold membrane, smoothed_strain, m3mulv, vadd; cbn [vx vy vz exx eyy exy kxx kyy kxy]. rnum. reflexivity. }
    exists (kG_updates ix (dom_area m k) (membrane (edge_stiffness m pfn pA k) (edge_stiffness m pfn pB k) (smoothed_strain m (vec_of d) k)) rows).
    split; [|split].
    - unfold kG_edge_dummy. rewrite Eta; cbn [bind]. rewrite E1; cbn [bind]. rewrite E2; cbn [bind].
      rewrite (rd_Ac m k e RD); cbn [get_or bind]. rewrite E3; cbn [bind]. rewrite MF; reflexivity.
    - intros x Hx. destruct (kG_updates_pos _ _ _ _ _ Hx) as [a [b [Ha [Hb ->]]]]. cbn [fst snd].
      assert (Qa := RNG a Ha). assert (Qb := RNG b Hb). unfold in_range. lia.
    - intros u v. rewrite kG_updates_form by lra. unfold edge_work.
      destruct (row_smooth ix rows G u 2%nat) as [X Y]; [lia|]. destruct (row_smooth ix rows G v 2%nat) as [X' Y']; [lia|].
      change (Z.of_nat 2) with 2%Z in *. rewrite X, Y, X', Y'. reflexivity.
  Qed.
End Edge.

Lemma k0_dummy_same : forall m pfn es K, k0_assemble_dummy (fun _ => (-1)%Z) m pfn es K = k0_assemble m pfn es K.
Proof.
  intros m pfn; induction es as [|[x e] es IH]; intros K; [reflexivity|]. cbn [k0_assemble_dummy k0_assemble].
  change (k0_edge_dummy (-1) m pfn e) with (k0_edge m pfn e). destruct (k0_edge m pfn e) as [us|]; [|reflexivity]. cbn [bind].
  destruct (mupdates us K) as [K' [r|]]; [apply IH|reflexivity].
Qed.
Lemma kG_dummy_same : forall m pfn d es K, kG_assemble_dummy (fun _ => 0%Z) m pfn d es K = kG_assemble m pfn d es K.
Proof.
  intros m pfn d; induction es as [|[x e] es IH]; intros K; [reflexivity|]. cbn [kG_assemble_dummy kG_assemble].
  change (kG_edge_dummy 0 m pfn d e) with (kG_edge m pfn d e). destruct (kG_edge m pfn d e) as [us|]; [|reflexivity]. cbn [bind].
  destruct (mupdates us K) as [K' [r|]]; [apply IH|reflexivity].
Qed.

Lemma k0_assemble_dummy_ready : forall m pfn dummy, wf_mesh m -> plate m -> props_complete m pfn -> indexed m ->
  (forall k, - Z.of_nat (length (nodes m)) <= dummy k < Z.of_nat (length (nodes m)))%Z ->
  forall es K, mdim K = (length (nodes m) * 5)%nat ->
  (forall k e, In (k, e) es -> In k (edge_keys m) /\ ready m k e) ->
  exists K', k0_assemble_dummy dummy m pfn es K = Ok K' /\ mdim K' = (length (nodes m) * 5)%nat /\
    forall u v, form K' u v = form K u v +
      Sum (fun k => dom_area m k *
         dens (edge_stiffness m pfn pA k) (edge_stiffness m pfn pB k) (edge_stiffness m pfn pD k)
              (smoothed_strain m u k) (smoothed_strain m v k)) (map fst es).
Proof.
  intros m pfn dummy W PL PC I DR es; induction es as [|[k e] es IH]; intros K D H.
  - exists K; split; [reflexivity|]. split; [exact D|]. intros u v; cbn [map]; rewrite Sum_nil; ring.
  - destruct (H k e (or_introl eq_refl)) as [Hk RD].
    destruct (k0_edge_dummy_ready m W PL pfn PC k e Hk RD I (dummy k) (DR k)) as [us [E [OK F]]].
    destruct (mupdates_form us K) as [K1 [E1 [D1 [_ F1]]]]; [rewrite D; exact OK|].
    destruct (IH K1) as [K2 [E2 [D2 F2]]]; [congruence|intros k' e' Hin; apply H; right; exact Hin|].
    exists K2. cbn [k0_assemble_dummy]. rewrite E; cbn [bind]. rewrite E1. split; [exact E2|].
    split; [exact D2|]. intros u v. rewrite F2, F1, D, F. cbn [map fst]. rewrite Sum_cons. ring.
Qed.

Lemma kG_assemble_dummy_ready : forall m pfn dummy d, wf_mesh m -> plate m -> props_complete m pfn -> indexed m ->
  (forall k, 0 <= dummy k < Z.of_nat (length (nodes m)))%Z -> length d = (length (nodes m) * 5)%nat ->
  forall es K, mdim K = (length (nodes m) * 5)%nat ->
  (forall k e, In (k, e) es -> In k (edge_keys m) /\ ready m k e) ->
  exists K', kG_assemble_dummy dummy m pfn d es K = Ok K' /\ mdim K' = (length (nodes m) * 5)%nat /\
    forall u v, form K' u v = form K u v + Sum (edge_work m pfn (vec_of d) u v) (map fst es).
Proof.
  intros m pfn dummy d W PL PC I DR Ld es; induction es as [|[k e] es IH]; intros K D H.
  - exists K; split; [reflexivity|]. split; [exact D|]. intros u v; cbn [map]; rewrite Sum_nil; ring.
  - destruct (H k e (or_introl eq_refl)) as [Hk RD].
    assert (DK := DR k).
    destruct (kG_edge_dummy_ready m W PL pfn PC k e Hk RD I (dummy k) ltac:(lia) ltac:(lia) d Ld) as [us [E [OK F]]].
    destruct (mupdates_form us K) as [K1 [E1 [D1 [_ F1]]]]; [rewrite D; exact OK|].
    destruct (IH K1) as [K2 [E2 [D2 F2]]]; [congruence|intros k' e' Hin; apply H; right; exact Hin|].
    exists K2. cbn [kG_assemble_dummy]. rewrite E; cbn [bind]. rewrite E1. split; [exact E2|].
    split; [exact D2|]. intros u v. rewrite F2, F1, D, F. cbn [map fst]. rewrite Sum_cons. ring.
Qed.

(** ** calc_kG after calc_k0 *)

Section Same.
  Variables m m' : mesh R.
  Hypothesis S : same m m'.
  Lemma same_edge_work : forall pfn d u v k, edge_work m' pfn d u v k = edge_work m pfn d u v k.
  Proof.
    intros. unfold edge_work. rewrite (same_dom_area _ _ S), (same_stiffness _ _ S), (same_strain _ _ S), (same_sgx _ _ S),
      (same_sgy _ _ S), (same_comp _ _ S). reflexivity.
  Qed.
End Same.

Lemma prepared_spec : forall m m', prepared_from m m' ->
  wf_mesh m /\ plate m /\ nodes m <> [] /\ same m m' /\ prepared m'.
Proof.
  intros m m' [pfn [K [V E]]].
  destruct (calc_k0_spec m pfn (va_wf _ _ V) (va_plate _ _ V) (va_props _ _ V) (va_nodes _ _ V)) as [m1 [K1 [E1 [_ [_ [S P]]]]]].
  rewrite E in E1. injection E1 as <- <-. split; [apply (va_wf _ _ V)|]. split; [apply (va_plate _ _ V)|].
  split; [apply (va_nodes _ _ V)|]. split; assumption.
Qed.

Lemma calc_kG_spec : forall m m' pfn d, prepared_from m m' -> props_complete m pfn ->
  length d = (length (nodes m) * 5)%nat ->
  exists KG, calc_kG d m' pfn = Ok KG /\ mdim KG = (length (nodes m) * 5)%nat /\
    forall u v, form KG u v = kG_energy m pfn (vec_of d) u v.
Proof.
  intros m m' pfn d P PC Ld. destruct (prepared_spec m m' P) as [W [PL [N [S R]]]].
  assert (LN := sm_len _ _ S).
  destruct (kG_assemble_dummy_ready m' pfn (fun _ => 0%Z) d (pr_wf m' R) (same_plate _ _ S PL) (same_props _ _ S pfn PC) (pr_indexed m' R))
    with (es := edges m') (K := zeros (length d / 5 * 5)) as [KG [E [D F]]].
  - intros _. rewrite LN. destruct (nodes m); [congruence|cbn; lia].
  - rewrite LN; exact Ld.
  - cbn [zeros mdim]. rewrite Ld, Nat.div_mul, LN by lia. reflexivity.
  - intros k e H. split; [apply in_map_iff; exists (k, e); auto|apply (pr_ready m' R k e H)].
  - exists KG. unfold calc_kG. rewrite <- kG_dummy_same. split; [exact E|]. split; [congruence|].
    intros u v. rewrite F, form_zeros, Rplus_0_l. unfold kG_energy.
    change (map fst (edges m')) with (edge_keys m'). rewrite (sm_edges _ _ S).
    apply Sum_ext; intros k. apply (same_edge_work m m' S).
Qed.
