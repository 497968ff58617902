(** Lemmas behind locality (C99). *)
(* P: Num Py Mesh Utils CalcK0 CalcKG AddK0s Ops Spec SpecK0 SpecKG SpecK0s SpecLocal Ex ExK0 ExK0s ExLocal *)
From Coq Require Import ZArith Reals List Bool Arith Lra Lia String.
From Verif Require Import Num Py Mesh Utils CalcK0 CalcKG AddK0s Ops Spec SpecK0 SpecKG SpecK0s SpecLocal
  FSum FMat FDict FGeom FWf FTensor FSmooth FConn FKG FK0s FLocal LK0 LKG LK0s Ex ExK0 ExK0s ExLocal.
Import ListNotations.
Local Open Scope R_scope.
Implicit Types (m : mesh R).

Lemma key_lt : forall m n c, In n (node_keys m) -> (c < 5)%nat -> (rank m n * 5 + c < List.length (nodes m) * 5)%nat.
Proof.
  intros m n c Hn Hc. assert (H := index_in_lt _ _ Hn). unfold rank. unfold node_keys in H at 2. rewrite map_length in H. lia.
Qed.

Section Two.
  Variables (m1 m2 : mesh R).
  Hypothesis W1 : wf_mesh m1.
  Hypothesis W2 : wf_mesh m2.

  Lemma unit_same : forall n c c' n', In n (node_keys m1) -> In n (node_keys m2) -> In n' (node_keys m1) -> In n' (node_keys m2) -> (c < 5)%nat -> (c' < 5)%nat ->
    comp m1 (delta (rank m1 n * 5 + c)) c' n' = comp m2 (delta (rank m2 n * 5 + c)) c' n'.
  Proof. intros. rewrite !comp_unit by assumption. reflexivity. Qed.

  Lemma unit_off : forall m k n c, wf_mesh m -> In n (node_keys m) -> (c < 5)%nat -> ~ on_domain m k n ->
    forall c' n', (c' < 5)%nat -> on_domain m k n' -> comp m (delta (rank m n * 5 + c)) c' n' = 0.
  Proof.
    intros m k n c W Hn Hc O c' n' Hc' O'. apply comp_delta; auto; [apply (on_domain_key m W k n' O')|]. left. intros ->. contradiction.
  Qed.

  Variables (a b : nat).
  Hypothesis A1 : In a (node_keys m1).
  Hypothesis A2 : In a (node_keys m2).
  Hypothesis B1 : In b (node_keys m1).
  Hypothesis B2 : In b (node_keys m2).

  Section Coupled.
    Hypothesis SC : same_coupling m1 m2 a b.

    Lemma same_in : forall t n l l', Forall2 same_tria l l' -> In t l -> vertex t n -> exists t', In t' l' /\ vertex t' n.
    Proof.
      intros t n l l' F. induction F as [|x y l l' H F IH]; intros I Vn; [destruct I|]. destruct I as [<-|I].
      - exists y. split; [left; reflexivity|]. destruct H as [E1 [E2 [E3 _]]]. unfold vertex in *. rewrite <- E1, <- E2, <- E3. exact Vn.
      - destruct (IH I Vn) as [t' [I' V']]. exists t'. split; [right|]; assumption.
    Qed.

    Lemma dom_both : forall k n, couples m1 k a b -> on_domain m1 k n -> In n (node_keys m1) /\ In n (node_keys m2).
    Proof.
      intros k n C O. split; [apply (on_domain_key m1 W1 k n O)|]. destruct (proj2 SC k C) as [F _].
      destruct O as [t [Ht Vn]]. apply (on_domain_key m2 W2 k n). exact (same_in t n _ _ F Ht Vn).
    Qed.

    Lemma unit_near : forall k n c, couples m1 k a b -> In n (node_keys m1) -> In n (node_keys m2) -> (c < 5)%nat ->
      forall c' n', (c' < 5)%nat -> on_domain m1 k n' -> comp m1 (delta (rank m1 n * 5 + c)) c' n' = comp m2 (delta (rank m2 n * 5 + c)) c' n'.
    Proof. intros k n c C N1 N2 Hc c' n' Hc' O. destruct (dom_both k n' C O) as [X Y]. apply unit_same; assumption. Qed.

    Lemma stiff_same : forall k pfn sel, couples m1 k a b -> edge_stiffness m1 pfn sel k = edge_stiffness m2 pfn sel k.
    Proof.
      intros k pfn sel C. destruct (key_on m1 k W1 (proj1 C)) as [O1 O2]. apply same_edge_stiffness; [apply (proj2 SC k C)|exact O1|exact O2].
    Qed.

    Lemma area_same : forall k, couples m1 k a b -> dom_area m1 k = dom_area m2 k.
    Proof. intros k C. unfold dom_area. rewrite (same_areas m1 m2 k (proj2 SC k C)). reflexivity. Qed.

    Lemma off_one : forall m k, In k (edge_keys m) -> ~ couples m k a b -> ~ on_domain m k a \/ ~ on_domain m k b.
    Proof.
      intros m k Hk N. destruct (on_domain_dec m k a) as [O|O]; [|left; exact O]. destruct (on_domain_dec m k b) as [O'|O']; [|right; exact O'].
      exfalso. apply N. repeat split; assumption.
    Qed.

    Lemma k0_local : forall pfn c c', (c < 5)%nat -> (c' < 5)%nat ->
      k0_energy m1 pfn (delta (rank m1 a * 5 + c)) (delta (rank m1 b * 5 + c')) = k0_energy m2 pfn (delta (rank m2 a * 5 + c)) (delta (rank m2 b * 5 + c')).
    Proof.
      intros pfn c c' Hc Hc'. unfold k0_energy.
      assert (Z : forall m, wf_mesh m -> In a (node_keys m) -> In b (node_keys m) -> forall k, In k (edge_keys m) -> ~ couples m k a b ->
        dom_area m k * dens (edge_stiffness m pfn pA k) (edge_stiffness m pfn pB k) (edge_stiffness m pfn pD k)
          (smoothed_strain m (delta (rank m a * 5 + c)) k) (smoothed_strain m (delta (rank m b * 5 + c')) k) = 0).
      { intros m W Ha Hb k Hk N. destruct (off_one m k Hk N) as [O|O].
        - rewrite (strain_zero m (delta (rank m a * 5 + c)) k), FTensor.dens_zero_l by (intros; apply (unit_off m k a c W Ha Hc O); assumption). ring.
        - rewrite (strain_zero m (delta (rank m b * 5 + c')) k), FTensor.dens_zero_r by (intros; apply (unit_off m k b c' W Hb Hc' O); assumption). ring. }
      apply (sum_coupling m1 m2 a b _ _ W1 W2 SC); [apply Z; assumption|apply Z; assumption|].
      intros k C. rewrite (area_same k C), !(stiff_same k pfn _ C).
      rewrite (same_strain m1 m2 k (proj2 SC k C) _ _ (unit_near k a c C A1 A2 Hc)), (same_strain m1 m2 k (proj2 SC k C) _ _ (unit_near k b c' C B1 B2 Hc')). reflexivity.
    Qed.

    Lemma kG_local : forall pfn d1 d2 c c', (c < 5)%nat -> (c' < 5)%nat ->
      (forall k n i, couples m1 k a b -> on_domain m1 k n -> (i < 5)%nat -> comp m1 d1 i n = comp m2 d2 i n) ->
      kG_energy m1 pfn d1 (delta (rank m1 a * 5 + c)) (delta (rank m1 b * 5 + c')) = kG_energy m2 pfn d2 (delta (rank m2 a * 5 + c)) (delta (rank m2 b * 5 + c')).
    Proof.
      intros pfn d1 d2 c c' Hc Hc' E. unfold kG_energy.
      assert (G0 : forall m k n i, wf_mesh m -> In n (node_keys m) -> (i < 5)%nat -> ~ on_domain m k n ->
        sgx m k (comp m (delta (rank m n * 5 + i)) 2) = 0 /\ sgy m k (comp m (delta (rank m n * 5 + i)) 2) = 0).
      { intros m k n i W Hn Hi O. rewrite (sgx_ext m k _ (fun _ => 0)), (sgy_ext m k _ (fun _ => 0)), sgx_zero, sgy_zero by (intros; apply (unit_off m k n i W Hn Hi O); [lia|assumption]). auto. }
      assert (Z : forall m d, wf_mesh m -> In a (node_keys m) -> In b (node_keys m) -> forall k, In k (edge_keys m) -> ~ couples m k a b ->
        edge_work m pfn d (delta (rank m a * 5 + c)) (delta (rank m b * 5 + c')) k = 0).
      { intros m d W Ha Hb k Hk N. unfold edge_work, work. destruct (off_one m k Hk N) as [O|O].
        - destruct (G0 m k a c W Ha Hc O) as [-> ->]. ring.
        - destruct (G0 m k b c' W Hb Hc' O) as [-> ->]. ring. }
      apply (sum_coupling m1 m2 a b _ _ W1 W2 SC); [apply Z; assumption|apply Z; assumption|].
      intros k C. unfold edge_work. rewrite (area_same k C), !(stiff_same k pfn _ C).
      rewrite (same_strain m1 m2 k (proj2 SC k C) d1 d2) by (intros; apply (E k); assumption).
      destruct (same_sg m1 m2 k (proj2 SC k C) (comp m1 (delta (rank m1 a * 5 + c)) 2) (comp m2 (delta (rank m2 a * 5 + c)) 2)) as [-> ->].
      { intros n O. apply (unit_near k a c C A1 A2 Hc); [lia|exact O]. }
      destruct (same_sg m1 m2 k (proj2 SC k C) (comp m1 (delta (rank m1 b * 5 + c')) 2) (comp m2 (delta (rank m2 b * 5 + c')) 2)) as [-> ->].
      { intros n O. apply (unit_near k b c' C B1 B2 Hc'); [lia|exact O]. }
      reflexivity.
    Qed.
  End Coupled.

  Section Trias.
    Hypothesis ST : same_trias m1 m2 a b.

    (** sums over the triangles whose terms vanish unless both nodes are vertices *)
    Lemma sum_trias : forall (f g : tria R -> R), (forall t, In t (trias_of m1) -> ~ (vertex t a /\ vertex t b) -> f t = 0) ->
      (forall t, In t (trias_of m2) -> ~ (vertex t a /\ vertex t b) -> g t = 0) ->
      (forall t t', In t (trias_with m1 a b) -> In t' (trias_of m2) -> same_tria t t' -> f t = g t') -> Sum f (trias_of m1) = Sum g (trias_of m2).
    Proof.
      intros f g Z Z' E.
      assert (Y : forall m (h : tria R -> R), (forall t, In t (trias_of m) -> ~ (vertex t a /\ vertex t b) -> h t = 0) -> Sum h (trias_of m) = Sum h (trias_with m a b)).
      { intros m h H. unfold trias_with. rewrite (Sum_filter_if _ _ h). apply Sum_ext_in. intros t Ht. destruct (is_vertex a t && is_vertex b t)%bool eqn:B; [reflexivity|].
        apply H; [exact Ht|]. intros [Va Vb]. apply is_vertex_iff in Va. apply is_vertex_iff in Vb. rewrite Va, Vb in B. discriminate. }
      rewrite (Y m1 f Z), (Y m2 g Z').
      assert (I2 : forall t, In t (trias_with m2 a b) -> In t (trias_of m2)) by (intros t Ht; unfold trias_with in Ht; apply filter_In in Ht; tauto).
      revert E I2. destruct ST as [F _]. induction F as [|x y l l' H F IH]; intros E I2; [rewrite !Sum_nil; reflexivity|]. rewrite !Sum_cons. f_equal.
      - apply E; [left; reflexivity|apply I2; left; reflexivity|exact H].
      - apply IH; [intros t t' Ht Ht' S; apply E; [right; exact Ht|exact Ht'|exact S]|]. intros t Ht. apply I2. right; exact Ht.
    Qed.

    Lemma gap_zero : forall p q, ptw p = 0 -> ptfx p = 0 -> ptfy p = 0 -> ptw q = 0 -> ptfx q = 0 -> ptfy q = 0 -> gap p q = 0.
    Proof. intros p q E1 E2 E3 E4 E5 E6. unfold gap. rewrite E1, E2, E3, E4, E5, E6. field. Qed.

    Lemma strain_off : forall method m t n c, In method cell_methods -> wf_mesh m -> In t (trias_of m) -> In n (node_keys m) -> (c < 5)%nat -> ~ vertex t n ->
      method_strain method m (delta (rank m n * 5 + c)) t = (0, 0).
    Proof.
      intros method m t n c HM W Ht Hn Hc NV.
      assert (Z : forall n', vertex t n' -> let p := at_node m (delta (rank m n * 5 + c)) n' in ptw p = 0 /\ ptfx p = 0 /\ ptfy p = 0).
      { intros n' V'. cbn [at_node ptw ptfx ptfy]. assert (In n' (node_keys m)) by (apply (wf_vertices m W t n' Ht V')).
        assert (n' <> n) by (intros ->; contradiction). repeat split; apply comp_delta; auto; lia. }
      destruct (Z (tn1 t)) as [P1 [P2 P3]]; [left; reflexivity|]. destruct (Z (tn2 t)) as [Q1 [Q2 Q3]]; [right; left; reflexivity|]. destruct (Z (tn3 t)) as [R1 [R2 R3]]; [right; right; reflexivity|].
      assert (DS : forall p q r, gap p q = 0 -> gap p r = 0 -> dsg p q r = (0, 0)).
      { intros p q r E1 E2. unfold dsg. rewrite E1, E2. unfold Rdiv. f_equal; ring. }
      destruct HM as [<-|[<-|[]]]; unfold method_strain; cbn [String.eqb Ascii.eqb Bool.eqb].
      - unfold strain_cell. set (p := at_node _ _ (tn1 t)) in *. set (q := at_node _ _ (tn2 t)) in *. set (r := at_node _ _ (tn3 t)) in *. unfold cell_shear.
        assert (C : let c := center code_third p q r in ptw c = 0 /\ ptfx c = 0 /\ ptfy c = 0).
        { cbn [center ptw ptfx ptfy]. rewrite P1, P2, P3, Q1, Q2, Q3, R1, R2, R3. repeat split; ring. }
        cbv zeta in C. set (cc := center code_third p q r) in *. destruct C as [C1 [C2 C3]].
        rewrite !DS by (apply gap_zero; assumption). cbn [fst snd]. unfold Rdiv. f_equal; ring.
      - unfold strain_ns. destruct (Rlt_dec _ _); apply DS; apply gap_zero; assumption.
    Qed.

    Lemma shear_local : forall method pfn alpha mfa c c', In method cell_methods -> (c < 5)%nat -> (c' < 5)%nat ->
      shear_energy (method_strain method m1) m1 pfn alpha mfa (delta (rank m1 a * 5 + c)) (delta (rank m1 b * 5 + c')) =
      shear_energy (method_strain method m2) m2 pfn alpha mfa (delta (rank m2 a * 5 + c)) (delta (rank m2 b * 5 + c')).
    Proof.
      intros method pfn alpha mfa c c' HM Hc Hc'. unfold shear_energy.
      assert (Z : forall m, wf_mesh m -> In a (node_keys m) -> In b (node_keys m) -> forall t, In t (trias_of m) -> ~ (vertex t a /\ vertex t b) ->
        method_strain method m (delta (rank m a * 5 + c)) t = (0, 0) \/ method_strain method m (delta (rank m b * 5 + c')) t = (0, 0)).
      { intros m W Ha Hb t Ht N. destruct (is_vertex a t) eqn:IA.
        - right. apply strain_off; auto. intros Vb. apply N. split; [apply is_vertex_iff; exact IA|exact Vb].
        - left. apply strain_off; auto. intros Va. apply is_vertex_iff in Va. congruence. }
      apply sum_trias.
      - intros t Ht N. destruct (Z m1 W1 A1 B1 t Ht N) as [-> | ->]; cbn [fst snd]; ring.
      - intros t Ht N. destruct (Z m2 W2 A2 B2 t Ht N) as [-> | ->]; cbn [fst snd]; ring.
      - intros t t' Ht Ht' S. assert (SN : forall n, vertex t n -> same_node m1 m2 n) by (intros n Vn; apply (proj2 ST t n Ht Vn)).
        assert (I1 : In t (trias_of m1)) by (unfold trias_with in Ht; apply filter_In in Ht; tauto).
        destruct (same_det m1 m2 t t' S SN) as [D AR]. assert (S' := S). destruct S' as [E1 [E2 [E3 EP]]].
        destruct (SN (tn1 t)) as [X1 Y1]; [left; reflexivity|]. destruct (SN (tn2 t)) as [X2 Y2]; [right; left; reflexivity|]. destruct (SN (tn3 t)) as [X3 Y3]; [right; right; reflexivity|].
        assert (V : forall f, tria_val m1 pfn f t = tria_val m2 pfn f t').
        { intros f. unfold tria_val. rewrite <- E1, <- E2, <- E3, <- EP, Y1, Y2, Y3. reflexivity. }
        assert (SZ : tria_size m1 mfa t = tria_size m2 mfa t').
        { unfold tria_size, dist. rewrite AR, <- E1, <- E2, <- E3, X1, X2, X3. reflexivity. }
        assert (K : forall n, vertex t n -> In n (node_keys m1) /\ In n (node_keys m2)).
        { intros n Vn. split; [apply (wf_vertices m1 W1 t n I1 Vn)|]. apply (wf_vertices m2 W2 t' n Ht'). unfold vertex in *. rewrite <- E1, <- E2, <- E3. exact Vn. }
        assert (AN : forall x i n, In x (node_keys m1) -> In x (node_keys m2) -> (i < 5)%nat -> vertex t n -> at_node m1 (delta (rank m1 x * 5 + i)) n = at_node m2 (delta (rank m2 x * 5 + i)) n).
        { intros x i n Hx Hx' Hi Vn. destruct (K n Vn) as [K1 K2]. unfold at_node. rewrite (proj1 (SN n Vn)), !(unit_same x i _ n) by (assumption || lia). reflexivity. }
        assert (MS : forall x i, In x (node_keys m1) -> In x (node_keys m2) -> (i < 5)%nat ->
          method_strain method m1 (delta (rank m1 x * 5 + i)) t = method_strain method m2 (delta (rank m2 x * 5 + i)) t').
        { intros x i Hx Hx' Hi. assert (N1 := AN x i (tn1 t) Hx Hx' Hi (or_introl eq_refl)). assert (N2 := AN x i (tn2 t) Hx Hx' Hi (or_intror (or_introl eq_refl))).
          assert (N3 := AN x i (tn3 t) Hx Hx' Hi (or_intror (or_intror eq_refl))).
          unfold method_strain. destruct (String.eqb method "cell-based").
          - unfold strain_cell. rewrite <- E1, <- E2, <- E3, N1, N2, N3. reflexivity.
          - unfold strain_ns. rewrite D, <- E1, <- E2, <- E3, N1, N2, N3. reflexivity. }
        unfold tria_G44, tria_G55. rewrite AR, SZ, !V, (MS a c A1 A2 Hc), (MS b c' B1 B2 Hc'). reflexivity.
    Qed.
  End Trias.
End Two.

(** ** C99 *)

(** The entries of k0 for two nodes depend only on the smoothing domains that have both nodes: two plates that agree there,
    whatever else they contain and however their nodes are numbered, have the same entries. *)
Lemma c99_k0 : forall m1 m2 pfn a b, valid m1 pfn -> valid m2 pfn -> In a (node_keys m1) -> In a (node_keys m2) -> In b (node_keys m1) -> In b (node_keys m2) ->
  same_coupling m1 m2 a b ->
  exists n1 K1 n2 K2, calc_k0 m1 pfn = (n1, Ok K1) /\ calc_k0 m2 pfn = (n2, Ok K2) /\ forall c c', (c < 5)%nat -> (c' < 5)%nat ->
    mentry K1 (rank m1 a * 5 + c) (rank m1 b * 5 + c') = mentry K2 (rank m2 a * 5 + c) (rank m2 b * 5 + c').
Proof.
  intros m1 m2 pfn a b V1 V2 A1 A2 B1 B2 SC. destruct (valid_spec m1 pfn V1) as [n1 [K1 [E1 [D1 [F1 _]]]]]. destruct (valid_spec m2 pfn V2) as [n2 [K2 [E2 [D2 [F2 _]]]]].
  exists n1, K1, n2, K2. split; [exact E1|]. split; [exact E2|]. intros c c' Hc Hc'.
  rewrite <- (form_delta K1), <- (form_delta K2), F1, F2 by (rewrite ?D1, ?D2; apply key_lt; assumption).
  apply k0_local; try assumption; [apply (va_wf _ _ V1)|apply (va_wf _ _ V2)].
Qed.

(** The same of kG, if the displacements agree on these domains. *)
Lemma c99_kG : forall m1 m2 n1 n2 pfn a b d1 d2, prepared_from m1 n1 -> prepared_from m2 n2 -> props_complete m1 pfn -> props_complete m2 pfn ->
  In a (node_keys m1) -> In a (node_keys m2) -> In b (node_keys m1) -> In b (node_keys m2) -> same_coupling m1 m2 a b ->
  List.length d1 = (List.length (nodes m1) * 5)%nat -> List.length d2 = (List.length (nodes m2) * 5)%nat ->
  (forall k n i, couples m1 k a b -> on_domain m1 k n -> (i < 5)%nat -> comp m1 (vec_of d1) i n = comp m2 (vec_of d2) i n) ->
  exists G1 G2, calc_kG d1 n1 pfn = Ok G1 /\ calc_kG d2 n2 pfn = Ok G2 /\ forall c c', (c < 5)%nat -> (c' < 5)%nat ->
    mentry G1 (rank m1 a * 5 + c) (rank m1 b * 5 + c') = mentry G2 (rank m2 a * 5 + c) (rank m2 b * 5 + c').
Proof.
  intros m1 m2 n1 n2 pfn a b d1 d2 P1 P2 C1 C2 A1 A2 B1 B2 SC L1 L2 E.
  destruct (calc_kG_spec m1 n1 pfn d1 P1 C1 L1) as [G1 [E1 [D1 F1]]]. destruct (calc_kG_spec m2 n2 pfn d2 P2 C2 L2) as [G2 [E2 [D2 F2]]].
  exists G1, G2. split; [exact E1|]. split; [exact E2|]. intros c c' Hc Hc'.
  rewrite <- (form_delta G1), <- (form_delta G2), F1, F2 by (rewrite ?D1, ?D2; apply key_lt; assumption).
  destruct (prepared_spec m1 n1 P1) as [W1 _]. destruct (prepared_spec m2 n2 P2) as [W2 _]. apply kG_local; assumption.
Qed.

(** What the cell-based methods of add_k0s add to the entries for two nodes depends only on the triangles with both nodes. *)
Lemma c99_shear : forall method m1 m2 n1 n2 pfn alpha mfa k1 k2 a b, In method cell_methods -> call_ok m1 n1 pfn alpha k1 -> call_ok m2 n2 pfn alpha k2 ->
  In a (node_keys m1) -> In a (node_keys m2) -> In b (node_keys m1) -> In b (node_keys m2) -> same_trias m1 m2 a b ->
  exists k1' k2', add_k0s lits_src k1 n1 pfn method alpha mfa = (k1', Ok tt) /\ add_k0s lits_src k2 n2 pfn method alpha mfa = (k2', Ok tt) /\
    forall c c', (c < 5)%nat -> (c' < 5)%nat -> let i1 := (rank m1 a * 5 + c)%nat in let j1 := (rank m1 b * 5 + c')%nat in let i2 := (rank m2 a * 5 + c)%nat in let j2 := (rank m2 b * 5 + c')%nat in
      mentry k1' i1 j1 - mentry k1 i1 j1 = mentry k2' i2 j2 - mentry k2 i2 j2.
Proof.
  intros method m1 m2 n1 n2 pfn alpha mfa k1 k2 a b HM C1 C2 A1 A2 B1 B2 ST.
  destruct (cell_methods_add method m1 n1 pfn alpha mfa k1 HM C1) as [k1' [E1 [D1 F1]]]. destruct (cell_methods_add method m2 n2 pfn alpha mfa k2 HM C2) as [k2' [E2 [D2 F2]]].
  exists k1', k2'. split; [exact E1|]. split; [exact E2|]. intros c c' Hc Hc'. cbv zeta.
  assert (Q1 := co_dim _ _ _ _ _ C1). assert (Q2 := co_dim _ _ _ _ _ C2).
  rewrite <- (form_delta k1'), <- (form_delta k2'), <- (form_delta k1), <- (form_delta k2), F1, F2 by (rewrite ?D1, ?D2, ?Q1, ?Q2; apply key_lt; assumption).
  assert (X := shear_local m1 m2 (proj1 (call_spec _ _ _ _ _ C1)) (proj1 (call_spec _ _ _ _ _ C2)) a b A1 A2 B1 B2 ST method pfn alpha mfa c c' HM Hc Hc'). lra.
Qed.
(** The laminate of one triangle of a plate is changed; two nodes that are not on a common domain with it. *)
Lemma c99_k0_ex : forall c pfn, let m1 := ex_patch 1 in let m2 := ex_patch c in valid m1 pfn /\ valid m2 pfn /\
  In 1%nat (node_keys m1) /\ In 1%nat (node_keys m2) /\ In 2%nat (node_keys m1) /\ In 2%nat (node_keys m2) /\ same_coupling m1 m2 1 2 /\
  couples m1 (1, 2)%nat 1 2 /\ (c <> 1 -> map tprop (trias_of m1) <> map tprop (trias_of m2)).
Proof.
  intros c pfn m1 m2. split; [apply ex_patch_valid|]. split; [apply ex_patch_valid|]. split; [cbn; auto|]. split; [cbn; auto|]. split; [cbn; auto|]. split; [cbn; auto|].
  split; [apply ex_patch_coupling|]. split.
  - split; [cbn; auto|]. unfold m1. rewrite !ex_patch_on. split; (eexists; split; [cbn; left; reflexivity|unfold vertex; cbn; auto]).
  - intros N H. cbn in H. injection H as H. lra.
Qed.
Lemma c99_kG_ex : forall c pfn, let m1 := ex_patch 1 in let m2 := ex_patch c in let d := list_of 30 ex_lin in
  (exists n1, prepared_from m1 n1) /\ (exists n2, prepared_from m2 n2) /\ props_complete m1 pfn /\ props_complete m2 pfn /\
  List.length d = (List.length (nodes m1) * 5)%nat /\ List.length d = (List.length (nodes m2) * 5)%nat /\
  forall k n i, couples m1 k 1 2 -> on_domain m1 k n -> (i < 5)%nat -> comp m1 (vec_of d) i n = comp m2 (vec_of d) i n.
Proof.
  intros c pfn m1 m2 d. split; [apply (prepare m1 pfn), ex_patch_valid|]. split; [apply (prepare m2 pfn), ex_patch_valid|].
  split; [apply (va_props _ _ (ex_patch_valid 1 pfn))|]. split; [apply (va_props _ _ (ex_patch_valid c pfn))|]. repeat split; reflexivity.
Qed.
Lemma c99_shear_ex : forall c pfn alpha, 0 <= alpha -> (exists n1, call_ok (ex_patch 1) n1 pfn alpha (zeros 30)) /\ (exists n2, call_ok (ex_patch c) n2 pfn alpha (zeros 30)) /\
  same_trias (ex_patch 1) (ex_patch c) 1 2 /\ trias_with (ex_patch 1) 1 2 <> [].
Proof. intros c pfn alpha A. split; [apply ex_patch_call; exact A|]. split; [apply ex_patch_call; exact A|]. split; [apply ex_patch_trias|discriminate]. Qed.
