(** add_k0s and calc_kG in any arithmetic: when they return. *)
From Coq Require Import ZArith List Bool Arith Lia Permutation.
From Verif Require Import Num Py Mesh Utils GenCell GenCellNS GenEdgeB GenEdgeI GenKG CalcK0 CalcKG AddK0s Ops
  Spec SpecK0 SpecK0s FMat FDict FWf FOps FOut.
Import ListNotations.

(** ** Positions *)

Definition at_dofs (is : list Z) (p : Z * Z) : Prop :=
  exists a b c d, p = ((a * 5 + c)%Z, (b * 5 + d)%Z) /\ In a is /\ In b is /\ (2 <= c < 5)%Z /\ (2 <= d < 5)%Z.

Ltac positions := apply Forall_forall;
  repeat (apply Forall_cons; [cbn [fst]; do 4 eexists; split; [reflexivity|]; cbn [In]; repeat split; (tauto || lia)|]);
  apply Forall_nil.

Section Pos.
Context {T : Type} {NT : Num T}.

Lemma cell_pos : forall (L : lits T) i1 i2 i3 Ac Ac1 Ac2 Ac3 E44 E45 E55 a1 b1 c1 d1 a2 b2 c2 d2 a3 b3 c3 d3,
  forall y, In y (cell_entries L i1 i2 i3 Ac Ac1 Ac2 Ac3 E44 E45 E55 a1 b1 c1 d1 a2 b2 c2 d2 a3 b3 c3 d3) ->
  at_dofs [i1; i2; i3] (fst y).
Proof. intros L i1 i2 i3 Ac Ac1 Ac2 Ac3 E44 E45 E55 a1 b1 c1 d1 a2 b2 c2 d2 a3 b3 c3 d3. unfold cell_entries. positions. Qed.

Lemma cellns_pos : forall i1 i2 i3 (Ac E44 E45 E55 a1 b1 c1 d1 : T),
  forall y, In y (cellns_entries i1 i2 i3 Ac E44 E45 E55 a1 b1 c1 d1) -> at_dofs [i1; i2; i3] (fst y).
Proof. intros i1 i2 i3 Ac E44 E45 E55 a1 b1 c1 d1. unfold cellns_entries. positions. Qed.

Lemma edgeb_pos : forall (L : lits T) i1 i2 i3 Ac E44 E45 E55 a1 b1 c1 d1,
  forall y, In y (edgeb_entries L i1 i2 i3 Ac E44 E45 E55 a1 b1 c1 d1) -> at_dofs [i1; i2; i3] (fst y).
Proof. intros L i1 i2 i3 Ac E44 E45 E55 a1 b1 c1 d1. unfold edgeb_entries. positions. Qed.

Lemma edgei_pos : forall (L : lits T) i1 i2 i3 i4 Ac Ac1 Ac2 E44 E45 E55 a1 b1 c1 d1 a2 b2 c2 d2,
  forall y, In y (edgei_entries L i1 i2 i3 i4 Ac Ac1 Ac2 E44 E45 E55 a1 b1 c1 d1 a2 b2 c2 d2) -> at_dofs [i1; i2; i3; i4] (fst y).
Proof. intros L i1 i2 i3 i4 Ac Ac1 Ac2 E44 E45 E55 a1 b1 c1 d1 a2 b2 c2 d2. unfold edgei_entries. positions. Qed.

Lemma kG_at : forall ix Ac (N : vec3 T) rows, length ix = 4 -> forall y, In y (kG_updates ix Ac N rows) -> at_dofs ix (fst y).
Proof.
  intros ix Ac N [[[r1 r2] r3] r4] L.
  destruct ix as [|i1 [|i2 [|i3 [|i4 [|i5 ix]]]]]; try discriminate. clear L.
  unfold kG_updates, kG_entries. cbn [nth]. positions.
Qed.
End Pos.

Section Prog.
Context {T : Type} {NT : Num T}.
Implicit Types (m : mesh T) (k : nat * nat).

Definition known m (is : list Z) : Prop := forall z, In z is -> exists n, In n (node_keys m) /\ z = zrank m n.

Lemma at_ok : forall m N is us, known m is -> length (nodes m) * 5 <= N ->
  (forall y, In y us -> at_dofs is (fst y)) -> upds_ok (T := T) N us.
Proof.
  intros m N is us KN L H y Hy. destruct (H y Hy) as [a [b [c [d [E [Ha [Hb [Hc Hd]]]]]]]]. rewrite E; cbn [fst snd].
  destruct (KN a Ha) as [n [Kn ->]]. destruct (KN b Hb) as [n' [Kn' ->]].
  assert (R := rank_lt m n Kn). assert (R' := rank_lt m n' Kn'). unfold in_range, zrank. split; lia.
Qed.

Lemma each_any : forall X (f : X -> res (list (Z * Z * T))) xs K,
  (forall x, In x xs -> exists us, f x = Ok us /\ upds_ok (mdim K) us) ->
  exists K', for_each (add_body f) xs K = (K', Ok tt) /\ mdim K' = mdim K.
Proof.
  intros X f; induction xs as [|x xs IH]; intros K H; [exists K; split; reflexivity|].
  destruct (H x (or_introl eq_refl)) as [us [E U]]. destruct (mupdates_any us K U) as [K1 [E1 [D1 _]]].
  destruct (IH K1) as [K2 [E2 D2]].
  { intros y Hy. rewrite D1. apply H; right; exact Hy. }
  exists K2. split; [|congruence]. cbn [for_each]. unfold add_body at 1. rewrite E, E1. exact E2.
Qed.

Variables (m : mesh T) (pfn : bool).
Hypothesis W : wf_mesh m.
Hypothesis I : with_index m.
Hypothesis PC : props_complete m pfn.

Lemma idx_any : forall n nd, In (n, nd) (nodes m) -> node_index nd = Ok (zrank m n).
Proof. intros n nd H. unfold node_index. rewrite (I n nd H). reflexivity. Qed.

Lemma tria_all : forall t, In t (trias_of m) -> forall n, vertex t n ->
  exists nd, get_node m n = Ok nd /\ node_index nd = Ok (zrank m n) /\ In n (node_keys m) /\
    (pfn = true -> exists p, nprop nd = Some p).
Proof.
  intros t Ht n V. assert (K := wf_vertices m W t n Ht V).
  destruct (node_in m W n K) as [nd [G [_ [P Hin]]]]. exists nd. split; [exact G|]. split; [apply idx_any; exact Hin|].
  split; [exact K|]. intros EP. rewrite EP in PC. rewrite P. assert (X := vertex_has_prop m t n W PC Ht V).
  destruct (nodeprop m n) as [p|]; [exists p; reflexivity|contradiction].
Qed.

Lemma edge_length_any : forall k, In (fst k) (node_keys m) -> In (snd k) (node_keys m) -> exists l, edge_length m k = Ok l.
Proof.
  intros k Ha Hb. unfold edge_length.
  destruct (node_in m W _ Ha) as [a [-> _]]. destruct (node_in m W _ Hb) as [b [-> _]]. eexists; reflexivity.
Qed.

Lemma maxl_any : forall t Ac mfa, In t (trias_of m) -> exists l, maxl_tria m t Ac mfa = Ok l.
Proof.
  intros t Ac [|] Ht; unfold maxl_tria; [eexists; reflexivity|].
  assert (X : forall ks, (forall k, In k ks -> In k (sides t)) -> exists ls, mapM (edge_length m) ks = Ok ls /\ length ls = length ks).
  { induction ks as [|k ks IH]; intros H; [exists []; split; reflexivity|].
    destruct (sides_vertices t k (H k (or_introl eq_refl))) as [V1 V2].
    destruct (edge_length_any k) as [l El]; [apply (wf_vertices m W t); assumption|apply (wf_vertices m W t); assumption|].
    destruct IH as [ls [E1 E2]]; [intros k' Hk'; apply H; right; exact Hk'|].
    exists (l :: ls). cbn [mapM]. rewrite El. cbn [bind]. rewrite E1. split; [reflexivity|cbn; congruence]. }
  destruct (X (tedges t)) as [ls [-> LS]]; [intros k Hk; apply (wf_tria_edges m W t Ht); exact Hk|]. cbn [bind].
  destruct ls as [|l ls]; [|eexists; reflexivity].
  exfalso. destruct (tedges t) as [|x l] eqn:ET; [|discriminate LS].
  assert (Y : In (Nat.min (tn1 t) (tn2 t), Nat.max (tn1 t) (tn2 t)) (tedges t)) by (apply (wf_tria_edges m W t Ht); left; reflexivity).
  rewrite ET in Y. destruct Y.
Qed.

Lemma tria_shear_any : forall t n1 n2 n3, In t (trias_of m) ->
  (forall nd, nd = n1 \/ nd = n2 \/ nd = n3 -> pfn = true -> exists p, nprop nd = Some p) ->
  exists s, tria_shear pfn t n1 n2 n3 = Ok s.
Proof.
  intros t n1 n2 n3 Ht H. unfold tria_shear. destruct pfn.
  - destruct (H n1 (or_introl eq_refl) eq_refl) as [p1 ->]. destruct (H n2 (or_intror (or_introl eq_refl)) eq_refl) as [p2 ->].
    destruct (H n3 (or_intror (or_intror eq_refl)) eq_refl) as [p3 ->]. eexists; reflexivity.
  - assert (X := PC t Ht). destruct (tprop t); [eexists; reflexivity|contradiction].
Qed.

Lemma cell_any : forall L alpha mfa t, In t (trias_of m) ->
  exists us is, cell_tria L m pfn alpha mfa t = Ok us /\ known m is /\ forall y, In y us -> at_dofs is (fst y).
Proof.
  intros L alpha mfa t Ht.
  destruct (tria_all t Ht (tn1 t)) as [d1 [G1 [I1 [K1 P1]]]]; [unfold vertex; auto|].
  destruct (tria_all t Ht (tn2 t)) as [d2 [G2 [I2 [K2 P2]]]]; [unfold vertex; auto|].
  destruct (tria_all t Ht (tn3 t)) as [d3 [G3 [I3 [K3 P3]]]]; [unfold vertex; auto|].
  destruct (mid_in m W t Ht) as [mid M].
  unfold cell_tria. rewrite G1, G2, G3. cbn [bind]. rewrite M. cbn [bind].
  unfold get_area. rewrite G1, G2, G3. cbn [bind].
  assert (KN : forall a b c, In a (node_keys m) -> In b (node_keys m) -> In c (node_keys m) ->
    known m [zrank m a; zrank m b; zrank m c]).
  { intros a b c Ka Kb Kc z [<-|[<-|[<-|[]]]]; eexists; split; try reflexivity; assumption. }
  unfold orient_cell. destruct (nltb _ _); cbv iota beta;
  repeat (match goal with |- context [area_of_points [?p; ?q; ?r]] => let A := fresh "A" in let E := fresh "E" in
    destruct (area_any3 p q r) as [A E]; rewrite E; clear E; cbn [bind] end).
  - destruct (tria_shear_any t d2 d1 d3 Ht) as [s ->]; [intros nd [->|[->| ->]]; assumption|]. cbn [bind].
    match goal with |- context [maxl_tria m t ?A mfa] => destruct (maxl_any t A mfa Ht) as [l ->] end. cbn [bind].
    destruct (shear_stiffness s alpha l) as [[E44 E45] E55]. rewrite I1, I2, I3. cbn [bind].
    eexists; exists [zrank m (tn2 t); zrank m (tn1 t); zrank m (tn3 t)]. split; [reflexivity|]. split; [auto|]. apply cell_pos.
  - destruct (tria_shear_any t d1 d2 d3 Ht) as [s ->]; [intros nd [->|[->| ->]]; assumption|]. cbn [bind].
    match goal with |- context [maxl_tria m t ?A mfa] => destruct (maxl_any t A mfa Ht) as [l ->] end. cbn [bind].
    destruct (shear_stiffness s alpha l) as [[E44 E45] E55]. rewrite I1, I2, I3. cbn [bind].
    eexists; exists [zrank m (tn1 t); zrank m (tn2 t); zrank m (tn3 t)]. split; [reflexivity|]. split; [auto|]. apply cell_pos.
Qed.

Lemma cellns_any : forall alpha mfa t, In t (trias_of m) ->
  exists us is, cellns_tria m pfn alpha mfa t = Ok us /\ known m is /\ forall y, In y us -> at_dofs is (fst y).
Proof.
  intros alpha mfa t Ht.
  destruct (tria_all t Ht (tn1 t)) as [d1 [G1 [I1 [K1 P1]]]]; [unfold vertex; auto|].
  destruct (tria_all t Ht (tn2 t)) as [d2 [G2 [I2 [K2 P2]]]]; [unfold vertex; auto|].
  destruct (tria_all t Ht (tn3 t)) as [d3 [G3 [I3 [K3 P3]]]]; [unfold vertex; auto|].
  unfold cellns_tria. rewrite G1, G2, G3. cbn [bind].
  unfold get_area. rewrite G1, G2, G3. cbn [bind].
  assert (KN : forall a b c, In a (node_keys m) -> In b (node_keys m) -> In c (node_keys m) ->
    known m [zrank m a; zrank m b; zrank m c]).
  { intros a b c Ka Kb Kc z [<-|[<-|[<-|[]]]]; eexists; split; try reflexivity; assumption. }
  unfold orient_cellns. destruct (nltb _ _); cbv iota beta.
  - destruct (tria_shear_any t d2 d1 d3 Ht) as [s ->]; [intros nd [->|[->| ->]]; assumption|]. cbn [bind].
    match goal with |- context [maxl_tria m t ?A mfa] => destruct (maxl_any t A mfa Ht) as [l ->] end. cbn [bind].
    destruct (shear_stiffness s alpha l) as [[E44 E45] E55]. rewrite I1, I2, I3. cbn [bind].
    eexists; exists [zrank m (tn2 t); zrank m (tn1 t); zrank m (tn3 t)]. split; [reflexivity|]. split; [auto|]. apply cellns_pos.
  - destruct (tria_shear_any t d1 d2 d3 Ht) as [s ->]; [intros nd [->|[->| ->]]; assumption|]. cbn [bind].
    match goal with |- context [maxl_tria m t ?A mfa] => destruct (maxl_any t A mfa Ht) as [l ->] end. cbn [bind].
    destruct (shear_stiffness s alpha l) as [[E44 E45] E55]. rewrite I1, I2, I3. cbn [bind].
    eexists; exists [zrank m (tn1 t); zrank m (tn2 t); zrank m (tn3 t)]. split; [reflexivity|]. split; [auto|]. apply cellns_pos.
Qed.

Lemma pymax_any : forall e : edge T, eipts e <> [] -> exists l, pymax (map iple (eipts e)) = Ok l.
Proof. intros e H. destruct (eipts e); [contradiction|eexists; reflexivity]. Qed.

Lemma edge_prog : forall L alpha mfa k e, In k (edge_keys m) -> shape m k e ->
  exists us is, edge_shear L m pfn alpha mfa e = Ok us /\ known m is /\ forall y, In y us -> at_dofs is (fst y).
Proof.
  intros L alpha mfa k e Hk Sh.
  destruct (sp_dom m k e Sh) as [n1 [n2 [E X]]]. assert (Tr := sp_trias m k e Sh).
  assert (En := sp_ends m k e Sh). destruct k as [a b]; injection En as Ea Eb.
  destruct (sp_Ac m (a, b) e Sh) as [Ac EAc].
  destruct (ends_in m (a, b) a b W Hk (or_introl eq_refl)) as [Ka [Kb _]].
  assert (NE := tris_on_nonempty m W _ Hk).
  assert (TT : forall t, In t (tris_on m (a, b)) -> In t (trias_of m) /\ get_tria m (eid t) = Ok t /\
    (exists mid, getMid m t = Ok mid) /\ vertex t a /\ vertex t b /\ vertex t (third t (a, b))).
  { intros t Ht. destruct (third_in m (a, b) t a b W Hk (or_introl eq_refl) Ht) as [P [O1 [O2 [Ko Tt]]]].
    destruct (perm3_vertex _ _ _ _ P) as [V1 [V2 V3]].
    split; [exact Tt|]. split; [apply tria_found; assumption|]. split; [apply mid_in; assumption|]. auto. }
  assert (KN : forall l, (forall x, In x l -> In x (node_keys m)) -> known m (map (zrank m) l)).
  { intros l H z Hz. apply in_map_iff in Hz. destruct Hz as [x [<- Hx]]. exists x; auto. }
  assert (NI : eipts e <> []).
  { intros N. rewrite N in X. destruct X as [[t1 [_ [_ X]]]|[t1 [t2 [_ [_ [_ X]]]]]]; discriminate X. }
  destruct (pymax_any e NI) as [lm ELM].
  unfold edge_shear. rewrite Ea, Eb, Tr.
  destruct X as [[t1 [Q [X1 _]]]|[t1 [t2 [Q [X1 [X2 _]]]]]]; rewrite Q in *.
  - destruct (TT t1 (or_introl eq_refl)) as [T1 [G1 [[mid1 M1] [VA [VB VO]]]]].
    destruct (tria_all t1 T1 a VA) as [da [Ga [Ia [_ Pa]]]].
    destruct (tria_all t1 T1 b VB) as [db [Gb [Ib [_ Pb]]]].
    destruct (tria_all t1 T1 _ VO) as [d1 [Go [Io [Ko Po]]]].
    rewrite Ga, Gb. cbn [bind map]. rewrite G1. cbn [bind]. rewrite M1. cbn [bind].
    assert (Z : forall na nb x y, node_index na = Ok (zrank m x) -> node_index nb = Ok (zrank m y) ->
      In x (node_keys m) -> In y (node_keys m) ->
      (pfn = true -> exists p, nprop na = Some p) -> (pfn = true -> exists p, nprop nb = Some p) ->
      exists us is, boundary_edge L m pfn alpha mfa e t1 na nb = Ok us /\ known m is /\ forall z, In z us -> at_dofs is (fst z)).
    { intros na nb x y Ix Iy Kx Ky Px Py. unfold boundary_edge. rewrite M1. cbn [bind]. unfold other_node. rewrite X1. cbn [get_or bind].
      rewrite Go. cbn [bind]. rewrite EAc. cbn [get_or bind].
      match goal with |- exists us is, bind ?S _ = _ /\ _ => assert (SS : exists s, S = Ok s) end.
      { destruct pfn.
        - destruct (Px eq_refl) as [p1 ->], (Py eq_refl) as [p2 ->], (Po eq_refl) as [p3 ->]. eexists; reflexivity.
        - assert (Y := PC t1 T1). destruct (tprop t1); [eexists; reflexivity|contradiction]. }
      destruct SS as [s ->]. cbn [bind].
      match goal with |- exists us is, bind ?S _ = _ /\ _ => assert (SS : exists s, S = Ok s) end.
      { destruct mfa; [eexists; reflexivity|]. exists lm; exact ELM. }
      destruct SS as [l ->]. cbn [bind]. destruct (shear_stiffness s alpha l) as [[E44 E45] E55].
      rewrite Ix, Iy, Io. cbn [bind]. eexists; exists (map (zrank m) [x; y; third t1 (a, b)]). split; [reflexivity|].
      split; [apply KN; intros w [<-|[<-|[<-|[]]]]; assumption|]. apply edgeb_pos. }
    unfold orient_edge. destruct (nltb _ _); [apply (Z db da b a)|apply (Z da db a b)]; assumption.
  - destruct (TT t1 (or_introl eq_refl)) as [T1 [G1 [[mid1 M1] [VA [VB VO]]]]].
    destruct (TT t2 (or_intror (or_introl eq_refl))) as [T2 [G2 [[mid2 M2] [_ [_ VO2]]]]].
    destruct (tria_all t1 T1 a VA) as [da [Ga [Ia [_ Pa]]]].
    destruct (tria_all t1 T1 b VB) as [db [Gb [Ib [_ Pb]]]].
    destruct (tria_all t1 T1 _ VO) as [d1 [Go [Io [Ko Po]]]].
    destruct (tria_all t2 T2 _ VO2) as [d2 [Go2 [Io2 [Ko2 Po2]]]].
    destruct (edge_length_any (a, b) Ka Kb) as [le ELE].
    rewrite Ga, Gb. cbn [bind map]. rewrite G1. cbn [bind]. rewrite M1. cbn [bind].
    assert (Z : forall na nb x y, node_index na = Ok (zrank m x) -> node_index nb = Ok (zrank m y) ->
      In x (node_keys m) -> In y (node_keys m) ->
      (pfn = true -> exists p, nprop na = Some p) -> (pfn = true -> exists p, nprop nb = Some p) ->
      exists us is, interior_edge L m pfn alpha mfa e t1 t2 na nb = Ok us /\ known m is /\ forall z, In z us -> at_dofs is (fst z)).
    { intros na nb x y Ix Iy Kx Ky Px Py. unfold interior_edge. rewrite M1, M2. cbn [bind]. unfold other_node. rewrite X1, X2. cbn [get_or bind].
      rewrite Go, Go2. cbn [bind]. rewrite EAc. cbn [get_or bind].
      repeat (match goal with |- context [area_of_points [?p; ?q; ?r]] => let A := fresh "A" in let E := fresh "E" in
        destruct (area_any3 p q r) as [A E']; rewrite E'; clear E'; cbn [bind] end).
      match goal with |- exists us is, bind ?S _ = _ /\ _ => assert (SS : exists s, S = Ok s) end.
      { destruct pfn.
        - destruct (Px eq_refl) as [p1 ->], (Py eq_refl) as [p2 ->], (Po eq_refl) as [p3 ->], (Po2 eq_refl) as [p4 ->]. eexists; reflexivity.
        - assert (Y := PC t1 T1). assert (Y2 := PC t2 T2). destruct (tprop t1); [|contradiction]. destruct (tprop t2); [|contradiction].
          eexists; reflexivity. }
      destruct SS as [s ->]. cbn [bind].
      match goal with |- exists us is, bind ?S _ = _ /\ _ => assert (SS : exists s, S = Ok s) end.
      { destruct mfa; [eexists; reflexivity|]. rewrite ELM. cbn [bind]. rewrite Ea, Eb, ELE. eexists; reflexivity. }
      destruct SS as [l ->]. cbn [bind]. destruct (shear_stiffness_int s alpha l) as [[E44 E45] E55].
      rewrite Ix, Iy, Io, Io2. cbn [bind]. eexists; exists (map (zrank m) [x; y; third t1 (a, b); third t2 (a, b)]). split; [reflexivity|].
      split; [apply KN; intros w [<-|[<-|[<-|[<-|[]]]]]; assumption|]. apply edgei_pos. }
    unfold orient_edge. destruct (nltb _ _); rewrite G2; cbn [bind]; [apply (Z db da b a)|apply (Z da db a b)]; assumption.
Qed.

Hypothesis SH : forall k e, In (k, e) (edges m) -> shape m k e /\ ~ twin_edge m k.

Lemma add_k0s_prog : forall L method alpha mfa K, In method methods -> length (nodes m) * 5 <= mdim K ->
  exists K', add_k0s L K m pfn method alpha mfa = (K', Ok tt) /\ mdim K' = mdim K.
Proof.
  intros L method alpha mfa K H N.
  assert (EL : forall t, In t (map snd (elements m)) -> In t (trias_of m)) by (intros t Ht; exact Ht).
  destruct H as [<-|[<-|[<-|[]]]]; apply each_any.
  - intros t Ht. destruct (cell_any L alpha mfa t (EL t Ht)) as [us [is [E [KN AT]]]]. exists us. split; [exact E|].
    apply (at_ok m _ is); assumption.
  - intros t Ht. destruct (cellns_any alpha mfa t (EL t Ht)) as [us [is [E [KN AT]]]]. exists us. split; [exact E|].
    apply (at_ok m _ is); assumption.
  - intros e He. apply in_map_iff in He. destruct He as [[k e'] [E He]]. cbn [snd] in E; subst e'.
    destruct (edge_prog L alpha mfa k e (key_in _ _ _ He) (proj1 (SH k e He))) as [us [is [E [KN AT]]]]. exists us. split; [exact E|].
    apply (at_ok m _ is); assumption.
Qed.

Lemma slice_any : forall (d : list T) n, In n (node_keys m) -> length (nodes m) * 5 <= length d ->
  exists s, slice5 d (zrank m n) = Ok s.
Proof.
  intros d n Hn L. assert (R := rank_lt m n Hn). unfold slice5.
  replace (Z.to_nat (zrank m n * 5)) with (rank m n * 5) by (unfold zrank; lia).
  assert (X : length (firstn 5 (skipn (rank m n * 5) d)) = 5) by (rewrite firstn_length, skipn_length; lia).
  rewrite X. eexists; reflexivity.
Qed.

Lemma first_node : forall n, In n (node_keys m) -> exists n0, In n0 (node_keys m) /\ zrank m n0 = 0%Z.
Proof.
  intros n H. unfold node_keys in *. unfold zrank, rank, node_keys. destruct (nodes m) as [|[n0 nd0] l]; [destruct H|].
  exists n0. split; [left; reflexivity|]. cbn [map fst index_in]. rewrite Nat.eqb_refl. reflexivity.
Qed.

Lemma kG_edge_prog : forall d k e, In (k, e) (edges m) -> length (nodes m) * 5 <= length d ->
  exists us is, kG_edge m pfn d e = Ok us /\ known m is /\ forall y, In y us -> at_dofs is (fst y).
Proof.
  intros d k e Hin L. destruct (SH k e Hin) as [Sh NTW]. assert (Hk := key_in _ _ _ Hin).
  destruct (sp_Ac m k e Sh) as [Ac EAc].
  destruct (abd_any m pfn W PC k e Hk Sh Ac) as [ta [abd [Eta Eabd]]]. unfold kG_edge. rewrite Eta; cbn [bind].
  destruct (rows_any m W I 0%Z k e Hk Sh) as [[TW _]|[_ [ix [rows [E1 [D E2]]]]]]; [contradiction|].
  rewrite E1; cbn [bind]. rewrite E2; cbn [bind]. rewrite EAc; cbn [get_or bind]. rewrite Eabd; cbn [bind].
  destruct D as [L4 D].
  assert (KN : known m ix).
  { intros z Hz. destruct (D z Hz) as [[-> _]|[n [Kn [_ ->]]]]; [|exists n; auto].
    destruct (ends_in m k (fst k) (snd k) W Hk) as [Ka _]; [left; destruct k; reflexivity|].
    destruct (first_node _ Ka) as [n0 [K0 Z0]]. exists n0; auto. }
  assert (SL : forall i, i < 4 -> exists s, slice5 d (nth i ix 0%Z) = Ok s).
  { intros i Hi. destruct (KN (nth i ix 0%Z)) as [n [Kn ->]]; [apply nth_In; lia|]. apply slice_any; assumption. }
  unfold membrane_force.
  destruct (SL 0) as [s0 ->]; [lia|]. destruct (SL 1) as [s1 ->]; [lia|]. destruct (SL 2) as [s2 ->]; [lia|].
  destruct (SL 3) as [s3 ->]; [lia|]. cbn [bind].
  eexists; exists ix. split; [reflexivity|]. split; [exact KN|]. apply kG_at; exact L4.
Qed.

Lemma calc_kG_prog : forall d, length (nodes m) * 5 <= length d ->
  exists KG, calc_kG d m pfn = Ok KG /\ mdim KG = length d / 5 * 5.
Proof.
  intros d L. unfold calc_kG.
  assert (L' : length (nodes m) * 5 <= length d / 5 * 5).
  { assert (X := Nat.div_le_lower_bound (length d) 5 (length (nodes m))). lia. }
  assert (G : forall es K, mdim K = length d / 5 * 5 -> (forall x, In x es -> In x (edges m)) ->
    exists KG, kG_assemble m pfn d es K = Ok KG /\ mdim KG = mdim K).
  { induction es as [|[k e] es IH]; intros K D H; [exists K; split; reflexivity|]. cbn [kG_assemble].
    destruct (kG_edge_prog d k e (H _ (or_introl eq_refl)) L) as [us [is [-> [KN AT]]]]. cbn [bind].
    destruct (mupdates_any us K) as [K1 [E1 [D1 _]]].
    { apply (at_ok m _ is); [assumption| |assumption]. lia. }
    rewrite E1. destruct (IH K1) as [KG [E2 D2]]; [congruence|intros x Hx; apply H; right; exact Hx|].
    exists KG. split; [exact E2|congruence]. }
  destruct (G (edges m) (zeros (length d / 5 * 5)) eq_refl (fun x H => H)) as [KG [E D]]. exists KG. split; [exact E|exact D].
Qed.
End Prog.
