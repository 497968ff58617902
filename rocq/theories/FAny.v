(** Facts about calc_k0 on any mesh, well formed or not. *)
From Coq Require Import ZArith Reals List Bool Arith Lra Lia.
From Verif Require Import Num Py Mesh Utils GenK0 CalcK0 Spec FSum FMat FDict FAsm FK0 FOps FOut.
Import ListNotations.
Local Open Scope R_scope.
Implicit Types (m : mesh R).

Lemma pyidx_some_range : forall n i k, pyidx n i = Some k -> in_range n i.
Proof.
  intros n i k; unfold pyidx, in_range.
  destruct (Z.leb_spec 0 i); [destruct (Z.ltb_spec i (Z.of_nat n)); [lia|discriminate]|].
  destruct (Z.leb_spec 0 (i + Z.of_nat n)); [lia|discriminate].
Qed.

Lemma mupdates_inv : forall T (NT : Num T) us (k k' : matrix T) r, mupdates us k = (k', Ok r) -> upds_ok (mdim k) us.
Proof.
  intros T NT; induction us as [|[[r c] x] us IH]; intros k k' z E.
  - intros y [].
  - unfold mupdates in E. cbn [for_each mupdate] in E.
    destruct (pyidx (mdim k) r) as [r'|] eqn:Er; [|discriminate].
    destruct (pyidx (mdim k) c) as [c'|] eqn:Ec; [|discriminate].
    intros y [<-|Hy]; cbn [fst snd].
    + split; eapply pyidx_some_range; eassumption.
    + apply (IH _ _ _ E y Hy).
Qed.

Lemma k0_edge_inv : forall m pfn e us, k0_edge (T := R) m pfn e = Ok us ->
  exists ix rows Ac A B D, eAc e = Some Ac /\ us = k0_updates ix Ac A B D rows.
Proof.
  intros m pfn e us E. unfold k0_edge in E.
  destruct (edge_areas m e) as [ta|]; [|discriminate]. cbn [bind] in E.
  destruct (domain_indices m (-1) (eipts e)) as [ix|]; [|discriminate]. cbn [bind] in E.
  destruct (ipt_rows m (indexpos ix) (eipts e)) as [rows|]; [|discriminate]. cbn [bind] in E.
  destruct (eAc e) as [Ac|]; [|discriminate]. cbn [bind get_or] in E.
  destruct (edge_ABD m pfn e Ac ta) as [abd|]; [|discriminate]. cbn [bind] in E. injection E as <-.
  do 6 eexists; split; reflexivity.
Qed.

Lemma dens_sym : forall A B D e f, dens A B D e f = dens A B D f e.
Proof. intros; unfold dens, quad3; ring. Qed.

Lemma k0_assemble_sym : forall m pfn es K K', k0_assemble (T := R) m pfn es K = Ok K' ->
  (forall k e, In (k, e) es -> eAc e <> Some 0) ->
  mdim K' = mdim K /\ ((forall u v, form K u v = form K v u) -> forall u v, form K' u v = form K' v u).
Proof.
  intros m pfn; induction es as [|[k e] es IH]; intros K K' E H.
  - injection E as <-. auto.
  - cbn [k0_assemble] in E. destruct (k0_edge m pfn e) as [us|] eqn:Eu; [|discriminate]. cbn [bind] in E.
    destruct (mupdates us K) as [K1 [[]|]] eqn:EK; [|discriminate].
    assert (O := mupdates_inv _ _ _ _ _ _ EK).
    destruct (mupdates_form us K O) as [K2 [E2 [D2 [_ F2]]]]. rewrite EK in E2. injection E2 as <-.
    destruct (IH _ _ E) as [D F]; [intros; apply (H k0); right; assumption|]. split; [congruence|].
    intros S. apply F. intros u v. rewrite !F2, (S u v). f_equal.
    destruct (k0_edge_inv _ _ _ _ Eu) as [ix [rows [Ac [A [B [DD [EA ->]]]]]]].
    rewrite !k0_updates_form by (intros ->; apply (H k e (or_introl eq_refl) EA)).
    rewrite dens_sym. reflexivity.
Qed.

Lemma k0_assemble_dim : forall T (NT : Num T) (m : mesh T) pfn es K K', k0_assemble m pfn es K = Ok K' -> mdim K' = mdim K.
Proof.
  intros T NT m pfn; induction es as [|[k e] es IH]; intros K K' E.
  - injection E as <-. auto.
  - cbn [k0_assemble] in E. destruct (k0_edge m pfn e) as [us|] eqn:Eu; [|discriminate]. cbn [bind] in E.
    destruct (mupdates us K) as [K1 [[]|]] eqn:EK; [|discriminate].
    assert (O := mupdates_inv _ _ _ _ _ _ EK).
    destruct (mupdates_any us K O) as [K2 [E2 [D2 _]]]. rewrite EK in E2. injection E2 as <-.
    rewrite (IH _ _ E). exact D2.
Qed.

Lemma calc_k0_inv : forall T (NT : Num T) (m : mesh T) pfn (m' : mesh T) K, calc_k0 m pfn = (m', Ok K) ->
  nodes m' = number_nodes 0 (nodes m) /\ elements m' = elements m /\
  setup_edges m (edges m) = (edges m', Ok tt) /\ nodes m <> [] /\
  k0_assemble m' pfn (edges m') (zeros (length (nodes m) * 5)) = Ok K.
Proof.
  intros T NT m pfn m' K E. unfold calc_k0 in E.
  destruct (check_edges m pfn (edges m)) as [r|]; [|discriminate].
  destruct (setup_edges m (edges m)) as [es [[]|]]; [|discriminate].
  destruct (nodes m) as [|nd nds]; [discriminate|].
  injection E as <- E. cbn [nodes elements edges]. repeat split; try congruence; try assumption.
Qed.

Lemma number_nodes_index : forall T (nds : list (nat * node T)) i,
  map (fun kn => nindex (snd kn)) (number_nodes i nds) = map Some (seq i (length nds)).
Proof. intros T; induction nds as [|[k n] nds IH]; intros i; [reflexivity|]. cbn. rewrite IH. reflexivity. Qed.
