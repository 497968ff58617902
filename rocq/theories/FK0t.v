(** What add_k0s adds after calc_k0. *)
From Coq Require Import ZArith Reals List Bool Arith Lra Lia String FunctionalExtensionality.
From Verif Require Import Num Py Mesh Utils GenCell GenCellNS GenEdgeB GenEdgeI CalcK0 AddK0s Spec SpecK0 SpecKG SpecK0s FSum FMat FTensor
  FGenCell FGenCellNS FGenEdgeB FGenEdgeI FGeom FDict FWf FSetup FAsm FK0 FSmooth FTot FDom FAny FKG FK0s FK0p FK0e FK0i.
Import ListNotations.
Local Open Scope R_scope.
Implicit Types (m : mesh R).

Section SameS.
  Variables m m' : mesh R.
  Hypothesis S : same m m'.

  Lemma same_at_node : at_node m' = at_node m.
  Proof. unfold at_node; rewrite (sm_pos _ _ S), (same_comp _ _ S); reflexivity. Qed.
  Lemma same_cell : forall th, strain_cell th m' = strain_cell th m.
  Proof. intros; unfold strain_cell; rewrite same_at_node; reflexivity. Qed.
  Lemma same_ns : strain_ns m' = strain_ns m.
  Proof. unfold strain_ns; rewrite same_at_node, (same_tdet _ _ S); reflexivity. Qed.
  Lemma same_tria_val : tria_val m' = tria_val m.
  Proof. unfold tria_val; rewrite (sm_prop _ _ S); reflexivity. Qed.
  Lemma same_size : tria_size m' = tria_size m.
  Proof. unfold tria_size, dist; rewrite (sm_pos _ _ S), (same_tarea _ _ S); reflexivity. Qed.
  Lemma same_shear_energy : forall g, shear_energy g m' = shear_energy g m.
  Proof.
    intros g. unfold shear_energy, tria_G44, tria_G55. rewrite same_tria_val, same_size, (same_tarea _ _ S), (same_trias _ _ S). reflexivity.
  Qed.
  Lemma same_all_props : forall P, all_props m P -> all_props m' P.
  Proof. intros P [H1 H2]. split; [rewrite (sm_prop _ _ S); exact H1|rewrite (same_trias _ _ S); exact H2]. Qed.
  Lemma same_edge_val : edge_val m' = edge_val m.
  Proof. unfold edge_val; rewrite (same_tris_on _ _ S), (sm_prop _ _ S), (same_tarea _ _ S); reflexivity. Qed.
  Lemma same_centroid : centroid m' = centroid m.
  Proof. unfold centroid; rewrite (sm_pos _ _ S); reflexivity. Qed.
  Lemma same_edge_size : edge_size m' = edge_size m.
  Proof. unfold edge_size; rewrite (same_tris_on _ _ S), (sm_pos _ _ S), (same_dom_area _ _ S), same_centroid; reflexivity. Qed.
  Lemma same_edge_G : edge_G m' = edge_G m.
  Proof. unfold edge_G; rewrite (same_tris_on _ _ S), same_edge_val; reflexivity. Qed.
  Lemma same_edge_upds : edge_upds m' = edge_upds m.
  Proof.
    unfold edge_upds, zr. rewrite (same_tris_on _ _ S), (same_rank _ _ S), same_edge_G, same_centroid, (sm_pos _ _ S), (same_tarea _ _ S),
      (same_dom_area _ _ S). reflexivity.
  Qed.
End SameS.

(** the edge [k] anticlockwise in its first triangle *)
Definition ccw (m : mesh R) (k : nat * nat) : nat * nat :=
  match tris_on m k with
  | t :: _ => if Rlt_dec 0 (det2 (pos m (fst k)) (pos m (snd k)) (pos m (third t k))) then k else (snd k, fst k)
  | [] => k
  end.

Lemma ccw_unique : forall m k n1 n2, wf_mesh m -> In k (edge_keys m) -> first_ccw m k n1 n2 -> (n1, n2) = ccw m k.
Proof.
  intros m k n1 n2 W Hk [O H]. unfold ccw. assert (NE := tris_on_nonempty m W k Hk).
  destruct (tris_on m k) as [|t l]; [contradiction|]. specialize (H t eq_refl).
  destruct O as [E|E].
  - rewrite <- E in *. cbn [fst snd]. destruct Rlt_dec; [reflexivity|contradiction].
  - rewrite <- E in *. cbn [fst snd]. rewrite det2_swap12 in H. destruct Rlt_dec; [lra|reflexivity].
Qed.

Definition edge_Q (L : lits R) (m : mesh R) (pfn : bool) (k : nat * nat) (u v : nat -> R) : R :=
  upd_form (List.length (nodes m) * 5) (edge_upds m pfn k L (fst (ccw m k)) (snd (ccw m k))) u v.

Section Add.
  Variables m m' : mesh R.
  Hypothesis P : prepared_from m m'.
  Variable pfn : bool.
  Hypothesis PC : props_complete m pfn.
  Hypothesis TH : thick m.
  Variable alpha : R.
  Hypothesis AL : 0 <= alpha.
  Variables (mfa : bool) (k : matrix R).
  Hypothesis D : mdim k = (List.length (nodes m) * 5)%nat.

  Theorem cell_add : forall L, exists k', add_k0s L k m' pfn "cell-based" alpha mfa = (k', Ok tt) /\
    adds k k' (shear_energy (strain_cell (2 * l6 L) m) m pfn alpha mfa).
  Proof.
    intros L. destruct (prepared_spec m m' P) as [W [PL [N [S RR]]]].
    destruct (for_each_form _ (cell_tria L m' pfn alpha mfa)
      (fun t u v => tarea m' t * corr alpha (tria_val m' pfn ph t) (tria_size m' mfa t) *
         (tria_G44 m' pfn t * fst (strain_cell (2 * l6 L) m' u t) * fst (strain_cell (2 * l6 L) m' v t)
          + tria_G55 m' pfn t * snd (strain_cell (2 * l6 L) m' u t) * snd (strain_cell (2 * l6 L) m' v t)))
      (List.length (nodes m') * 5) (trias_of m') k) as [k' [E A]].
    - rewrite (sm_len _ _ S); exact D.
    - intros t Ht. destruct (cell_tria_ready m' (pr_wf _ RR) (same_plate _ _ S PL) (pr_indexed _ RR) pfn (same_props _ _ S _ PC)
        (same_all_props _ _ S _ TH) alpha AL mfa t Ht L) as [us H]. exists us; exact H.
    - exists k'. split; [exact E|]. rewrite <- (same_shear_energy m m' S), <- (same_cell m m' S). exact A.
  Qed.

  Theorem cellns_add : forall L, exists k', add_k0s L k m' pfn "cell-based-no-smoothing" alpha mfa = (k', Ok tt) /\
    adds k k' (shear_energy (strain_ns m) m pfn alpha mfa).
  Proof.
    intros L. destruct (prepared_spec m m' P) as [W [PL [N [S RR]]]].
    destruct (for_each_form _ (cellns_tria m' pfn alpha mfa)
      (fun t u v => tarea m' t * corr alpha (tria_val m' pfn ph t) (tria_size m' mfa t) *
         (tria_G44 m' pfn t * fst (strain_ns m' u t) * fst (strain_ns m' v t)
          + tria_G55 m' pfn t * snd (strain_ns m' u t) * snd (strain_ns m' v t)))
      (List.length (nodes m') * 5) (trias_of m') k) as [k' [E A]].
    - rewrite (sm_len _ _ S); exact D.
    - intros t Ht. destruct (cellns_tria_ready m' (pr_wf _ RR) (same_plate _ _ S PL) (pr_indexed _ RR) pfn (same_props _ _ S _ PC)
        (same_all_props _ _ S _ TH) alpha AL mfa t Ht) as [us H]. exists us; exact H.
    - exists k'. split; [exact E|]. rewrite <- (same_shear_energy m m' S), <- (same_ns m m' S). exact A.
  Qed.

  Theorem edge_add : forall L, exists k', add_k0s L k m' pfn "edge-based" alpha mfa = (k', Ok tt) /\
    adds k k' (fun u v => Sum (fun x => corr alpha (edge_val m pfn ph x) (edge_size m mfa x) * edge_Q L m pfn x u v) (edge_keys m)).
  Proof.
    intros L. destruct (prepared_spec m m' P) as [W [PL [N [S RR]]]]. assert (W' := pr_wf _ RR).
    destruct (for_each_form _ (edge_shear L m' pfn alpha mfa)
      (fun e u v => let x := (en1 e, en2 e) in corr alpha (edge_val m' pfn ph x) (edge_size m' mfa x) * edge_Q L m' pfn x u v)
      (List.length (nodes m') * 5) (map snd (edges m')) k) as [k' [E A]].
    - rewrite (sm_len _ _ S); exact D.
    - intros e He. apply in_map_iff in He. destruct He as [[x e'] [<- He]]. cbn [snd].
      assert (RD := pr_ready _ RR x e' He). assert (Hx : In x (edge_keys m')) by (apply in_map_iff; exists (x, e'); auto).
      rewrite (rd_ends _ _ _ RD).
      destruct (edge_shear_ready m' W' (same_plate _ _ S PL) (pr_indexed _ RR) pfn (same_props _ _ S _ PC)
        (same_all_props _ _ S _ TH) alpha AL mfa x e' Hx RD L) as [n1 [n2 [us [O [H1 [H2 H3]]]]]].
      exists us. split; [exact H1|]. split; [exact H2|]. intros u v. rewrite H3. cbv zeta. unfold edge_Q.
      rewrite <- (ccw_unique m' x n1 n2 W' Hx O). reflexivity.
    - exists k'. split; [exact E|]. destruct A as [A1 A2]. split; [exact A1|]. intros u v. rewrite A2. f_equal.
      rewrite <- (sm_edges _ _ S). unfold edge_keys. rewrite !Sum_map. apply Sum_ext_in. intros [x e] He. cbn [fst snd].
      rewrite (rd_ends _ _ _ (pr_ready _ RR x e He)). cbv zeta. rewrite (same_edge_val m m' S), (same_edge_size m m' S).
      unfold edge_Q, ccw. rewrite (same_edge_upds m m' S), (sm_len _ _ S), (same_tris_on _ _ S), (sm_pos _ _ S). reflexivity.
  Qed.
End Add.
