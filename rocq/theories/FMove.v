(** Translated meshes. *)
From Coq Require Import ZArith Reals List Bool Arith Lra Lia FunctionalExtensionality.
From Verif Require Import Num Py Mesh Utils CalcK0 AddK0s Spec SpecK0 SpecKG SpecK0s FSum FMat FTensor
  FGeom FDict FWf FSetup FAsm FK0 FSmooth FConn FDom FK0e FK0t.
Import ListNotations.
Local Open Scope R_scope.
Implicit Types (m : mesh R).

Section Move.
  Variables dx dy : R.
  Variable m : mesh R.
  Hypothesis W : wf_mesh m.

  Lemma mv_conn : conn m (move dx dy m).
  Proof.
    constructor; cbn [move nodes elements edges]; try reflexivity.
    rewrite map_map. apply map_ext. intros [k x]; reflexivity.
  Qed.
  Lemma mv_wf : wf_mesh (move dx dy m).
  Proof. apply (conn_wf m _ mv_conn W). Qed.
  Lemma mv_keys : node_keys (move dx dy m) = node_keys m.
  Proof. symmetry; apply conn_node_keys, mv_conn. Qed.
  Lemma mv_len : length (nodes (move dx dy m)) = length (nodes m).
  Proof. cbn [move nodes]. apply map_length. Qed.
  Lemma mv_dget : forall n, dget Nat.eqb n (nodes (move dx dy m)) =
    option_map (fun nd => {| nid := nid nd; nxyz := shift dx dy (nxyz nd); nprop := nprop nd; nindex := nindex nd; nedges := nedges nd; ntrias := ntrias nd |})
      (dget Nat.eqb n (nodes m)).
  Proof.
    intros n. cbn [move nodes]. induction (nodes m) as [|[k nd] l IH]; [reflexivity|].
    cbn [map dget fst snd]. destruct (Nat.eqb_spec n k) as [->|_]; [reflexivity|exact IH].
  Qed.
  Lemma mv_pos : forall n, In n (node_keys m) -> pos (move dx dy m) n = shift dx dy (pos m n).
  Proof.
    intros n H. unfold pos. rewrite mv_dget. destruct (dget_some Nat.eqb nat_eqb_spec n (nodes m) H) as [nd ->]. reflexivity.
  Qed.
  Lemma mv_prop : nodeprop (move dx dy m) = nodeprop m.
  Proof. extensionality n. unfold nodeprop. rewrite mv_dget. destruct (dget Nat.eqb n (nodes m)); reflexivity. Qed.
  Lemma mv_comp : comp (move dx dy m) = comp m.
  Proof. unfold comp, rank. rewrite mv_keys. reflexivity. Qed.
  Lemma mv_zr : zr (move dx dy m) = zr m.
  Proof. unfold zr, rank. rewrite mv_keys. reflexivity. Qed.

  Lemma mv_det2 : forall p q r, det2 (shift dx dy p) (shift dx dy q) (shift dx dy r) = det2 p q r.
  Proof. intros; unfold det2, shift; cbn [vx vy]; ring. Qed.

  Lemma mv_vertex : forall t n, In t (trias_of m) -> vertex t n -> pos (move dx dy m) n = shift dx dy (pos m n).
  Proof. intros t n Ht V. apply mv_pos, (wf_vertices m W t n Ht V). Qed.

  Lemma mv_tdet : forall t, In t (trias_of m) -> tdet (move dx dy m) t = tdet m t.
  Proof. intros t Ht. unfold tdet. rewrite !(mv_vertex t) by (unfold vertex; auto). apply mv_det2. Qed.
  Lemma mv_tarea : forall t, In t (trias_of m) -> tarea (move dx dy m) t = tarea m t.
  Proof. intros t Ht. unfold tarea. rewrite mv_tdet by exact Ht. reflexivity. Qed.

  Lemma mv_end : forall k, In k (edge_keys m) ->
    pos (move dx dy m) (fst k) = shift dx dy (pos m (fst k)) /\ pos (move dx dy m) (snd k) = shift dx dy (pos m (snd k)).
  Proof.
    intros k Hk. destruct (ready_nodes m k (fst k) (snd k) W Hk (or_introl (eq_sym (surjective_pairing k)))) as [A [B _]].
    split; apply mv_pos; assumption.
  Qed.
  Lemma mv_third : forall k t, In k (edge_keys m) -> In t (tris_on m k) -> pos (move dx dy m) (third t k) = shift dx dy (pos m (third t k)).
  Proof.
    intros k t Hk Ht. destruct (tria_node m k t (fst k) (snd k) W Hk (or_introl (eq_sym (surjective_pairing k))) Ht) as [_ [_ [_ [A _]]]].
    apply mv_pos; exact A.
  Qed.

  Lemma mv_plate : plate m -> plate (move dx dy m).
  Proof.
    intros PL. constructor.
    - destruct (pl_flat m PL) as [z H]. exists z. intros n. rewrite mv_keys. intros Hn. rewrite mv_pos by exact Hn. apply (H n Hn).
    - intros t Ht. rewrite (mv_tdet t Ht). apply (pl_nondeg m PL t Ht).
    - exact (pl_two m PL).
    - intros k t1 t2 Hk T. assert (T' : tris_on m k = [t1; t2]) by exact T. destruct (mv_end k Hk) as [-> ->].
      rewrite !(mv_third k) by (try exact Hk; rewrite T'; cbn; auto). rewrite !mv_det2. apply (pl_sides m PL k t1 t2 Hk T').
  Qed.
  Lemma mv_props : forall pfn, props_complete m pfn -> props_complete (move dx dy m) pfn.
  Proof. intros [|]; unfold props_complete; [rewrite mv_prop|]; auto. Qed.
  Lemma mv_all_props : forall P, all_props m P -> all_props (move dx dy m) P.
  Proof. intros P [A B]. split; [rewrite mv_prop; exact A|exact B]. Qed.

  Lemma mv_valid : forall pfn, valid m pfn -> valid (move dx dy m) pfn.
  Proof.
    intros pfn [_ PL PC N]. constructor; [exact mv_wf|apply mv_plate; exact PL|apply mv_props; exact PC|].
    cbn [move nodes]. destruct (nodes m); [congruence|discriminate].
  Qed.

  (** ** Cell-based methods *)
  Definition shift_pt (p : pt) : pt := Pt (ptx p + dx) (pty p + dy) (ptw p) (ptfx p) (ptfy p).
  Lemma mv_at_node : forall u n, In n (node_keys m) -> at_node (move dx dy m) u n = shift_pt (at_node m u n).
  Proof. intros u n Hn. unfold at_node. rewrite mv_comp, mv_pos by exact Hn. reflexivity. Qed.
  Lemma gap_shift : forall p q, gap (shift_pt p) (shift_pt q) = gap p q.
  Proof. intros; unfold gap, shift_pt; cbn [ptx pty ptw ptfx ptfy]; ring. Qed.
  Lemma pdet_shift : forall p q r, pdet (shift_pt p) (shift_pt q) (shift_pt r) = pdet p q r.
  Proof. intros; unfold pdet, shift_pt; cbn [ptx pty]; ring. Qed.
  Lemma dsg_shift : forall p q r, dsg (shift_pt p) (shift_pt q) (shift_pt r) = dsg p q r.
  Proof. intros; unfold dsg; rewrite pdet_shift, !gap_shift. unfold shift_pt; cbn [ptx pty]. f_equal; f_equal; ring. Qed.
  Lemma center_shift : forall th p q r, center th (shift_pt p) (shift_pt q) (shift_pt r) = shift_pt (center th p q r).
  Proof. intros; unfold center, shift_pt; cbn [ptx pty ptw ptfx ptfy]; f_equal; field. Qed.
  Lemma cell_shift : forall th p q r, cell_shear th (shift_pt p) (shift_pt q) (shift_pt r) = cell_shear th p q r.
  Proof. intros; unfold cell_shear, parea. rewrite center_shift, !dsg_shift, !pdet_shift. reflexivity. Qed.

  Lemma mv_cell : forall th u t, In t (trias_of m) -> strain_cell th (move dx dy m) u t = strain_cell th m u t.
  Proof.
    intros th u t Ht. unfold strain_cell. rewrite !mv_at_node by (apply (wf_vertices m W t _ Ht); unfold vertex; auto). apply cell_shift.
  Qed.
  Lemma mv_ns : forall u t, In t (trias_of m) -> strain_ns (move dx dy m) u t = strain_ns m u t.
  Proof.
    intros u t Ht. unfold strain_ns. rewrite mv_tdet by exact Ht.
    rewrite !mv_at_node by (apply (wf_vertices m W t _ Ht); unfold vertex; auto). rewrite !dsg_shift. reflexivity.
  Qed.
  Lemma dist_shift : forall a b, In a (node_keys m) -> In b (node_keys m) -> dist (move dx dy m) a b = dist m a b.
  Proof. intros a b Ha Hb. unfold dist. rewrite !mv_pos by assumption. unfold shift; cbn [vx vy vz]. f_equal; ring. Qed.
  Lemma mv_size : forall mfa t, In t (trias_of m) -> tria_size (move dx dy m) mfa t = tria_size m mfa t.
  Proof.
    intros mfa t Ht. unfold tria_size. rewrite mv_tarea by exact Ht.
    rewrite !dist_shift by (apply (wf_vertices m W t _ Ht); unfold vertex; auto). reflexivity.
  Qed.
  Lemma mv_energy : forall g g' pfn alpha mfa u v,
    (forall u t, In t (trias_of m) -> g' u t = g u t) ->
    shear_energy g' (move dx dy m) pfn alpha mfa u v = shear_energy g m pfn alpha mfa u v.
  Proof.
    intros g g' pfn alpha mfa u v H. unfold shear_energy. change (trias_of (move dx dy m)) with (trias_of m).
    apply Sum_ext_in. intros t Ht. rewrite !H, mv_tarea, mv_size by exact Ht.
    unfold tria_G44, tria_G55, tria_val. rewrite mv_prop. reflexivity.
  Qed.

  (** ** Edge domains *)
  Lemma mv_dom : forall k, dom_area (move dx dy m) k = dom_area m k.
  Proof.
    intros k. unfold dom_area. change (tris_on (move dx dy m) k) with (tris_on m k). f_equal. apply Sum_ext_in. intros t Ht.
    apply mv_tarea. apply tris_on_in in Ht. tauto.
  Qed.
  Lemma mv_edge_val : forall pfn f k, edge_val (move dx dy m) pfn f k = edge_val m pfn f k.
  Proof.
    intros pfn f k. unfold edge_val. change (tris_on (move dx dy m) k) with (tris_on m k). rewrite mv_prop.
    destruct (tris_on m k) as [|t [|t' [|]]] eqn:E; try reflexivity.
    rewrite !mv_tarea; [reflexivity| |].
    - assert (H : In t' (tris_on m k)) by (rewrite E; cbn; auto). apply tris_on_in in H; tauto.
    - assert (H : In t (tris_on m k)) by (rewrite E; cbn; auto). apply tris_on_in in H; tauto.
  Qed.
  Lemma mv_edge_G : forall pfn k, edge_G (move dx dy m) pfn k = edge_G m pfn k.
  Proof. intros pfn k. unfold edge_G. rewrite !mv_edge_val. reflexivity. Qed.
  Lemma mv_centroid : forall t, In t (trias_of m) -> centroid (move dx dy m) t = shift dx dy (centroid m t).
  Proof.
    intros t Ht. unfold centroid. rewrite !(mv_vertex t) by (unfold vertex; auto). unfold shift; cbn [vx vy vz]. f_equal; field.
  Qed.
  Lemma vdist_shift : forall p q, vdist (shift dx dy p) (shift dx dy q) = vdist p q.
  Proof. intros; unfold vdist, shift; cbn [vx vy vz]; f_equal; ring. Qed.
  Lemma mv_edge_size : forall mfa k, In k (edge_keys m) -> edge_size (move dx dy m) mfa k = edge_size m mfa k.
  Proof.
    intros mfa k Hk. unfold edge_size. rewrite mv_dom. destruct mfa; [reflexivity|]. destruct (mv_end k Hk) as [-> ->].
    rewrite vdist_shift. cbv zeta. change (tris_on (move dx dy m) k) with (tris_on m k).
    assert (H : forall t, In t (tris_on m k) -> In t (trias_of m)) by (intros t Ht; apply tris_on_in in Ht; tauto).
    induction (tris_on m k) as [|t l IH]; [reflexivity|]. cbn [fold_right]. rewrite IH by (intros; apply H; right; assumption).
    rewrite mv_centroid, !vdist_shift by (apply H; left; reflexivity). reflexivity.
  Qed.
  Lemma mv_ccw : forall k, In k (edge_keys m) -> ccw (move dx dy m) k = ccw m k.
  Proof.
    intros k Hk. unfold ccw. change (tris_on (move dx dy m) k) with (tris_on m k). destruct (tris_on m k) as [|t l] eqn:T; [reflexivity|].
    destruct (mv_end k Hk) as [-> ->]. rewrite (mv_third k t Hk) by (rewrite T; left; reflexivity). rewrite mv_det2. reflexivity.
  Qed.
  Lemma ccw_nodes : forall k, In k (edge_keys m) -> In (fst (ccw m k)) (node_keys m) /\ In (snd (ccw m k)) (node_keys m).
  Proof.
    intros k Hk. destruct (ready_nodes m k (fst k) (snd k) W Hk (or_introl (eq_sym (surjective_pairing k)))) as [A [B _]].
    unfold ccw. destruct (tris_on m k); [auto|]. destruct Rlt_dec; auto.
  Qed.

  (** boundary edges, or any edge if dy = 0 *)
  Lemma mv_edge_Q : forall L pfn k u v, In k (edge_keys m) -> dy = 0 \/ length (tris_on m k) = 1%nat ->
    edge_Q L (move dx dy m) pfn k u v = edge_Q L m pfn k u v.
  Proof.
    intros L pfn k u v Hk H. unfold edge_Q. rewrite mv_len, mv_ccw by exact Hk. destruct (ccw_nodes k Hk) as [N1 N2].
    set (n1 := fst (ccw m k)) in *. set (n2 := snd (ccw m k)) in *. f_equal. unfold edge_upds.
    change (tris_on (move dx dy m) k) with (tris_on m k).
    assert (T : forall t, In t (tris_on m k) -> In t (trias_of m)) by (intros t Ht; apply tris_on_in in Ht; tauto).
    rewrite mv_edge_G, mv_dom, mv_zr. destruct (tris_on m k) as [|t [|t' [|]]] eqn:E; try reflexivity.
    - rewrite !mv_pos, mv_centroid by (try assumption; apply T; left; reflexivity). unfold shift; cbn [vx vy vz]. f_equal; ring.
    - destruct H as [H|H]; [|discriminate H].
      rewrite !mv_pos, !mv_centroid, !mv_tarea by (try assumption; apply T; cbn; auto). unfold shift; cbn [vx vy vz]. rewrite H. f_equal; ring.
  Qed.
End Move.
