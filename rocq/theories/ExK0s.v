(** Small plates for the theorems on add_k0s. *)
From Coq Require Import ZArith Reals List Bool Arith Lra Lia Permutation.
From Verif Require Import Num Py Mesh Utils CalcK0 Spec SpecRead SpecK0 SpecKG SpecK0s FSum FDict FWf Ops FOps FRead FRead2 LRead FConn FSmooth FRenum Ex ExK0 LK0.
Import ListNotations.
Local Open Scope R_scope.
Implicit Types (m : mesh R).

(** no coupling of anything, shear stiffness diag (a, b) *)
Definition shear_prop (a b k13 k23 : R) : prop R := {|
  pA := zero3; pB := zero3; pD := zero3; pE := M2 a 0 0 b; ph := 1; pk13 := k13; pk23 := k23 |}.

Definition all_same (p : prop R) (m : mesh R) : mesh R := with_props (fun _ => Some p) (fun _ => Some p) m.

(** two triangles *)
Definition two_read : mesh R := Eval lazy -[IZR] in
  match read_delaunay [[0; 0]; [1; 0]; [1; 1]; [0; 1]] [[0; 1; 2]; [0; 2; 3]]%Z with
  | Ok m => m | Raise _ => {| nodes := []; elements := []; edges := [] |} end.
Lemma two_reads : read_delaunay [[0; 0]; [1; 0]; [1; 1]; [0; 1]] [[0; 1; 2]; [0; 2; 3]]%Z = Ok two_read.
Proof. lazy -[IZR]. reflexivity. Qed.
Definition two (p : prop R) : mesh R := all_same p two_read.

(** one triangle, with two orders of the vertices *)
Definition tri_read : mesh R := Eval lazy -[IZR] in
  match read_delaunay [[0; 0]; [1; 0]; [0; 1]] [[0; 1; 2]]%Z with
  | Ok m => m | Raise _ => {| nodes := []; elements := []; edges := [] |} end.
Lemma tri_reads : read_delaunay [[0; 0]; [1; 0]; [0; 1]] [[0; 1; 2]]%Z = Ok tri_read.
Proof. lazy -[IZR]. reflexivity. Qed.
Definition tri (p : prop R) : mesh R := all_same p tri_read.
Definition tri_read' : mesh R := Eval lazy -[IZR] in
  match read_delaunay [[0; 0]; [1; 0]; [0; 1]] [[1; 2; 0]]%Z with
  | Ok m => m | Raise _ => {| nodes := []; elements := []; edges := [] |} end.
Lemma tri_reads' : read_delaunay [[0; 0]; [1; 0]; [0; 1]] [[1; 2; 0]]%Z = Ok tri_read'.
Proof. lazy -[IZR]. reflexivity. Qed.
Definition tri' (p : prop R) : mesh R := all_same p tri_read'.

Lemma reads_valid : forall pts tris m np tp pfn, read_delaunay (T := R) pts tris = Ok m ->
  (forall t, In t (trias_of m) -> distinct t) -> plate m -> nodes m <> [] ->
  (forall n, np n <> None) -> (forall e, tp e <> None) -> valid (with_props np tp m) pfn.
Proof.
  intros pts tris m np tp pfn E DI PL N HN HT.
  assert (W : wf_mesh m) by (apply reads_wf; [apply (reads_delaunay _ _ _ E)|exact DI]).
  constructor.
  - apply wp_wf, W.
  - apply wp_plate; [exact W|exact PL].
  - destruct pfn; unfold props_complete.
    + intros k Hk. rewrite wp_edges in Hk.
      destruct (FAsm.ready_nodes m k (fst k) (snd k) W Hk) as [Ka [Kb _]]; [left; destruct k; reflexivity|].
      rewrite !(wp_prop m np tp) by assumption. auto.
    + intros t. rewrite (wp_trias m W np tp). intros Ht. apply in_map_iff in Ht. destruct Ht as [t0 [<- _]]. apply HT.
  - cbn [with_props nodes]. destruct (nodes m); [congruence|discriminate].
Qed.

Lemma with_one : forall m p (Q : prop R -> Prop), wf_mesh m -> Q p -> all_props (all_same p m) Q.
Proof.
  intros m p Q W HQ. split.
  - intros n q. unfold all_same, nodeprop. rewrite (wp_dget m). destruct (dget Nat.eqb n (nodes m)); cbn; [|discriminate].
    intros E; injection E as <-. exact HQ.
  - intros t q. unfold all_same. rewrite (wp_trias m W). intros Ht. apply in_map_iff in Ht. destruct Ht as [t0 [<- _]]. cbn.
    intros E; injection E as <-. exact HQ.
Qed.

Lemma two_distinct : forall t, In t (trias_of two_read) -> distinct t.
Proof.
  intros t H. assert (E : map (fun t => (tn1 t, tn2 t, tn3 t)) (trias_of two_read) = [(1, 2, 3); (1, 3, 4)]%nat) by reflexivity.
  apply (in_map (fun t => (tn1 t, tn2 t, tn3 t))) in H. rewrite E in H. unfold distinct. cbn [In] in H.
  repeat (destruct H as [H|H]; [injection H; intros <- <- <-; repeat split; discriminate|]). destruct H.
Qed.
Lemma two_wf : wf_mesh two_read.
Proof. apply reads_wf; [apply (reads_delaunay _ _ _ two_reads)|exact two_distinct]. Qed.
Lemma two_edge_keys : edge_keys two_read = [(1, 2); (2, 3); (1, 3); (3, 4); (1, 4)]%nat.
Proof. reflexivity. Qed.
Lemma two_pos : pos two_read 1 = V3 0 0 0 /\ pos two_read 2 = V3 1 0 0 /\ pos two_read 3 = V3 1 1 0 /\ pos two_read 4 = V3 0 1 0.
Proof. repeat split; reflexivity. Qed.
Lemma two_plate : plate two_read.
Proof.
  destruct two_pos as [P1 [P2 [P3 P4]]]. constructor.
  - exists 0. intros n H. assert (E : node_keys two_read = [1; 2; 3; 4]%nat) by reflexivity. rewrite E in H. cbn [In] in H.
    destruct H as [<-|[<-|[<-|[<-|[]]]]]; rewrite ?P1, ?P2, ?P3, ?P4; reflexivity.
  - intros t H. assert (E : map (fun t => (tn1 t, tn2 t, tn3 t)) (trias_of two_read) = [(1, 2, 3); (1, 3, 4)]%nat) by reflexivity.
    apply (in_map (fun t => (tn1 t, tn2 t, tn3 t))) in H. rewrite E in H. cbn [In] in H. unfold tdet, det2.
    repeat (destruct H as [H|H]; [injection H; intros <- <- <-; rewrite ?P1, ?P2, ?P3, ?P4; cbn [vx vy]; lra|]). destruct H.
  - intros k H. rewrite two_edge_keys in H. cbn [In] in H. repeat (destruct H as [H|H]; [subst k; cbn; lia|]). destruct H.
  - intros k t1 t2 H E. rewrite two_edge_keys in H. cbn [In] in H.
    assert (X : forall f : tria R -> nat, map f (tris_on two_read k) = [f t1; f t2]) by (intros f; rewrite E; reflexivity).
    assert (Y := X (fun t => third t k)). clear X E.
    repeat (destruct H as [H|H]; [subst k; cbn in Y; first [discriminate Y |
       injection Y; intros Y1 Y2; cbn [fst snd]; unfold det2;
       first [rewrite <- Y1, <- Y2 | rewrite <- Y1 | rewrite <- Y2]; rewrite ?P1, ?P2, ?P3, ?P4; cbn [vx vy]; lra]|]).
    destruct H.
Qed.
Lemma two_valid : forall p pfn, valid (two p) pfn.
Proof. intros p pfn. apply (reads_valid _ _ _ _ _ _ two_reads two_distinct two_plate); discriminate. Qed.

Lemma tri_distinct : forall t, In t (trias_of tri_read) -> distinct t.
Proof. intros t [<-|[]]. repeat split; discriminate. Qed.
Lemma tri_wf : wf_mesh tri_read.
Proof. apply reads_wf; [apply (reads_delaunay _ _ _ tri_reads)|exact tri_distinct]. Qed.
Lemma tri_pos : pos tri_read 1 = V3 0 0 0 /\ pos tri_read 2 = V3 1 0 0 /\ pos tri_read 3 = V3 0 1 0.
Proof. repeat split; reflexivity. Qed.
Lemma tri_plate : plate tri_read.
Proof.
  destruct tri_pos as [P1 [P2 P3]]. constructor.
  - exists 0. intros n H. assert (E : node_keys tri_read = [1; 2; 3]%nat) by reflexivity. rewrite E in H. cbn [In] in H.
    destruct H as [<-|[<-|[<-|[]]]]; rewrite ?P1, ?P2, ?P3; reflexivity.
  - intros t [<-|[]]. unfold tdet, det2; cbn [tn1 tn2 tn3 snd]. rewrite P1, P2, P3; cbn [vx vy]. lra.
  - intros k H. assert (E : edge_keys tri_read = [(1, 2); (2, 3); (1, 3)]%nat) by reflexivity. rewrite E in H. cbn [In] in H.
    repeat (destruct H as [H|H]; [subst k; cbn; lia|]). destruct H.
  - intros k t1 t2 _ E. exfalso. unfold tris_on in E. cbn [tri_read trias_of elements map filter] in E. destruct (_ && _); discriminate E.
Qed.
Lemma tri_valid : forall p pfn, valid (tri p) pfn.
Proof. intros p pfn. apply (reads_valid _ _ _ _ _ _ tri_reads tri_distinct tri_plate); discriminate. Qed.

Lemma tri_same : forall p, same_plate_as (tri p) (tri' p).
Proof.
  intros p. constructor.
  - reflexivity.
  - intros n. destruct n as [|[|[|[|n]]]]; reflexivity.
  - intros n. destruct n as [|[|[|[|n]]]]; reflexivity.
  - exists (trias_of (tri p)). split; [apply Permutation_refl|].
    apply Forall2_cons; [|apply Forall2_nil]. split; [|reflexivity]. cbn [tn1 tn2 tn3].
    apply (Permutation_trans (l' := [2;1;3]%nat)); [apply perm_swap|apply perm_skip, perm_swap].
Qed.
Lemma tri_wf' : forall p, wf_mesh (tri' p).
Proof.
  intros p. apply wp_wf. apply reads_wf; [apply (reads_delaunay _ _ _ tri_reads')|].
  intros t [<-|[]]. repeat split; discriminate.
Qed.
Lemma tri_valid' : forall p pfn, valid (tri' p) pfn.
Proof.
  intros p pfn. constructor; [apply tri_wf'|apply (rn_plate (tri p) (tri' p))|apply (rn_props (tri p) (tri' p))|discriminate];
    try apply tri_same; try apply tri_wf'; try apply (va_wf _ pfn (tri_valid p pfn)); try apply (va_plate _ pfn (tri_valid p pfn));
    try apply (va_props _ pfn (tri_valid p pfn)).
Qed.

(** every valid plate can be prepared *)
Lemma prepare : forall m pfn, valid m pfn -> exists m', prepared_from m m'.
Proof.
  intros m pfn V. destruct (valid_spec m pfn V) as [m' [K [E _]]]. exists m', pfn, K. split; assumption.
Qed.

Lemma ex_thick : thick ex_mesh.
Proof.
  split.
  - intros n p H. unfold nodeprop in H.
    destruct n as [|[|[|[|[|[|[|n]]]]]]]; cbn in H; try discriminate; injection H as <-; cbn; lra.
  - intros t p Ht. assert (E : map tprop (trias_of ex_mesh) = [Some (ex_prop 1); Some (ex_prop 2); Some (ex_prop 1); Some (ex_prop 3)])
      by reflexivity.
    intros Hp. apply (in_map tprop) in Ht. rewrite E, Hp in Ht. cbn [In] in Ht.
    repeat (destruct Ht as [Ht|Ht]; [injection Ht as <-; cbn; lra|]). destruct Ht.
Qed.
Lemma ex_all : forall P : prop R -> Prop, (forall c, 0 <= c -> P (ex_prop c)) -> all_props ex_mesh P.
Proof.
  intros P HP. split.
  - intros n p H. unfold nodeprop in H.
    destruct n as [|[|[|[|[|[|[|n]]]]]]]; cbn in H; try discriminate; injection H as <-; apply HP; lra.
  - intros t p Ht. assert (E : map tprop (trias_of ex_mesh) = [Some (ex_prop 1); Some (ex_prop 2); Some (ex_prop 1); Some (ex_prop 3)])
      by reflexivity.
    intros Hp. apply (in_map tprop) in Ht. rewrite E, Hp in Ht. cbn [In] in Ht.
    repeat (destruct Ht as [Ht|Ht]; [injection Ht as <-; apply HP; lra|]). destruct Ht.
Qed.
Lemma ex_stiff : stiff ex_mesh.
Proof. apply ex_all. intros c Hc. cbn. repeat split; lra. Qed.
Lemma ex_stiff_full : stiff_full ex_mesh.
Proof.
  apply ex_all. intros c Hc. cbn. split; [lra|]. split; [lra|]. intros x y.
  replace (5 * c * x * x + 2 * 0 * x * y + 6 * c * y * y) with (c * (5 * (x * x) + 6 * (y * y))) by ring.
  apply Rmult_le_pos; [exact Hc|]. assert (X := Rle_0_sqr x). assert (Y := Rle_0_sqr y). unfold Rsqr in *. lra.
Qed.

(** w = 1 + 2 x - 3 y, phi_x = 5, phi_y = 7: shear strain (7, 4) *)
Definition ex_shear : nat -> R := field ex_mesh (fun c n => match c with
  | 2%nat => affine ex_mesh 1 2 (-3) n | 3%nat => 5 | 4%nat => 7 | _ => INR n end).
Lemma ex_constant : constant_shear ex_mesh ex_shear 2 (-3) 5 7.
Proof. exists 1. intros n Hn. unfold ex_shear. rewrite !field_comp by (try lia; assumption). auto. Qed.
Definition ex_lift : nat -> R := field ex_mesh (fun c n => match c with 2%nat => 3 | 3%nat => 0 | 4%nat => 0 | _ => INR n end).
Lemma ex_lifted : w_translation ex_mesh ex_lift.
Proof. exists 3. intros n Hn. unfold ex_lift, affine. rewrite !field_comp by (try lia; assumption). repeat split; ring. Qed.
(** rotation w = 2 x - 3 y with phi_x = -2, phi_y = 3 *)
Definition ex_tilt : nat -> R := field ex_mesh (fun c n => match c with
  | 2%nat => affine ex_mesh 0 2 (-3) n | 3%nat => -2 | 4%nat => 3 | _ => INR n end).
Lemma ex_tilted : constant_shear ex_mesh ex_tilt 2 (-3) (-2) (- -3).
Proof. exists 0. intros n Hn. unfold ex_tilt. rewrite !field_comp by (try lia; assumption). repeat split. ring. Qed.
Lemma ex_valid2 : forall pfn, valid ex_mesh2 pfn.
Proof.
  intros pfn. constructor; [apply ex_wf2|apply (rn_plate ex_mesh ex_mesh2)|apply (rn_props ex_mesh ex_mesh2)|discriminate];
    try apply ex_same_plate; try apply ex_wf2; try apply ex_wf; try apply ex_plate; try apply ex_props.
Qed.
