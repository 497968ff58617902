(** Calculated entries of the edge-based method on small plates. *)
From Coq Require Import ZArith Reals List Bool Arith Lra Lia String.
From Verif Require Import Num Py Mesh Utils GenEdgeB GenEdgeI CalcK0 AddK0s Spec SpecK0 SpecKG SpecK0s FSum FMat FTensor
  FGeom FDict FWf FSetup FAsm FK0 FSmooth FDom FKG FRenum FK0s FK0p FK0e FK0i FK0t FMove FK0u Ex ExK0 LK0 ExK0s.
Import ListNotations.
Local Open Scope R_scope.
Implicit Types (m : mesh R).

Lemma upd_form_at : forall n us i j, upd_form n us (delta i) (delta j)
  = Sum snd (filter (fun x => Nat.eqb (nidx n (fst (fst x))) i && Nat.eqb (nidx n (snd (fst x))) j) us).
Proof.
  intros n us i j. unfold upd_form. induction us as [|x us IH]; [reflexivity|]. rewrite Sum_cons, IH. cbn [filter]. unfold delta.
  destruct (Nat.eqb _ i), (Nat.eqb _ j); cbn [andb]; rewrite ?Sum_cons; ring.
Qed.

(** ** Two triangles *)

Lemma two_tarea : forall p t, In t (trias_of (two p)) -> tarea (two p) t = 1/2.
Proof.
  intros p t Ht.
  assert (E : map (fun t => (tn1 t, tn2 t, tn3 t)) (trias_of (two p)) = [(1, 2, 3); (1, 3, 4)]%nat) by reflexivity.
  apply (in_map (fun t => (tn1 t, tn2 t, tn3 t))) in Ht. rewrite E in Ht. unfold tarea, tdet, det2, two, all_same. rewrite wp_pos.
  destruct two_pos as [P1 [P2 [P3 P4]]].
  destruct Ht as [H|[H|[]]]; injection H as <- <- <-; rewrite ?P1, ?P2, ?P3, ?P4; cbn [vx vy].
  - replace ((1 - 0) * (1 - 0) - (1 - 0) * (0 - 0)) with 1 by ring. rewrite Rabs_R1. lra.
  - replace ((1 - 0) * (1 - 0) - (0 - 0) * (1 - 0)) with 1 by ring. rewrite Rabs_R1. lra.
Qed.

Definition two_t1 (p : prop R) : tria R := nth 0 (trias_of (two p)) {| eid := 0; tn1 := 0; tn2 := 0; tn3 := 0; tprop := None; tedges := [] |}.
Definition two_t2 (p : prop R) : tria R := nth 1 (trias_of (two p)) {| eid := 0; tn1 := 0; tn2 := 0; tn3 := 0; tprop := None; tedges := [] |}.

Lemma two_wf' : forall p, wf_mesh (two p).
Proof. intros p. apply wp_wf, two_wf. Qed.

Lemma two_Qg : forall p pfn L h u v, edge_Q L (move 0 h (two p)) pfn (1, 3)%nat u v =
  let G := edge_G (two p) pfn (1, 3)%nat in
  upd_form 20 (edgei_entries L 2 0 1 3 (1/3) (1/6) (1/6) (fst (fst G)) (snd (fst G)) (snd G)
       (1/3) (- (1/3 + h)) (-2/3) (-1/3) (-2/3) (-1/3) (-1) (-1)) u v.
Proof.
  intros p pfn L h u v. assert (W := two_wf' p). destruct two_pos as [P1 [P2 [P3 P4]]].
  assert (K : In (1, 3)%nat (edge_keys (two p))) by (cbn; auto).
  unfold edge_Q. rewrite (mv_ccw 0 h (two p) W _ K).
  assert (T : tris_on (two p) (1, 3)%nat = [two_t1 p; two_t2 p]) by reflexivity.
  assert (C : ccw (two p) (1, 3)%nat = (3, 1)%nat).
  { unfold ccw. rewrite T. unfold two, all_same. rewrite wp_pos. cbn [fst snd]. change (third (two_t1 p) (1, 3)%nat) with 2%nat.
    rewrite P1, P2, P3. unfold det2; cbn [vx vy]. destruct Rlt_dec; [lra|reflexivity]. }
  rewrite C. cbn [fst snd]. cbv zeta. unfold edge_upds.
  assert (T' : tris_on (move 0 h (two p)) (1, 3)%nat = [two_t1 p; two_t2 p]) by reflexivity. rewrite T'.
  rewrite mv_dom, mv_edge_G by exact W.
  assert (I1 : In (two_t1 p) (trias_of (two p))) by (left; reflexivity).
  assert (I2 : In (two_t2 p) (trias_of (two p))) by (right; left; reflexivity).
  rewrite !mv_tarea, !mv_centroid by assumption. rewrite !two_tarea by assumption.
  assert (DA : dom_area (two p) (1, 3)%nat = 1/3).
  { unfold dom_area. rewrite T. unfold Sum; cbn [map rsum fold_right]. rewrite !two_tarea by assumption. field. }
  rewrite DA, mv_zr.
  assert (X1 : third (two_t1 p) (1, 3)%nat = 2%nat) by reflexivity. assert (X2 : third (two_t2 p) (1, 3)%nat = 4%nat) by reflexivity.
  rewrite X1, X2.
  assert (Z1 : zr (two p) 1 = 0%Z) by reflexivity. assert (Z2 : zr (two p) 2 = 1%Z) by reflexivity.
  assert (Z3 : zr (two p) 3 = 2%Z) by reflexivity. assert (Z4 : zr (two p) 4 = 3%Z) by reflexivity. rewrite Z1, Z2, Z3, Z4.
  assert (LN : (List.length (nodes (move 0 h (two p))) * 5)%nat = 20%nat) by reflexivity. rewrite LN. unfold two, all_same.
  rewrite !mv_pos by (rewrite wp_keys; cbn; tauto). unfold centroid. rewrite !wp_pos.
  assert (V1 : tn1 (two_t1 p) = 1%nat /\ tn2 (two_t1 p) = 2%nat /\ tn3 (two_t1 p) = 3%nat) by (repeat split; reflexivity).
  assert (V2 : tn1 (two_t2 p) = 1%nat /\ tn2 (two_t2 p) = 3%nat /\ tn3 (two_t2 p) = 4%nat) by (repeat split; reflexivity).
  destruct V1 as [-> [-> ->]]. destruct V2 as [-> [-> ->]].
  rewrite P1, P2, P3, P4. unfold shift; cbn [vx vy vz]. f_equal.
  f_equal; field.
Qed.

Lemma two_Q : forall p pfn L h i j, edge_Q L (move 0 h (two p)) pfn (1, 3)%nat (delta i) (delta j) =
  let G := edge_G (two p) pfn (1, 3)%nat in
  Sum snd (filter (fun x => Nat.eqb (nidx 20 (fst (fst x))) i && Nat.eqb (nidx 20 (snd (fst x))) j)
    (edgei_entries L 2 0 1 3 (1/3) (1/6) (1/6) (fst (fst G)) (snd (fst G)) (snd G)
       (1/3) (- (1/3 + h)) (-2/3) (-1/3) (-2/3) (-1/3) (-1) (-1))).
Proof. intros p pfn L h i j. rewrite two_Qg. cbv zeta. apply upd_form_at. Qed.

(** the entry of the deflection of node 2 *)
Lemma two_Q_w : forall p pfn h, let G := edge_G (two p) pfn (1, 3)%nat in let l := l6 lits_src in
  edge_Q lits_src (move 0 h (two p)) pfn (1, 3)%nat (delta 7) (delta 7) =
  3 * (l * l) * (fst (fst G) * (h * h) + 2 * snd (fst G) * h + snd G).
Proof.
  intros p pfn h G l. rewrite two_Q. cbv zeta. fold G. generalize G; clear G. intros [[g44 g45] g55]. cbn [fst snd].
  match goal with |- Sum snd ?x = _ => let y := eval lazy -[Rplus Rmult Rinv Ropp Rminus Rdiv IZR lits_src] in x in change x with y end.
  unfold Sum; cbn [map rsum fold_right snd]. unfold l; rnum. field.
Qed.
Lemma two_Q_px : forall p pfn, let G := edge_G (two p) pfn (1, 3)%nat in
  edge_Q lits_src (move 0 0 (two p)) pfn (1, 3)%nat (delta 8) (delta 8) = 3 * (l36 lits_src) * / 36 * fst (fst G).
Proof.
  intros p pfn G. rewrite two_Q. cbv zeta. fold G. generalize G; clear G. intros [[g44 g45] g55]. cbn [fst snd].
  match goal with |- Sum snd ?x = _ => let y := eval lazy -[Rplus Rmult Rinv Ropp Rminus Rdiv IZR lits_src] in x in change x with y end.
  unfold Sum; cbn [map rsum fold_right snd]. rnum. field.
Qed.
Lemma move0 : forall m L pfn k u v, wf_mesh m -> In k (edge_keys m) -> edge_Q L (move 0 0 m) pfn k u v = edge_Q L m pfn k u v.
Proof. intros m L pfn k u v W Hk. apply mv_edge_Q; auto. Qed.

(** ** The same laminate everywhere *)

Lemma all_same_val : forall m p pfn f k, wf_mesh m -> plate m -> In k (edge_keys m) -> edge_val (all_same p m) pfn f k = f p.
Proof.
  intros m p pfn f k W PL Hk. unfold edge_val, all_same. rewrite (wp_tris_on m W).
  destruct (ready_nodes m k (fst k) (snd k) W Hk (or_introl (eq_sym (surjective_pairing k)))) as [K1 [K2 _]].
  assert (TN : forall t, In t (tris_on m k) -> In (third t k) (node_keys m)).
  { intros t Ht. destruct (tria_node m k t (fst k) (snd k) W Hk (or_introl (eq_sym (surjective_pairing k))) Ht) as [_ [_ [_ [X _]]]]. exact X. }
  assert (L2 := pl_two m PL k Hk). assert (NE := tris_on_nonempty m W k Hk). assert (T := on_pos m PL k).
  assert (TA : forall t, tarea (with_props (fun _ => Some p) (fun _ => Some p) m) (wp_tria (fun _ => Some p) t) = tarea m t)
    by (intros t; unfold tarea, tdet; rewrite wp_pos; reflexivity).
  assert (TT : forall t, third (wp_tria (fun _ => Some p) t) k = third t k) by reflexivity.
  destruct (tris_on m k) as [|t [|t' [|t'' l]]]; [contradiction| | |cbn in L2; lia]; cbn [map].
  - destruct pfn; [|reflexivity]. rewrite TT, !wp_prop by (try assumption; apply TN; cbn; auto). cbn [pval]. field.
  - assert (A1 := T t (or_introl eq_refl)). assert (A2 := T t' (or_intror (or_introl eq_refl))). rewrite !TA.
    destruct pfn; [|cbn [wp_tria tprop pval]; field; lra]. rewrite !TT, !wp_prop by (try assumption; apply TN; cbn; auto). cbn [pval]. field.
Qed.
Lemma wp_edge_Q : forall m np tp np' tp' L pfn k u v, wf_mesh m ->
  edge_G (with_props np tp m) pfn k = edge_G (with_props np' tp' m) pfn k ->
  edge_Q L (with_props np tp m) pfn k u v = edge_Q L (with_props np' tp' m) pfn k u v.
Proof.
  intros m np tp np' tp' L pfn k u v W HG. unfold edge_Q.
  assert (LN : forall np tp, List.length (nodes (with_props np tp m)) = List.length (nodes m)) by (intros; cbn [with_props nodes]; apply map_length).
  rewrite !LN.
  assert (ZR : forall np tp, zr (with_props np tp m) = zr m) by (intros; unfold zr, rank; rewrite wp_keys; reflexivity).
  assert (CC : forall np tp, ccw (with_props np tp m) k = ccw m k).
  { intros a b. unfold ccw. rewrite (wp_tris_on m W), wp_pos. destruct (tris_on m k); reflexivity. }
  assert (CT : forall np tp t, centroid (with_props np tp m) (wp_tria tp t) = centroid m t) by (intros; unfold centroid; rewrite wp_pos; reflexivity).
  assert (TA : forall np tp t, tarea (with_props np tp m) (wp_tria tp t) = tarea m t)
    by (intros; unfold tarea, tdet; rewrite wp_pos; reflexivity).
  rewrite !CC. f_equal. unfold edge_upds. rewrite HG, !(wp_tris_on m W), !ZR, !wp_dom, !wp_pos by exact W.
  destruct (tris_on m k) as [|t [|t' [|t'' l]]]; cbn [map]; rewrite ?CT, ?TA; reflexivity.
Qed.

(** ** One triangle *)

Definition tri_t (p : prop R) : tria R := nth 0 (trias_of (tri p)) {| eid := 0; tn1 := 0; tn2 := 0; tn3 := 0; tprop := None; tedges := [] |}.

Lemma tri_tarea : forall p, tarea (tri p) (tri_t p) = 1/2.
Proof.
  intros p. unfold tarea, tdet, det2, tri, all_same. rewrite wp_pos.
  assert (V1 : tn1 (tri_t p) = 1%nat /\ tn2 (tri_t p) = 2%nat /\ tn3 (tri_t p) = 3%nat) by (repeat split; reflexivity).
  destruct V1 as [-> [-> ->]]. destruct tri_pos as [P1 [P2 P3]]. rewrite P1, P2, P3; cbn [vx vy].
  replace ((1 - 0) * (1 - 0) - (0 - 0) * (0 - 0)) with 1 by ring. rewrite Rabs_R1. lra.
Qed.

Lemma tri_Q : forall p pfn L k n1 n2 o u v, In (k, (n1, n2, o)) [((1,2), (1,2,3)); ((2,3), (2,3,1)); ((1,3), (3,1,2))]%nat ->
  edge_Q L (tri p) pfn k u v = let G := edge_G (tri p) pfn k in
  upd_form 15 (edgeb_entries L (zr (tri p) n1) (zr (tri p) n2) (zr (tri p) o) (1/6) (fst (fst G)) (snd (fst G)) (snd G)
    (vx (pos (tri p) n1) - 1/3) (vy (pos (tri p) n1) - 1/3) (vx (pos (tri p) n2) - 1/3) (vy (pos (tri p) n2) - 1/3)) u v.
Proof.
  intros p pfn L k n1 n2 o u v H. destruct tri_pos as [P1 [P2 P3]].
  assert (V1 : tn1 (tri_t p) = 1%nat /\ tn2 (tri_t p) = 2%nat /\ tn3 (tri_t p) = 3%nat) by (repeat split; reflexivity).
  assert (CE : centroid (tri p) (tri_t p) = V3 (1/3) (1/3) 0).
  { unfold centroid, tri, all_same. rewrite wp_pos. destruct V1 as [-> [-> ->]]. rewrite P1, P2, P3; cbn [vx vy vz]. f_equal; field. }
  assert (T : tris_on (tri p) k = [tri_t p] /\ ccw (tri p) k = (n1, n2) /\ third (tri_t p) k = o).
  { assert (T : tris_on (tri p) k = [tri_t p]) by (destruct H as [H|[H|[H|[]]]]; injection H as <- <- <- <-; reflexivity).
    assert (O : third (tri_t p) k = o) by (destruct H as [H|[H|[H|[]]]]; injection H as <- <- <- <-; reflexivity).
    split; [exact T|]. split; [|exact O]. unfold ccw. rewrite T, O. unfold tri, all_same. rewrite wp_pos.
    destruct H as [H|[H|[H|[]]]]; injection H as <- <- <- <-; cbn [fst snd]; rewrite ?P1, ?P2, ?P3; unfold det2; cbn [vx vy];
      destruct Rlt_dec; (reflexivity || lra). }
  destruct T as [T [C O]]. unfold edge_Q. rewrite C. cbn [fst snd]. cbv zeta. unfold edge_upds. rewrite T, O, CE. cbn [vx vy].
  assert (DA : dom_area (tri p) k = 1/6).
  { unfold dom_area. rewrite T. unfold Sum; cbn [map rsum fold_right]. rewrite tri_tarea. field. }
  rewrite DA. assert (LN : (List.length (nodes (tri p)) * 5)%nat = 15%nat) by reflexivity. rewrite LN. reflexivity.
Qed.

Lemma tri_G : forall a b k13 k23 pfn k, In k (edge_keys tri_read) ->
  edge_G (tri (shear_prop a b k13 k23)) pfn k = (k23 * a, 0, k13 * b).
Proof.
  intros a b k13 k23 pfn k Hk. unfold edge_G. cbv zeta. unfold tri. rewrite !(all_same_val tri_read _ pfn _ k tri_wf tri_plate Hk).
  assert (T : exists t, tris_on (all_same (shear_prop a b k13 k23) tri_read) k = [t]).
  { exists (tri_t (shear_prop a b k13 k23)). assert (E : edge_keys tri_read = [(1, 2); (2, 3); (1, 3)]%nat) by reflexivity.
    rewrite E in Hk. destruct Hk as [<-|[<-|[<-|[]]]]; reflexivity. }
  destruct T as [t ->]. reflexivity.
Qed.

Ltac tri_entry := rewrite upd_form_at;
  match goal with |- context [Sum snd ?x] => let y := eval lazy -[Rplus Rmult Rinv Ropp Rminus Rdiv IZR lits_src] in x in
    assert (YY : x = y) by (lazy -[Rplus Rmult Rinv Ropp Rminus Rdiv IZR lits_src]; reflexivity); rewrite YY; clear YY end;
  unfold Sum; cbn [map rsum fold_right snd].

(** the entries (w, phi_x) and (phi_x, w) of node 2: one contains the square of the decimal of 1/6, the other
    the decimal of 1/36 *)
Lemma tri_asym : forall pfn, let m := tri (shear_prop 1 1 1 1) in
  Sum (fun k => edge_Q lits_src m pfn k (delta 7) (delta 8)) (edge_keys m)
  - Sum (fun k => edge_Q lits_src m pfn k (delta 8) (delta 7)) (edge_keys m) = l6 lits_src * l6 lits_src - l36 lits_src.
Proof.
  intros pfn m. assert (E : edge_keys m = [(1, 2); (2, 3); (1, 3)]%nat) by reflexivity. rewrite E. unfold m.
  unfold Sum at 1 2; cbn [map rsum fold_right].
  assert (KK : edge_keys tri_read = [(1, 2); (2, 3); (1, 3)]%nat) by reflexivity.
  rewrite !(tri_Q _ pfn _ (1,2)%nat 1 2 3), !(tri_Q _ pfn _ (2,3)%nat 2 3 1), !(tri_Q _ pfn _ (1,3)%nat 3 1 2) by (cbn; auto).
  rewrite !tri_G by (rewrite KK; cbn; auto). cbv zeta. cbn [fst snd].
  assert (ZZ : zr (tri (shear_prop 1 1 1 1)) 1 = 0%Z /\ zr (tri (shear_prop 1 1 1 1)) 2 = 1%Z /\ zr (tri (shear_prop 1 1 1 1)) 3 = 2%Z) by (repeat split; reflexivity).
  destruct ZZ as [-> [-> ->]]. destruct tri_pos as [P1 [P2 P3]]. unfold tri, all_same. rewrite wp_pos, P1, P2, P3. cbn [vx vy].
  do 6 tri_entry. rnum. field.
Qed.
Ltac tri_entry' :=
  match goal with |- context [Sum snd ?x] => let y := eval lazy -[Rplus Rmult Rinv Ropp Rminus Rdiv IZR lits_src] in x in
    assert (YY : x = y) by (lazy -[Rplus Rmult Rinv Ropp Rminus Rdiv IZR lits_src]; reflexivity); rewrite YY; clear YY end.
Definition w_unit (i : nat) : R := if Nat.eqb (i mod 5) 2 then 1 else 0.

Lemma upd_form_w : forall n us i, upd_form n us (delta i) w_unit
  = Sum snd (filter (fun x => Nat.eqb (nidx n (fst (fst x))) i && Nat.eqb (nidx n (snd (fst x)) mod 5) 2) us).
Proof.
  intros n us i. unfold upd_form. induction us as [|x us IH]; [reflexivity|]. rewrite Sum_cons, IH. cbn [filter]. unfold delta, w_unit.
  destruct (Nat.eqb _ i), (Nat.eqb (_ mod 5) 2); cbn [andb]; rewrite ?Sum_cons; ring.
Qed.

(** a unit translation in w and the equation of w in node 1 *)
Lemma tri_lift : forall pfn, let m := tri (shear_prop 1 1 1 1) in
  Sum (fun k => edge_Q lits_src m pfn k (delta 2) w_unit) (edge_keys m) = 8 / 1000000000000000000 / 1000000000000.
Proof.
  intros pfn m. assert (E : edge_keys m = [(1, 2); (2, 3); (1, 3)]%nat) by reflexivity. rewrite E. unfold m.
  unfold Sum at 1; cbn [map rsum fold_right].
  assert (KK : edge_keys tri_read = [(1, 2); (2, 3); (1, 3)]%nat) by reflexivity.
  rewrite !(tri_Q _ pfn _ (1,2)%nat 1 2 3), !(tri_Q _ pfn _ (2,3)%nat 2 3 1), !(tri_Q _ pfn _ (1,3)%nat 3 1 2) by (cbn; auto).
  rewrite !tri_G by (rewrite KK; cbn; auto). cbv zeta. cbn [fst snd].
  assert (ZZ : zr (tri (shear_prop 1 1 1 1)) 1 = 0%Z /\ zr (tri (shear_prop 1 1 1 1)) 2 = 1%Z /\ zr (tri (shear_prop 1 1 1 1)) 3 = 2%Z) by (repeat split; reflexivity).
  destruct ZZ as [-> [-> ->]]. destruct tri_pos as [P1 [P2 P3]]. unfold tri, all_same. rewrite wp_pos, P1, P2, P3. cbn [vx vy].
  rewrite !upd_form_w. do 3 tri_entry'. unfold Sum; cbn [map rsum fold_right snd]. rnum. field.
Qed.

(** ** A negative energy *)

Lemma upd_form_supp : forall (b : nat -> bool) n us u, (forall i, b i = false -> u i = 0) -> upd_form n us u u
  = Sum (fun x => snd x * (u (nidx n (fst (fst x))) * u (nidx n (snd (fst x)))))
        (filter (fun x => b (nidx n (fst (fst x))) && b (nidx n (snd (fst x)))) us).
Proof.
  intros b n us u H. unfold upd_form. induction us as [|x us IH]; [reflexivity|]. rewrite Sum_cons, IH. cbn [filter].
  destruct (b (nidx n (fst (fst x)))) eqn:B1, (b (nidx n (snd (fst x)))) eqn:B2; cbn [andb]; rewrite ?Sum_cons.
  - ring.
  - rewrite (H _ B2). ring.
  - rewrite (H _ B1). ring.
  - rewrite (H _ B1). ring.
Qed.

(** phi_y = -2 in node 1, w = 1 and phi_x = 2 in node 3 *)
Definition tri_neg : nat -> R := fun i => nth i [0; 0; 0; 0; -2; 0; 0; 0; 0; 0; 0; 0; 1; 2; 0] 0.

Ltac tri_sum :=
  match goal with |- context [Sum ?f (filter ?b ?x)] => let y := eval lazy -[Rplus Rmult Rinv Ropp Rminus Rdiv IZR lits_src] in (map f (filter b x)) in
    assert (YY : Sum f (filter b x) = rsum y) by (unfold Sum; f_equal; lazy -[Rplus Rmult Rinv Ropp Rminus Rdiv IZR lits_src]; reflexivity);
    rewrite YY; clear YY end.

Lemma tri_negative : forall pfn, let m := tri (shear_prop 1 1 1 1) in
  Sum (fun k => edge_Q lits_src m pfn k tri_neg tri_neg) (edge_keys m) = - (2037037037037 / 12500000000000000000000000000).
Proof.
  intros pfn m. assert (E : edge_keys m = [(1, 2); (2, 3); (1, 3)]%nat) by reflexivity. rewrite E. unfold m.
  unfold Sum at 1; cbn [map rsum fold_right].
  assert (KK : edge_keys tri_read = [(1, 2); (2, 3); (1, 3)]%nat) by reflexivity.
  rewrite !(tri_Q _ pfn _ (1,2)%nat 1 2 3), !(tri_Q _ pfn _ (2,3)%nat 2 3 1), !(tri_Q _ pfn _ (1,3)%nat 3 1 2) by (cbn; auto).
  rewrite !tri_G by (rewrite KK; cbn; auto). cbv zeta. cbn [fst snd].
  assert (ZZ : zr (tri (shear_prop 1 1 1 1)) 1 = 0%Z /\ zr (tri (shear_prop 1 1 1 1)) 2 = 1%Z /\ zr (tri (shear_prop 1 1 1 1)) 3 = 2%Z) by (repeat split; reflexivity).
  destruct ZZ as [-> [-> ->]]. destruct tri_pos as [P1 [P2 P3]]. unfold tri, all_same. rewrite wp_pos, P1, P2, P3. cbn [vx vy].
  assert (S : forall i, (fun i => Nat.eqb i 4 || Nat.eqb i 12 || Nat.eqb i 13) i = false -> tri_neg i = 0).
  { intros i. do 15 (destruct i as [|i]; [try reflexivity; discriminate|]). intros _. unfold tri_neg. apply nth_overflow. cbn. lia. }
  rewrite !(upd_form_supp _ _ _ tri_neg S). clear S. do 3 tri_sum. cbn [rsum fold_right]. rnum. field.
Qed.
