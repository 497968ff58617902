(** The square of ExDouble.v, shortened. *)
From Coq Require Import ZArith Reals List Bool Arith Lra Lia String Floats.SpecFloat.
From Verif Require Import Num Float Py Mesh Utils CalcK0 CalcKG AddK0s Ops Spec SpecRead SpecK0 SpecKG SpecK0s SpecStab SpecStat SpecConv SpecSol SpecSol2 SpecKorn SpecRound SpecRound2 SpecRound3 SpecRound6 SpecCond SpecBuck
  FSum FDict FWf FOps FSmooth FOut FRound8 FMove FRead FRead2 FConn FConv FRound13 LRead LOut LKG LRound2 Ex ExK0s ExStab ExGrid ExMindlin ExFloat ExDouble FDouble.
Import ListNotations.
Local Open Scope R_scope.

Lemma s_press : kG_scale star 1 64 1 spress /\ List.length spress = 25%nat.
Proof.
  split; [|reflexivity]. constructor; [| |lra|lra].
  - intros p Hp. rewrite (s_prop p Hp). intros x Hx. revert x Hx.
    match goal with |- context [In _ ?l] => let v := eval vm_compute in l in change l with v end. intros x H. cbn [In] in H.
    repeat (destruct H as [<-|H]; [split; [reflexivity || exact I|dval; rewrite ?Rabs_R0; try (rewrite Rabs_right by lra); lra]|]). destruct H.
  - match goal with |- context [In _ ?l] => let v := eval vm_compute in l in change l with v end. intros x H. cbn [In] in H.
    repeat (destruct H as [<-|H]; [split; [reflexivity || exact I|dval; rewrite ?Rabs_R0; try apply Rabs_le; lra]|]). destruct H.
Qed.
Lemma s_rows_kG : row_sums 25 (kG_bound star 4 1 64 1) 4.
Proof.
  intros i _. eapply Rle_trans; [apply Sum_le with (g := fun _ => 1 / 8); intros j _|unfold Sum; cbn [seq map]; unfold rsum; cbn [fold_right]; lra].
  unfold kG_bound. destruct (_ && _)%bool; [|lra].
  assert (A : (shared star (node_at star i) (node_at star j) <= 8)%nat) by (unfold shared; rewrite s_edges; apply (filter_le _ _ [(1, 2); (2, 5); (1, 5); (2, 3); (3, 5); (3, 4); (4, 5); (1, 4)]%nat)).
  apply le_INR in A. assert (A0 := pos_INR (shared star (node_at star i) (node_at star j))).
  set (a := INR (shared _ _ _)) in *. change (INR 8) with (1 + 1 + 1 + 1 + 1 + 1 + 1 + 1) in A. clearbody a.
  assert (A2 : 0 <= a ^ 2 <= 64) by (cbn [pow]; split; [apply Rmult_le_pos; lra|]; replace 64 with (8 * 8) by ring; apply Rmult_le_compat; lra).
  unfold roundoff. lra.
Qed.
Lemma s_val : map val spress = [0; 0; 0; 0; 0; -1; 0; 0; 0; 0; -1; 0; 0; 0; 0; 0; 0; 0; 0; 0; - (1 / 2); 0; 0; 0; 0].
Proof.
  match goal with |- map val ?l = _ => let v := eval vm_compute in l in change l with v end. cbn [map]. dval. repeat f_equal; lra.
Qed.
Lemma s_forces : forall pfn, forces_le 11 (mesh_val star) pfn (map val spress).
Proof.
  intros pfn k Hk. assert (V := s_valid pfn).
  rewrite !(stiffness_one (mesh_val star) pfn (prop_val (fprop (dz 1))) k _ (va_wf _ _ V) (va_plate _ _ V) (va_props _ _ V) s_one Hk).
  set (q := fun c => match c with 0%nat => (0, -1, 0) | _ => (0, 0, 0) end).
  rewrite (strain_affine (mesh_val star) (vec_of (map val spress)) k q (va_wf _ _ V) (va_plate _ _ V) Hk).
  - unfold q, membrane, prop_val, fprop; cbn [fst snd pA pB]; unfold mat3_val; cbn [m00 m01 m02 m10 m11 m12 m20 m21 m22 exx eyy exy kxx kyy kxy vx vy vz].
    rewrite !rb. dz_all. lra.
  - intros c a Hc _ Ha. rewrite (keys_lock _ _ (lock_val star)), s_keys in Ha. rewrite s_val. unfold affine, comp, rank, vec_of. rewrite (keys_lock _ _ (lock_val star)), s_keys.
    cbn [In] in Ha. destruct Ha as [<-|[<-|[<-|[<-|[<-|[]]]]]]; cbn [index_in Nat.eqb]; spos;
      (destruct c as [|[|[|[|[|c]]]]]; [| | | | |lia]); unfold q; cbn [fst snd Nat.add Nat.mul nth]; lra.
Qed.
