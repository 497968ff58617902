(** A motion in the plane with rotations, 0 on the boundary of the unit square. *)
From Coq Require Import Reals List Bool Arith.
From Verif Require Import Num Py Mesh Utils Spec SpecRead SpecK0 SpecK0s SpecStab SpecStat SpecConv SpecSol FStab FSmooth FSum FDict FWf FRenum LKG LK0s Ex ExK0 ExK0s ExStab ExGrid ExGrid2 ExMindlin.
Import ListNotations.
Local Open Scope R_scope.

Definition swirl : motion := {| fu := fw dome; fv := fw dome; fw := fu dome; ffx := fw dome; ffy := fu dome |}.
Lemma swirl_smooth : motion_smooth unit_square 4 2 swirl.
Proof. split; [apply dome_w|]. split; [apply dome_w|]. split; [apply zero_smooth|]. split; [apply dome_w|apply zero_smooth]. Qed.
Lemma swirl_framed : forall m, admissible (List.length (nodes m) * 5) (framed m) (sampled m swirl).
Proof.
  intros m i _ Si. unfold framed in Si. cbv zeta in Si. unfold sampled, field, swirl, dome. cbv zeta. cbn [fu fv fw ffx ffy poly fval].
  destruct (Req_EM_T _ 0) as [E|E]; [|discriminate]. destruct (i mod 5)%nat as [|[|[|[|k]]]]; auto.
Qed.
