(** Positions of the updates of add_k0s, and their linearity in the stiffness. *)
From Coq Require Import ZArith Reals List Bool Arith Lra Lia String.
From Verif Require Import Num Py Mesh Utils GenCell GenCellNS GenEdgeB GenEdgeI CalcK0 AddK0s Spec SpecK0 SpecKG SpecK0s FSum FMat FTensor
  FGenCell FGenCellNS FGenEdgeB FGenEdgeI FGeom FDict FWf FSetup FAsm FK0 FSmooth FTot FDom FAny FKG FK0s.
Import ListNotations.
Local Open Scope R_scope.
Implicit Types (m : mesh R).

(** ** Positions *)

Definition at_dofs (is : list Z) (p : Z * Z) : Prop :=
  exists a b c d, p = ((a * 5 + c)%Z, (b * 5 + d)%Z) /\ In a is /\ In b is /\ (2 <= c < 5)%Z /\ (2 <= d < 5)%Z.

Lemma cell_pos : forall (L : lits R) i1 i2 i3 Ac Ac1 Ac2 Ac3 E44 E45 E55 a1 b1 c1 d1 a2 b2 c2 d2 a3 b3 c3 d3,
  forall y, In y (cell_entries L i1 i2 i3 Ac Ac1 Ac2 Ac3 E44 E45 E55 a1 b1 c1 d1 a2 b2 c2 d2 a3 b3 c3 d3) ->
  at_dofs [i1; i2; i3] (fst y).
Proof. intros L i1 i2 i3 Ac Ac1 Ac2 Ac3 E44 E45 E55 a1 b1 c1 d1 a2 b2 c2 d2 a3 b3 c3 d3. unfold cell_entries. apply Forall_forall.
  repeat (apply Forall_cons; [cbn [fst]; do 4 eexists; split; [reflexivity|]; cbn [In]; repeat split; (tauto || lia)|]).
  apply Forall_nil.
Qed.

Lemma cellns_pos : forall i1 i2 i3 (Ac E44 E45 E55 a1 b1 c1 d1 : R),
  forall y, In y (cellns_entries i1 i2 i3 Ac E44 E45 E55 a1 b1 c1 d1) -> at_dofs [i1; i2; i3] (fst y).
Proof. intros i1 i2 i3 Ac E44 E45 E55 a1 b1 c1 d1. unfold cellns_entries. apply Forall_forall.
  repeat (apply Forall_cons; [cbn [fst]; do 4 eexists; split; [reflexivity|]; cbn [In]; repeat split; (tauto || lia)|]).
  apply Forall_nil.
Qed.

Lemma edgeb_pos : forall (L : lits R) i1 i2 i3 Ac E44 E45 E55 a1 b1 c1 d1,
  forall y, In y (edgeb_entries L i1 i2 i3 Ac E44 E45 E55 a1 b1 c1 d1) -> at_dofs [i1; i2; i3] (fst y).
Proof. intros L i1 i2 i3 Ac E44 E45 E55 a1 b1 c1 d1. unfold edgeb_entries. apply Forall_forall.
  repeat (apply Forall_cons; [cbn [fst]; do 4 eexists; split; [reflexivity|]; cbn [In]; repeat split; (tauto || lia)|]).
  apply Forall_nil.
Qed.

Lemma edgei_pos : forall (L : lits R) i1 i2 i3 i4 Ac Ac1 Ac2 E44 E45 E55 a1 b1 c1 d1 a2 b2 c2 d2,
  forall y, In y (edgei_entries L i1 i2 i3 i4 Ac Ac1 Ac2 E44 E45 E55 a1 b1 c1 d1 a2 b2 c2 d2) -> at_dofs [i1; i2; i3; i4] (fst y).
Proof. intros L i1 i2 i3 i4 Ac Ac1 Ac2 E44 E45 E55 a1 b1 c1 d1 a2 b2 c2 d2. unfold edgei_entries. apply Forall_forall.
  repeat (apply Forall_cons; [cbn [fst]; do 4 eexists; split; [reflexivity|]; cbn [In]; repeat split; (tauto || lia)|]).
  apply Forall_nil.
Qed.

(** ** The updates are linear in the stiffness *)

Definition scale_upds (f : R) (us : list (Z * Z * R)) : list (Z * Z * R) := map (fun x => (fst x, f * snd x)) us.

Lemma scale_form : forall n f us u v, upd_form n (scale_upds f us) u v = f * upd_form n us u v.
Proof.
  intros n f us u v. unfold upd_form, scale_upds. rewrite Sum_map, <- Sum_scal. apply Sum_ext. intros [[r c] x]. cbn [fst snd]. ring.
Qed.

Lemma edgeb_scale : forall L i1 i2 i3 Ac f E44 E45 E55 a1 b1 c1 d1,
  edgeb_entries L i1 i2 i3 Ac (f * E44) (f * E45) (f * E55) a1 b1 c1 d1
  = scale_upds f (edgeb_entries L i1 i2 i3 Ac E44 E45 E55 a1 b1 c1 d1).
Proof.
  intros. unfold edgeb_entries, scale_upds. cbn [map fst snd]. rnum. unfold Rdiv.
  repeat (apply cons_eq3; [ring|]). reflexivity.
Qed.

Lemma edgei_scale : forall L i1 i2 i3 i4 Ac Ac1 Ac2 f E44 E45 E55 a1 b1 c1 d1 a2 b2 c2 d2,
  edgei_entries L i1 i2 i3 i4 Ac Ac1 Ac2 (f * E44) (f * E45) (f * E55) a1 b1 c1 d1 a2 b2 c2 d2
  = scale_upds f (edgei_entries L i1 i2 i3 i4 Ac Ac1 Ac2 E44 E45 E55 a1 b1 c1 d1 a2 b2 c2 d2).
Proof.
  intros. unfold edgei_entries, scale_upds. cbn [map fst snd]. rnum. unfold Rdiv.
  repeat (apply cons_eq3; [ring|]). reflexivity.
Qed.
