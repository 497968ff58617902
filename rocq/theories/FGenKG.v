(** The unrolled statements of calc_kG as a bilinear form. *)
From Coq Require Import ZArith Reals List Bool Arith Lra Lia.
From Verif Require Import Num Py Mesh Utils GenKG Spec FSum FMat FTensor.
Import ListNotations.
Local Open Scope R_scope.
Implicit Types (m : mesh R).

Lemma kG_entries_tensor : forall i1 i2 i3 i4 Ac Nxx Nyy Nxy
  nx1 ny1 le1 nx2 ny2 le2 nx3 ny3 le3 nx4 ny4 le4
  f11 f12 f13 f14 f21 f22 f23 f24 f31 f32 f33 f34 f41 f42 f43 f44,
  Ac <> 0 ->
  kG_entries i1 i2 i3 i4 Ac Nxx Nyy Nxy
      nx1 ny1 le1 nx2 ny2 le2 nx3 ny3 le3 nx4 ny4 le4
      f11 f12 f13 f14 f21 f22 f23 f24 f31 f32 f33 f34 f41 f42 f43 f44
  = tensor (fun x y => Ac * quad2 Nxx Nxy Nyy x y)
      [((i1 * 5 + 2)%Z, ((f11*le1*nx1 + f21*le2*nx2 + f31*le3*nx3 + f41*le4*nx4) / Ac,
                         (f11*le1*ny1 + f21*le2*ny2 + f31*le3*ny3 + f41*le4*ny4) / Ac));
       ((i2 * 5 + 2)%Z, ((f12*le1*nx1 + f22*le2*nx2 + f32*le3*nx3 + f42*le4*nx4) / Ac,
                         (f12*le1*ny1 + f22*le2*ny2 + f32*le3*ny3 + f42*le4*ny4) / Ac));
       ((i3 * 5 + 2)%Z, ((f13*le1*nx1 + f23*le2*nx2 + f33*le3*nx3 + f43*le4*nx4) / Ac,
                         (f13*le1*ny1 + f23*le2*ny2 + f33*le3*ny3 + f43*le4*ny4) / Ac));
       ((i4 * 5 + 2)%Z, ((f14*le1*nx1 + f24*le2*nx2 + f34*le3*nx3 + f44*le4*nx4) / Ac,
                         (f14*le1*ny1 + f24*le2*ny2 + f34*le3*ny3 + f44*le4*ny4) / Ac))].
Proof.
  intros. unfold kG_entries. rnum.
  generalize (f11*le1*nx1 + f21*le2*nx2 + f31*le3*nx3 + f41*le4*nx4)
             (f11*le1*ny1 + f21*le2*ny2 + f31*le3*ny3 + f41*le4*ny4)
             (f12*le1*nx1 + f22*le2*nx2 + f32*le3*nx3 + f42*le4*nx4)
             (f12*le1*ny1 + f22*le2*ny2 + f32*le3*ny3 + f42*le4*ny4)
             (f13*le1*nx1 + f23*le2*nx2 + f33*le3*nx3 + f43*le4*nx4)
             (f13*le1*ny1 + f23*le2*ny2 + f33*le3*ny3 + f43*le4*ny4)
             (f14*le1*nx1 + f24*le2*nx2 + f34*le3*nx3 + f44*le4*nx4)
             (f14*le1*ny1 + f24*le2*ny2 + f34*le3*ny3 + f44*le4*ny4).
  clear - H. intros.
  cbn [tensor flat_map map app fst snd].
  repeat (apply cons_eq3; [unfold quad2; cbn [fst snd]; field; exact H|]).
  reflexivity.
Qed.
