(** The unrolled statements of calc_k0 as a bilinear form. *)
From Coq Require Import ZArith Reals List Bool Arith Lra Lia.
From Verif Require Import Num Py Mesh Utils GenK0 Spec FSum FMat FTensor.
Import ListNotations.
Local Open Scope R_scope.
Implicit Types (m : mesh R).

Lemma k0_entries_tensor : forall i1 i2 i3 i4 Ac (A B D : mat3 R)
  nx1 ny1 le1 nx2 ny2 le2 nx3 ny3 le3 nx4 ny4 le4
  f11 f12 f13 f14 f21 f22 f23 f24 f31 f32 f33 f34 f41 f42 f43 f44,
  Ac <> 0 ->
  k0_entries i1 i2 i3 i4 Ac
      (m00 A) (m01 A) (m02 A) (m11 A) (m12 A) (m22 A)
      (m00 B) (m01 B) (m02 B) (m11 B) (m12 B) (m22 B)
      (m00 D) (m01 D) (m02 D) (m11 D) (m12 D) (m22 D)
      nx1 ny1 le1 nx2 ny2 le2 nx3 ny3 le3 nx4 ny4 le4
      f11 f12 f13 f14 f21 f22 f23 f24 f31 f32 f33 f34 f41 f42 f43 f44
  = tensor (fun e f => Ac * dens A B D e f)
      (unit_strains Ac i1 (f11*le1*nx1 + f21*le2*nx2 + f31*le3*nx3 + f41*le4*nx4)
                          (f11*le1*ny1 + f21*le2*ny2 + f31*le3*ny3 + f41*le4*ny4)
       ++ unit_strains Ac i2 (f12*le1*nx1 + f22*le2*nx2 + f32*le3*nx3 + f42*le4*nx4)
                             (f12*le1*ny1 + f22*le2*ny2 + f32*le3*ny3 + f42*le4*ny4)
       ++ unit_strains Ac i3 (f13*le1*nx1 + f23*le2*nx2 + f33*le3*nx3 + f43*le4*nx4)
                             (f13*le1*ny1 + f23*le2*ny2 + f33*le3*ny3 + f43*le4*ny4)
       ++ unit_strains Ac i4 (f14*le1*nx1 + f24*le2*nx2 + f34*le3*nx3 + f44*le4*nx4)
                             (f14*le1*ny1 + f24*le2*ny2 + f34*le3*ny3 + f44*le4*ny4)).
Proof.
  intros. unfold k0_entries. rnum.
  generalize (f11*le1*nx1 + f21*le2*nx2 + f31*le3*nx3 + f41*le4*nx4)
             (f11*le1*ny1 + f21*le2*ny2 + f31*le3*ny3 + f41*le4*ny4)
             (f12*le1*nx1 + f22*le2*nx2 + f32*le3*nx3 + f42*le4*nx4)
             (f12*le1*ny1 + f22*le2*ny2 + f32*le3*ny3 + f42*le4*ny4)
             (f13*le1*nx1 + f23*le2*nx2 + f33*le3*nx3 + f43*le4*nx4)
             (f13*le1*ny1 + f23*le2*ny2 + f33*le3*ny3 + f43*le4*ny4)
             (f14*le1*nx1 + f24*le2*nx2 + f34*le3*nx3 + f44*le4*nx4)
             (f14*le1*ny1 + f24*le2*ny2 + f34*le3*ny3 + f44*le4*ny4).
  clear - H. intros.
  cbn [tensor unit_strains flat_map map app fst snd].
  repeat (apply cons_eq3;
    [unfold dens, quad3; cbn [exx eyy exy kxx kyy kxy];
     field; exact H|]).
  reflexivity.
Qed.
