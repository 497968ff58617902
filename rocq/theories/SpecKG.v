(** Notions used to state the properties of calc_kG. *)
From Coq Require Import ZArith Reals List Bool Arith.
From Verif Require Import Num Py Mesh Utils CalcK0 CalcKG Spec SpecK0.
Import ListNotations.
Local Open Scope R_scope.

(** a list of numbers as a displacement vector *)
Definition vec_of (d : list R) (i : nat) : R := nth i d 0.

(** membrane force vector (Nxx, Nyy, Nxy) = A em + B eb *)
Definition membrane (A B : mat3 R) (s : strain) : vec3 R := V3
  (m00 A * exx s + m01 A * eyy s + m02 A * exy s + (m00 B * kxx s + m01 B * kyy s + m02 B * kxy s))
  (m10 A * exx s + m11 A * eyy s + m12 A * exy s + (m10 B * kxx s + m11 B * kyy s + m12 B * kxy s))
  (m20 A * exx s + m21 A * eyy s + m22 A * exy s + (m20 B * kxx s + m21 B * kyy s + m22 B * kxy s)).

(** work of the membrane forces [N] on the rotations (gx, gy) and (hx, hy):
    [(gx gy) [[Nxx, Nxy], [Nxy, Nyy]] (hx hy)^T] *)
Definition work (N : vec3 R) (gx gy hx hy : R) : R :=
  gx * (vx N * hx + vz N * hy) + gy * (vz N * hx + vy N * hy).

(** work of the membrane forces of [d] in the smoothing domain of the edge [k] *)
Definition edge_work (m : mesh R) (pfn : bool) (d u v : nat -> R) (k : nat * nat) : R :=
  dom_area m k * work (membrane (edge_stiffness m pfn pA k) (edge_stiffness m pfn pB k) (smoothed_strain m d k))
    (sgx m k (comp m u 2)) (sgy m k (comp m u 2)) (sgx m k (comp m v 2)) (sgy m k (comp m v 2)).
Definition kG_energy (m : mesh R) (pfn : bool) (d u v : nat -> R) : R := Sum (edge_work m pfn d u v) (edge_keys m).

(** the same from the integration points stored in the edge *)
Definition stored_work (m : mesh R) (pfn : bool) (d u v : nat -> R) (ke : (nat * nat) * edge R) : R :=
  let (k, e) := ke in let Ac := stored_area e in
  Ac * work (membrane (edge_stiffness m pfn pA k) (edge_stiffness m pfn pB k) (edge_strain m e Ac d))
    (bint_x e (comp m u 2) / Ac) (bint_y e (comp m u 2) / Ac) (bint_x e (comp m v 2) / Ac) (bint_y e (comp m v 2) / Ac).

(** the deflection w of [u] is [a + b x + c y] *)
Definition affine_w (m : mesh R) (u : nat -> R) (a b c : R) : Prop :=
  forall n, In n (node_keys m) -> comp m u 2 n = affine m a b c n.

(** the first [n] entries of a vector *)
Definition list_of (n : nat) (u : nat -> R) : list R := map u (seq 0 n).

(** [m'] is the mesh that calc_k0 leaves behind when called on the valid plate [m] *)
Definition prepared_from (m m' : mesh R) : Prop :=
  exists pfn K, valid m pfn /\ calc_k0 m pfn = (m', Ok K).

(** The assembly of calc_k0 and of calc_kG with an arbitrary index in place of the
    fourth index of the edges with one triangle (calc_k0: -1, calc_kG: 0), otherwise
    literally the definitions of the model. *)
Definition k0_edge_dummy (dummy : Z) (m : mesh R) (pfn : bool) (e : edge R) : res (list (Z * Z * R)) :=
  let! ta := edge_areas m e in
  let! ix := domain_indices m dummy (eipts e) in
  let! rows := ipt_rows m (indexpos ix) (eipts e) in
  let! Ac := get_or TypeError (eAc e) in
  let! abd := edge_ABD m pfn e Ac ta in
  Ok (k0_updates ix Ac (abd pA) (abd pB) (abd pD) rows).
Fixpoint k0_assemble_dummy (dummy : (nat * nat) -> Z) (m : mesh R) (pfn : bool) (es : list ((nat * nat) * edge R))
  (k : matrix R) : res (matrix R) :=
  match es with
  | [] => Ok k
  | (x, e) :: es' =>
      let! us := k0_edge_dummy (dummy x) m pfn e in
      match mupdates us k with
      | (k', Ok _) => k0_assemble_dummy dummy m pfn es' k'
      | (_, Raise x) => Raise x
      end
  end.
Definition kG_edge_dummy (dummy : Z) (m : mesh R) (pfn : bool) (d : list R) (e : edge R) : res (list (Z * Z * R)) :=
  let! ta := edge_areas m e in
  let! ix := domain_indices m dummy (eipts e) in
  let! rows := ipt_rows m (indexpos ix) (eipts e) in
  let! Ac := get_or TypeError (eAc e) in
  let! abd := edge_ABD m pfn e Ac ta in
  let! Nm := membrane_force d ix Ac (abd pA) (abd pB) rows in
  Ok (kG_updates ix Ac Nm rows).
Fixpoint kG_assemble_dummy (dummy : (nat * nat) -> Z) (m : mesh R) (pfn : bool) (d : list R)
  (es : list ((nat * nat) * edge R)) (k : matrix R) : res (matrix R) :=
  match es with
  | [] => Ok k
  | (x, e) :: es' =>
      let! us := kG_edge_dummy (dummy x) m pfn d e in
      match mupdates us k with
      | (k', Ok _) => kG_assemble_dummy dummy m pfn d es' k'
      | (_, Raise x) => Raise x
      end
  end.
