(** Properties proved in LDec.v, generated from it by tools/mkprops.py.
    Nothing but statements: each proof is one lemma of that file. *)
From Coq Require Import ZArith Reals List Bool Arith String.
From Verif Require Import Num Py Mesh Utils CalcK0 AddK0s Spec SpecK0 SpecKG SpecK0s SpecEdge Ex ExK0 ExK0s.
From Verif Require LDec.
Import ListNotations.
Local Open Scope R_scope.

(** The effect of the decimals: what the code adds differs from what it would add with exact fractions by at most
    [decimals_error], for fields of any size, in every method call. *)
Theorem C80_decimals : forall m m' pfn alpha mfa k h rho c e, call_ok m m' pfn alpha k -> edge_scale m h rho c e ->
  exists ks kf, add_k0s lits_src k m' pfn "edge-based" alpha mfa = (ks, Ok tt) /\
    add_k0s lits_frac k m' pfn "edge-based" alpha mfa = (kf, Ok tt) /\
    forall U V u v, field_scale m h U u -> field_scale m h V v -> Rabs (form ks u v - form kf u v) <= decimals_error m rho c e U V.
Proof. exact LDec.c80_decimals. Qed.
Print Assumptions C80_decimals.

(** on a unit square the error is at most 2 * 10^-9 for unit fields, stiffness and factors *)
Example C80_decimals_ex : forall pfn, let m := move 0 (-1) (two (shear_prop 1 1 1 1)) in
  (exists m', call_ok m m' pfn 2 (zeros 20)) /\ edge_scale m 1 6 1 1 /\ (exists u, field_scale m 1 1 u /\ comp m u 2 3 = 1) /\
  decimals_error m 6 1 1 1 1 <= 2 / 1000000000.
Proof. exact LDec.c80_decimals_ex. Qed.

(** The code, up to that error: for a mesh as in C79 the call adds the energy of the discrete shear strains. *)
Theorem C80_energy : forall m m' pfn alpha mfa k h rho c e, call_ok m m' pfn alpha k -> edge_scale m h rho c e -> starts_level m ->
  exists k', add_k0s lits_src k m' pfn "edge-based" alpha mfa = (k', Ok tt) /\
    forall U V u v, field_scale m h U u -> field_scale m h V v ->
      Rabs (form k' u v - (form k u v + edge_energy m pfn alpha mfa (strain_edge m u) (strain_edge m v))) <= decimals_error m rho c e U V.
Proof. exact LDec.c80_energy. Qed.
Print Assumptions C80_energy.

Example C80_energy_ex : forall pfn, let m := move 0 (-1) (two (shear_prop 1 1 1 1)) in
  (exists m', call_ok m m' pfn 2 (zeros 20)) /\ edge_scale m 1 6 1 1 /\ starts_level m /\ exists u, field_scale m 1 1 u /\ comp m u 2 3 = 1.
Proof. exact LDec.c80_energy_ex. Qed.

(** The code, up to that error: rigid rotations and constant shear strains, on a mesh as in C79. *)
Theorem C80_constant : forall m m' pfn alpha mfa k h rho c e u wx wy px py, call_ok m m' pfn alpha k -> edge_scale m h rho c e ->
  starts_level m -> constant_shear m u wx wy px py ->
  exists k', add_k0s lits_src k m' pfn "edge-based" alpha mfa = (k', Ok tt) /\
    forall U V v, field_scale m h U u -> field_scale m h V v ->
      Rabs (form k' u v - (form k u v + edge_energy m pfn alpha mfa (fun _ => (wx + px, wy + py)) (strain_edge m v))) <= decimals_error m rho c e U V.
Proof. exact LDec.c80_constant. Qed.
Print Assumptions C80_constant.

Example C80_constant_ex : forall pfn, let m := move 0 (-1) (two (shear_prop 1 1 1 1)) in
  (exists m', call_ok m m' pfn 2 (zeros 20)) /\ edge_scale m 1 6 1 1 /\ starts_level m /\
  exists u, constant_shear m u 0 1 0 (-1) /\ field_scale m 1 1 u.
Proof. exact LDec.c80_constant_ex. Qed.

(** The code, up to that error, on any plate: the added form is symmetric and translations in w give no force (C39). *)
Theorem C80_symmetry : forall m m' pfn alpha mfa k h rho c e, call_ok m m' pfn alpha k -> edge_scale m h rho c e ->
  exists k', add_k0s lits_src k m' pfn "edge-based" alpha mfa = (k', Ok tt) /\
    forall U V u v, field_scale m h U u -> field_scale m h V v ->
      Rabs ((form k' u v - form k u v) - (form k' v u - form k v u)) <= 2 * decimals_error m rho c e U V /\
      (w_translation m u -> Rabs (form k' v u - form k v u) <= decimals_error m rho c e U V).
Proof. exact LDec.c80_symmetry. Qed.
Print Assumptions C80_symmetry.

Example C80_symmetry_ex : forall pfn, let m := move 0 (-1) (two (shear_prop 1 1 1 1)) in
  (exists m', call_ok m m' pfn 2 (zeros 20)) /\ edge_scale m 1 6 1 1 /\ exists u, field_scale m 1 1 u /\ w_translation m u /\ comp m u 2 3 = 1.
Proof. exact LDec.c80_symmetry_ex. Qed.

(** The code, up to that error, on any plate: the added energy is not negative and does not increase with alpha (C36). *)
Theorem C80_monotone : forall m m' pfn mfa k a b h rho c e, call_ok m m' pfn a k -> a <= b -> stiff_full m -> edge_scale m h rho c e ->
  exists ka kb, add_k0s lits_src k m' pfn "edge-based" a mfa = (ka, Ok tt) /\ add_k0s lits_src k m' pfn "edge-based" b mfa = (kb, Ok tt) /\
    forall U u, field_scale m h U u ->
      form k u u - decimals_error m rho c e U U <= form kb u u <= form ka u u + 2 * decimals_error m rho c e U U.
Proof. exact LDec.c80_monotone. Qed.
Print Assumptions C80_monotone.

Example C80_monotone_ex : forall pfn, let m := move 0 (-1) (two (shear_prop 1 1 1 1)) in
  (exists m', call_ok m m' pfn 1 (zeros 20)) /\ stiff_full m /\ edge_scale m 1 6 1 1 /\ exists u, field_scale m 1 1 u /\ comp m u 2 3 = 1.
Proof. exact LDec.c80_monotone_ex. Qed.
