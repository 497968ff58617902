(** Properties proved in LRitz.v, generated from it by tools/mkprops.py.
    Nothing but statements: each proof is one lemma of that file. *)
From Coq Require Import ZArith Reals List Bool Arith String.
From Verif Require Import Num Py Mesh Utils CalcK0 CalcKG AddK0s Spec SpecK0 SpecKG SpecK0s SpecStab SpecStat SpecConv SpecMono SpecSol Ex ExK0 ExK0s ExStab ExGrid ExGrid2.
From Verif Require LRitz.
Import ListNotations.
Local Open Scope R_scope.

(** The work of the loads on the computed deflections is bounded from below by the Ritz value of every smooth motion that
    respects the supports: twice the work of the loads on the motion minus its energy as a Mindlin plate, up to eps (and the
    decimals in the code) on all sufficiently fine meshes. *)
Theorem C98_deflection : forall Om method alpha mfa c th M s b kappa A eps, In method cell_methods ->
  0 <= alpha -> 0 <= c -> 0 < th -> 0 <= M -> 0 <= s -> 0 <= b -> 0 < kappa -> 0 <= A -> 0 < eps ->
  exists h0, 0 < h0 /\ forall m pfn h P Q F u, 0 < h <= h0 -> valid m pfn -> all_props m pos_def -> all_props m shear_pos ->
    bounded c m -> shear_bounded c th m -> fine Om m h kappa P -> fine_trias Om m h kappa Q -> total_area m <= A ->
    motion_smooth Om M s F -> rotations_le Om b F -> samples m F u ->
    exists m' K k', calc_k0 m pfn = (m', Ok K) /\ add_k0s lits_src K m' pfn method alpha mfa = (k', Ok tt) /\
      forall S load d, admissible (mdim k') S u -> solves k' S load d ->
        let e := 24 * third_error method * b / kappa in
        2 * load_work (mdim k') load u - (riemann_energy m pfn P F + riemann_shear m pfn Q F) - eps - 2 * (c * c) * (e * (2 * (s + b) + e)) * A
          <= load_work (mdim k') load d.
Proof. exact LRitz.c98_deflection. Qed.
Print Assumptions C98_deflection.

(** The grid, clamped at x = 0, with the deflection w = x; there are such meshes below every mesh size, and the static problem
    has a solution. *)
Example C98_deflection_ex : forall h0 pfn, 0 < h0 -> exists h m P Q, let u := sampled m rise in 0 < h <= h0 /\ valid m pfn /\ all_props m pos_def /\ all_props m shear_pos /\
  bounded 20 m /\ shear_bounded 20 (1 / 10) m /\ fine unit_square m h (1 / 2) P /\ fine_trias unit_square m h (1 / 2) Q /\ total_area m <= 1 /\
  motion_smooth unit_square 1 2 rise /\ rotations_le unit_square 2 rise /\ samples m rise u /\
  exists m' K k', calc_k0 m pfn = (m', Ok K) /\ add_k0s lits_src K m' pfn "cell-based" 1 false = (k', Ok tt) /\ admissible (mdim k') (clamped m) u /\
    forall load, exists d, solves k' (clamped m) load d.
Proof. exact LRitz.c98_deflection_ex. Qed.

(** The critical load factor is bounded from above by the Rayleigh quotient of every smooth motion G that respects the
    supports: its energy as a Mindlin plate over minus the work of the membrane forces on it; if this work is negative there is
    a critical load factor.  The static solution samples the motion F. *)
Theorem C98_buckling : forall Om method alpha mfa c th M s b kappa A eps, In method cell_methods ->
  0 <= alpha -> 0 <= c -> 0 < th -> 0 <= M -> 0 <= s -> 0 <= b -> 0 < kappa -> 0 <= A -> 0 < eps ->
  exists h0, 0 < h0 /\ forall m pfn h P Q F G d w, 0 < h <= h0 -> valid m pfn -> all_props m pos_def -> all_props m shear_pos -> braced method m ->
    bounded c m -> shear_bounded c th m -> fine Om m h kappa P -> fine_trias Om m h kappa Q -> total_area m <= A ->
    motion_smooth Om M s F -> motion_smooth Om M s G -> rotations_le Om b G ->
    List.length d = (List.length (nodes m) * 5)%nat -> samples m F (vec_of d) -> samples m G w ->
    exists m' K k' KG, calc_k0 m pfn = (m', Ok K) /\ add_k0s lits_src K m' pfn method alpha mfa = (k', Ok tt) /\ calc_kG d m' pfn = Ok KG /\
      forall S, supported (1 + literal_error method) m S -> admissible (mdim k') S w ->
        (riemann_work m pfn P F G < - eps -> exists a, critical_factor k' KG S a) /\
        forall a, critical_factor k' KG S a ->
          let e := 24 * third_error method * b / kappa in
          a * (- riemann_work m pfn P F G - eps)
            <= riemann_energy m pfn P G + riemann_shear m pfn Q G + (eps + 2 * (c * c) * (e * (2 * (s + b) + e)) * A).
Proof. exact LRitz.c98_buckling. Qed.
Print Assumptions C98_buckling.

(** The same grid under compression in x; the work of the membrane forces is -10, so for eps < 10 there is a critical load factor. *)
Example C98_buckling_ex : forall h0 pfn, 0 < h0 -> exists h m P Q, let w := sampled m rise in let d := list_of (List.length (nodes m) * 5) (sampled m press) in
  0 < h <= h0 /\ valid m pfn /\ all_props m pos_def /\ all_props m shear_pos /\ braced "cell-based" m /\
  bounded 20 m /\ shear_bounded 20 (1 / 10) m /\ fine unit_square m h (1 / 2) P /\ fine_trias unit_square m h (1 / 2) Q /\ total_area m <= 1 /\
  motion_smooth unit_square 1 2 press /\ motion_smooth unit_square 1 2 rise /\ rotations_le unit_square 2 rise /\
  List.length d = (List.length (nodes m) * 5)%nat /\ samples m press (vec_of d) /\ samples m rise w /\
  (forall f, supported f m (clamped m)) /\ admissible (List.length (nodes m) * 5) (clamped m) w /\ riemann_work m pfn P press rise = - 10.
Proof. exact LRitz.c98_buckling_ex. Qed.

(** The same when the static solution is computed: [d] solves the static problem without shear of k0 with supports S0 and
    loads that belong to the motion F. *)
Theorem C98_computed : forall Om method alpha mfa c th lam M s b kappa A D eps, In method cell_methods ->
  0 <= alpha -> 0 <= c -> 0 < th -> 0 < lam -> 0 <= M -> 0 <= s -> 0 <= b -> 0 < kappa -> 0 <= A -> 0 <= D -> 0 < eps ->
  exists h0, 0 < h0 /\ forall m pfn p h P Q F G u w S0 load delta, 0 < h <= h0 -> valid m pfn -> all_props m (fun q => q = p) -> stiffness_ge lam p -> shear_pos p ->
    mat3_bounded c (pA p) -> mat3_bounded c (pB p) -> mat3_bounded c (pD p) -> braced method m -> shear_bounded c th m ->
    fine Om m h kappa P -> fine_trias Om m h kappa Q -> total_area m <= A ->
    motion_smooth Om M s F -> motion_smooth Om M s G -> rotations_le Om b G -> samples m F u -> samples m G w ->
    admissible (List.length (nodes m) * 5) S0 u -> 0 < delta <= D * h -> loads_of m p S0 Q F delta load ->
    exists m' K k', calc_k0 m pfn = (m', Ok K) /\ add_k0s lits_src K m' pfn method alpha mfa = (k', Ok tt) /\
      forall d, List.length d = (List.length (nodes m) * 5)%nat -> solves K S0 load (vec_of d) ->
      exists KG, calc_kG d m' pfn = Ok KG /\
        forall S, supported (1 + literal_error method) m S -> admissible (mdim k') S w ->
        (riemann_work m pfn P F G < - eps -> exists a, critical_factor k' KG S a) /\
        forall a, critical_factor k' KG S a ->
          let e := 24 * third_error method * b / kappa in
          a * (- riemann_work m pfn P F G - eps)
            <= riemann_energy m pfn P G + riemann_shear m pfn Q G + (eps + 2 * (c * c) * (e * (2 * (s + b) + e)) * A).
Proof. exact LRitz.c98_computed. Qed.
Print Assumptions C98_computed.

(** The grid; the loads are those that k0 assigns to the compression, and they have this solution. *)
Example C98_computed_ex : forall h0 pfn, 0 < h0 -> exists h m P Q, let p := ex_prop 1 in let u := sampled m press in let w := sampled m rise in let N := (List.length (nodes m) * 5)%nat in
  0 < h <= h0 /\ valid m pfn /\ all_props m (fun q => q = p) /\ stiffness_ge 1 p /\ shear_pos p /\ braced "cell-based" m /\ shear_bounded 20 (1 / 10) m /\
  fine unit_square m h (1 / 2) P /\ fine_trias unit_square m h (1 / 2) Q /\ total_area m <= 1 /\
  motion_smooth unit_square 1 2 press /\ motion_smooth unit_square 1 2 rise /\ samples m press u /\ samples m rise w /\
  admissible N (clamped m) u /\ admissible N (clamped m) w /\ riemann_work m pfn P press rise = - 10 /\
  exists m' K, calc_k0 m pfn = (m', Ok K) /\ loads_of m p (clamped m) Q press (408 * h) (mulv K u) /\ solves K (clamped m) (mulv K u) (vec_of (list_of N u)).
Proof. exact LRitz.c98_computed_ex. Qed.
