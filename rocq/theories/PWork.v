(** Properties proved in LWork.v, generated from it by tools/mkprops.py.
    Nothing but statements: each proof is one lemma of that file. *)
From Coq Require Import ZArith Reals List Bool Arith Psatz String.
From Verif Require Import Num Py Mesh Utils CalcK0 AddK0s CalcKG Spec SpecK0 SpecKG SpecK0s SpecStab SpecStat SpecConv SpecMono SpecSol SpecSol2 SpecKorn Ex ExK0 ExK0s ExStab ExGrid ExGrid2 ExMindlin.
From Verif Require LWork.
Import ListNotations.
Local Open Scope R_scope.

(** The stress stiffness assembled by calc_kG from the solution of a static problem with a cell-based shear method, in a smooth mode G,
    is that of the membrane forces of the motion F to which the loads belong, up to a multiple of the mesh size, of delta, by which the
    loads miss those of F, and of the error of the constant 1/3 as written in the code. *)
Theorem C108_work : forall kappa c lam mu th alpha M s b, 0 < kappa -> 0 <= c -> 0 < lam -> 0 < mu -> 0 < th -> 0 <= alpha -> 0 <= M -> 0 <= s -> 0 <= b -> 
  exists C, 0 <= C /\ forall method mfa Om m pfn p h P Q F G u w S load delta, In method cell_methods ->
    mindlin_plate Om m pfn p h kappa Q c lam mu th -> fine Om m h kappa P -> 0 < h <= 1 -> 16 * alpha * (h * h) <= th * th -> 0 <= delta <= 1 ->
    mindlin_motion Om m M s b F u -> motion_smooth Om M s G -> samples m G w ->
    admissible (List.length (nodes m) * 5) S u -> mindlin_loads (test_shear method m) m p S Q F delta load -> 
    exists m' K k', calc_k0 m pfn = (m', Ok K) /\ add_k0s lits_src K m' pfn method alpha mfa = (k', Ok tt) /\
      forall d, List.length d = (List.length (nodes m) * 5)%nat -> solves k' S load (vec_of d) ->
        exists KG, calc_kG d m' pfn = Ok KG /\
          Rabs (form KG w w - riemann_work m pfn P F G) <= C * (h + delta + third_error method) * total_area m.
Proof. exact LWork.c108_work. Qed.
Print Assumptions C108_work.

(** The grid under loads that belong to the dome, with the dome as its mode. *)
Example C108_work_ex : forall h0 pfn, 0 < h0 -> exists h m P Q load, 0 < h <= h0 /\ h <= 1 /\ 16 * 1 * (h * h) <= 1 / 10 * (1 / 10) /\ let p := ex_prop 1 in let u := sampled m dome in
  mindlin_plate unit_square m pfn p h (1 / 2) Q 20 1 4 (1 / 10) /\ fine unit_square m h (1 / 2) P /\ mindlin_motion unit_square m 4 2 2 dome u /\ motion_smooth unit_square 4 2 dome /\ samples m dome u /\
  admissible (List.length (nodes m) * 5) (framed m) u /\ mindlin_loads (test_shear "cell-based" m) m p (framed m) Q dome 0 load /\ total_area m = 1 /\
  exists m' K k', calc_k0 m pfn = (m', Ok K) /\ add_k0s lits_src K m' pfn "cell-based" 1 false = (k', Ok tt) /\
    exists d, List.length d = (List.length (nodes m) * 5)%nat /\ solves k' (framed m) load (vec_of d).
Proof. exact LWork.c108_work_ex. Qed.

(** The same for loads that work on the true shear strains at the centroids, if Korn's inequality holds for the supported rotations. *)
Theorem C108_natural : forall kappa c lam mu th alpha M s b CK, 0 < kappa -> 0 <= c -> 0 < lam -> 0 < mu -> 0 < th -> 0 <= alpha -> 0 <= M -> 0 <= s -> 0 <= b -> 0 <= CK ->
  exists C, 0 <= C /\ forall method mfa Om m pfn p h P Q F G u w S load delta, In method cell_methods ->
    mindlin_plate Om m pfn p h kappa Q c lam mu th -> fine Om m h kappa P -> 0 < h <= 1 -> 16 * alpha * (h * h) <= th * th -> 0 <= delta <= 1 ->
    mindlin_motion Om m M s b F u -> motion_smooth Om M s G -> samples m G w ->
    admissible (List.length (nodes m) * 5) S u -> mindlin_loads (tria_shear m) m p S Q F delta load -> korn CK m S ->
    exists m' K k', calc_k0 m pfn = (m', Ok K) /\ add_k0s lits_src K m' pfn method alpha mfa = (k', Ok tt) /\
      forall d, List.length d = (List.length (nodes m) * 5)%nat -> solves k' S load (vec_of d) ->
        exists KG, calc_kG d m' pfn = Ok KG /\
          Rabs (form KG w w - riemann_work m pfn P F G) <= C * (h + delta + third_error method) * total_area m.
Proof. exact LWork.c108_natural. Qed.
Print Assumptions C108_natural.

(** The grid under loads that belong to the dome, with the dome as its mode. *)
Example C108_natural_ex : forall h0 pfn, 0 < h0 -> exists h m P Q load, 0 < h <= h0 /\ h <= 1 /\ 16 * 1 * (h * h) <= 1 / 10 * (1 / 10) /\ let p := ex_prop 1 in let u := sampled m dome in
  mindlin_plate unit_square m pfn p h (1 / 2) Q 20 1 4 (1 / 10) /\ fine unit_square m h (1 / 2) P /\ mindlin_motion unit_square m 4 2 2 dome u /\ motion_smooth unit_square 4 2 dome /\ samples m dome u /\
  admissible (List.length (nodes m) * 5) (framed m) u /\ mindlin_loads (tria_shear m) m p (framed m) Q dome 0 load /\ korn 4 m (framed m) /\ total_area m = 1 /\
  exists m' K k', calc_k0 m pfn = (m', Ok K) /\ add_k0s lits_src K m' pfn "cell-based" 1 false = (k', Ok tt) /\
    exists d, List.length d = (List.length (nodes m) * 5)%nat /\ solves k' (framed m) load (vec_of d).
Proof. exact LWork.c108_natural_ex. Qed.

(** Critical load factors when both the static solution and the buckling problem are computed with shear: [d] solves the static problem
    with supports S0 and loads that belong to F.  The critical load factor is at most the Rayleigh quotient of every smooth motion G that
    respects the supports S, up to a multiple of the mesh size and of delta, and exists if the work of the membrane forces of F on G is
    negative enough. *)
Theorem C108_factor : forall kappa c lam mu th alpha M s b A, 0 < kappa -> 0 <= c -> 0 < lam -> 0 < mu -> 0 < th -> 0 <= alpha -> 0 <= M -> 0 <= s -> 0 <= b -> 0 <= A ->
  exists C, 0 <= C /\ forall Om method mfa eps, In method cell_methods -> 0 < eps -> exists h0, 0 < h0 /\ forall m pfn p h P Q F G u w S0 load delta, 0 < h <= h0 -> h <= 1 ->
    mindlin_plate Om m pfn p h kappa Q c lam mu th -> braced method m -> fine Om m h kappa P -> 16 * alpha * (h * h) <= th * th -> 0 <= delta <= 1 -> total_area m <= A ->
    mindlin_motion Om m M s b F u -> mindlin_motion Om m M s b G w ->
    admissible (List.length (nodes m) * 5) S0 u -> mindlin_loads (test_shear method m) m p S0 Q F delta load ->
    exists m' K k', calc_k0 m pfn = (m', Ok K) /\ add_k0s lits_src K m' pfn method alpha mfa = (k', Ok tt) /\
      forall d, List.length d = (List.length (nodes m) * 5)%nat -> solves k' S0 load (vec_of d) ->
      exists KG, calc_kG d m' pfn = Ok KG /\
        forall S, supported (1 + literal_error method) m S -> admissible (mdim k') S w ->
        let q := C * (h + delta + third_error method) * total_area m in
        (riemann_work m pfn P F G < - q -> exists a, critical_factor k' KG S a) /\
        forall a, critical_factor k' KG S a ->
          let e := 24 * third_error method * b / kappa in
          a * (- riemann_work m pfn P F G - q)
            <= riemann_energy m pfn P G + riemann_shear m pfn Q G + (eps + 2 * (c * c) * (e * (2 * (s + b) + e)) * A).
Proof. exact LWork.c108_factor. Qed.
Print Assumptions C108_factor.

(** The grid, clamped on one side and compressed; the mode rises linearly. *)
Example C108_factor_ex : forall h0 pfn, 0 < h0 -> exists h m P Q load, 0 < h <= h0 /\ h <= 1 /\ 16 * 1 * (h * h) <= 1 / 10 * (1 / 10) /\ let p := ex_prop 1 in let u := sampled m press in let w := sampled m rise in
  let N := (List.length (nodes m) * 5)%nat in
  mindlin_plate unit_square m pfn p h (1 / 2) Q 20 1 4 (1 / 10) /\ braced "cell-based" m /\ fine unit_square m h (1 / 2) P /\ total_area m <= 1 /\
  mindlin_motion unit_square m 1 2 2 press u /\ mindlin_motion unit_square m 1 2 2 rise w /\ admissible N (clamped m) u /\ admissible N (clamped m) w /\
  mindlin_loads (test_shear "cell-based" m) m p (clamped m) Q press 0 load /\ (forall f, supported f m (clamped m)) /\ riemann_work m pfn P press rise = - 10 /\
  exists m' K k', calc_k0 m pfn = (m', Ok K) /\ add_k0s lits_src K m' pfn "cell-based" 1 false = (k', Ok tt) /\ mdim k' = N /\
    exists d, List.length d = N /\ solves k' (clamped m) load (vec_of d).
Proof. exact LWork.c108_factor_ex. Qed.
