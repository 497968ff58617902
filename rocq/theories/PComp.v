(** Properties proved in LComp.v, generated from it by tools/mkprops.py.
    Nothing but statements: each proof is one lemma of that file. *)
From Coq Require Import ZArith Reals List Bool Arith Psatz String.
From Verif Require Import Num Py Mesh Utils CalcK0 AddK0s Spec SpecK0 SpecK0s SpecStab SpecStat SpecConv SpecSol SpecSol2 SpecKorn Ex ExK0 ExK0s ExGrid ExGrid2 ExMindlin.
From Verif Require LComp.
Import ListNotations.
Local Open Scope R_scope.

(** The work of the loads on the computed displacements (the deflection under a unit force, for a single force) with a cell-based shear
    method: if the loads belong to a smooth motion F that respects the supports, it is the energy of F as a Mindlin plate, up to the
    fraction h + delta + the error of the constant 1/3 as written in the code, of this energy and of the area times a factor that depends
    on the bounds only. *)
Theorem C109_work : forall kappa c lam mu th alpha M s b, 0 < kappa -> 0 <= c -> 0 < lam -> 0 < mu -> 0 < th -> 0 <= alpha -> 0 <= M -> 0 <= s -> 0 <= b -> 
  exists C, 0 <= C /\ forall method mfa Om m pfn p h P Q F u S load delta, In method cell_methods ->
    mindlin_plate Om m pfn p h kappa Q c lam mu th -> fine Om m h kappa P -> 0 < h <= 1 -> 16 * alpha * (h * h) <= th * th -> 0 <= delta <= 1 ->
    mindlin_motion Om m M s b F u -> admissible (List.length (nodes m) * 5) S u -> mindlin_loads (test_shear method m) m p S Q F delta load -> 
    exists m' K k', calc_k0 m pfn = (m', Ok K) /\ add_k0s lits_src K m' pfn method alpha mfa = (k', Ok tt) /\
      forall d, solves k' S load d ->
        let e := riemann_energy m pfn P F + riemann_shear m pfn Q F in
        Rabs (load_work (mdim k') load d - e) <= (h + delta + third_error method) * (e + C * total_area m).
Proof. exact LComp.c109_work. Qed.
Print Assumptions C109_work.

(** The grid under loads that belong to the dome. *)
Example C109_work_ex : forall h0 pfn, 0 < h0 -> exists h m P Q load, 0 < h <= h0 /\ h <= 1 /\ 16 * 1 * (h * h) <= 1 / 10 * (1 / 10) /\ let p := ex_prop 1 in let u := sampled m dome in
  mindlin_plate unit_square m pfn p h (1 / 2) Q 20 1 4 (1 / 10) /\ fine unit_square m h (1 / 2) P /\ mindlin_motion unit_square m 4 2 2 dome u /\
  admissible (List.length (nodes m) * 5) (framed m) u /\ mindlin_loads (test_shear "cell-based" m) m p (framed m) Q dome 0 load /\ total_area m = 1 /\
  exists m' K k', calc_k0 m pfn = (m', Ok K) /\ add_k0s lits_src K m' pfn "cell-based" 1 false = (k', Ok tt) /\ exists d, solves k' (framed m) load d.
Proof. exact LComp.c109_work_ex. Qed.

(** The same for loads that work on the true shear strains at the centroids, if Korn's inequality holds for the supported rotations. *)
Theorem C109_natural : forall kappa c lam mu th alpha M s b CK, 0 < kappa -> 0 <= c -> 0 < lam -> 0 < mu -> 0 < th -> 0 <= alpha -> 0 <= M -> 0 <= s -> 0 <= b -> 0 <= CK ->
  exists C, 0 <= C /\ forall method mfa Om m pfn p h P Q F u S load delta, In method cell_methods ->
    mindlin_plate Om m pfn p h kappa Q c lam mu th -> fine Om m h kappa P -> 0 < h <= 1 -> 16 * alpha * (h * h) <= th * th -> 0 <= delta <= 1 ->
    mindlin_motion Om m M s b F u -> admissible (List.length (nodes m) * 5) S u -> mindlin_loads (tria_shear m) m p S Q F delta load -> korn CK m S ->
    exists m' K k', calc_k0 m pfn = (m', Ok K) /\ add_k0s lits_src K m' pfn method alpha mfa = (k', Ok tt) /\
      forall d, solves k' S load d ->
        let e := riemann_energy m pfn P F + riemann_shear m pfn Q F in
        Rabs (load_work (mdim k') load d - e) <= (h + delta + third_error method) * (e + C * total_area m).
Proof. exact LComp.c109_natural. Qed.
Print Assumptions C109_natural.

(** The grid under loads that belong to the dome. *)
Example C109_natural_ex : forall h0 pfn, 0 < h0 -> exists h m P Q load, 0 < h <= h0 /\ h <= 1 /\ 16 * 1 * (h * h) <= 1 / 10 * (1 / 10) /\ let p := ex_prop 1 in let u := sampled m dome in
  mindlin_plate unit_square m pfn p h (1 / 2) Q 20 1 4 (1 / 10) /\ fine unit_square m h (1 / 2) P /\ mindlin_motion unit_square m 4 2 2 dome u /\
  admissible (List.length (nodes m) * 5) (framed m) u /\ mindlin_loads (tria_shear m) m p (framed m) Q dome 0 load /\ korn 4 m (framed m) /\ total_area m = 1 /\
  exists m' K k', calc_k0 m pfn = (m', Ok K) /\ add_k0s lits_src K m' pfn "cell-based" 1 false = (k', Ok tt) /\ exists d, solves k' (framed m) load d.
Proof. exact LComp.c109_natural_ex. Qed.
