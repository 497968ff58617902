(** Properties proved in LRound6.v, generated from it by tools/mkprops.py.
    Nothing but statements: each proof is one lemma of that file. *)
From Coq Require Import ZArith Reals List Bool Arith String Floats.SpecFloat.
From Verif Require Import Num Float Py Mesh Utils CalcK0 CalcKG AddK0s Spec SpecK0 SpecKG SpecK0s SpecStab SpecStat SpecRound SpecRound2 SpecRound3 SpecRound6 ExFloat ExPress.
From Verif Require LRound6.
Import ListNotations.
Local Open Scope R_scope.

(** A static problem with the matrix in doubles (a cell-based method): if the smallest stiffness [mu] of the supported plate exceeds the
    sum [eps] of the rounding errors of a row, it has exactly one solution for every load; and what a solver returns for it, with whatever
    residual, differs from the exact solution of the exact problem by at most (eps |d| + |residual|) / (mu - eps). *)
Theorem C90_static : forall (m : mesh double) pfn method alpha mfa h rho kappa s,
  valid (mesh_val m) pfn -> k0_scale m h rho kappa s -> shear_scale m s alpha -> In method cell_methods ->
  all_props (mesh_val m) pos_def -> all_props (mesh_val m) shear_pos -> braced method (mesh_val m) ->
  exists m' k0 k M' K0 K, calc_k0 m pfn = (m', Ok k0) /\ add_k0s lits_src k0 m' pfn method alpha mfa = (k, Ok tt) /\
    calc_k0 (mesh_val m) pfn = (M', Ok K0) /\ add_k0s lits_src K0 M' pfn method (val alpha) mfa = (K, Ok tt) /\
    let n := (List.length (nodes m) * 5)%nat in mdim k = n /\ mdim K = n /\
    forall S, supported (1 + literal_error method) (mesh_val m) S ->
      (exists mu, 0 < mu /\ stiffness_at_least K S mu) /\
      forall mu eps, stiffness_at_least K S mu -> row_sums n (plate_bound m method h rho kappa s) eps -> eps < mu ->
        stiffness_at_least (matrix_val k) S (mu - eps) /\
        forall load, exists d d', only_solution K S load d /\ only_solution (matrix_val k) S load d' /\
          forall x, admissible n S x -> len n (fun i => x i - d i) <= (eps * len n d + len n (residual (matrix_val k) S load x)) / (mu - eps).
Proof. exact LRound6.c90_static. Qed.
Print Assumptions C90_static.

(** Two triangles with only the deflection of node 3 free: its stiffness is more than 8, the rounding errors of a row are less than 1/100. *)
Example C90_static_ex : let M := mesh_val fwarped in
  valid M true /\ k0_scale fwarped 4 4 2 64 /\ shear_scale fwarped 64 (dz 0) /\ all_props M pos_def /\ all_props M shear_pos /\ braced "cell-based" M /\
  supported (1 + literal_error "cell-based") M held /\ row_sums 20 (plate_bound fwarped "cell-based" 4 4 2 64) (/ 100) /\
  forall M' K0 K, calc_k0 M true = (M', Ok K0) -> add_k0s lits_src K0 M' true "cell-based" (val (dz 0)) false = (K, Ok tt) -> stiffness_at_least K held 8.
Proof. exact LRound6.c90_static_ex. Qed.

(** Buckling with the matrices in doubles: if the exact problem has a critical load factor [a], the energy of the matrices in doubles is
    positive on all supported displacements for load factors below it and negative for the mode above it, except in an interval around a
    that shrinks with the rounding errors; without a critical load factor the energy is positive for all load factors for which the
    rounding errors are small. *)
Theorem C91_buckling : forall (m : mesh double) pfn method alpha mfa h rho kappa s w d,
  valid (mesh_val m) pfn -> k0_scale m h rho kappa s -> shear_scale m s alpha -> kG_scale m h s w d -> In method cell_methods ->
  all_props (mesh_val m) pos_def -> all_props (mesh_val m) shear_pos -> braced method (mesh_val m) -> List.length d = (List.length (nodes m) * 5)%nat ->
  exists m' k0 k g M' K0 K G, calc_k0 m pfn = (m', Ok k0) /\ add_k0s lits_src k0 m' pfn method alpha mfa = (k, Ok tt) /\ calc_kG d m' pfn = Ok g /\
    calc_k0 (mesh_val m) pfn = (M', Ok K0) /\ add_k0s lits_src K0 M' pfn method (val alpha) mfa = (K, Ok tt) /\ calc_kG (map val d) M' pfn = Ok G /\
    let n := (List.length (nodes m) * 5)%nat in
    forall S mu eps epsG, supported (1 + literal_error method) (mesh_val m) S -> 0 < mu -> stiffness_at_least K S mu ->
      row_sums n (plate_bound m method h rho kappa s) eps -> row_sums n (kG_bound m rho kappa s w) epsG ->
      ((exists v, admissible n S v /\ form G v v < 0) ->
       exists a x, 0 < a /\ buckling_mode K G S a 0 x (fun _ => 0) /\ nonzero n x /\
         (forall a' y, 0 < a' < a -> buckling_mode K G S a' 0 y (fun _ => 0) -> ~ nonzero n y) /\
         (forall b, 0 <= b -> eps + b * epsG < (1 - b / a) * mu -> forall v, admissible n S v -> nonzero n v -> 0 < form (matrix_val k) v v + b * form (matrix_val g) v v) /\
         (forall b, 0 <= b -> eps + b * epsG < (b / a - 1) * mu -> form (matrix_val k) x x + b * form (matrix_val g) x x < 0)) /\
      ((forall v, admissible n S v -> 0 <= form G v v) ->
       forall b, 0 <= b -> eps + b * epsG < mu -> forall v, admissible n S v -> nonzero n v -> 0 < form (matrix_val k) v v + b * form (matrix_val g) v v).
Proof. exact LRound6.c91_buckling. Qed.
Print Assumptions C91_buckling.

(** The same plate compressed along x: the membrane forces do negative work on the free deflection. *)
Example C91_buckling_ex : kG_scale fwarped 4 64 (9 / 8) fpress /\ List.length fpress = 20%nat /\ row_sums 20 (kG_bound fwarped 4 2 64 (9 / 8)) (5 / 2) /\
  forall M' K0 G, calc_k0 (mesh_val fwarped) true = (M', Ok K0) -> calc_kG (map val fpress) M' true = Ok G -> exists v, admissible 20 held v /\ form G v v < 0.
Proof. exact LRound6.c91_buckling_ex. Qed.
