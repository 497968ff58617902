(** Properties proved in LStat.v, generated from it by tools/mkprops.py.
    Nothing but statements: each proof is one lemma of that file. *)
From Coq Require Import ZArith Reals List Bool Arith String.
From Verif Require Import Num Py Mesh Utils CalcK0 CalcKG AddK0s Spec SpecK0 SpecKG SpecK0s SpecStab SpecStat Ex ExK0 ExK0s ExStab.
From Verif Require LStat.
Import ListNotations.
Local Open Scope R_scope.

(** Linear buckling is well-behaved: for supports that allow no rigid motion all load factors are real, in a mode
    the strain energy is minus the load factor times the work of the membrane forces, and modes of different
    load factors are orthogonal in k0 and in kG. *)
Theorem C68_buckling : forall method m pfn alpha mfa, In method cell_methods -> valid m pfn ->
  all_props m pos_def -> all_props m shear_pos -> 0 <= alpha -> braced method m ->
  exists m' K k', calc_k0 m pfn = (m', Ok K) /\ add_k0s lits_src K m' pfn method alpha mfa = (k', Ok tt) /\
  forall S d, supported (1 + literal_error method) m S -> List.length d = (List.length (nodes m) * 5)%nat ->
  exists KG, calc_kG d m' pfn = Ok KG /\
    (forall a b x y, buckling_mode k' KG S a b x y -> nonzero (mdim k') x \/ nonzero (mdim k') y -> b = 0) /\
    (forall a x, buckling_mode k' KG S a 0 x (fun _ => 0) -> nonzero (mdim k') x ->
       0 < form k' x x /\ form k' x x = - a * form KG x x) /\
    (forall a1 a2 x1 x2, buckling_mode k' KG S a1 0 x1 (fun _ => 0) -> buckling_mode k' KG S a2 0 x2 (fun _ => 0) -> a1 <> a2 ->
       form k' x1 x2 = 0 /\ form KG x1 x2 = 0).
Proof. exact LStat.c68_buckling. Qed.
Print Assumptions C68_buckling.

Example C68_buckling_ex : forall pfn, valid duo pfn /\ all_props duo pos_def /\ all_props duo shear_pos /\ braced "cell-based" duo /\
  forall f, f <> 0 -> supported f duo (fun i => (i mod 5 <? 3)%nat && (i <? 15)%nat).
Proof. exact LStat.c68_buckling_ex. Qed.

(** The critical load: there is a positive load factor exactly if the membrane forces do negative work on some
    displacement that respects the supports. Then there is a smallest one: with a smaller load the plate is stable
    (the energy of every displacement is positive), with a larger one the mode has negative energy. *)
Theorem C68_critical : forall method m pfn alpha mfa, In method cell_methods -> valid m pfn ->
  all_props m pos_def -> all_props m shear_pos -> 0 <= alpha -> braced method m ->
  exists m' K k', calc_k0 m pfn = (m', Ok K) /\ add_k0s lits_src K m' pfn method alpha mfa = (k', Ok tt) /\
  forall S d, supported (1 + literal_error method) m S -> List.length d = (List.length (nodes m) * 5)%nat ->
  exists KG, calc_kG d m' pfn = Ok KG /\
    ((exists v, admissible (mdim k') S v /\ form KG v v < 0) <->
     (exists a x, 0 < a /\ buckling_mode k' KG S a 0 x (fun _ => 0) /\ nonzero (mdim k') x)) /\
    ((exists v, admissible (mdim k') S v /\ form KG v v < 0) ->
     exists a x, 0 < a /\ buckling_mode k' KG S a 0 x (fun _ => 0) /\ nonzero (mdim k') x /\
      (forall b v, 0 <= b < a -> admissible (mdim k') S v -> nonzero (mdim k') v -> 0 < form k' v v + b * form KG v v) /\
      (forall b, a < b -> form k' x x + b * form KG x x < 0)).
Proof. exact LStat.c68_critical. Qed.
Print Assumptions C68_critical.

(** the square of two triangles, clamped in one node, under compression along x *)
Example C68_critical_ex : forall m' K, calc_k0 duo true = (m', Ok K) ->
  let d := list_of 20 (field duo (fun i n => match i with 0%nat => - vx (pos duo n) | _ => 0 end)) in
  exists KG v, calc_kG d m' true = Ok KG /\ admissible 20 (fun i => (i <? 7)%nat) v /\ form KG v v < 0.
Proof. exact LStat.c68_critical_ex. Qed.

(** The buckling load does not depend on the reference load: for c times the displacements the modes are the same
    and the load factors are divided by c. *)
Theorem C68_proportional : forall m m' pfn K S c d dc, prepared_from m m' -> props_complete m pfn ->
  List.length d = (List.length (nodes m) * 5)%nat -> List.length dc = List.length d -> mdim K = List.length d ->
  c <> 0 -> (forall i, vec_of dc i = c * vec_of d i) ->
  exists KG KGc, calc_kG d m' pfn = Ok KG /\ calc_kG dc m' pfn = Ok KGc /\
  forall a b x y, buckling_mode K KG S a b x y <-> buckling_mode K KGc S (a / c) (b / c) x y.
Proof. exact LStat.c68_proportional. Qed.
Print Assumptions C68_proportional.

Example C68_proportional_ex : (exists m', prepared_from ex_mesh m') /\ props_complete ex_mesh true /\
  (forall i, vec_of (list_of 30 (fun i => 2 * ex_lin i)) i = 2 * vec_of (list_of 30 ex_lin) i).
Proof. exact LStat.c68_proportional_ex. Qed.

(** Reciprocity: the work of the first loads on the displacements of the second is that of the second loads on the
    displacements of the first. *)
Theorem C69_reciprocity : forall method m pfn alpha mfa, In method cell_methods -> valid m pfn -> all_props m shear_pos -> 0 <= alpha ->
  exists m' K k', calc_k0 m pfn = (m', Ok K) /\ add_k0s lits_src K m' pfn method alpha mfa = (k', Ok tt) /\
  forall S l1 l2 d1 d2, solves k' S l1 d1 -> solves k' S l2 d2 -> load_work (mdim k') l1 d2 = load_work (mdim k') l2 d1.
Proof. exact LStat.c69_reciprocity. Qed.
Print Assumptions C69_reciprocity.

Example C69_reciprocity_ex : forall pfn, valid ex_mesh pfn /\ all_props ex_mesh shear_pos.
Proof. exact LStat.c69_reciprocity_ex. Qed.

(** Minimum of the potential energy: the solution is the displacement that respects the supports and has the least
    strain energy minus work of the loads; this is minus half of the work of the loads. *)
Theorem C69_minimum : forall method m pfn alpha mfa, In method cell_methods -> valid m pfn ->
  all_props m pos_def -> all_props m shear_pos -> 0 <= alpha -> braced method m ->
  exists m' K k', calc_k0 m pfn = (m', Ok K) /\ add_k0s lits_src K m' pfn method alpha mfa = (k', Ok tt) /\
  forall S load d, supported (1 + literal_error method) m S -> solves k' S load d ->
    potential k' load d = - load_work (mdim k') load d / 2 /\
    forall v, admissible (mdim k') S v -> potential k' load d <= potential k' load v /\
      (potential k' load v = potential k' load d -> forall i, (i < mdim k')%nat -> v i = d i).
Proof. exact LStat.c69_minimum. Qed.
Print Assumptions C69_minimum.

Example C69_minimum_ex : forall pfn, valid duo pfn /\ all_props duo pos_def /\ all_props duo shear_pos /\ braced "cell-based" duo /\
  forall f, supported f duo (fun i => (i <? 7)%nat).
Proof. exact LStat.c69_minimum_ex. Qed.

(** Stiffening never softens: with laminates that are at least as stiff everywhere (and of the same thickness) the energy
    of every displacement is at least as large, and the work of any loads on their displacements (the compliance) is not larger. *)
Theorem C70_stiffer : forall method m np1 tp1 np2 tp2 pfn alpha mfa, In method cell_methods ->
  let m1 := with_props np1 tp1 m in let m2 := with_props np2 tp2 m in
  valid m1 pfn -> all_props m1 psd -> thick m1 -> stiff m1 -> 0 <= alpha ->
  (forall n, rel_opt stiffer (np1 n) (np2 n)) -> (forall e, rel_opt stiffer (tp1 e) (tp2 e)) ->
  exists m1' K1 k1 m2' K2 k2,
    calc_k0 m1 pfn = (m1', Ok K1) /\ add_k0s lits_src K1 m1' pfn method alpha mfa = (k1, Ok tt) /\
    calc_k0 m2 pfn = (m2', Ok K2) /\ add_k0s lits_src K2 m2' pfn method alpha mfa = (k2, Ok tt) /\
    mdim k2 = mdim k1 /\ (forall u, form K1 u u <= form K2 u u) /\ (forall u, form k1 u u <= form k2 u u) /\
    forall S load d1 d2, solves k1 S load d1 -> solves k2 S load d2 -> load_work (mdim k1) load d2 <= load_work (mdim k1) load d1.
Proof. exact LStat.c70_stiffer. Qed.
Print Assumptions C70_stiffer.

(** the laminates of Ex.v: ex_prop 1 below ex_prop 3 in the nodes with even numbers *)
Example C70_stiffer_ex : forall pfn, let np1 (n : nat) := Some (ex_prop 1) in
  let np2 (n : nat) := Some (ex_prop (if Nat.even n then 3 else 1)) in
  valid (with_props np1 np1 ex_mesh) pfn /\ all_props (with_props np1 np1 ex_mesh) psd /\
  thick (with_props np1 np1 ex_mesh) /\ stiff (with_props np1 np1 ex_mesh) /\ forall n, rel_opt stiffer (np1 n) (np2 n).
Proof. exact LStat.c70_stiffer_ex. Qed.
