(** Properties proved in LMono.v, generated from it by tools/mkprops.py.
    Nothing but statements: each proof is one lemma of that file. *)
From Coq Require Import ZArith Reals List Bool Arith String.
From Verif Require Import Num Py Mesh Utils CalcK0 CalcKG AddK0s Spec SpecK0 SpecKG SpecK0s SpecStab SpecStat SpecMono Ex ExK0 ExK0s ExStab ExMono.
From Verif Require LMono.
Import ListNotations.
Local Open Scope R_scope.

(** More supports: the compliance is not larger; a plate that buckles with more supports also buckles with fewer, at a load that is not larger. *)
Theorem C93_supports : forall method m pfn alpha mfa, In method cell_methods -> valid m pfn ->
  all_props m pos_def -> all_props m shear_pos -> 0 <= alpha -> braced method m ->
  exists m' K k, calc_k0 m pfn = (m', Ok K) /\ add_k0s lits_src K m' pfn method alpha mfa = (k, Ok tt) /\
  forall S S', supported (1 + literal_error method) m S -> more_supports (mdim k) S S' ->
    (forall load d d', solves k S load d -> solves k S' load d' -> load_work (mdim k) load d' <= load_work (mdim k) load d) /\
    forall d, List.length d = (List.length (nodes m) * 5)%nat -> exists KG, calc_kG d m' pfn = Ok KG /\
      forall a', critical_factor k KG S' a' -> exists a, critical_factor k KG S a /\ a <= a'.
Proof. exact LMono.c93_supports. Qed.
Print Assumptions C93_supports.

(** A larger alpha: the compliance is not smaller, the critical load factor not larger, and there is one or there is none for both. *)
Theorem C93_alpha : forall method m pfn alpha beta mfa, In method cell_methods -> valid m pfn ->
  all_props m pos_def -> all_props m shear_pos -> 0 <= alpha <= beta -> braced method m ->
  exists m' K ka kb, calc_k0 m pfn = (m', Ok K) /\ add_k0s lits_src K m' pfn method alpha mfa = (ka, Ok tt) /\ add_k0s lits_src K m' pfn method beta mfa = (kb, Ok tt) /\
  forall S, supported (1 + literal_error method) m S ->
    (forall load da db, solves ka S load da -> solves kb S load db -> load_work (mdim ka) load da <= load_work (mdim ka) load db) /\
    forall d, List.length d = (List.length (nodes m) * 5)%nat -> exists KG, calc_kG d m' pfn = Ok KG /\
      (forall a, critical_factor ka KG S a -> exists b, critical_factor kb KG S b /\ b <= a) /\
      forall b, critical_factor kb KG S b -> exists a, critical_factor ka KG S a.
Proof. exact LMono.c93_alpha. Qed.
Print Assumptions C93_alpha.

(** Laminates that are at least as stiff, with the same membrane and coupling stiffness and the same thickness: the critical load factor
    is not smaller, and there is one or there is none for both. *)
Theorem C93_stiffer : forall method m np1 tp1 np2 tp2 pfn alpha mfa, In method cell_methods ->
  let m1 := with_props np1 tp1 m in let m2 := with_props np2 tp2 m in
  valid m1 pfn -> all_props m1 pos_def -> all_props m1 shear_pos -> 0 <= alpha -> braced method m1 ->
  (forall n, rel_opt stiffer_bending (np1 n) (np2 n)) -> (forall e, rel_opt stiffer_bending (tp1 e) (tp2 e)) ->
  exists m1' K1 k1 m2' K2 k2,
    calc_k0 m1 pfn = (m1', Ok K1) /\ add_k0s lits_src K1 m1' pfn method alpha mfa = (k1, Ok tt) /\
    calc_k0 m2 pfn = (m2', Ok K2) /\ add_k0s lits_src K2 m2' pfn method alpha mfa = (k2, Ok tt) /\
    forall S d, supported (1 + literal_error method) m1 S -> List.length d = (List.length (nodes m) * 5)%nat ->
      exists G1 G2, calc_kG d m1' pfn = Ok G1 /\ calc_kG d m2' pfn = Ok G2 /\
        (forall a2, critical_factor k2 G2 S a2 -> exists a1, critical_factor k1 G1 S a1 /\ a1 <= a2) /\
        forall a1, critical_factor k1 G1 S a1 -> exists a2, critical_factor k2 G2 S a2.
Proof. exact LMono.c93_stiffer. Qed.
Print Assumptions C93_stiffer.

(** The square of two triangles, one node clamped and another guided, under compression along x: it has a critical load factor; all the
    nodes supported in u and v on top of that are more supports. *)
Example C93_supports_ex : forall pfn, valid duo pfn /\ all_props duo pos_def /\ all_props duo shear_pos /\ braced "cell-based" duo /\
  (forall f, supported f duo (fun i => (i <? 7)%nat)) /\ more_supports 20 (fun i => (i <? 7)%nat) (fun i => (i <? 7)%nat || (i mod 5 <? 2)%nat).
Proof. exact LMono.c93_supports_ex. Qed.

(** the same square *)
Example C93_alpha_ex : forall m' K k, calc_k0 duo true = (m', Ok K) -> add_k0s lits_src K m' true "cell-based" 1 false = (k, Ok tt) ->
  let d := list_of 20 (field duo (fun i n => match i with 0%nat => - vx (pos duo n) | _ => 0 end)) in
  exists KG a, calc_kG d m' true = Ok KG /\ critical_factor k KG (fun i => (i <? 7)%nat) a.
Proof. exact LMono.c93_alpha_ex. Qed.

(** twice the bending stiffness in the nodes and triangles with odd numbers *)
Example C93_stiffer_ex : let np1 (n : nat) := Some (ex_prop 1) in let np2 (n : nat) := Some (if Nat.odd n then ex_bend else ex_prop 1) in
  with_props np1 np1 two_read = duo /\ forall n, rel_opt stiffer_bending (np1 n) (np2 n).
Proof. exact LMono.c93_stiffer_ex. Qed.
