(** meshless/espim/plate2d_calc_kG.py *)
From Coq Require Import ZArith List Bool Arith.
From Verif Require Import Num Py Mesh Utils CalcK0 GenKG.
Import ListNotations.

Section CalcKG.
  Context {T : Type} {N : Num T}.
  Local Open Scope num_scope.

  (** lines 128-134: d[i*dof: i*dof+5] must have five entries.  Simplification:
      a vector d that is too short for the mesh gives a ragged array, for which
      numpy raises ValueError (old versions: a failure in np.dot); the model
      raises ValueError. *)
  Definition slice5 (d : list T) (i : Z) : res (list T) :=
    let s := firstn 5 (skipn (Z.to_nat (i * 5)) d) in
    if Nat.eqb (length s) 5 then Ok s else Raise ValueError.

  (** lines 134-140: entry (row r, column c) of the product *)
  Definition dc_entry (r : seg T) (d1 d2 d3 d4 : list T) (c : nat) : T :=
    nth0 0 (s_f r) * nth0 c d1 + nth0 1 (s_f r) * nth0 c d2
    + nth0 2 (s_f r) * nth0 c d3 + nth0 3 (s_f r) * nth0 c d4.

  (** lines 146-154: [1/Ac*(les*nx*q).sum()] etc.; [q] gives the value of the
      field in the four points *)
  Definition sum4 (g : seg T -> T) (rows : seg T * seg T * seg T * seg T) : T :=
    let '(r1, r2, r3, r4) := rows in g r1 + g r2 + g r3 + g r4.

  Definition strain3 (Ac : T) (rows : seg T * seg T * seg T * seg T) (q1 q2 : seg T -> T)
    : vec3 T :=
    V3 (#1/Ac * sum4 (fun r => s_le r * s_nx r * q1 r) rows)
       (#1/Ac * sum4 (fun r => s_le r * s_ny r * q2 r) rows)
       (#1/Ac * sum4 (fun r => s_le r * (s_ny r * q1 r + s_nx r * q2 r)) rows).

  (** lines 128-156 *)
  Definition membrane_force (d : list T) (ix : list Z) (Ac : T) (A B : mat3 T)
    (rows : seg T * seg T * seg T * seg T) : res (vec3 T) :=
    let! d1 := slice5 d (nth 0 ix 0%Z) in
    let! d2 := slice5 d (nth 1 ix 0%Z) in
    let! d3 := slice5 d (nth 2 ix 0%Z) in
    let! d4 := slice5 d (nth 3 ix 0%Z) in
    let q c r := dc_entry r d1 d2 d3 d4 c in
    let em := strain3 Ac rows (q 0%nat) (q 1%nat) in
    let eb := strain3 Ac rows (q 3%nat) (q 4%nat) in
    Ok (vadd (m3mulv A em) (m3mulv B eb)).

  (** lines 159-174 *)
  Definition kG_updates (ix : list Z) (Ac : T) (Nm : vec3 T) (rows : seg T * seg T * seg T * seg T)
    : list (Z * Z * T) :=
    let '(r1, r2, r3, r4) := rows in
    kG_entries (nth 0 ix 0%Z) (nth 1 ix 0%Z) (nth 2 ix 0%Z) (nth 3 ix 0%Z) Ac
      (vx Nm) (vy Nm) (vz Nm)
      (s_nx r1) (s_ny r1) (s_le r1) (s_nx r2) (s_ny r2) (s_le r2)
      (s_nx r3) (s_ny r3) (s_le r3) (s_nx r4) (s_ny r4) (s_le r4)
      (nth0 0 (s_f r1)) (nth0 1 (s_f r1)) (nth0 2 (s_f r1)) (nth0 3 (s_f r1))
      (nth0 0 (s_f r2)) (nth0 1 (s_f r2)) (nth0 2 (s_f r2)) (nth0 3 (s_f r2))
      (nth0 0 (s_f r3)) (nth0 1 (s_f r3)) (nth0 2 (s_f r3)) (nth0 3 (s_f r3))
      (nth0 0 (s_f r4)) (nth0 1 (s_f r4)) (nth0 2 (s_f r4)) (nth0 3 (s_f r4)).

  (** lines 38-174, body of the loop.  The combination of A and B is that of
      plate2d_calc_k0.py:206-229. *)
  Definition kG_edge (m : mesh T) (pfn : bool) (d : list T) (e : edge T)
    : res (list (Z * Z * T)) :=
    let! ta := edge_areas m e in
    let! ix := domain_indices m 0%Z (eipts e) in
    let! rows := ipt_rows m (indexpos ix) (eipts e) in
    let! Ac := get_or TypeError (eAc e) in
    let! abd := edge_ABD m pfn e Ac ta in
    let! Nm := membrane_force d ix Ac (abd pA) (abd pB) rows in
    Ok (kG_updates ix Ac Nm rows).

  Fixpoint kG_assemble (m : mesh T) (pfn : bool) (d : list T) (es : list ((nat * nat) * edge T))
    (k : matrix T) : res (matrix T) :=
    match es with
    | [] => Ok k
    | (_, e) :: es' =>
        let! us := kG_edge m pfn d e in
        match mupdates us k with
        | (k', Ok _) => kG_assemble m pfn d es' k'
        | (_, Raise x) => Raise x
        end
    end.

  (** plate2d_calc_kG.py:9-177.  Modifies nothing. *)
  Definition calc_kG (d : list T) (m : mesh T) (pfn : bool) : res (matrix T) :=
    kG_assemble m pfn d (edges m) (zeros (length d / 5 * 5)).
End CalcKG.
