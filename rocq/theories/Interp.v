(** meshless/interpolate.py *)
From Coq Require Import ZArith List Bool Arith.
From Verif Require Import Num Py.
Import ListNotations.

Section Interp.
  Context {T : Type} {N : Num T}.
  Local Open Scope num_scope.

  (** A Python number or a one-dimensional numpy array of floats. *)
  Inductive nval : Type :=
  | Scalar (a : T)
  | Array (l : list T).

  (** numpy broadcasting of a binary operation on such values *)
  Definition bcast (op : T -> T -> T) (a b : nval) : res nval :=
    match a, b with
    | Scalar u, Scalar v => Ok (Scalar (op u v))
    | Scalar u, Array l => Ok (Array (map (op u) l))
    | Array l, Scalar v => Ok (Array (map (fun u => op u v) l))
    | Array l1, Array l2 =>
        if Nat.eqb (length l1) (length l2) then
          Ok (Array (map (fun p => op (fst p) (snd p)) (combine l1 l2)))
        else match l1, l2 with
             | [u], _ => Ok (Array (map (op u) l2))
             | _, [v] => Ok (Array (map (fun u => op u v) l1))
             | _, _ => Raise ValueError
             end
    end.

  (** [a op= b]: numbers are replaced by the result, arrays are updated in place and
      keep their length ("non-broadcastable output operand" otherwise) *)
  Definition bcast_in (op : T -> T -> T) (a b : nval) : res nval :=
    let! r := bcast op a b in
    match a, r with
    | Array l, Array l' => if Nat.eqb (length l) (length l') then Ok r else Raise ValueError
    | _, _ => Ok r
    end.

  (** An n-dimensional array: its shape and its entries. *)
  Record ndarray : Type := NdArray { shape : list nat; fget : list nat -> T }.

  (** lines 39-41 (45-47, 91-93, 97-99, 103-105):
      [for i, xi in enumerate(nodes): if i != m and (xm - xi) != 0: fx *= ...] *)
  Fixpoint lag_loop (x : nval) (m : nat) (xm : T) (i : nat) (nodes : list T) (fx : nval)
    : res nval :=
    match nodes with
    | [] => Ok fx
    | xi :: nodes' =>
        if negb (Nat.eqb i m) && negb (xm - xi =? #0) then
          let! a := bcast nsub x (Scalar xi) in
          let! a := bcast ndiv a (Scalar (xm - xi)) in
          let! fx := bcast_in nmul fx a in
          lag_loop x m xm (S i) nodes' fx
        else lag_loop x m xm (S i) nodes' fx
    end.

  (** lines 38-41: fx starts as 1 *)
  Definition lag (x : nval) (m : nat) (xm : T) (nodes : list T) : res nval :=
    lag_loop x m xm 0 nodes (Scalar (#1)).

  (** a loop [for k in range(len(nodes))] with the node as second argument *)
  Fixpoint for_nodes (k : nat) (nodes : list T) (body : nat -> T -> nval -> res nval)
    (field : nval) : res nval :=
    match nodes with
    | [] => Ok field
    | a :: nodes' =>
        let! field := body k a field in for_nodes (S k) nodes' body field
    end.

  (** [field_nodes.shape[d] == nodes.shape[0]] *)
  Definition shape_ok (F : ndarray) (dims : list nat) : bool :=
    if list_eq_dec Nat.eq_dec (shape F) dims then true else false.

  (** lines 4-49 *)
  Definition interpolate_lagrange_2D (x y : nval) (x_nodes y_nodes : list T) (F : ndarray)
    : res nval :=
    if negb (shape_ok F [length x_nodes; length y_nodes]) then Raise AssertionError else
    for_nodes 0 x_nodes (fun m xm field =>
      let! fx := lag x m xm x_nodes in
      for_nodes 0 y_nodes (fun n yn field =>
        let! fy := lag y n yn y_nodes in
        let! t := bcast nmul fx fy in
        let! t := bcast nmul t (Scalar (fget F [m; n])) in
        bcast_in nadd field t) field) (Scalar (#0)).

  (** lines 52-107.  Line 103 enumerates y_nodes where z_nodes is meant; the model
      keeps it. *)
  Definition interpolate_lagrange_3D (x y z : nval) (x_nodes y_nodes z_nodes : list T)
    (F : ndarray) : res nval :=
    if negb (shape_ok F [length x_nodes; length y_nodes; length z_nodes])
    then Raise AssertionError else
    for_nodes 0 x_nodes (fun m xm field =>
      let! fx := lag x m xm x_nodes in
      for_nodes 0 y_nodes (fun n yn field =>
        let! fy := lag y n yn y_nodes in
        for_nodes 0 z_nodes (fun p zp field =>
          let! fz := lag z p zp y_nodes in
          let! t := bcast nmul fx fy in
          let! t := bcast nmul t fz in
          let! t := bcast nmul t (Scalar (fget F [m; n; p])) in
          bcast_in nadd field t) field) field) (Scalar (#0)).
End Interp.
Arguments nval T : clear implicits.
Arguments ndarray T : clear implicits.
