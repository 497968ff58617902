(** meshless/espim/classes.py:32-42, the methods of Edge. *)
From Coq Require Import ZArith List Ascii String.
From Verif Require Import Num Py Mesh Utils Pow2mul Mprint.
Import ListNotations.

Section EdgeOps.
  Context {T : Type} {N : Num T}.
  Local Open Scope num_scope.

  (** lines 32-36, [str(edge)] and [repr(edge)] *)
  Definition edge_str (e : edge T) : text :=
    txt "Edge (" ++ nat_text (en1 e) ++ txt ", " ++ nat_text (en2 e) ++ txt ")".

  (** lines 38-42.  Nodes are GRID objects, which cannot be added: [self.n1 + self.n2] raises and the
      sum of the coordinates is used.  [0.5*v] is written [(1/2)*v]. *)
  Definition edge_getMid (m : mesh T) (e : edge T) : res (vec3 T) :=
    let! a := get_node m (en1 e) in
    let! b := get_node m (en2 e) in
    Ok (vscale (#1 / #2) (vadd (nxyz a) (nxyz b))).
End EdgeOps.
