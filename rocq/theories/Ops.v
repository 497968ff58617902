(** Histories of a mesh: the calls that modify it and the assignments a user makes
    between the calls. *)
From Coq Require Import ZArith List Bool Arith String.
From Verif Require Import Num Py Mesh Utils CalcK0 CalcKG AddK0s.
Import ListNotations.

Section Ops.
  Context {T : Type} {N : Num T}.

  (** [mesh.nodes[n].prop = p], as in tests/test_*.py *)
  Definition set_node_prop (n : nat) (p : option (prop T)) (m : mesh T) : mesh T :=
    {| nodes := dupd Nat.eqb n (fun d => {| nid := nid d; nxyz := nxyz d; nprop := p; nindex := nindex d;
                                            nedges := nedges d; ntrias := ntrias d |}) (nodes m);
       elements := elements m; edges := edges m |}.

  (** [mesh.elements[e].prop = p] *)
  Definition set_tria_prop (e : nat) (p : option (prop T)) (m : mesh T) : mesh T :=
    {| nodes := nodes m;
       elements := dupd Nat.eqb e (fun t => {| eid := eid t; tn1 := tn1 t; tn2 := tn2 t; tn3 := tn3 t;
                                               tprop := p; tedges := tedges t |}) (elements m);
       edges := edges m |}.

  (** [mesh.nodes[n].xyz = p] *)
  Definition move_node (n : nat) (p : vec3 T) (m : mesh T) : mesh T :=
    {| nodes := dupd Nat.eqb n (fun d => {| nid := nid d; nxyz := p; nprop := nprop d; nindex := nindex d;
                                            nedges := nedges d; ntrias := ntrias d |}) (nodes m);
       elements := elements m; edges := edges m |}.

  Inductive op : Type :=
  | OpCalcK0 (prop_from_node : bool)
  | OpAddK0s (k : matrix T) (prop_from_node : bool) (method : string) (alpha : T) (maxl_from_area : bool)
  | OpCalcKG (d : list T) (prop_from_node : bool)
  | OpNodeProp (n : nat) (p : option (prop T))
  | OpTriaProp (e : nat) (p : option (prop T))
  | OpMove (n : nat) (p : vec3 T).

  (** The mesh after an operation, also if it raises (the exception is caught).
      plate2d_add_k0s*.py and plate2d_calc_kG.py assign to no attribute of the mesh. *)
  Definition op_mesh (o : op) (m : mesh T) : mesh T :=
    match o with
    | OpCalcK0 pfn => fst (calc_k0 m pfn)
    | OpAddK0s _ _ _ _ _ => m
    | OpCalcKG _ _ => m
    | OpNodeProp n p => set_node_prop n p m
    | OpTriaProp e p => set_tria_prop e p m
    | OpMove n p => move_node n p m
    end.

  (** the assignments of the user *)
  Definition is_assignment (o : op) : bool :=
    match o with OpNodeProp _ _ | OpTriaProp _ _ | OpMove _ _ => true | _ => false end.

  Definition run (ops : list op) (m : mesh T) : mesh T := fold_left (fun m o => op_mesh o m) ops m.
End Ops.
Arguments op T : clear implicits.
