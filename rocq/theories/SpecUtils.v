(** Notions used to state the properties of utils.py and logger.py. *)
From Coq Require Import ZArith Reals List Bool Arith String Ascii.
From Verif Require Import Num Py Mesh Utils Vec Logger Spec.
Import ListNotations.
Local Open Scope R_scope.

(** A point of the plane *)
Definition point : Type := (R * R)%type.

(** area_of_polygon called with the coordinates of the vertices *)
Definition polygon_area (ps : list point) : res R := area_of_polygon (map fst ps) (map snd ps).

(** the sides of a polygon: each vertex with the next one, the last one with the first *)
Definition sides (ps : list point) : list (point * point) := combine ps (tl ps ++ firstn 1 ps).

(** twice the signed area of the triangle o p q *)
Definition twice_area (o p q : point) : R :=
  (fst p - fst o) * (snd q - snd o) - (fst q - fst o) * (snd p - snd o).

(** twice the signed area enclosed: the triangles that [o] forms with the sides *)
Definition enclosed (o : point) (ps : list point) : R := Sum (fun s => twice_area o (fst s) (snd s)) (sides ps).

Definition translate (d p : point) : point := (fst p + fst d, snd p + snd d).
(** the linear map with rows (a, b), (c, d) *)
Definition linear (a b c d : R) (p : point) : point := (a * fst p + b * snd p, c * fst p + d * snd p).

(** Euclidean length *)
Definition length2 (v : list R) : R := sqrt (Sum (fun a => a * a) v).

(** a string of [n] tabs *)
Fixpoint only_tabs (n : nat) (s : string) : Prop :=
  match n, s with
  | O, EmptyString => True
  | S n', String c s' => c = ascii_of_nat 9 /\ only_tabs n' s'
  | _, _ => False
  end.
