(** Notions used to state the properties of the options of the printing functions. *)
From Coq Require Import Reals ZArith List Bool Arith Ascii String Permutation Sorted.
From Verif Require Import Num Py Pow2mul SpecPow Mprint MprintOpt SpecMprint.
Import ListNotations.

(** the matrix with another text for each entry that is not zero *)
Definition substitute (sub : text -> text) (m : matrix) : matrix :=
  map (map (fun v => if nonzero v then Entry true (sub (entry_text v)) else v)) m.

(** order of texts, as in a dictionary *)
Definition text_before (a b : text) : Prop :=
  (exists c, b = a ++ c) \/
  exists p x y a' b', a = p ++ x :: a' /\ b = p ++ y :: b' /\ nat_of_ascii x < nat_of_ascii y.
(** [ds]: the pairs (old, new) whose new text is found in [s], each as often as in [items], sorted by the new text *)
Definition listed (items : list (text * text)) (s : text) (ds : list (text * text)) : Prop :=
  (exists found : text -> bool, (forall p, found p = true <-> contains p s) /\
     Permutation ds (filter (fun d => found (snd d)) items)) /\
  StronglySorted (fun d d' => text_before (snd d) (snd d')) ds.

(** lines, each with its end *)
Definition lines (ls : list text) : text := List.concat (map (fun l => l ++ [newline]) ls).
Definition definition_text (d : text * text) : text := snd d ++ txt " = " ++ fst d.

(** what the options put before the text [s] *)
Definition dense_preface (ds : list (text * text)) : text :=
  match ds with [] => [] | _ => lines (txt "# subs" :: map (fun d => txt "# " ++ definition_text d) ds) end.
Definition sparse_preface (ds : list (text * text)) : text :=
  match ds with [] => [] | _ => lines ([txt "subs"; []] ++ map definition_text ds ++ [[]; []]) end.

Definition comment (l : text) : Prop := exists c, l = txt "#" ++ c.

(** the lines of an entry whose terms are collected *)
Definition collected (target : text) (terms : list (text * text)) : list text :=
  (target ++ txt " +=") :: flat_map (fun d => [txt "#   collected for " ++ fst d; txt "    " ++ snd d]) terms.

(** ** Common subexpressions *)

(** values of the symbols, and the definitions executed one after the other *)
Definition env : Type := text -> R.
Definition define (val : env -> text -> R) (e : env) (d : text * text) : env :=
  fun x => if list_eq_dec ascii_dec x (fst d) then val e (snd d) else e x.
Definition define_all (val : env -> text -> R) (ds : list (text * text)) (e : env) : env := fold_left (define val) ds e.

Definition cdef_text (names : list text) : text := txt "cdef double " ++ join (txt ", ") names.
Definition assign_text (d : text * text) : text := fst d ++ txt " = " ++ snd d.
