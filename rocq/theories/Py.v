(** The fragment of Python the model needs: exceptions as values, list
    indexing with negative indices, insertion-ordered dictionaries, sets of
    numbers, [sorted]. *)
From Coq Require Import ZArith List Bool Arith.
Import ListNotations.

Inductive exn : Type :=
| ValueError | TypeError | IndexError | KeyError | AttributeError
| AssertionError | NotImplementedError | RuntimeError | UnboundLocalError.

(** Result of a Python expression or call. *)
Inductive res (A : Type) : Type :=
| Ok (a : A)
| Raise (e : exn).
Arguments Ok {A} a.
Arguments Raise {A} e.

Definition bind {A B} (x : res A) (f : A -> res B) : res B :=
  match x with Ok a => f a | Raise e => Raise e end.
Notation "'let!' x ':=' e 'in' f" := (bind e (fun x => f))
  (at level 200, x pattern, e at level 100, f at level 200, right associativity).

Fixpoint mapM {A B} (f : A -> res B) (l : list A) : res (list B) :=
  match l with
  | [] => Ok []
  | a :: l' => let! b := f a in let! bs := mapM f l' in Ok (b :: bs)
  end.

(** A [for] loop whose body updates a state and may raise; what was done
    before the exception stays done. *)
Fixpoint for_each {A S} (body : A -> S -> S * res unit) (l : list A) (s : S)
  : S * res unit :=
  match l with
  | [] => (s, Ok tt)
  | a :: l' =>
      match body a s with
      | (s', Ok _) => for_each body l' s'
      | (s', Raise e) => (s', Raise e)
      end
  end.

(** Position meant by the index [i] in a sequence of length [n]. *)
Definition pyidx (n : nat) (i : Z) : option nat :=
  if (0 <=? i)%Z then
    if (i <? Z.of_nat n)%Z then Some (Z.to_nat i) else None
  else
    if (0 <=? i + Z.of_nat n)%Z then Some (Z.to_nat (i + Z.of_nat n)) else None.

(** [l[i]] *)
Definition py_get {A} (l : list A) (i : Z) : res A :=
  match pyidx (length l) i with
  | Some k => match nth_error l k with Some a => Ok a | None => Raise IndexError end
  | None => Raise IndexError
  end.

(** Conversions of failed look-ups to the exception Python raises. *)
Definition get_or {A} (e : exn) (o : option A) : res A :=
  match o with Some a => Ok a | None => Raise e end.

(** ** Dictionaries: association lists in insertion order *)
Section Dict.
  Context {K V : Type} (eqb : K -> K -> bool).

  Fixpoint dget (k : K) (d : list (K * V)) : option V :=
    match d with
    | [] => None
    | (k', v) :: d' => if eqb k k' then Some v else dget k d'
    end.

  (** [d[k] = v] *)
  Fixpoint dset (k : K) (v : V) (d : list (K * V)) : list (K * V) :=
    match d with
    | [] => [(k, v)]
    | (k', v') :: d' => if eqb k k' then (k', v) :: d' else (k', v') :: dset k v d'
    end.

  (** in-place update of the object stored under [k] *)
  Fixpoint dupd (k : K) (f : V -> V) (d : list (K * V)) : list (K * V) :=
    match d with
    | [] => []
    | (k', v') :: d' => if eqb k k' then (k', f v') :: d' else (k', v') :: dupd k f d'
    end.
End Dict.

(** [defaultdict(list)]: [d[k].append(v)] *)
Fixpoint dappend {K V} (eqb : K -> K -> bool) (k : K) (v : V) (d : list (K * list V))
  : list (K * list V) :=
  match d with
  | [] => [(k, [v])]
  | (k', vs) :: d' =>
      if eqb k k' then (k', vs ++ [v]) :: d' else (k', vs) :: dappend eqb k v d'
  end.

Definition pair_eqb (a b : nat * nat) : bool :=
  (fst a =? fst b) && (snd a =? snd b).

(** ** Sets (lists without repetition) *)
Definition memb {A} (eqb : A -> A -> bool) (a : A) (s : list A) : bool :=
  existsb (eqb a) s.

(** [s.add(a)] *)
Definition sadd {A} (eqb : A -> A -> bool) (a : A) (s : list A) : list A :=
  if memb eqb a s then s else s ++ [a].

(** [set(l)] *)
Definition sset {A} (eqb : A -> A -> bool) (l : list A) : list A :=
  fold_left (fun s a => sadd eqb a s) l [].

(** [s1 - s2] *)
Definition sdiff {A} (eqb : A -> A -> bool) (s1 s2 : list A) : list A :=
  filter (fun a => negb (memb eqb a s2)) s1.

(** [sorted(l)] on integers *)
Fixpoint zinsert (a : Z) (l : list Z) : list Z :=
  match l with
  | [] => [a]
  | b :: l' => if (a <=? b)%Z then a :: l else b :: zinsert a l'
  end.
Definition zsorted (l : list Z) : list Z := fold_right zinsert [] l.

(** [l[k] = a] for a position inside the list *)
Fixpoint lset {A} (k : nat) (a : A) (l : list A) : list A :=
  match k, l with
  | _, [] => []
  | O, _ :: l' => a :: l'
  | S k', b :: l' => b :: lset k' a l'
  end.
