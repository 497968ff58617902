(** Notions used to state the properties of the printing functions: the statements in the printed text,
    what they do when they are executed, and the cells of a matrix. *)
From Coq Require Import Reals ZArith List Bool Arith Ascii String.
From Verif Require Import Num Py Pow2mul Mprint.
Import ListNotations.

(** ** Matrices *)

Definition rectangular (nrows ncols : nat) (m : matrix) : Prop :=
  List.length m = nrows /\ forall row, In row m -> List.length row = ncols.
Definition at_ (m : matrix) (i j : nat) : entry := nth j (nth i m []) (Entry false []).

(** the entries that are not zero, with their row and column, row by row *)
Definition cell : Type := nat * nat * entry.
Definition cells (nrows ncols : nat) (m : matrix) : list cell :=
  filter (fun c => nonzero (snd c))
    (flat_map (fun i => map (fun j => (i, j, at_ m i j)) (seq 0 ncols)) (seq 0 nrows)).

(** the text printed for an entry: its own, or the one with the powers multiplied out *)
Definition shows (expand : text -> res text) (pow_by_mul : bool) (v : entry) (t : text) : Prop :=
  (if pow_by_mul then expand (entry_text v) else Ok (entry_text v)) = Ok t.

(** ** The text: comment lines and statements *)

Definition script (comments statements : list text) : text := join [newline] (comments ++ statements).

(** an index: a number, base+offset, or i<node>*dof+offset *)
Inductive index : Type :=
| Number (n : nat)
| Offset (base : text) (n : nat)
| NodeDof (node n : nat).
Definition index_text (x : index) : text :=
  match x with
  | Number n => nat_text n
  | Offset b n => b ++ txt "+" ++ nat_text n
  | NodeDof k n => txt "i" ++ nat_text k ++ txt "*dof+" ++ nat_text n
  end.
(** values of the names in the indices: row, col, pos, ...; i1, i2, ...; dof *)
Record names : Type := Names { named : text -> nat; node : nat -> nat; dof : nat }.
Definition index_value (e : names) (x : index) : nat :=
  match x with
  | Number n => n
  | Offset b n => named e b + n
  | NodeDof k n => node e k * dof e + n
  end.

(** *** Dense matrices: A[i, j] += v *)
Record dense_stmt : Type := DenseAdd { d_row : index; d_col : index; d_val : text }.
Definition dense_text (mname : text) (s : dense_stmt) : text :=
  mname ++ txt "[" ++ index_text (d_row s) ++ txt ", " ++ index_text (d_col s) ++ txt "] += " ++ d_val s.
(** executed one after the other *)
Definition dense_exec1 (e : names) (val : text -> R) (M : nat -> nat -> R) (s : dense_stmt) : nat -> nat -> R :=
  fun i j => if Nat.eqb i (index_value e (d_row s)) && Nat.eqb j (index_value e (d_col s)) then (M i j + val (d_val s))%R else M i j.
Definition dense_exec (e : names) (val : text -> R) (ss : list dense_stmt) (M : nat -> nat -> R) : nat -> nat -> R :=
  fold_left (dense_exec1 e val) ss M.

(** *** Sparse matrices: c += 1; Ar[c] = i; Ac[c] = j; Av[c] += v *)
Inductive sparse_stmt : Type :=
| CountUp
| SetRow (x : index)
| SetCol (x : index)
| AddVal (v : text).
Definition sparse_text (mname : text) (s : sparse_stmt) : text :=
  match s with
  | CountUp => txt "c += 1"
  | SetRow x => mname ++ txt "r[c] = " ++ index_text x
  | SetCol x => mname ++ txt "c[c] = " ++ index_text x
  | AddVal v => mname ++ txt "v[c] += " ++ v
  end.
Record arrays : Type := Arrays { count : Z; rows : Z -> nat; cols : Z -> nat; vals : Z -> R }.
Definition update {A} (f : Z -> A) (k : Z) (a : A) : Z -> A := fun i => if Z.eqb i k then a else f i.
Definition sparse_exec1 (e : names) (val : text -> R) (s : arrays) (st : sparse_stmt) : arrays :=
  match st with
  | CountUp => Arrays (count s + 1) (rows s) (cols s) (vals s)
  | SetRow x => Arrays (count s) (update (rows s) (count s) (index_value e x)) (cols s) (vals s)
  | SetCol x => Arrays (count s) (rows s) (update (cols s) (count s) (index_value e x)) (vals s)
  | AddVal v => Arrays (count s) (rows s) (cols s) (update (vals s) (count s) (vals s (count s) + val v)%R)
  end.
Definition sparse_exec (e : names) (val : text -> R) (ss : list sparse_stmt) (s : arrays) : arrays :=
  fold_left (sparse_exec1 e val) ss s.

(** The arrays [s'] are the arrays [s] with the cells [cs] appended after place [count s]: cell number k goes to
    place count s + 1 + k, its row and column are those of [place], its value is added, and nothing else changes. *)
Definition appended (place : cell -> nat * nat) (value : cell -> R) (cs : list cell) (s s' : arrays) : Prop :=
  count s' = (count s + Z.of_nat (List.length cs))%Z /\
  (forall k c, nth_error cs k = Some c ->
     let p := (count s + 1 + Z.of_nat k)%Z in
     rows s' p = fst (place c) /\ cols s' p = snd (place c) /\ vals s' p = (vals s p + value c)%R) /\
  (forall p, (p <= count s \/ count s' < p)%Z -> rows s' p = rows s p /\ cols s' p = cols s p /\ vals s' p = vals s p).

(** *** Vectors: A[pos+k] op v *)
Record array_stmt : Type := ArrayAdd { a_at : index; a_val : text }.
Definition array_text (mname op : text) (s : array_stmt) : text :=
  mname ++ txt "[" ++ index_text (a_at s) ++ txt "] " ++ op ++ txt " " ++ a_val s.

(** *** Comment lines *)
Definition heading (header : option text) : list text :=
  match header with Some (c :: h) => [c :: h] | _ => [] end.
Definition name_line (name : text) : text := txt "# " ++ name.
Definition count_line (name : text) (n : nat) : text := txt "# " ++ name ++ txt "_num=" ++ nat_text n.

(** every entry that is not zero has a text *)
Definition printable (expand : text -> res text) (pow_by_mul : bool) (m : matrix) : Prop :=
  forall i j, nonzero (at_ m i j) = true -> exists t, shows expand pow_by_mul (at_ m i j) t.
(** [ts] gives the text of every entry that is not zero *)
Definition texts (expand : text -> res text) (pow_by_mul : bool) (m : matrix) (ts : entry -> text) : Prop :=
  forall i j, nonzero (at_ m i j) = true -> shows expand pow_by_mul (at_ m i j) (ts (at_ m i j)).
(** the values of the entries *)
Definition has_value (ts : entry -> text) (val : text -> R) (v : entry) (x : R) : Prop :=
  x = if nonzero v then val (ts v) else 0%R.

(** an identifier *)
Definition name_ok (s : text) : Prop := s <> [] /\ Forall (fun c => is_word c = true) s /\ is_digit (hd newline s) = false.
Definition index_ok (x : index) : Prop := match x with Offset b _ => name_ok b | _ => True end.
(** a line: no newline in it *)
Definition one_line (s : text) : Prop := ~ In newline s.

(** the indices of the statements are numbers, base+offset or i<node>*dof+offset, and the values are texts of entries *)
Definition dense_from (m : matrix) (ts : entry -> text) (l : list dense_stmt) : Prop :=
  forall s, In s l -> index_ok (d_row s) /\ index_ok (d_col s) /\ exists i j, nonzero (at_ m i j) = true /\ d_val s = ts (at_ m i j).
Definition sparse_from (m : matrix) (ts : entry -> text) (l : list sparse_stmt) : Prop :=
  forall s, In s l -> match s with
                      | CountUp => True
                      | SetRow x | SetCol x => index_ok x
                      | AddVal v => exists i j, nonzero (at_ m i j) = true /\ v = ts (at_ m i j)
                      end.
