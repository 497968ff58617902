(** meshless/logger.py *)
From Coq Require Import List String Ascii ZArith.
From Verif Require Import Py.
Import ListNotations.
Local Open Scope string_scope.

(** Lines written to standard output, oldest first. *)
Definition stdout : Type := list string.

Definition tab : string := String (ascii_of_nat 9) "".

(** ['\t'*level]; a non-positive level gives the empty string *)
Fixpoint ntabs (level : nat) : string :=
  match level with O => "" | S l => tab ++ ntabs l end.
Definition tabs (level : Z) : string := ntabs (Z.to_nat level).

(** logger.py:13-16 *)
Definition log_msg (m : string) (level : Z) (silent : bool) (out : stdout)
  : stdout * string :=
  ((if silent then out else (out ++ [(tabs level ++ m)%string])%list), m).

(** logger.py:1-5 *)
Definition log_warn (m : string) (level : Z) (silent : bool) (out : stdout)
  : stdout * string :=
  let m := "WARNING: " ++ m in
  ((if silent then out else (out ++ [(tabs level ++ m)%string])%list), m).

(** logger.py:7-11 *)
Definition log_error (m : string) (level : Z) (silent : bool) (out : stdout)
  : stdout * string :=
  let m := "ERROR: " ++ m in
  ((if silent then out else (out ++ [(tabs level ++ m)%string])%list), m).
