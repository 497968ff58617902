(** meshless/utils.py:unitvec for vectors of any length ([Utils.v] has the one of length 3
    that the rest of the code uses). *)
From Coq Require Import ZArith List.
From Verif Require Import Num.
Import ListNotations.

Section Vec.
  Context {T : Type} {N : Num T}.
  Local Open Scope num_scope.

  (** np.linalg.norm of a one-dimensional array: the root of the sum of the squares *)
  Definition sumsq (v : list T) : T := fold_left (fun s a => s + a * a) v (#0).
  Definition norm_array (v : list T) : T := nsqrt (sumsq v).

  (** utils.py:16-19.  Simplification: a zero vector gives NaN and a warning in numpy; the
      theorems exclude it. *)
  Definition unitvec_array (v : list T) : list T := map (fun a => a / norm_array v) v.
End Vec.
