(** meshless/utils.py, meshless/constants.py, and the dense matrices of numpy
    that the assembly routines update in place. *)
From Coq Require Import ZArith List Bool Arith.
From Verif Require Import Num Py Mesh.
Import ListNotations.

Section Utils.
  Context {T : Type} {N : Num T}.
  Local Open Scope num_scope.

  (** ** Vectors of length 3 (numpy broadcasting arithmetic) *)
  Definition vadd (a b : vec3 T) : vec3 T := V3 (vx a + vx b) (vy a + vy b) (vz a + vz b).
  Definition vsub (a b : vec3 T) : vec3 T := V3 (vx a - vx b) (vy a - vy b) (vz a - vz b).
  Definition vscale (k : T) (a : vec3 T) : vec3 T := V3 (k * vx a) (k * vy a) (k * vz a).
  Definition vdivs (a : vec3 T) (k : T) : vec3 T := V3 (vx a / k) (vy a / k) (vz a / k).
  (** np.cross *)
  Definition cross (a b : vec3 T) : vec3 T :=
    V3 (vy a * vz b - vz a * vy b) (vz a * vx b - vx a * vz b) (vx a * vy b - vy a * vx b).
  (** np.dot of two vectors *)
  Definition dot (a b : vec3 T) : T := vx a * vx b + vy a * vy b + vz a * vz b.
  (** np.linalg.norm; also [np.sqrt((a**2).sum())] and [np.sum(a**2)**0.5] *)
  Definition norm (a : vec3 T) : T := nsqrt (dot a a).

  (** meshless/constants.py, ZGLOBAL *)
  Definition ZGLOBAL : vec3 T := V3 (#0) (#0) (#1).

  (** utils.py:16-19.  Simplification: a zero vector gives NaN and a warning in
      numpy; the theorems exclude it. *)
  Definition unitvec (v : vec3 T) : vec3 T := vdivs v (norm v).

  (** utils.py:7-13, body of the loop [for i in range(-1, len(x)-1)]; [i] runs
      through [is]. *)
  Fixpoint area_loop (x y : list T) (is : list Z) (area : T) : res T :=
    match is with
    | [] => Ok area
    | i :: is' =>
        let! xi := py_get x i in
        let! y1 := py_get y (i + 1)%Z in
        let! y0 := py_get y (i - 1)%Z in
        area_loop x y is' (area + xi * (y1 - y0))
    end.

  (** Python [range(a, a+n)] *)
  Fixpoint zrange (a : Z) (n : nat) : list Z :=
    match n with O => [] | S n' => a :: zrange (a + 1)%Z n' end.

  (** utils.py:7-13 *)
  Definition area_of_polygon (x y : list T) : res T :=
    let! area := area_loop x y (zrange (-1)%Z (length x)) (#0) in
    Ok (nabs area / #2).

  (** [area_of_polygon(tmp[:, 0], tmp[:, 1])] for an array of points *)
  Definition area_of_points (ps : list (vec3 T)) : res T :=
    area_of_polygon (map vx ps) (map vy ps).

  (** utils.py:22-25: mean of the three node positions *)
  Definition mid3 (a b c : vec3 T) : vec3 T := vdivs (vadd (vadd a b) c) (#3).
  Definition getMid (m : mesh T) (t : tria T) : res (vec3 T) :=
    let! a := get_node m (tn1 t) in
    let! b := get_node m (tn2 t) in
    let! c := get_node m (tn3 t) in
    Ok (mid3 (nxyz a) (nxyz b) (nxyz c)).

  (** pyNastran CTRIA3.get_area: half the norm of the cross product *)
  Definition tri_area3 (a b c : vec3 T) : T :=
    #1 / #2 * norm (cross (vsub b a) (vsub c a)).
  Definition get_area (m : mesh T) (t : tria T) : res T :=
    let! a := get_node m (tn1 t) in
    let! b := get_node m (tn2 t) in
    let! c := get_node m (tn3 t) in
    Ok (tri_area3 (nxyz a) (nxyz b) (nxyz c)).

  (** ** Arithmetic on the 3x3 and 2x2 arrays of a laminate *)
  Definition m3map2 (f : T -> T -> T) (a b : mat3 T) : mat3 T :=
    M3 (f (m00 a) (m00 b)) (f (m01 a) (m01 b)) (f (m02 a) (m02 b))
       (f (m10 a) (m10 b)) (f (m11 a) (m11 b)) (f (m12 a) (m12 b))
       (f (m20 a) (m20 b)) (f (m21 a) (m21 b)) (f (m22 a) (m22 b)).
  Definition m3map (f : T -> T) (a : mat3 T) : mat3 T :=
    M3 (f (m00 a)) (f (m01 a)) (f (m02 a))
       (f (m10 a)) (f (m11 a)) (f (m12 a))
       (f (m20 a)) (f (m21 a)) (f (m22 a)).
  Definition m3add := m3map2 nadd.
  Definition m3scale (k : T) := m3map (nmul k).
  Definition m3divs (a : mat3 T) (k : T) := m3map (fun v => v / k) a.
  (** np.dot(A, v) *)
  Definition m3mulv (a : mat3 T) (v : vec3 T) : vec3 T :=
    V3 (m00 a * vx v + m01 a * vy v + m02 a * vz v)
       (m10 a * vx v + m11 a * vy v + m12 a * vz v)
       (m20 a * vx v + m21 a * vy v + m22 a * vz v).

  Definition m2add (a b : mat2 T) : mat2 T :=
    M2 (e00 a + e00 b) (e01 a + e01 b) (e10 a + e10 b) (e11 a + e11 b).
  Definition m2scale (k : T) (a : mat2 T) : mat2 T :=
    M2 (k * e00 a) (k * e01 a) (k * e10 a) (k * e11 a).
  Definition m2divs (a : mat2 T) (k : T) : mat2 T :=
    M2 (e00 a / k) (e01 a / k) (e10 a / k) (e11 a / k).

  (** ** Square matrices with in-place update *)
  Record matrix : Type := Matrix { mdim : nat; mentry : nat -> nat -> T }.

  (** [np.zeros((n, n))] *)
  Definition zeros (n : nat) : matrix := Matrix n (fun _ _ => #0).

  (** [k[r, c] += v] for positions inside the matrix *)
  Definition madd_at (r c : nat) (v : T) (k : matrix) : matrix :=
    Matrix (mdim k)
      (fun i j => if (Nat.eqb i r && Nat.eqb j c)%bool then mentry k i j + v else mentry k i j).

  (** [k[r, c] += v]; negative indices count from the end *)
  Definition mupdate (u : Z * Z * T) (k : matrix) : matrix * res unit :=
    let '(r, c, v) := u in
    match pyidx (mdim k) r, pyidx (mdim k) c with
    | Some r', Some c' => (madd_at r' c' v k, Ok tt)
    | _, _ => (k, Raise IndexError)
    end.

  (** a sequence of such statements *)
  Definition mupdates (us : list (Z * Z * T)) (k : matrix) : matrix * res unit :=
    for_each mupdate us k.
End Utils.
Arguments matrix T : clear implicits.
