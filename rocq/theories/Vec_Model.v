(** Vectors and matrices over the real numbers: the numpy operations used by the geometric code.
    Nothing here is specific to marxs except where cited. Floating point rounding is not modelled. *)
From Coq Require Export Reals List Bool ZArith String.
From Verif Require Export Base.
Export ListNotations.
Open Scope R_scope.

Record v3 := V3 { x3 : R; y3 : R; z3 : R }.
Record v4 := V4 { x4 : R; y4 : R; z4 : R; w4 : R }.

Definition add3 (a b : v3) := V3 (x3 a + x3 b) (y3 a + y3 b) (z3 a + z3 b).
Definition sub3 (a b : v3) := V3 (x3 a - x3 b) (y3 a - y3 b) (z3 a - z3 b).
Definition scale3 (k : R) (a : v3) := V3 (k * x3 a) (k * y3 a) (k * z3 a).
Definition neg3 (a : v3) := V3 (- x3 a) (- y3 a) (- z3 a).
(** [np.dot] of two vectors *)
Definition dot3 (a b : v3) := x3 a * x3 b + y3 a * y3 b + z3 a * z3 b.
(** [np.cross] *)
Definition cross3 (a b : v3) :=
  V3 (y3 a * z3 b - z3 a * y3 b) (z3 a * x3 b - x3 a * z3 b) (x3 a * y3 b - y3 a * x3 b).
(** [np.linalg.norm] *)
Definition norm3 (a : v3) := sqrt (dot3 a a).
Definition zero3 := V3 0 0 0.

Definition add4 (a b : v4) := V4 (x4 a + x4 b) (y4 a + y4 b) (z4 a + z4 b) (w4 a + w4 b).
Definition sub4 (a b : v4) := V4 (x4 a - x4 b) (y4 a - y4 b) (z4 a - z4 b) (w4 a - w4 b).
Definition scale4 (k : R) (a : v4) := V4 (k * x4 a) (k * y4 a) (k * z4 a) (k * w4 a).
Definition dot4 (a b : v4) := x4 a * x4 b + y4 a * y4 b + z4 a * z4 b + w4 a * w4 b.
Definition norm4 (a : v4) := sqrt (dot4 a a).
Definition zero4 := V4 0 0 0 0.

(** [v[:3]] and the homogeneous vector made of [v] and [w] *)
Definition xyz (a : v4) := V3 (x4 a) (y4 a) (z4 a).
Definition hom (a : v3) (w : R) := V4 (x3 a) (y3 a) (z3 a) w.

(** [vec / norm(vec)]: a division 0 / 0 gives nan, here [None] *)
Definition unit3 (a : v3) : option v3 := if Req_EM_T (norm3 a) 0 then None else Some (scale3 (/ norm3 a) a).
Definition unit4 (a : v4) : option v4 := if Req_EM_T (norm4 a) 0 then None else Some (scale4 (/ norm4 a) a).

(** 3x3 and 4x4 matrices, given by their columns *)
Record m3 := M3 { a0 : v3; a1 : v3; a2 : v3 }.
Record m4 := M4 { b0 : v4; b1 : v4; b2 : v4; b3 : v4 }.
Definition app3 (m : m3) (v : v3) : v3 := add3 (add3 (scale3 (x3 v) (a0 m)) (scale3 (y3 v) (a1 m))) (scale3 (z3 v) (a2 m)).
Definition app4 (m : m4) (v : v4) : v4 :=
  add4 (add4 (add4 (scale4 (x4 v) (b0 m)) (scale4 (y4 v) (b1 m))) (scale4 (z4 v) (b2 m))) (scale4 (w4 v) (b3 m)).
(** [np.dot] of two matrices *)
Definition mul3 (m n : m3) : m3 := M3 (app3 m (a0 n)) (app3 m (a1 n)) (app3 m (a2 n)).
Definition mul4 (m n : m4) : m4 := M4 (app4 m (b0 n)) (app4 m (b1 n)) (app4 m (b2 n)) (app4 m (b3 n)).
(** [np.eye] *)
Definition id3 : m3 := M3 (V3 1 0 0) (V3 0 1 0) (V3 0 0 1).
Definition id4 : m4 := M4 (V4 1 0 0 0) (V4 0 1 0 0) (V4 0 0 1 0) (V4 0 0 0 1).
Definition trans3 (m : m3) : m3 :=
  M3 (V3 (x3 (a0 m)) (x3 (a1 m)) (x3 (a2 m))) (V3 (y3 (a0 m)) (y3 (a1 m)) (y3 (a2 m))) (V3 (z3 (a0 m)) (z3 (a1 m)) (z3 (a2 m))).
(** [np.linalg.det] of a 3x3 matrix *)
Definition det3 (m : m3) : R := dot3 (a0 m) (cross3 (a1 m) (a2 m)).

(** Spec: rotation matrices *)
Definition orthonormal (m : m3) : Prop :=
  dot3 (a0 m) (a0 m) = 1 /\ dot3 (a1 m) (a1 m) = 1 /\ dot3 (a2 m) (a2 m) = 1 /\
  dot3 (a0 m) (a1 m) = 0 /\ dot3 (a0 m) (a2 m) = 0 /\ dot3 (a1 m) (a2 m) = 0.
Definition rotation (m : m3) : Prop := orthonormal m /\ det3 m = 1.

(** The 4x4 matrix with linear part [m] and translation [t] (last row 0 0 0 1) *)
Definition aff (m : m3) (t : v3) : m4 := M4 (hom (a0 m) 0) (hom (a1 m) 0) (hom (a2 m) 0) (hom t 1).
(** Spec: [m[:3, :3]] and [m[:3, 3]] *)
Definition lin (m : m4) : m3 := M3 (xyz (b0 m)) (xyz (b1 m)) (xyz (b2 m)).
Definition tra (m : m4) : v3 := xyz (b3 m).
Definition affine (m : m4) : Prop := w4 (b0 m) = 0 /\ w4 (b1 m) = 0 /\ w4 (b2 m) = 0 /\ w4 (b3 m) = 1.
(** [np.linalg.det] of a 4x4 matrix (expansion along the last row) *)
Definition det4 (m : m4) : R :=
  w4 (b3 m) * det3 (M3 (xyz (b0 m)) (xyz (b1 m)) (xyz (b2 m)))
  - w4 (b2 m) * det3 (M3 (xyz (b0 m)) (xyz (b1 m)) (xyz (b3 m)))
  + w4 (b1 m) * det3 (M3 (xyz (b0 m)) (xyz (b2 m)) (xyz (b3 m)))
  - w4 (b0 m) * det3 (M3 (xyz (b1 m)) (xyz (b2 m)) (xyz (b3 m))).

(** [np.isclose(a, b)] and [np.allclose] with the default tolerances *)
Definition isclose (a b : R) : bool :=
  if Rle_dec (Rabs (a - b)) (/ 100000000 + / 100000 * Rabs b) then true else false.
(** comparisons as booleans *)
Definition Rleb (a b : R) : bool := if Rle_dec a b then true else false.
Definition Rltb (a b : R) : bool := if Rlt_dec a b then true else false.
Definition Reqb (a b : R) : bool := if Req_EM_T a b then true else false.
(** [a % b] for b > 0, and [np.floor] *)
Definition Rfloor (a : R) : Z := (up a - 1)%Z.
Definition Rmod (a b : R) : R := a - b * IZR (Rfloor (a / b)).
Definition Rceil (a : R) : Z := (- Rfloor (- a))%Z.
