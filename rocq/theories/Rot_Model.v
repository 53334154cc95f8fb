(** Rotations and polarization vectors: models /repo/marxs/math/rotations.py and /repo/marxs/math/polarization.py.
    The code works on arrays row by row; the model treats one row. nan is [None]. *)
From Verif Require Export Vec_Model.
Open Scope R_scope.

(** ** rotations.py *)

(** rotations.py:79-87 [axangle2mat] for a normalized axis; the matrix is given by its columns *)
Definition axangle2mat_n (u : v3) (angle : R) : m3 :=
  let (x, y, z) := u in
  let c := cos angle in let s := sin angle in let C := 1 - c in
  let xs := x * s in let ys := y * s in let zs := z * s in
  let xC := x * C in let yC := y * C in let zC := z * C in
  let xyC := x * yC in let yzC := y * zC in let zxC := z * xC in
  M3 (V3 (x * xC + c) (xyC + zs) (zxC - ys)) (V3 (xyC - zs) (y * yC + c) (yzC + xs)) (V3 (zxC + ys) (yzC - xs) (z * zC + c)).
(** rotations.py:50-87 with [is_normalized=False] *)
Definition axangle2mat (axis : v3) (angle : R) : option m3 :=
  match unit3 axis with Some u => Some (axangle2mat_n u angle) | None => None end.
(** [np.einsum('...ij,...i->...j', rot, v)] as used by the callers (scatter.py:60, 68, 137, 141) *)
Definition einsum_ij_i (m : m3) (v : v3) : v3 := app3 (trans3 m) v.

(** rotations.py:8-47 [ex2vec_fix]. [Ok None] is a matrix with nan entries. *)
Definition allclose3 (a b : v3) : bool := isclose (x3 a) (x3 b) && isclose (y3 a) (y3 b) && isclose (z3 a) (z3 b).
Definition ex2vec_fix (e1 efix : v3) : result (option m3) :=
  match unit3 e1, unit3 efix with
  | Some a, Some f =>
      if allclose3 a f || allclose3 a (neg3 f) then Err ValueError
      else match unit3 (sub3 f (scale3 (dot3 f a) a)) with
           | Some b => Ok (Some (M3 a b (cross3 a b)))
           | None => Ok None
           end
  | _, _ => Ok None
  end.

(** ** polarization.py *)

(** polarization.py:49-61 [polarization_vectors] (units of the angle are not modelled) *)
Definition polarization_vector (dir : v4) (angle : R) : option v4 :=
  match unit3 (xyz dir) with
  | None => None
  | Some r =>
      let conv_x := isclose (x3 r) 0 && isclose (z3 r) 0 in
      let ax := if conv_x then V3 1 0 0 else V3 0 1 0 in
      match unit3 (sub3 ax (scale3 (dot3 r ax) r)) with
      | None => None
      | Some v1 => let v2 := cross3 r v1 in
                   Some (hom (add3 (scale3 (cos angle) v1) (scale3 (sin angle) v2)) 0)
      end
  end.

(** polarization.py:85-88 [Q_reflection]; the argument is the shape tuple and the value computed by the last two lines.
    A tuple is never equal to the integer 2. *)
Inductive pyval := PInt (n : Z) | PTuple (l : list Z).
Definition py_eq (a b : pyval) : bool :=
  match a, b with
  | PInt n, PInt m => Z.eqb n m
  | PTuple l, PTuple m => if list_eq_dec Z.eq_dec l m then true else false
  | _, _ => false
  end.
Definition Q_reflection {A} (shape : list Z) (value : A) : result A :=
  if negb (py_eq (PTuple shape) (PInt 2)) then Err ValueError else Ok value.

(** A 2x2 Jones matrix [[j11, j12], [j21, j22]] embedded in 3x3 (polarization.py:125-126) *)
Record jones := Jones { j11 : R; j12 : R; j21 : R; j22 : R }.
Definition eye2 : jones := Jones 1 0 0 1.
Definition jones3 (j : jones) : m3 := M3 (V3 (j11 j) (j21 j) 0) (V3 (j12 j) (j22 j) 0) (V3 0 0 1).
(** polarization.py:90-149 [paralleltransport_matrix] *)
Definition paralleltransport_matrix (dir1 dir2 : v3) (j : jones) (replace_nans : bool) : option m3 :=
  match unit3 dir1, unit3 dir2 with
  | Some d1, Some d2 =>
      let s := cross3 d1 d2 in
      if isclose (norm3 s) 0 then (if replace_nans then Some id3 else None)
      else
        let s := scale3 (/ norm3 s) s in
        let p_in := cross3 d1 s in
        let p_out := cross3 d2 s in
        let Oininv := trans3 (M3 s p_in d1) in
        let Oout := M3 s p_out d2 in
        Some (mul3 Oout (mul3 (jones3 j) Oininv))
  | _, _ => None
  end.
(** polarization.py:151-169 [parallel_transport]: the keyword arguments are accepted and not used *)
Definition parallel_transport (dir_old dir_new pol : v4) (kw_jones : option jones) (kw_replace_nans : option bool) : option v4 :=
  match paralleltransport_matrix (xyz dir_old) (xyz dir_new) eye2 true with
  | Some m => Some (hom (app3 m (xyz pol)) 0)
  | None => None
  end.
