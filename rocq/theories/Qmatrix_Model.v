(** The matrix that /repo/marxs/math/polarization.py:87-88 ([Q_reflection], behind the check that always raises, see Rot_Model) computes for one photon. Simplification: one
    photon instead of an array; a matrix of nans (division by zero) is [None]. *)
From Verif Require Export Rot_Model.
Open Scope R_scope.

(** polarization.py:87 [m]: products of the components *)
Definition outer4 (d : v4) : m4 := M4 (scale4 (x4 d) d) (scale4 (y4 d) d) (scale4 (z4 d) d) (scale4 (w4 d) d).
(** polarization.py:88 *)
Definition q_matrix (delta : v4) : option m4 :=
  let n := norm4 delta in
  if Reqb (n * n) 0 then None
  else let k := 2 / (n * n) in let m := outer4 delta in
       Some (M4 (sub4 (b0 id4) (scale4 k (b0 m))) (sub4 (b1 id4) (scale4 k (b1 m))) (sub4 (b2 id4) (scale4 k (b2 m))) (sub4 (b3 id4) (scale4 k (b3 m)))).
(** the argument as the docstring (polarization.py:78-80) has it: old direction minus new direction *)
Definition delta_dir (dir_old dir_new : v4) : v4 := sub4 dir_old dir_new.
