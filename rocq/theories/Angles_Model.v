(** Angles: models /repo/marxs/math/utils.py:164-213. *)
From Verif Require Export Vec_Model.
Open Scope R_scope.

Definition twopi : R := 2 * PI.
(** math/utils.py:164-176 [anglediff] *)
Definition anglediff (phi0 phi1 : R) : R :=
  let d := phi1 - phi0 in
  if Rltb d 0 || Rltb twopi d then Rmod d twopi else d.

(** math/utils.py:207-209: the double reduction of an angle *)
Definition reduce_angle (a : R) : R := Rmod (twopi + Rmod a twopi) twopi.
(** math/utils.py:178-213 [angle_between] *)
Definition angle_between (angle border1 border2 : R) : bool :=
  let b1 := reduce_angle border1 in
  let b2 := reduce_angle border2 in
  let ang := reduce_angle angle in
  if Rltb b1 b2 then Rleb b1 ang && Rleb ang b2 else Rleb b1 ang || Rleb ang b2.

(** Spec: the counter-clockwise way from [a] to [b], in [0, 2 pi) *)
Definition ccw (a b : R) : R := Rmod (b - a) twopi.
(** Spec: two angles are the same direction *)
Definition same_angle (a b : R) : Prop := exists n, b = a + twopi * IZR n.
