(** Flat geometries: models /repo/marxs/math/geometry.py:108-160 (named vectors of a pos4d matrix) and 201-281
    (FinitePlane). One ray at a time; nan is [None]. *)
From Verif Require Export Vec_Model.
Open Scope R_scope.

(** geometry.py:143-160: [center], [v_x] ... are columns of pos4d, [e_x] ... are normalized columns *)
Definition center (m : m4) : v4 := b3 m.
Definition v_x (m : m4) : v4 := b0 m.
Definition v_y (m : m4) : v4 := b1 m.
Definition v_z (m : m4) : v4 := b2 m.
Definition e_x (m : m4) : option v4 := unit4 (v_x m).
Definition e_y (m : m4) : option v4 := unit4 (v_y m).
Definition e_z (m : m4) : option v4 := unit4 (v_z m).

(** geometry.py:211-261 [FinitePlane.intersect]: hit, position, local coordinates. For a miss the position and local
    coordinates are overwritten with nan (the fourth coordinate of the position is not). *)
Definition plane_intersect (m : m4) (dir pos : v4) : bool * option v4 * option (R * R) :=
  match e_x m, e_y m, e_z m with
  | Some ex, Some ey, Some ez =>
      let k_nominator := dot4 (sub4 (center m) pos) ex in
      let k_denom := dot4 dir ex in
      let is_parallel := Reqb k_denom 0 in
      let k := k_nominator / k_denom in
      let forward := Rleb 0 k in
      let interpos := add4 pos (scale4 k dir) in
      let vec := sub4 interpos (center m) in
      let loc1 := dot4 vec ey in
      let loc2 := dot4 vec ez in
      let intersect := negb is_parallel && forward && Rleb (Rabs loc1) (norm4 (v_y m)) && Rleb (Rabs loc2) (norm4 (v_z m)) in
      if intersect then (true, Some interpos, Some (loc1, loc2)) else (false, None, None)
  | _, _, _ => (false, None, None)
  end.
(** geometry.py:263-281 [get_local_euklid_bases] at one position *)
Definition plane_bases (m : m4) : option (v4 * v4 * v4) :=
  match e_x m, e_y m, e_z m with
  | Some ex, Some ey, Some ez => Some (ey, ez, ex)
  | _, _, _ => None
  end.

(** Spec: the axes of the element are perpendicular to each other (pos4d without shear) *)
Definition perpendicular_axes (m : m4) : Prop :=
  affine m /\ xyz (v_x m) <> zero3 /\ xyz (v_y m) <> zero3 /\ xyz (v_z m) <> zero3 /\
  dot3 (xyz (v_x m)) (xyz (v_y m)) = 0 /\ dot3 (xyz (v_x m)) (xyz (v_z m)) = 0 /\ dot3 (xyz (v_y m)) (xyz (v_z m)) = 0.
(** Spec: [q] is the point of the rectangle with relative coordinates [a], [b] in [-1, 1] *)
Definition in_rectangle (m : m4) (a b : R) (q : v3) : Prop :=
  -1 <= a <= 1 /\ -1 <= b <= 1 /\ q = add3 (xyz (center m)) (add3 (scale3 a (xyz (v_y m))) (scale3 b (xyz (v_z m)))).
