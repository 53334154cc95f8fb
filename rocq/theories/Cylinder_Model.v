(** Tubes: models /repo/marxs/math/geometry.py:378-621 (Cylinder). One ray at a time; nan is [None]. *)
From Verif Require Export Angles_Model Position_Model.
Open Scope R_scope.

(** [np.arctan2(y, x)] (signed zeros are not modelled) *)
Definition atan2 (y x : R) : R :=
  let r := sqrt (x * x + y * y) in
  if Reqb r 0 then 0 else if Rleb 0 y then acos (x / r) else - acos (x / r).

(** geometry.py:505-541 in local coordinates: the way [k] along the ray to the reported crossing. A ray parallel to the axis has
    a = 0, both roots are nan and nothing is hit. *)
Definition tube_hit (lim0 lim1 : R) (d p : v3) (k : R) : bool :=
  let x := x3 p + k * x3 d in let y := y3 p + k * y3 d in let z := z3 p + k * z3 d in
  Rleb 0 k && Rleb (Rabs z) 1 && angle_between (atan2 y x) lim0 lim1.
Definition tube_crossing (lim0 lim1 : R) (d p : v3) : option R :=
  let c := x3 p * x3 p + y3 p * y3 p - 1 in
  let b := 2 * (x3 p * x3 d + y3 p * y3 d) in
  let a := x3 d * x3 d + y3 d * y3 d in
  let underroot := b * b - 4 * a * c in
  if negb (Rleb 0 underroot) then None else
  if Reqb a 0 then None else
  let denom := 2 * a in
  let k1 := (- b + sqrt underroot) / denom in
  let k2 := (- b - sqrt underroot) / denom in
  let hit_1 := tube_hit lim0 lim1 d p k1 in
  let hit_2 := tube_hit lim0 lim1 d p k2 in
  let hit_1 := hit_1 && negb (hit_2 && Rltb k2 k1) in
  let hit_2 := hit_2 && negb (hit_1 && Rleb k1 k2) in
  (* values of crossing 2 are written after those of crossing 1 *)
  if hit_2 then Some k2 else if hit_1 then Some k1 else None.
(** geometry.py:465-559 [Cylinder.intersect]; [minv] is the result of np.linalg.inv, [transform=False] leaves the input as it is
    but still maps the result with pos4d. *)
Definition cylinder_intersect (m minv : m4) (lim0 lim1 : R) (transform : bool) (dir pos : v4) : result (bool * option v4 * option (R * R)) :=
  if negb (Reqb (w4 dir) 0) then Err ValueError else
  let dir' := if transform then app4 minv dir else dir in
  let pos' := if transform then app4 minv pos else pos in
  let d := xyz dir' in
  let p := xyz pos' in
  match tube_crossing lim0 lim1 d p with
  | None => Ok (false, None, None)
  | Some k =>
      let q := add3 p (scale3 k d) in
      let local := match decompose44 m with
                   | Some (_, _, zoom, _) => Some (atan2 (y3 q) (x3 q), z3 q * z3 zoom)
                   | None => None
                   end in
      Ok (true, Some (app4 m (hom q 1)), local)
  end.
(** geometry.py:597-621 [get_local_euklid_bases] at angle [phi] *)
Definition cylinder_bases (m : m4) (phi : R) : option (v4 * v4 * v4) :=
  match unit4 (app4 m (V4 (- sin phi) (cos phi) 0 0)), unit4 (b2 m), unit4 (app4 m (V4 (cos phi) (sin phi) 0 0)) with
  | Some e_phi, Some e_z, Some e_n => Some (e_phi, e_z, e_n)
  | _, _, _ => None
  end.
(** geometry.py:561-595 [parametric_surface] for one pair of parameters ([z] in units of the global system) *)
Definition cylinder_surface (m : m4) (phi z : R) : option v4 :=
  match decompose44 m with
  | Some (_, _, zoom, _) => Some (app4 m (V4 (cos phi) (sin phi) (z / z3 zoom) 1))
  | None => None
  end.

(** Spec: the local point [q] is on the allowed part of the unit tube *)
Definition on_tube (lim0 lim1 : R) (q : v3) : Prop :=
  x3 q * x3 q + y3 q * y3 q = 1 /\ -1 <= z3 q <= 1 /\
  exists phi, x3 q = cos phi /\ y3 q = sin phi /\ angle_between phi lim0 lim1 = true.
