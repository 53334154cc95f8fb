(** Rowland tori: models /repo/marxs/design/rowland.py:78-542 (RowlandTorus, design_tilted_torus, double_rowland_from_channel_distance,
    add_offset_double_rowland_channels).  One point at a time.  [np.linalg.inv(pos4d)] is the argument [minv]; where its contract
    is needed it is a hypothesis.  nan is [None]. *)
From Coq Require Import Ascii.
From Verif Require Export Cylinder_Model Grating_Model Placement_Model.
Open Scope R_scope.

Record torus := Torus { tR : R; tr : R; tpos : m4 }.

(** rowland.py:134 *)
Definition quartic_local (t : torus) (p : v3) : R :=
  let q := dot3 p p + tR t * tR t - tr t * tr t in
  q * q - 4 * (tR t * tR t) * (x3 p * x3 p + z3 p * z3 p).
(** rowland.py:107-134 [quartic] *)
Definition quartic (t : torus) (minv : m4) (transform : bool) (p : v3) : result R :=
  if transform then bind (h2e1 (app4 minv (hom p 1))) (fun q => Ok (quartic_local t q)) else Ok (quartic_local t p).
(** rowland.py:209-233 [parametric] *)
Definition torus_point (t : torus) (theta phi : R) : v3 :=
  V3 ((tR t + tr t * cos theta) * cos phi) (tr t * sin theta) ((tR t + tr t * cos theta) * sin phi).
Definition parametric (t : torus) (theta phi : R) : v4 := app4 (tpos t) (hom (torus_point t theta phi) 1).
(** rowland.py:282-307 [normal_parametric] *)
Definition torus_normal (theta phi : R) : v3 := V3 (cos theta * cos phi) (sin theta) (cos theta * sin phi).
Definition normal_parametric (t : torus) (theta phi : R) : v4 := app4 (tpos t) (hom (torus_normal theta phi) 0).
(** rowland.py:235-280 [xyzw2parametric]; [~factor] on an array of floats is a TypeError *)
Definition local_parametric (t : torus) (p : v3) : option (R * R) :=
  let s := Rsign (sqrt (x3 p * x3 p + z3 p * z3 p) - tR t) in
  let a := s * y3 p / tr t in
  if Rltb 1 (Rabs a) then None else
  let theta := asin a + (if Rltb s 0 then PI else 0) in
  let factor := tR t + tr t * cos theta in
  Some (theta, if Reqb factor 0 then 0 else atan2 (z3 p / factor) (x3 p / factor)).
Definition xyzw2parametric (t : torus) (minv : m4) (transform intersectvalid : bool) (p : v4) : result (option (R * R)) :=
  let p := if transform then app4 minv p else p in
  bind (h2e1 p) (fun q =>
  if negb (isclose (quartic_local t q / (tR t * tR t * tR t * tR t)) 0) then Err ValueError
  else if negb intersectvalid then Err TypeError
  else Ok (local_parametric t q)).
(** rowland.py:309-331 [normal] *)
Definition torus_normal_at (t : torus) (minv : m4) (p : v4) : result (option v4) :=
  bind (xyzw2parametric t minv true true p) (fun tp => Ok (match tp with None => None | Some (theta, phi) => Some (normal_parametric t theta phi) end)).
(** rowland.py:136-183 [solve_quartic]. [root] is [scipy.optimize.root]: a function and a start value to a root or a failure. *)
Definition solve_quartic (t : torus) (minv : m4) (root : (R -> result R) -> R -> option R) (transform : bool) (origin v : v4) : result v4 :=
  bind (h2e1 origin) (fun o => bind (h2e1 v) (fun d =>
  match root (fun k => quartic t minv transform (add3 o (scale3 k d))) (Rmax (Rabs (tr t - tR t)) (tr t * / 100) * / 10) with
  | None => Err Exception
  | Some k => Ok (hom (add3 o (scale3 k d)) 1)
  end)).
(** rowland.py:333-366 [xyz_from_radiusangle]; [start] is the mean of the start value(s) *)
Definition xyz_from_radiusangle (t : torus) (minv : m4) root (radius angle start : R) : result v3 :=
  bind (solve_quartic t minv root false (V4 start (radius * cos angle) (radius * sin angle) 1) (V4 1 0 0 0)) (fun out =>
  h2e1 (app4 (tpos t) out)).

(** rowland.py:369-420 [design_tilted_torus] *)
Definition ones3 : v3 := V3 1 1 1.
Definition design_tilted_torus (f alpha beta : R) : option torus :=
  let r := f / (2 * cos alpha) in
  let R' := r * sin (PI / 2 - beta) in
  match axangle2mat (V3 0 0 (-1)) (beta - alpha) with
  | None => None
  | Some o => Some (Torus R' r (compose (V3 (f / 2 - R' * cos (beta - alpha)) (f / 2 * tan alpha + R' * sin (beta - alpha)) 0) o ones3))
  end.

(** rowland.py:423-491 [double_rowland_from_channel_distance].  The keywords position and orientation of a RowlandTorus are composed
    by [parse_position] (see Position_Model). *)
Record double_rowland := DoubleR { dr_d : R; dr_central : torus; dr_central_m : torus; dr_detector : torus;
  dr_opt_ax : dict v4; dr_channels : dict torus }.
(** orient of rowland.py:459-461, by columns *)
Definition orient (a : R) : m3 := M3 (V3 (cos a) (- sin a) 0) (V3 (sin a) (cos a) 0) (V3 0 0 1).
Definition channel_torus (R' f r a : R) : torus :=
  Torus R' r (compose (V3 (f - (r + R') * cos a) ((r + R') * sin a) 0) (orient a) ones3).
(** an identity matrix with the last column replaced (rowland.py:483-484, 531-532) *)
Definition shift_matrix (p : v4) : m4 := M4 (b0 id4) (b1 id4) (b2 id4) p.
Definition shift_torus (p : v4) (t : torus) : torus := Torus (tR t) (tr t) (mul4 (shift_matrix p) (tpos t)).
Definition double_rowland_from_channel_distance (d_BF R' f : R) : double_rowland :=
  let d := d_BF / 2 in
  let r := sqrt (f * f + d_BF * d_BF) / 2 in
  let alpha := atan2 d_BF f in
  let c := channel_torus R' f r alpha in
  DoubleR d c (channel_torus R' f r (- alpha)) (shift_torus (V4 0 (- d) 0 1) c)
    [("1"%string, V4 0 (- d) 0 1); ("1m"%string, V4 0 d 0 1)] [].
(** rowland.py:494-542 [add_offset_double_rowland_channels].  ['m' in k]; the variable [base_rowland] of the loop keeps its value
    of the previous turn if no branch is taken, and is not bound in the first turn. *)
Fixpoint has_m (s : string) : bool :=
  match s with
  | EmptyString => false
  | String c s' => if Ascii.eqb c "m"%char then true else has_m s'
  end.
Definition offset_axis (d : R) (k : string) (off : v3) : v4 :=
  add4 (V4 0 (if has_m k then d else - d) 0 1) (hom off 0).
Definition pick_base (g : double_rowland) (k : string) (last : option torus) : option torus :=
  if inb k ["1"; "2"]%string then Some (dr_central g)
  else if inb k ["1m"; "2m"]%string then Some (dr_central_m g) else last.
Fixpoint add_channels (g : double_rowland) (axes : list (string * v4)) (last : option torus) (out : dict torus) : result (dict torus) :=
  match axes with
  | [] => Ok out
  | (k, p) :: axes' =>
      match pick_base g k last with
      | None => Err UnboundLocalError
      | Some b => add_channels g axes' (Some b) (dset ("rowland_" ++ k)%string (shift_torus p b) out)
      end
  end.
Definition add_offset_double_rowland_channels (g : double_rowland) (offsets : list (string * v3)) : result double_rowland :=
  let axes := map (fun ko => (fst ko, offset_axis (dr_d g) (fst ko) (snd ko))) offsets in
  bind (add_channels g axes None (dr_channels g)) (fun ch =>
  Ok (DoubleR (dr_d g) (dr_central g) (dr_central_m g) (dr_detector g) axes ch)).

(** Spec: position and orientation without a zoom *)
Definition rigid (m : m4) : Prop := affine m /\ orthonormal (lin m).
(** Spec: the point [p] (in space) is on the Rowland circle of the torus, i.e. on the circle of radius r about (R, 0, 0) in the
    plane z = 0 of the torus; on the symmetry axis of the torus *)
Definition on_rowland_circle (t : torus) (p : v3) : Prop :=
  exists q, app4 (tpos t) (hom q 1) = hom p 1 /\ z3 q = 0 /\ (x3 q - tR t) * (x3 q - tR t) + y3 q * y3 q = tr t * tr t.
Definition on_torus_axis (t : torus) (p : v3) : Prop :=
  exists q, app4 (tpos t) (hom q 1) = hom p 1 /\ x3 q = 0 /\ z3 q = 0.
(** Spec: contract of [scipy.optimize.root] with success *)
Definition root_contract (root : (R -> result R) -> R -> option R) : Prop := forall f x0 k, root f x0 = Some k -> f k = Ok 0.
(** Spec: channel names of the form 1, 2, 3, ... / 1m, 2m, 3m, ... go with the central / mirrored torus *)
Definition channel_base (g : double_rowland) (k : string) : torus := if has_m k then dr_central_m g else dr_central g.
