(** Drawing of apertures and attributes of geometries: models /repo/marxs/math/geometry.py:21-160, 284-376 and /repo/marxs/optics/grating.py:175-184. *)
From Verif Require Export Angles_Model Viz_Model Aperture_Model Placement_Model.
Open Scope R_scope.

(** ** Outlines *)
(** [np.linspace(a, b, n, endpoint=False)] *)
Definition linspace_open (a b : R) (n : nat) : list R := map (fun i => a + INR i * ((b - a) / INR n)) (seq 0 n).
(** geometry.py:21-43 [xyz_square]. [-g['v_y']] negates all four numbers. *)
Definition xyz_square (m : m4) (r_factor : R) : result (list v3) :=
  bind (h2e1 (center m)) (fun c => bind (h2e1 (v_y m)) (fun y => bind (h2e1 (v_z m)) (fun z => bind (h2e1 (scale4 (-1) (v_y m))) (fun ny =>
  Ok (map (fun s => add3 c (scale3 r_factor s)) [add3 y z; add3 ny z; sub3 ny z; sub3 y z]))))).
(** geometry.py:46-87 [xyz_circle]: one vertex *)
Definition circle_vertex (m : m4) (r_factor phi0 phi1 phi : R) : v4 :=
  let inside := Rltb (Rmod (phi - phi0) twopi) (anglediff phi0 phi1) in
  let x := if inside then cos phi else 0 in
  let y := if inside then sin phi else 0 in
  add4 (add4 (center m) (scale4 x (scale4 r_factor (v_y m)))) (scale4 y (scale4 r_factor (v_z m))).
Definition xyz_circle (m : m4) (r_factor phi0 phi1 : R) (n_vertices : nat) : result (list v3) :=
  h2e (map (circle_vertex m r_factor phi0 phi1) (linspace_open (1 / 2 * PI) (5 / 2 * PI) n_vertices)).

(** ** 284-376: the four outlines of a plane with a hole. [RectangleHole] has no inner outlines. [n]: number of vertices (the calls use the default 90). *)
Inductive hole := Rect | Circ (phi0 phi1 : R).
Definition outer_shape (h : hole) (m : m4) (n : nat) : result (list v3) := match h with Rect => xyz_square m 1 | Circ p0 p1 => xyz_circle m 1 p0 p1 n end.
Definition outer_display (h : hole) (m : m4) (outer_factor : R) (n : nat) : result (list v3) :=
  match h with Rect => xyz_square m outer_factor | Circ _ _ => xyz_circle m outer_factor 0 (2 * PI) n end.
Definition inner_shape (h : hole) (m : m4) (r_inner : R) (n : nat) : result (list v3) :=
  match h with Rect => Err NotImplementedError | Circ p0 p1 => xyz_circle m (r_inner / norm4 (v_y m)) p0 p1 n end.
Definition inner_display (h : hole) (m : m4) (r_inner inner_factor : R) (n : nat) : result (list v3) :=
  match h with Rect => Err NotImplementedError | Circ p0 p1 => xyz_circle m (inner_factor * r_inner / norm4 (v_y m)) p0 p1 n end.
(** geometry.py:294-321 [triangulate]; [ge]: the comparison in [plane_with_hole], for the numbers of points *)
Definition triangulate (ge : nat -> nat -> nat -> nat -> bool) (h : hole) (m : m4) (r_inner outer_factor inner_factor : R) (n : nat) : result (list v3 * list tri) :=
  bind (outer_display h m outer_factor n) (fun od => bind (outer_shape h m n) (fun os =>
  let (xyz, triangles) := plane_with_hole (ge (length od) (length os)) od os in
  if Rltb 0 r_inner then
    bind (inner_shape h m r_inner n) (fun ish => bind (inner_display h m r_inner inner_factor n) (fun idp =>
    let (new_xyz, new_tri) := plane_with_hole (ge (length ish) (length idp)) ish idp in
    combine_disjoint [xyz; new_xyz] [triangles; new_tri]))
  else Ok (xyz, triangles))).

(** ** Attributes in [_geometry] *)
(** geometry.py:90-106, 290-292: the dictionary of the class [NoGeometry] is shared by all geometries; the instance gets a copy when it is made. A plane with a hole writes its
    inner radius to the dictionary of the class before the copy is made; a grating writes its groove angle to the copy. *)
Inductive gop := MkPlain | MkHole (r_inner : option R) | MkGrating (groove_angle : option R).
Definition or0 (x : option R) : R := match x with Some r => r | None => 0 end.
Definition make (cls : dict R) (op : gop) : dict R * dict R :=
  match op with
  | MkPlain => (cls, cls)
  | MkHole r => let cls' := dset "r_inner" (or0 r) cls in (cls', cls')
  | MkGrating g => (dset "groove_angle" (or0 g) cls, cls)
  end.
Fixpoint make_all (cls : dict R) (ops : list gop) : list (dict R) :=
  match ops with [] => [] | op :: r => let (inst, cls') := make cls op in inst :: make_all cls' r end.
(** geometry.py:152-157 [__getitem__] for a label that is not one of pos4d; a number is not transformed *)
Definition attribute (inst : dict R) (key : string) : result R := match dget key inst with Some v => Ok v | None => Err KeyError end.

(** ** Spec *)
(** Spec: the angle is in the wedge from [phi0] (included) to [phi1] (excluded) *)
Definition in_wedge (phi0 phi1 phi : R) : Prop := exists k : Z, phi0 <= phi + IZR k * twopi < phi1.
(** Spec: point at an angle in the plane of the hole *)
Definition rim (m : m4) (f phi : R) : v3 := add3 (tra m) (scale3 f (add3 (scale3 (cos phi) (xyz (v_y m))) (scale3 (sin phi) (xyz (v_z m))))).
(** Spec: number of points of an outline, and a comparison that is right for all numbers of points *)
Definition points_of (h : hole) (n : nat) : nat := match h with Rect => 4%nat | Circ _ _ => n end.
Definition good_ge (ge : nat -> nat -> nat -> nat -> bool) : Prop := forall a b, (0 < a)%nat -> (0 < b)%nat -> sound_ge a b (ge a b).
