(** Placement of elements on a torus: models /repo/marxs/design/rowland.py:545-886 (ElementsOnTorus.elempos, RectangularGrid, CircularMeshGrid,
    GratingArrayStructure). *)
From Verif Require Export Rowland_Model.
Open Scope R_scope.

(** [np.arange(start, stop, step)] for a positive step, in exact arithmetic *)
Definition arange (start stop step : R) : list R :=
  map (fun i => start + INR i * step) (seq 0 (Z.to_nat (Rceil ((stop - start) / step)))).
(** rowland.py:684-694, one axis *)
Definition grid_axis (lo hi d : R) : list R :=
  let n := Z.max 1 (Rceil ((hi - lo) / d)) in
  let width := IZR n * d in
  arange ((lo - width + hi + d) / 2) hi d.
(** rowland.py:683-698 [RectangularGrid.elemposyz]: meshgrid and flatten *)
Definition grid_yz (y0 y1 z0 z1 dy dz : R) : list (R * R) :=
  flat_map (fun z => map (fun y => (y, z)) (grid_axis y0 y1 dy)) (grid_axis z0 z1 dz).

(** rowland.py:725-753 [CircularMeshGrid.elemposyz] *)
Definition mesh_y (rout dy : R) : list R :=
  let n := Rceil (2 * rout / dy) in
  arange (- (IZR n * dy) / 2) rout dy.
Definition mesh_z (rin rout dz y : R) : list R :=
  if Rltb rout (Rabs y) then [0]
  else
    let z_outer := sqrt (rout * rout - y * y) in
    if Rltb rin (Rabs y) then
      let n := Rceil (2 * z_outer / dz) in
      arange (- (IZR n * dz) / 2) z_outer dz
    else
      let z_inner := sqrt (rin * rin - y * y) in
      let z_mid := / 2 * (z_inner + z_outer) in
      let n := Rceil ((z_outer - z_inner) / dz) in
      let z := arange (z_mid - IZR n * dz / 2) z_outer dz in
      map Ropp z ++ z.
Definition mesh_yz (rin rout dy dz : R) : list (R * R) :=
  flat_map (fun y => map (fun z => (y, z)) (mesh_z rin rout dz y)) (mesh_y rout dy).

(** rowland.py:792-807 [max_elements_on_radius] *)
Definition max_elements_on_radius (d0 r0 r1 : R) : Z := Rceil ((r1 - r0) / d0).
(** rowland.py:824-830: one bracket of radii *)
Definition radii_bracket (d0 r0 r1 : R) : list R :=
  let n := IZR (max_elements_on_radius d0 r0 r1) in
  map (fun k => (r0 + r1) / 2 + k * d0) (arange (- n / 2 + / 2) (n / 2 + / 2) 1).
(** rowland.py:809-830 [distribute_elements_on_radius]; a last number without partner is ignored *)
Fixpoint distribute_radius (d0 : R) (radius : list R) : list R :=
  match radius with
  | r0 :: r1 :: rest => radii_bracket d0 r0 r1 ++ distribute_radius d0 rest
  | _ => []
  end.
(** the argument [phi]: a number, or a list *)
Inductive phi_arg := PhiNum (p : R) | PhiList (l : list R).
(** rowland.py:833-841 [max_elements_on_arc] *)
Definition max_elements_on_arc (d1 dphi radius : R) : Z := Rfloor (radius * dphi / d1).
(** rowland.py:868-876: the angles from phi[0] before the reduction to 0..2 pi; [n] numbers *)
Definition arc_between (d1 dphi radius : R) (n : Z) : R :=
  let element_angle := d1 / (2 * PI * radius) in
  (dphi - IZR n * element_angle) / (IZR n + 1).
Definition arc_center (d1 dphi radius : R) (n : Z) (i : nat) : R :=
  let element_angle := d1 / (2 * PI * radius) in
  let d_between := arc_between d1 dphi radius n in
  d_between + / 2 * element_angle + INR i * (d_between + element_angle).
(** rowland.py:843-876 [distribute_elements_on_arc] *)
Definition distribute_arc (d0 d1 : R) (phi : phi_arg) (radius : R) : result (list R) :=
  match phi with
  | PhiNum _ => Err TypeError
  | PhiList [p] => Ok [p]
  | PhiList (p0 :: p1 :: _) =>
      let dphi := anglediff p0 p1 in
      let n := max_elements_on_arc d1 dphi (radius - d0 / 2) in
      Ok (map (fun i => Rmod (p0 + arc_center d1 dphi radius n i) twopi) (seq 0 (Z.to_nat n)))
  | PhiList [] => Err IndexError
  end.
(** rowland.py:878-886 [GratingArrayStructure.elemposyz]; [np.hstack] and [np.concatenate] refuse an empty list *)
Fixpoint gas_rings (d0 d1 : R) (phi : phi_arg) (radii : list R) : result (list (R * R)) :=
  match radii with
  | [] => Ok []
  | r :: radii' => bind (distribute_arc d0 d1 phi r) (fun angles =>
      bind (gas_rings d0 d1 phi radii') (fun rest => Ok (map (fun a => (r, a)) angles ++ rest)))
  end.
Definition gas_yz (d0 d1 : R) (phi : phi_arg) (radius : list R) : result (list (R * R)) :=
  match distribute_radius d0 radius with
  | [] => Err ValueError
  | radii => bind (gas_rings d0 d1 phi radii) (fun ra => Ok (map (fun p => (fst p * sin (snd p), fst p * cos (snd p))) ra))
  end.

(** rowland.py:623-642 [ElementsOnTorus.elempos]; [axis] is [optimize_axis], [guess] is [guess_distance] *)
Fixpoint elempos (t : torus) (minv : m4) root (guess : R) (axis : v4) (yz : list (R * R)) : result (list v4) :=
  match yz with
  | [] => Ok []
  | (y, z) :: yz' =>
      bind (solve_quartic t minv root true (add4 (app4 (tpos t) (V4 0 y z 1)) (scale4 guess axis)) axis) (fun p =>
      bind (elempos t minv root guess axis yz') (fun ps => Ok (p :: ps)))
  end.
(** rowland.py:601-602: the default of [optimize_axis] *)
Definition default_axis (t : torus) : v4 := app4 (tpos t) (V4 1 0 0 0).

(** Spec: the intervals of half width [w] about the numbers of [l] cover all of [lo, hi] *)
Definition covers (l : list R) (w lo hi : R) : Prop := forall y, lo <= y <= hi -> exists c, In c l /\ c - w <= y <= c + w.
(** Spec: [l] has [n] numbers, each [d] above the one before, symmetric about [m] *)
Definition symmetric_comb (l : list R) (n : nat) (d m : R) : Prop :=
  l = map (fun i => m + (INR i - (INR n - 1) / 2) * d) (seq 0 n).
