(** Bent and chirped gratings: models /repo/marxs/design/bendgratings.py and the parts of /repo/marxs/optics/grating.py:209-220 and
    /repo/marxs/utils.py:16-56 that are used. The optimizer (scipy minimize_scalar), the spline (RectBivariateSpline) and the way of
    a photon through grating and detector are arguments. *)
From Verif Require Export Coords_Model Plane_Model Cylinder_Model Analysis_Model.
Open Scope R_scope.

(** ** bendgratings.py:26-62 [bend_gratings] *)
(** A grating: its position and, if it is a stack, the positions of its elements ([None]: no attribute [elements]) *)
Record grat := Grat { gr_pos : m4; gr_elems : option (list m4) }.
(** Position of a tube and its limits in phi *)
Record tube := Tube { tu_pos : m4; tu_lim : R * R }.
Record bent := Bent { be_tube : tube; be_elems : list tube }.
(** transforms3d [decompose] gives the same result as [decompose44]. The tube at the end of a radius below [t], lines 45-47;
    [Cylinder] refuses a zoom that is not positive (base.py:325). *)
Definition new_tube (t : v3) (rot : m3) (z : v3) (ex : v3) (radius : R) : result tube :=
  let d_phi := atan (y3 z / radius) in
  if Rleb radius 0 then Err ValueError
  else Ok (Tube (compose (sub3 t (scale3 radius ex)) rot (V3 radius radius (z3 z))) (- d_phi, d_phi)).
(** [h2e(e.geometry['e_x'])] *)
Definition ex3 (m : m4) : result v3 := match e_x m with Some e => Ok (xyz e) | None => Err ValueError end.
Definition bend (g : grat) (radius : R) : result bent :=
  match decompose44 (gr_pos g) with
  | None => Err ValueError
  | Some (t, rot, z, _) =>
      bind (ex3 (gr_pos g)) (fun ex =>
      bind (new_tube t rot z ex radius) (fun c =>
      match gr_elems g with
      | None => Err AttributeError
      | Some l =>
          (* e.geometry is the tube by now; the position of the element itself is not looked at *)
          bind (sequence (map (fun _ => bind (ex3 (tu_pos c)) (fun ex' => new_tube t rot z ex' radius)) l)) (fun l' => Ok (Bent c l'))
      end))
  end.
Definition bend_gratings (l : list grat) (radius : R) : result (list bent) := sequence (map (fun g => bend g radius) l).

(** ** bendgratings.py:65-152 [NumericalChirpFinder] *)
(** [energy]: what the object is told; [photon_energy]: energy of its test photon, utils.py:42-55 *)
Record finder := Finder { fi_order : R; fi_energy : R; fi_d : R; fi_photon_energy : R }.
Definition new_finder (order energy d : R) : finder := Finder order energy d 1.
(** bendgratings.py:113-117 [posongrat] *)
Definition posongrat (m : m4) (u v : R) : result v3 :=
  bind (h2e [add4 (add4 (center m) (scale4 u (v_y m))) (scale4 v (v_z m))]) (fun l => Ok (nth 0 l zero3)).
(** bendgratings.py:119-123 [init_photon]: position and direction; [None]: nan *)
Definition init_photon (pos : v3) : v4 * option v4 := (hom (scale3 (11 / 10) pos) 1, unit4 (scale4 (-1) (hom pos 0))).
(** The value the detector writes for a photon of given energy after a grating with one order and one grating constant; [None]: nan *)
Definition tracer := R -> R -> R -> v4 -> option v4 -> num.
(** bendgratings.py:130-133 [run_photon] *)
Definition run_photon (trace : tracer) (f : finder) (d : R) (pos : v3) : num :=
  let (p, dir) := init_photon pos in trace (fi_photon_energy f) (fi_order f) d p dir.
(** bendgratings.py:104-111 [calc_goal] *)
Definition calc_goal (trace : tracer) (f : finder) (m : m4) : result num := bind (posongrat m 0 0) (fun pos => Ok (run_photon trace f (fi_d f) pos)).
(** bendgratings.py:135-138 [optimize_func] *)
Definition optimize_func (trace : tracer) (f : finder) (goal : num) (pos : v3) (d : R) : num := num_sub_abs (run_photon trace f (d * fi_d f) pos) goal.
(** bendgratings.py:140-148 [correction_on_d], 150-152 *)
Definition correction (minimize : (R -> num) -> R) (trace : tracer) (f : finder) (m : m4) (uarray varray : list R) : result (list (list R)) :=
  bind (calc_goal trace f m) (fun goal =>
  sequence (map (fun u => sequence (map (fun v => bind (posongrat m u v) (fun pos => Ok (minimize (optimize_func trace f goal pos)))) varray)) uarray)).

(** ** 155-164 [BendNumericalChirpFinder]: attributes of a [Cylinder], geometry.py:91-103, 401-422 (methods are left out) *)
Definition cylinder_attributes : list string := ["_geometry"; "shape"; "geometry"; "n_points"; "pos4d"; "loc_coos_name"; "coos_limits"]%string.
Definition getattr (attributes : list string) (name : string) : result unit := if inb name attributes then Ok tt else Err AttributeError.
Definition bent_posongrat (t : tube) (u v : R) : result v3 :=
  match decompose44 (tu_pos t) with
  | None => Err ValueError
  | Some (_, _, zoom, _) =>
      bind (getattr cylinder_attributes "phi_limits") (fun _ =>
      let p_center := (fst (tu_lim t) + snd (tu_lim t)) / 2 in
      let p_half := (snd (tu_lim t) - fst (tu_lim t)) / 2 in
      match cylinder_surface (tu_pos t) (p_center + u * p_half) (v * z3 zoom) with Some q => bind (h2e [q]) (fun l => Ok (nth 0 l zero3)) | None => Err ValueError end)
  end.

(** ** 167-195 [chirp_gratings] *)
(** Grating constant: a number or a function of the coordinates on the grating, grating.py:209-220 *)
Inductive period := Const (d : R) | Func (f : R -> R -> R).
Definition period_at (p : period) (c : R * R) : R := match p with Const d => d | Func f => f (fst c) (snd c) end.
(** order selectors: the ones made in line 107, and any other *)
Inductive selector := OneOrder (order : R) | Other (n : nat).
Record gstate := GS { gs_pos : m4; gs_d : period; gs_sel : selector; gs_orig : option selector }.
(** [RectBivariateSpline(x, y, z, kx=2, ky=2)]: the sizes must fit and x and y must be increasing *)
Definition rectspline := list R -> list R -> list (list R) -> R -> R -> R.
Fixpoint increasing (l : list R) : bool := match l with x :: (y :: _) as r => (Rltb x y && increasing r)%bool | _ => true end.
Definition make_spline (s : rectspline) (x y : list R) (z : list (list R)) : result (R -> R -> R) :=
  if (Nat.eqb (length z) (length x) && forallb (fun row => Nat.eqb (length row) (length y)) z && Nat.leb 3 (length x) && Nat.leb 3 (length y) && increasing x && increasing y)%bool
  then Ok (s x y z) else Err ValueError.
(** [np.tile(corr[:, 0], (3, 1)).T] *)
Definition tile3 (corr : list (list R)) : result (list (list R)) :=
  sequence (map (fun row => match row with [] => Err IndexError | c :: _ => Ok [c; c; c] end) corr).
Definition chirp (minimize : (R -> num) -> R) (trace : m4 -> tracer) (s : rectspline) (f : finder) (d : R) (uarray varray : list R) (g : gstate) : result gstate :=
  let orig := match gs_orig g with Some o => o | None => gs_sel g end in
  bind (correction minimize (trace (gs_pos g)) f (gs_pos g) uarray varray) (fun corr =>
  bind (tile3 corr) (fun corr3 =>
  let ly := norm4 (v_y (gs_pos g)) in
  let lz := norm4 (v_z (gs_pos g)) in
  bind (make_spline s (map (Rmult ly) uarray) (map (Rmult lz) uarray) (map (map (Rmult d)) corr3)) (fun sp =>
  Ok (GS (gs_pos g) (Func sp) orig (Some orig))))).
Definition chirp_gratings (minimize : (R -> num) -> R) (trace : m4 -> tracer) (s : rectspline) (f : finder) (d : R) (uarray varray : list R) (l : list gstate) : result (list gstate) :=
  sequence (map (chirp minimize trace s f d uarray varray) l).

(** ** Spec *)
(** Spec: the point of a tube with angle [phi] and relative height [zeta] *)
Definition tube_point (t : tube) (phi zeta : R) : v3 := xyz (app4 (tu_pos t) (V4 (cos phi) (sin phi) zeta 1)).
(** Spec: splines pass through the points given *)
Definition rectspline_ok (s : rectspline) : Prop := forall x y z i j a b row v, increasing x = true -> increasing y = true ->
  nth_error x i = Some a -> nth_error y j = Some b -> nth_error z i = Some row -> nth_error row j = Some v -> s x y z a b = v.
(** Spec: the point with relative coordinates [u], [v] on a flat grating *)
Definition point_on (m : m4) (u v : R) : v3 := add3 (xyz (center m)) (add3 (scale3 u (xyz (v_y m))) (scale3 v (xyz (v_z m)))).
