(** Flat gratings: models /repo/marxs/optics/grating.py:99-301 (FlatGrating, CATGrating). One photon at a time, in Euclidean components
    (the fourth component of all directions is 0); nan is [None]. The selected order [m] and the wavelength are arguments. *)
From Verif Require Export Plane_Model Rot_Model Aperture_Model.
Open Scope R_scope.

Definition Rsign (x : R) : R := if Rltb 0 x then 1 else if Rltb x 0 then -1 else 0.
(** grating.py:186-207 [e_groove_coos]: along the grooves and perpendicular to the grooves, for local bases [ex], [ey] *)
Definition e_groove (ex ey : v3) (groove : R) : v3 := add3 (scale3 (sin (- groove)) ex) (scale3 (cos (- groove)) ey).
Definition e_perp_groove (ex ey : v3) (groove : R) : v3 := sub3 (scale3 (cos (- groove)) ex) (scale3 (sin (- groove)) ey).
(** grating.py:145-172 and 291-301 *)
Inductive convention := FlatSign | CATSign.
Definition order_sign (c : convention) (p d : v3) : R :=
  match c with
  | FlatSign => -1
  | CATSign => let s := Rsign (dot3 p d) in if Reqb s 0 then 1 else s
  end.
(** grating.py:243-252, the blaze angle without [blaze_angle_modifier] *)
Definition blaze_angle (p l n : v3) : option R :=
  match unit3 (sub3 p (scale3 (dot3 p l) l)) with
  | Some q => Some (acos (clip (Rabs (dot3 q n)) 0 1))
  | None => None
  end.
(** grating.py:257-266 for groove direction [l], normal [n] and [d] already with the minus sign of line 238 *)
Definition diffract_dln (c : convention) (transmission : bool) (d l n p : v3) (m : Z) (wave period : R) : option v3 :=
  let sign := order_sign c p d in
  let p_d := dot3 p d + sign * IZR m * wave / period in
  let p_l := dot3 p l in
  let q := 1 - p_d * p_d - p_l * p_l in
  if Rltb q 0 then None else
  let p_n := sqrt q in
  let direction := Rsign (dot3 p n) * (if transmission then 1 else -1) in
  Some (add3 (add3 (scale3 p_d d) (scale3 p_l l)) (scale3 (direction * p_n) n)).
(** grating.py:233-266 [diffract_photons]: new direction and blaze angle *)
Definition diffract (c : convention) (transmission : bool) (ex ey en : v3) (groove : R) (dir : v3) (m : Z) (wave period : R) : option (v3 * option R) :=
  match unit3 dir with
  | None => None
  | Some p =>
      let l := e_groove ex ey groove in
      let d := neg3 (e_perp_groove ex ey groove) in
      match diffract_dln c transmission d l en p m wave period with
      | Some out => Some (out, blaze_angle p l en)
      | None => None
      end
  end.
(** The grating at position [mat]: the local bases are those of the plane *)
Definition grating (c : convention) (transmission : bool) (mat : m4) (groove : R) (dir : v3) (m : Z) (wave period : R) : option (v3 * option R) :=
  match plane_bases mat with
  | Some (ex, ey, en) => diffract c transmission (xyz ex) (xyz ey) (xyz en) groove dir m wave period
  | None => None
  end.
(** missions/mitsnl/catgrating.py:305-312: [blaze_angle_modifier] of NonParallelCATGrating, to be added to the blaze angle *)
Definition blaze_modifier (blaze_center d_blaze_mm intercoo0 : R) : R := blaze_center + intercoo0 * d_blaze_mm.
(** grating.py:249: the angle that is passed to the order selector *)
Definition nonparallel_blaze (blaze_center d_blaze_mm intercoo0 : R) (p l n : v3) : option R :=
  match blaze_angle p l n with Some b => Some (b + blaze_modifier blaze_center d_blaze_mm intercoo0) | None => None end.
(** Spec: direction of the side walls of bars that are tilted by the angle [t] from the normal [n] towards [d] *)
Definition bar_wall (n d : v3) (t : R) : v3 := add3 (scale3 (cos t) n) (scale3 (sin t) d).
