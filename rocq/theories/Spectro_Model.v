(** A spectrograph in the Rowland geometry: a flat grating of /repo/marxs/optics/grating.py:99-301 on the torus of /repo/marxs/design/rowland.py:78-307, followed
    by the circular detector of /repo/marxs/optics/detector.py:78-117 whose tube is made by /repo/marxs/math/geometry.py:430-463.  One photon at a time;
    nan is [None].  The photon is already on the grating and flies to the focus; the selected order and the wavelength are arguments. *)
From Verif Require Export Rowland_Model Lynx_Model.
Open Scope R_scope.

(** A Sequence (simulator.py:145-203) of one grating and one tube: the tube sees the direction that the grating leaves behind.  A direction of nan
    (evanescent order) does not hit anything: all comparisons of geometry.py:505-541 are false. *)
Definition grating_then_tube (c : convention) (mat : m4) (groove : R) (m : Z) (wave period : R) (det detinv : m4) (lim0 lim1 : R) (dir pos : v3)
  : result (bool * option v4 * option (R * R)) :=
  match grating c true mat groove dir m wave period with
  | Some (out, _) => cylinder_intersect det detinv lim0 lim1 true (hom out 0) (hom pos 1)
  | None => Ok (false, None, None)
  end.

(** Spec: the unit vector at angle [psi] in the plane of the circle of the torus that is at azimuth [phi]; angles are counted as for points on the circle *)
Definition in_plane (t : torus) (phi psi : R) : v3 := app3 (lin (tpos t)) (V3 (cos psi * cos phi) (sin psi) (cos psi * sin phi)).
(** Spec: sign of the orders for a photon that arrives with the component [s] along the direction of dispersion *)
Definition order_direction (c : convention) (s : R) : R := match c with FlatSign => 1 | CATSign => if Rleb s 0 then -1 else 1 end.
(** Spec: a grating whose normal (on one of its sides) is at angle [psi] and whose grooves are perpendicular to the plane at azimuth [phi].  [eps] tells in which
    sense the direction of dispersion of the grating points. *)
Definition ruled_in_plane (t : torus) (phi psi eps : R) (mat : m4) (groove : R) : Prop :=
  perpendicular_axes mat /\ exists ey ez en nu, plane_bases mat = Some (ey, ez, en) /\ nu * nu = 1 /\ xyz en = scale3 nu (in_plane t phi psi) /\
    e_perp_groove (xyz ey) (xyz ez) groove = scale3 eps (in_plane t phi (psi + PI / 2)).
