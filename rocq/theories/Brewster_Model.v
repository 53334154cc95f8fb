(** Multi layer mirrors: models /repo/marxs/optics/multiLayerMirror.py. One photon at a time; nan is [None]. *)
From Verif Require Export Plane_Model Aperture_Model.
Open Scope R_scope.

(** multiLayerMirror.py:52-57: the direction in local coordinates, x flipped, transformed back. [minv] is [np.linalg.inv(self.pos4d)]. *)
Definition flip_x (v : v4) : v4 := V4 (-1 * x4 v) (y4 v) (z4 v) (w4 v).
Definition reflect (m minv : m4) (dir : v4) : option v4 :=
  match unit4 dir with Some u => Some (app4 m (flip_x (app4 minv u))) | None => None end.
(** multiLayerMirror.py:44-91: new direction, probability, polarization; [rs], [rp] are the values of [self.fresnel]. The new direction does not depend on
    the nan that the basis vectors get for normal incidence. *)
Definition brewster (m minv : m4) (rs rp : R) (dir pol : v4) : result (option v4 * option R * option v3) :=
  match unit4 dir, e_x m, reflect m minv dir with
  | Some u, Some ex, Some new =>
      let beam := xyz u in
      match unit3 (cross3 beam (xyz ex)) with
      | None => Ok (Some new, None, None)
      | Some vs =>
          let vp := cross3 beam vs in
          let ps := dot3 (xyz pol) vs in
          let pp := dot3 (xyz pol) vp in
          let es2 := rs * (ps * ps) in
          let ep2 := rp * (pp * pp) in
          let intensity := es2 + ep2 in
          if Rltb (1001 / 1000) intensity then Err ValueError
          else Ok (Some new, Some (clip intensity 0 1),
                   unit3 (add3 (scale3 (- es2) vs) (scale3 ep2 (cross3 (xyz new) vs))))
      end
  | _, _, _ => Ok (None, None, None)
  end.
(** multiLayerMirror.py:155-170 for interpolated values of the reflectivity file (peak wavelength, maximal reflectivity, full width at half maximum) *)
Definition ml_probability (wave peak maxrefl fwhm : R) : R :=
  let c2 := fwhm * fwhm / (8 * ln 2) in
  (if Reqb c2 0 then 0 else maxrefl * exp (- ((wave - peak) * (wave - peak)) / (2 * c2))) / 100.
