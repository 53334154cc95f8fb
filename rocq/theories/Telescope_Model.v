(** A whole telescope: what a user builds from /repo/marxs/source (PointSource, FixedPointing), /repo/marxs/optics/aperture.py (RectangleAperture),
    mirror.py (PerfectLens) and detector.py (FlatDetector) and runs one after the other, /repo/marxs/simulator/simulator.py:42-49; and the function for it in
    /repo/marxs/analysis/run_helpers.py:17-49. One photon at a time; polarization is left out behind the pointing. [None]: nan. *)
From Verif Require Export Source_Model Lens_Model Detector_Model.
Open Scope R_scope.

Record ray := Ray { y_dir : v3; y_pos : v3; y_prob : R }.
(** Pointing and aperture: pointing.py:147-160, aperture.py:68-78 *)
Definition enter (p : pointing) (aper : m4) (ra dec u1 u2 : R) : option ray :=
  match photons_dir p ra dec with
  | Some d => match projected aper d with Some f => Some (Ray (xyz d) (xyz (place aper (rect_xy u1 u2))) f) | None => None end
  | None => None
  end.
(** optics/base.py:144-211 with mirror.py:53-82: photons that miss the lens are left alone. The optical axis goes through the center of the lens. *)
Definition through_lens (m : m4) (f : R) (refl : R -> R) (r : ray) : option ray :=
  match plane_intersect m (hom (y_dir r) 0) (hom (y_pos r) 1) with
  | (true, Some q, _) => match perfect_lens m 0 f refl (y_dir r) (xyz q) with Some (out, p) => Some (Ray out (xyz q) (y_prob r * p)) | None => None end
  | _ => Some r
  end.
Record telescope := Telescope { t_point : pointing; t_aper : m4; t_lens : m4; t_f : R; t_refl : R -> R; t_det : m4; t_pix : R }.
(** The ray behind the lens and the pixel where it is detected *)
Definition observe (t : telescope) (ra dec u1 u2 : R) : option (ray * option (R * R)) :=
  match enter (t_point t) (t_aper t) ra dec u1 u2 with
  | Some r => match through_lens (t_lens t) (t_f t) (t_refl t) r with
              | Some r => Some (r, flat_detector (t_det t) (t_pix t) (hom (y_dir r) 0) (hom (y_pos r) 1))
              | None => None
              end
  | None => None
  end.
(** [pos4d] for position [x, 0, 0] and zoom [zx, zy, zz] without orientation *)
Definition upright (x zx zy zz : R) : m4 := M4 (V4 zx 0 0 0) (V4 0 zy 0 0) (V4 0 0 zz 0) (V4 x 0 0 1).

(** run_helpers.py:17-49 up to the instrument. The flux is 1 per s and cm^2, the area 1 cm^2 (basesources.py:156-157), the angles of polarization are drawn.
    Result: time, energy, direction, polarization, probability. *)
Definition default_coord : R * R := (PI / 6, PI / 6).
Definition mono_photons (energy T : R) (ref : m4) (angles : list R) : result (list (R * R * option (v4 * v4) * R)) :=
  let p := Pointing (fst default_coord) (snd default_coord) 0 ref in
  bind (generate_photons (FluxScalar 1) (VScalar energy) VNone [] [] [] [] angles T) (fun rows =>
  Ok (map (fun r => match r with (t, e, a, pr) => (t, e, fixed_pointing p (fst default_coord) (snd default_coord) a, pr) end) rows)).

(** Spec: the image of a source. Photons fly in direction [d]; the lens focusses on a sphere around its center. *)
Definition image (m : m4) (f : R) (d : v3) : v3 := add3 (xyz (center m)) (scale3 f d).
