(** Detectors: models /repo/marxs/optics/detector.py:18-117 (FlatDetector, CircularDetector). *)
From Verif Require Export Plane_Model Position_Model.
Open Scope R_scope.

(** [np.round]: round to the nearest integer, ties to even *)
Definition Rround (x : R) : Z :=
  let f := Rfloor x in
  if Rltb (x - IZR f) (1 / 2) then f else if Rltb (1 / 2) (x - IZR f) then (f + 1)%Z else if Z.even f then f else (f + 1)%Z.
(** detector.py:59-70: number of pixels, warning, center pixel for half size [z] *)
Definition npix (z pixsize : R) : Z := Rround (2 * z / pixsize).
Definition pixel_warning (z pixsize : R) : bool := Rltb (1 / 100) (Rabs (2 * z / pixsize - IZR (npix z pixsize))).
Definition centerpix (z pixsize : R) : R := (IZR (npix z pixsize) - 1) / 2.
(** detector.py:72-75 for one coordinate *)
Definition detpix (z pixsize c : R) : R := c / pixsize + centerpix z pixsize.
(** A flat detector at position [m]: number of pixels in both directions and pixel coordinates of one ray; [None] = no hit *)
Definition flat_npix (m : m4) (pixsize : R) : option (Z * Z) :=
  match decompose44 m with Some (_, _, zoom, _) => Some (npix (y3 zoom) pixsize, npix (z3 zoom) pixsize) | None => None end.
Definition flat_detector (m : m4) (pixsize : R) (dir pos : v4) : option (R * R) :=
  match decompose44 m, plane_intersect m dir pos with
  | Some (_, _, zoom, _), (true, _, Some (c0, c1)) => Some (detpix (y3 zoom) pixsize c0, detpix (z3 zoom) pixsize c1)
  | _, _ => None
  end.
(** detector.py:114-117 for local coordinates (phi, z) on a tube of radius [r]; [centerpix] is [0, 0] *)
Definition circular_detpix (r pixsize phi z : R) : R * R := (phi * r / pixsize + 0, z / pixsize + 0).
