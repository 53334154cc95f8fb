(** Moving photons, Chandra pointing and detectors: models /repo/marxs/simulator/simulator.py:620-667,
    /repo/marxs/missions/chandra/dither.py, data.py, det_acis.py and the tube of /repo/marxs/optics/detector.py:78-117.
    Angles are in radian, lengths in mm, times in seconds; units are left out. *)
From Verif Require Export Source_Model Cylinder_Model Detector_Model.
From Coq Require Import List String.
Export ListNotations.
Open Scope R_scope.

(** ** simulator.py:620-667 [Propagator.__call__] and [propagate] for one photon *)
Definition propagate (d : R) (pos dir : v4) : v4 := add4 pos (scale4 d dir).

(** ** dither.py *)
(** (pitch, yaw, roll) amplitude, period and phase *)
Record lissajous := Lissajous { l_amp : v3; l_period : v3; l_phase : v3 }.
(** dither.py:46 for one time; [dec] is the declination of the nominal pointing *)
Definition wave (amp period phase t : R) : R := amp * sin (2 * PI * t / period + phase).
Definition dither (l : lissajous) (dec t : R) : v3 :=
  V3 (wave (x3 (l_amp l)) (x3 (l_period l)) (x3 (l_phase l)) t / cos dec)
     (wave (y3 (l_amp l)) (y3 (l_period l)) (y3 (l_phase l)) t)
     (wave (z3 (l_amp l)) (z3 (l_period l)) (z3 (l_phase l)) t).
(** dither.py:74-83: direction as a vector, in the order used here *)
Definition e_vector (lon lat : R) : v3 :=
  let theta := PI / 2 - lat in V3 (sin lon * sin theta) (cos lon * sin theta) (cos theta).
(** dither.py:97-99 *)
Definition vector2sky (v : v3) : R * R := (Rmod (atan2 (x3 v) (y3 v)) (2 * PI), PI / 2 - acos (z3 v)).
Definition point_at (p : pointing) (mat : m3) (delta : v3) : R * R * R :=
  (vector2sky (app3 mat (e_vector (p_ra p + x3 delta) (p_dec p + y3 delta))), p_roll p + z3 delta).
(** dither.py:48-100 [pointing]: [roll[0]] of an empty list is an error; [constant_roll] has no value if the rolls differ *)
Definition dither_pointing (p : pointing) (l : lissajous) (times : list R) : result (list (R * R * R)) :=
  let deltas := map (dither l (p_dec p)) times in
  let rolls := map (fun delta => p_roll p + z3 delta) deltas in
  match rolls with
  | [] => Err IndexError
  | r0 :: _ =>
      if forallb (fun r => isclose r r0) rolls
      then Ok (map (point_at p (axangle2mat_n (e_vector (p_ra p) (p_dec p)) (- r0))) deltas)
      else Err UnboundLocalError
  end.
(** transforms3d euler2mat(a, b, c, 'rzyx') *)
Definition euler_rzyx (a b c : R) : m3 :=
  mul3 (axangle2mat_n (V3 0 0 1) a) (mul3 (axangle2mat_n (V3 0 1 0) b) (axangle2mat_n (V3 1 0 0) c)).
(** dither.py:102-132 [photons_dir]; a photon is (ra, dec), time *)
Definition dither_dir (at_ : R * R * R) (sky : R * R) : v4 :=
  let '(ra, dec, roll) := at_ in
  hom (app3 (trans3 (euler_rzyx ra (- dec) (- roll))) (neg3 (skyvec (fst sky) (snd sky)))) 0.
Definition lissajous_dir (p : pointing) (l : lissajous) (photons : list ((R * R) * R)) : result (list v4) :=
  bind (dither_pointing p l (map snd photons)) (fun pts =>
  Ok (map (fun x => dither_dir (fst x) (snd x)) (combine pts (map fst photons)))).
(** dither.py:134-187 [write_asol]: the pointing is a plain array without a method [to]. np.arange(0, exposure, timestep) *)
Definition write_asol (p : pointing) (l : lissajous) (exposure timestep : R) : result unit :=
  bind (dither_pointing p l (map (fun k => INR k * timestep) (seq 0 (Z.to_nat (Rceil (exposure / timestep))))))
       (fun _ => Err AttributeError).

(** ** data.py *)
Definition focallength : R := 1006165 / 100.
Definition odet : R := 8193 / 2.
Definition pixsize_rad : R := 492 / 1000 / 3600 * PI / 180.
(** data.py:42-57 TDET['ACIS'] *)
Definition tdet_theta : list R := [PI / 2; 3 * (PI / 2); PI / 2; 3 * (PI / 2); 0; 0; 0; 0; 0; 0].
Definition tdet_scale : list R := repeat 1 10.
Definition tdet_handedness : list R := repeat 1 10.
Definition tdet_origin : list (R * R) :=
  [(3061, 5131); (5131, 4107); (3061, 4085); (5131, 3061); (791, 1702); (1833, 1702); (2875, 1702); (3917, 1702); (4959, 1702); (6001, 1702)].
(** data.py:169-190 [chip2tdet] for one photon *)
Definition chip2tdet (chip : R * R) (id : nat) : result (R * R) :=
  match nth_error tdet_scale id, nth_error tdet_handedness id, nth_error tdet_origin id, nth_error tdet_theta id with
  | Some scale, Some handedness, Some (ox, oy), Some theta =>
      let x := fst chip - 1 / 2 in let y := snd chip - 1 / 2 in
      Ok (scale * handedness * (cos theta * x + sin theta * y) + (ox + 1 / 2),
          scale * handedness * (- sin theta * x + cos theta * y) + (oy + 1 / 2))
  | _, _, _, _ => Err IndexError
  end.
(** data.py:70-166, the ACIS part of the table: corners LL, LR, UR, UL in units of 1 micron *)
Definition um (x y z : Z) : v3 := V3 (IZR x / 1000) (IZR y / 1000) (IZR z / 1000).
Record corners := Corners { c_LL : v3; c_LR : v3; c_UR : v3; c_UL : v3 }.
Definition acis_corners : list corners := [
  Corners (um 2361 (-26484) 23088) (um 1130 (-26546) (-1458)) (um (-100) (-2001) (-1458)) (um 1130 (-1939) 23088);
  Corners (um 1130 23086 (-1458)) (um 2360 23024 23088) (um 1130 (-1521) 23088) (um (-100) (-1459) (-1458));
  Corners (um 1130 (-26546) (-1997)) (um 2361 (-26484) (-26543)) (um 1130 (-1939) (-26543)) (um (-100) (-2001) (-1997));
  Corners (um 2361 23024 (-26543)) (um 1131 23086 (-1997)) (um (-100) (-1459) (-1997)) (um 1130 (-1521) (-26543));
  Corners (um 744 (-81170) (-59170)) (um 353 (-56597) (-59170)) (um 353 (-56597) (-34590)) (um 744 (-81170) (-34590));
  Corners (um 348 (-56133) (-59170)) (um 99 (-31559) (-59170)) (um 99 (-31559) (-34590)) (um 348 (-56133) (-34590));
  Corners (um 96 (-31100) (-59170)) (um (-11) (-6524) (-59170)) (um (-11) (-6524) (-34590)) (um 96 (-31100) (-34590));
  Corners (um (-11) (-6035) (-59170)) (um 24 18541 (-59170)) (um 24 18541 (-34590)) (um (-11) (-6035) (-34590));
  Corners (um 26 18970 (-59170)) (um 208 43545 (-59170)) (um 208 43545 (-34590)) (um 26 18970 (-34590));
  Corners (um 208 43986 (-59170)) (um 528 68560 (-59170)) (um 528 68560 (-34590)) (um 208 43986 (-34590)) ].

(** ** det_acis.py *)
Definition olsi : v3 := V3 (684 / 1000) (750 / 1000) (236552 / 1000).
(** det_acis.py:123-150 [calculate_elempos] for one chip; [None]: nan *)
Definition chip_pos4d (c : corners) (aimpoint detoffset : v3) : option m4 :=
  let p0 := c_LL c in
  let e_y := sub3 (c_LR c) p0 in
  let e_z := sub3 (c_UL c) p0 in
  let e_x := cross3 e_y e_z in
  let center := add3 (add3 p0 (scale3 (1 / 2) e_y)) (scale3 (1 / 2) e_z) in
  match unit3 e_x with
  | None => None
  | Some n => Some (aff (M3 n (scale3 (1 / 2) e_y) (scale3 (1 / 2) e_z)) (sub3 (add3 (add3 center olsi) aimpoint) detoffset))
  end.
(** det_acis.py:81-97 [ACIS.__init__]; keyword values other than the aimpoint are not looked at. [kwargs.pop([...], 0)] with a list as key: an empty
    dictionary returns the default without looking at the key, any other dictionary hashes the key first. Without further keywords the
    container is at the origin, so that the positions of the chips are those of [calculate_elempos]. *)
Definition pop_list {V} (kwargs : dict V) (default : R) : result R :=
  match kwargs with [] => Ok default | _ => Err TypeError end.
Record acis := Acis { a_aim : v3; a_offset : v3; a_chips : list nat; a_pos : list (option m4) }.
Fixpoint select_chips {A} (l : list A) (chips : list nat) : result (list A) :=
  match chips with
  | [] => Ok []
  | i :: r => match nth_error l i with Some x => bind (select_chips l r) (fun xs => Ok (x :: xs)) | None => Err IndexError end
  end.
Definition acis_init (chips : list nat) (kwargs : dict v3) : result acis :=
  match dget "aimpoint" kwargs with
  | None => Err KeyError
  | Some aim =>
      let rest := ddel "aimpoint" kwargs in
      bind (pop_list rest 0) (fun ox =>
      bind (pop_list rest 0) (fun oy =>
      let off := V3 ox 0 oy in
      bind (select_chips (map (fun c => chip_pos4d c aim off) acis_corners) chips) (fun pos =>
      Ok (Acis aim off chips pos))))
  end.
(** det_acis.py:31-58: pixel of a chip from the coordinates on the chip, and DET and SKY coordinates of an interaction position *)
Definition chip_pixel (z pixsize c : R) : R := c / pixsize + centerpix z pixsize + 1.
Definition acis_det (pos : v3) : R * R :=
  let mn := x3 pos - focallength in
  (odet - y3 pos / mn / pixsize_rad, odet + z3 pos / mn / pixsize_rad).
Definition acis_sky (roll : R) (pos : v3) : R * R :=
  let mn := x3 pos - focallength in
  let x := y3 pos / mn / pixsize_rad in
  let y := z3 pos / mn / pixsize_rad in
  (odet - x * cos roll + y * sin roll, odet + x * sin roll + y * cos roll).

(** ** optics/detector.py:78-117 [CircularDetector]; [geometry['R']] is the first zoom *)
Definition circular_detector (m minv : m4) (lim0 lim1 pixsize : R) (dir pos : v4) : option (R * R) :=
  match cylinder_intersect m minv lim0 lim1 true dir pos, decompose44 m with
  | Ok (true, _, Some (phi, z)), Some (_, _, zoom, _) => Some (circular_detpix (x3 zoom) pixsize phi z)
  | _, _ => None
  end.

(** ** Spec *)
(** the tangential plane of the sky at the pointing: (East, North) coordinates of a source, in radian *)
Definition tangent_plane (p : pointing) (ra dec : R) : R * R :=
  let s := skyvec ra dec in
  let d := dot3 s (skyvec (p_ra p) (p_dec p)) in
  (dot3 s (east_at (p_ra p)) / d, dot3 s (north_at (p_ra p) (p_dec p)) / d).
