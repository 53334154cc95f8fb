(** Sources and pointing: models /repo/marxs/source/pointing.py, /repo/marxs/source/basesources.py:85-523 and
    /repo/marxs/source/labSource.py. Angles are in radian, units are left out; one photon at a time unless a list is shown.
    astropy's SkyOffsetFrame is modelled by the three rotations it is documented to apply; frames other than ICRS only where stated. *)
From Verif Require Export Rot_Model Sampling_Model Plane_Model Aperture_Model.
Open Scope R_scope.

(** ** Sky coordinates (astropy) *)
(** unit vector for a longitude and a latitude *)
Definition skyvec (lon lat : R) : v3 := V3 (cos lat * cos lon) (cos lat * sin lon) (sin lat).
(** astropy's [rotation_matrix] about an axis; the matrices are given by their columns *)
Definition astro_x (a : R) : m3 := M3 (V3 1 0 0) (V3 0 (cos a) (- sin a)) (V3 0 (sin a) (cos a)).
Definition astro_y (a : R) : m3 := M3 (V3 (cos a) 0 (sin a)) (V3 0 1 0) (V3 (- sin a) 0 (cos a)).
Definition astro_z (a : R) : m3 := M3 (V3 (cos a) (- sin a) 0) (V3 (sin a) (cos a) 0) (V3 0 0 1).
(** from the sky to [SkyOffsetFrame(origin=(ra, dec), rotation=roll)] *)
Definition offset_matrix (ra dec roll : R) : m3 := mul3 (astro_x (- roll)) (mul3 (astro_y (- dec)) (astro_z ra)).

(** ** pointing.py *)
Record pointing := Pointing { p_ra : R; p_dec : R; p_roll : R; p_ref : m4 }.
Definition p_offset (p : pointing) : m3 := offset_matrix (p_ra p) (p_dec p) (p_roll p).
(** pointing.py:116-119 *)
Definition photons_dir (p : pointing) (ra dec : R) : option v4 :=
  match unit3 (neg3 (app3 (p_offset p) (skyvec ra dec))) with
  | Some d => Some (app4 (p_ref p) (hom d 0))
  | None => None
  end.
(** pointing.py:140-145 *)
Definition photons_pol (p : pointing) (dir : v4) (polangle : R) : option v4 :=
  let northdir := app4 (p_ref p) (hom (app3 (p_offset p) (V3 0 0 1)) 0) in
  match unit4 (sub4 northdir (scale4 (dot4 northdir dir) dir)) with
  | None => None
  | Some n =>
      let e := hom (cross3 (xyz dir) (xyz n)) 0 in
      Some (add4 (scale4 (cos polangle) n) (scale4 (sin polangle) e))
  end.
(** pointing.py:147-160: [dir] and [polarization] of one photon *)
Definition fixed_pointing (p : pointing) (ra dec polangle : R) : option (v4 * v4) :=
  match photons_dir p ra dec with
  | Some d => match photons_pol p d polangle with Some q => Some (d, q) | None => None end
  | None => None
  end.
(** pointing.py:196-211: [randang] and [jitterang] are the two draws; [jitter] is np.abs of the parameter (line 193) *)
Definition jitter_vector (jitter randang jitterang : R) (v : v4) : option v4 :=
  if Rltb 0 (Rabs jitter) then
    match axangle2mat (V3 0 (sin randang) (cos randang)) jitterang with
    | Some m => Some (hom (einsum_ij_i m (xyz v)) 0)
    | None => None
    end
  else Some v.

(** ** basesources.py *)
(** basesources.py:168-176: [np.arange(0, T, 1 / rate)] with [rate] the product of flux and area; numpy: ceil(T / step) numbers k * step *)
Inductive flux_spec := FluxCallable (f : R -> list R) | FluxScalar (rate : R) | FluxOther.
Definition generate_times (fl : flux_spec) (T : R) : result (list R) :=
  match fl with
  | FluxCallable f => Ok (f T)
  | FluxScalar rate => Ok (map (fun k => INR k * (1 / rate)) (seq 0 (Z.to_nat (Rceil (T / (1 / rate))))))
  | FluxOther => Err Exception
  end.
(** basesources.py:178-201. A table of energies and flux densities; [order] as in [hist_cdf], [draws] the pairs of draws for each photon.
    [SourceSpecificationError] is shown as [Exception], its base class. *)
Inductive value_spec (I : Type) :=
| VCallable (f : I -> list R) | VTable (x y : list R) | VScalar (v : R) | VNone | VOther.
Arguments VCallable {I} f. Arguments VTable {I} x y. Arguments VScalar {I} v. Arguments VNone {I}. Arguments VOther {I}.
Fixpoint draw_all (h : histogram) (order : list nat) (draws : list (R * R)) : result (list R) :=
  match draws with
  | [] => Ok []
  | (c, v) :: ds => bind (hist_draw h order true c v) (fun x => bind (draw_all h order ds) (fun xs => Ok (x :: xs)))
  end.
Definition generate_energies (sp : value_spec (list R)) (order : list nat) (times : list R) (draws : list (R * R)) : result (list R) :=
  let n := length times in
  match sp with
  | VCallable f => let en := f times in if Nat.eqb (length en) n then Ok en else Err Exception
  | VTable x y => bind (hist_init x (0 :: tl y)) (fun h => draw_all h order (firstn n draws))
  | VScalar e => Ok (repeat e n)
  | VNone | VOther => Err Exception
  end.
(** basesources.py:203-225; [angles] are the draws for an unpolarized source (uniform in 0..1) *)
Definition generate_polarization (sp : value_spec (list R * list R)) (order : list nat) (times energies : list R)
    (draws : list (R * R)) (angles : list R) : result (list R) :=
  let n := length times in
  match sp with
  | VCallable f => let p := f (times, energies) in if Nat.eqb (length p) n then Ok p else Err Exception
  | VNone => Ok (map (uniform 0 (2 * PI)) (firstn n angles))
  | VTable x y => bind (hist_init x y) (fun h => draw_all h order (firstn n draws))
  | VScalar a => Ok (repeat a n)
  | VOther => Err Exception
  end.
(** basesources.py:230-260: the columns time, energy, polangle, probability. Table() refuses columns of different length. *)
Definition generate_photons (fl : flux_spec) (en : value_spec (list R)) (pol : value_spec (list R * list R))
    (order_e order_p : list nat) (draws_e draws_p : list (R * R)) (angles : list R) (T : R) : result (list (R * R * R * R)) :=
  bind (generate_times fl T) (fun ts =>
  bind (generate_energies en order_e ts draws_e) (fun es =>
  bind (generate_polarization pol order_p ts es draws_p angles) (fun ps =>
  let n := length ts in
  if negb (Nat.eqb (length es) n && Nat.eqb (length ps) n) then Err ValueError else
  Ok (combine (combine (combine ts es) ps) (repeat 1 n))))).

(** basesources.py:380-389: the photon is put at longitude d sin(phi), latitude d cos(phi) of the frame centered on the source. The result is its
    unit vector on the sky. *)
Definition relative_pos (ra dec lon lat : R) : v3 := app3 (trans3 (offset_matrix ra dec 0)) (skyvec lon lat).
Definition radial_photon (ra dec d phi : R) : v3 := relative_pos ra dec (d * sin phi) (d * cos phi).
(** basesources.py:415-425 SphericalDiskSource.radial_distribution *)
Definition spherical_radius (a_inner a_outer u : R) : R := acos (cos a_inner * (1 - u) + u * cos a_outer).
(** basesources.py:443-448 DiskSource *)
Definition disk_radius (a_inner a_outer u : R) : R := sqrt (a_inner * a_inner + u * (a_outer * a_outer - a_inner * a_inner)).
(** basesources.py:467-486 GaussSource: [g1], [g2] are the normal draws in units of sigma *)
Definition gauss_photon (ra dec sigma g1 g2 : R) : v3 := relative_pos ra dec (sigma * g1) (sigma * g2).
(** basesources.py:502-523 SymbolFSource: [elem] is the part of the letter (0, 1, 2), [u] the draw; the result is (ra, dec) in degree in the
    system of [coords]. [to_icrs] is the transformation from this system to ICRS, [from_icrs] its inverse. *)
Definition symbolF (ra dec size : R) (elem : nat) (u : R) : R * R :=
  match elem with
  | O => (ra + size * u, dec)
  | S O => (ra + size, dec + 1 / 2 * size * u)
  | _ => (ra + 8 / 10 * size, dec + 3 / 10 * size * u)
  end.
Definition symbolF_photon (to_icrs : R * R -> R * R) (coords : R * R) (size : R) (elem : nat) (u : R) : R * R :=
  let (ra, dec) := to_icrs coords in        (* self.coords.icrs *)
  to_icrs (symbolF ra dec size elem u).     (* SkyCoord(ra, dec, frame=self.coords).icrs *)
(** basesources.py:344-348 PointSource *)
Definition point_photon (to_icrs : R * R -> R * R) (coords : R * R) : R * R := to_icrs coords.

(** ** labSource.py *)
(** labSource.py:45-53 FarLabPointSource: position and direction for the two draws *)
Definition farlab (m : m4) (source : v3) (u1 u2 : R) : v4 * v4 :=
  let pos := app4 m (V4 0 (uniform (-1) 1 u1) (uniform (-1) 1 u2) 1) in
  (pos, hom (sub3 (xyz pos) source) 0).
(** labSource.py:106-116 LabPointSourceCone before the rotation *)
Definition cone_local (half u1 u2 : R) : v3 :=
  let theta := uniform 0 (2 * PI) u1 in
  let v := uniform 0 (2 * PI * (1 - cos half) / (4 * PI)) u2 in
  let phi := acos (1 - 2 * v) in
  V3 (cos theta * sin phi) (sin theta * sin phi) (cos phi).
(** labSource.py:87, 121-128: direction of a photon; [None] is nan ([axangle2aff] divides by the length of the axis) *)
Definition cone_photon (direction : v3) (half u1 u2 : R) : option v3 :=
  match unit3 direction with
  | None => None
  | Some d =>
      match axangle2mat (cross3 d (V3 0 0 1)) (- acos (z3 d)) with
      | Some m => Some (app3 m (cone_local half u1 u2))
      | None => None
      end
  end.

(** ** Spec *)
(** the directions to the North and to the East at a position on the sky *)
Definition north_at (ra dec : R) : v3 := V3 (- sin dec * cos ra) (- sin dec * sin ra) (cos dec).
Definition east_at (ra : R) : v3 := V3 (- sin ra) (cos ra) 0.
