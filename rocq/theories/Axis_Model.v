(** Detectors of the missions and the set-up of AXIS: models /repo/marxs/missions/AXIS/AXIS.py:106-233, the names of the detector columns in
    /repo/marxs/optics/detector.py, missions/lynx/lynx.py:88-94, 140-172, missions/athena/athecat.py:160-176 and missions/arcus/arcus.py:391-446.
    Elements are identified by the name of their class or variable; numbers are rationals in photon tables and reals in configurations. *)
From Verif Require Export Lynx_Model Assembly_Model Photons_Model.

(** ** Detectors: columns *)
(** optics/detector.py:72-75: pixel number for a local coordinate (in mm); [centre] = (npix - 1) / 2 *)
Definition to_pix (pixsize centre : Q) (c : cell) : cell :=
  match c with
  | CNum (Some q) => CNum (Some (q / pixsize + centre)%Q)
  | CInt z => CNum (Some (inject_Z z / pixsize + centre)%Q)
  | _ => c
  end.
(** A detector: names of the local coordinates, names of the pixel columns, size of the pixels, central pixel. Simplification: no id_col. *)
Record pixdet := PixDet { pd_loc : string * string; pd_pix : string * string; pd_size : Q; pd_centre : Q * Q }.
(** FlatDetector: specific_process_photons returns the pixels of all photons that hit the detector, the rest is done by the base class *)
Definition pix_element (d : pixdet) (icoos : list (cell * cell)) : element :=
  {| meth := Specific (fun _ m => Ok [(Some (fst (pd_pix d)), Array (map (to_pix (pd_size d) (fst (pd_centre d))) (select m (map fst icoos))));
                                      (Some (snd (pd_pix d)), Array (map (to_pix (pd_size d) (snd (pd_centre d))) (select m (map snd icoos))))]);
     output_columns := []; loc_coos_name := Some (pd_loc d); id_col := None; id_num := 0 |}.
Definition detect (d : pixdet) (m : list bool) (ipos : list cell) (icoos : list (cell * cell)) : M := process_photons (pix_element d icoos) m ipos icoos.
(** optics/detector.py:64-70: centerpix for a half size [z] *)
Definition centre_pix (z pixsize : Q) : Q := ((2 * z / pixsize - 1) / 2)%Q.

(** All detectors with pixels in marxs: name, names of the local coordinates and names of the pixels.
    detector.py:47-50 and 97-99; arcus.py:391-392, 443-444; lynx.py:145-150, 171-172, 211-212; AXIS.py:129-143, 217-218; athecat.py:164-176. *)
Definition shipped : list (string * ((string * string) * (string * string))) :=
  [("FlatDetector", (("det_x", "det_y"), ("detpix_x", "detpix_y"))); ("CircularDetector", (("det_phi", "det_y"), ("detpix_x", "detpix_y")));
   ("arcus.FocalPlaneDet", (("detfp_x", "detfp_y"), ("detfppix_x", "detfppix_y"))); ("arcus.circdet", (("circ_phi", "circ_y"), ("circpix_x", "circpix_y")));
   ("lynx.detcirc", (("detcirc_phi", "detcirc_y"), ("detcircpix_x", "detcircpix_y"))); ("lynx.flatdet", (("detinf_x", "detinf_y"), ("detinfpix_x", "detinfpix_y")));
   ("lynx.microcal", (("microcal_x", "microcal_y"), ("microcalpix_x", "microcalpix_y")));
   ("AXIS.imaging", (("imaging_x", "imaging_y"), ("imaging_x", "imaging_y"))); ("AXIS.detcirc", (("detcirc_phi", "detcirc_y"), ("detcircpix_x", "detcircpix_y")));
   ("AXIS.flatdet", (("detinf_x", "detinf_y"), ("detinfpix_x", "detinfpix_y"))); ("AXISForPlot.zero", (("zero_x", "zero_y"), ("zero_x", "zero_y")));
   ("athecat.detcirc", (("detcirc_phi", "detcirc_y"), ("detcircpix_x", "detcircpix_y"))); ("athecat.flatdet", (("detinf_x", "detinf_y"), ("detinfpix_x", "detinfpix_y")));
   ("athecat.zero", (("zero_x", "zero_y"), ("zero_x", "zero_y")))]%string.
(** AXIS.py:127-130 *)
Definition imaging : pixdet := PixDet ("imaging_x", "imaging_y")%string ("imaging_x", "imaging_y")%string (8 # 1000) (centre_pix 15 (8 # 1000), centre_pix 15 (8 # 1000)).
(** Spec: names that can hold both: four different columns, none of them written in another way *)
Definition separate (loc pix : string * string) : bool :=
  let l := [fst loc; snd loc; fst pix; snd pix; "pos"; "probability"]%string in
  Nat.eqb (List.length (nodup string_dec l)) 6.
(** Spec: number of marked rows before row [i], the place of row [i] in the values for the marked rows *)
Definition hits_before (m : list bool) (i : nat) : nat := count (firstn i m).

(** ** AXIS.py:147-153 MirrorGeometricScaling *)
Definition mirror_scale (s : Q) : M :=
  fun t => match getcol t "probability" with
           | None => (t, Some KeyError)
           | Some old => match cmul_list (repeat (CNum (Some s)) (List.length old)) old with
                         | None => (t, Some TypeError)
                         | Some new => (setcol t "probability" new, None)
                         end
           end.

(** ** Configurations *)
Open Scope string_scope.
Open Scope R_scope.
Inductive cval := CR (r : R) | CMat (m : m3) | CTorus (big small : R) (pos : m4) | CRows (l : list (string * Lynx_Model.kind)) | CObj.
(** lynx.py:88-94, used by Lynx, AXIS and Athena. [torus f a b]: design_tilted_torus (Rowland_Model); [turn a]: axangle2mat([0, 0, 1], a) *)
Definition conf_num (k : string) (c : dict cval) : result R :=
  match dget k c with None => Err KeyError | Some (CR r) => Ok r | Some _ => Err TypeError end.
Definition add_rowland_to_conf (torus : R -> R -> R -> R * R * m4) (turn : R -> m3) (c : dict cval) : result (dict cval) :=
  bind (conf_num "alphafac" c) (fun af => bind (conf_num "blazeang" c) (fun bl =>
  let c := dset "alpha" (CR (af * bl)) c in
  bind (conf_num "betafac" c) (fun bf =>
  let c := dset "beta" (CR (bf * bl)) c in
  bind (conf_num "design_tilted_torus" c) (fun f => bind (conf_num "alpha" c) (fun a => bind (conf_num "beta" c) (fun b =>
  let '(big, small, pos) := torus f a b in
  Ok (dset "blazemat" (CMat (turn (- bl))) (dset "rowland" (CTorus big small pos) c)))))))).
(** AXIS.py:50-98 the configuration (entries that are not numbers are [CObj]), and the other two of the file (100-111), which are shallow copies *)
Definition axis_base : dict cval :=
  [("metashellgeometry", CObj); ("inplanescatter", CR (5 / 1000000)); ("perpplanescatter", CR (5 / 2000000)); ("mirrorcoating", CObj); ("mirrorgeometricscaling", CR (61 / 100));
   ("blazeang", CR (16 / 10 * PI / 180)); ("focallength", CR 9000); ("design_tilted_torus", CR 8600); ("alphafac", CR (22 / 10)); ("betafac", CR (44 / 10)); ("grating_size", CObj);
   ("grating_frame", CR 2); ("det_kwargs", CObj); ("gas_kwargs", CObj)]%string.
Definition axis_conf torus turn : result (dict cval) := add_rowland_to_conf torus turn axis_base.
Definition axis_6060 torus turn : result (dict cval) := bind (axis_conf torus turn) (fun c => Ok (dset "grating_size"%string CObj c)).
Definition axis_chirp torus turn : result (dict cval) :=
  bind (axis_conf torus turn) (fun c => Ok (dset "chirp_order"%string (CR (- (54 / 10))) (dset "chirp_energy"%string (CR (6 / 10)) (dset "grating_size"%string CObj c)))).

(** ** AXIS.py:156-233 the instrument *)
Definition axis_mirror : list string := ["MetaShellAperture"; "PerfectLensSegment"; "MirrorGeometricScaling"; "RadialMirrorScatter"]%string.
Definition axis_gas : list string := ["LynxGAS"; "catsupportbars"]%string.
Definition axis_detectors (forplot : bool) : list string :=
  if forplot then ["RowlandDetArray"; "imaging"]%string
  else ["RowlandDetArray"; "imaging"; "ProjectOntoPlane"; "Propagator"; "detcirc"; "ProjectOntoPlane"; "Propagator"; "flatdet"]%string.
Definition axis_elements (gratings forplot : bool) : list string :=
  axis_mirror ++ (if gratings then axis_gas else []) ++ ["FiltersAndQE"]%string ++ axis_detectors forplot ++ ["tagversion"]%string.
(** what is shared between all instruments: the objects of the module *)
Definition axis_shared : list string := ["catsupportbars"; "imaging"; "detcirc"; "flatdet"; "tagversion"]%string.
(** AXIS.py:205: is there a chirp? *)
Definition chirped (c : dict cval) : bool := din "chirp_energy" c && din "chirp_order" c.
(** The configuration is read by the elements: KeyError if an entry is missing. Simplification: elements work if the entries are there. *)
Definition axis_needs (gratings : bool) : list string :=
  ["metashellgeometry"; "focallength"; "mirrorcoating"; "mirrorgeometricscaling"; "inplanescatter"; "perpplanescatter"]%string ++
  (if gratings then ["gas_kwargs"; "rowland"; "grating_size"; "grating_frame"; "blazemat"]%string else []) ++ ["rowland"; "det_kwargs"]%string.
Definition perfect_axis_elements (c : dict cval) (gratings forplot : bool) : result (list string) :=
  if forallb (fun k => din k c) (axis_needs gratings) then Ok (axis_elements gratings forplot) else Err KeyError.
(** AXIS.py:223-233 class AXIS: one move per row of the budget *)
Definition budget_row (r : string * Lynx_Model.kind) : result (string * Lynx_Model.kind) :=
  match snd r with Lynx_Model.Other => Err NotImplementedError | _ => Ok r end.
Definition axis_aligned (c : dict cval) (gratings : bool) : result (list string * list (string * Lynx_Model.kind)) :=
  bind (perfect_axis_elements c gratings false) (fun el =>
  match dget "alignmentbudget"%string c with
  | None => Err KeyError
  | Some (CRows l) => bind (sequence (map budget_row l)) (fun rows => Ok (el, rows))
  | Some _ => Err TypeError
  end).
