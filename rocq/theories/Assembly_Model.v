(** The assembled Arcus: models /repo/marxs/missions/arcus/arcus.py:280-339, 390-513 (filters, focal plane, detectors, the classes PerfectArcus, Arcus, ArcusForPlot, ArcusForSIXTE).
    Lengths in mm. *)
From Verif Require Export Arcus_Model Position_Model Detector_Model Container_Model Chandra_Model.
Open Scope R_scope.

(** ** 283-314 FiltersAndQE: each filter is a table of transmissions for a range of energies ([lo], [hi]) that interp1d interpolates; [loose]: kwargs_interp1d has
    bounds_error=False, then energies outside give nan, [None]. One photon. *)
Record ftable := FTable { ft_lo : R; ft_hi : R; ft_t : R -> R }.
Definition one_filter (loose : bool) (energy : R) (f : ftable) (p : option R) : result (option R) :=
  if Rltb energy (ft_lo f) || Rltb (ft_hi f) energy then (if loose then Ok None else Err ValueError)
  else let t := ft_t f energy in
       if Rltb t 0 || Rltb 1 t then Err ValueError else Ok (match p with Some p => Some (p * t) | None => None end).
Fixpoint filters (loose : bool) (energy : R) (l : list ftable) (p : option R) : result (option R) :=
  match l with [] => Ok p | f :: l => bind (one_filter loose energy f p) (filters loose energy l) end.

(** ** 317-330 DetMany: the attributes are looked up before Parallel.__init__ could set them; [attrs]: attributes of the class *)
Definition det_many (attrs : dict pyv) : result (list pyv) :=
  match dget "elem_class" attrs, dget "elem_args" attrs, dget "d_element" attrs with
  | Some c, Some a, Some d => Ok [c; a; d]
  | _, _, _ => Err AttributeError
  end%string.
(** attributes of DetMany and its base classes that do not start with an underscore and are not methods *)
Definition det_many_attrs : dict pyv := [("y_range", Arr [-400; 400]); ("loc_coos_name", Lst []); ("display", Obj 0)]%string.

(** ** 387-397 FocalPlaneDet *)
Definition focalplane_kw (kw : dict pyv) : dict pyv :=
  let kw := if din "zoom" kw || din "pos4d" kw then kw else dset "zoom" (Arr [1 / 5; 10000; 10000]) kw in
  if din "orientation" kw || din "pos4d" kw then kw else dset "orientation" (Mat3 (lin xyz2zxy)) kw.
Definition focalplane (kw : dict pyv) : result (m4 * dict pyv) := parse_position (focalplane_kw kw).
(** arcus.py:449: photons are moved back before the camera, after the circular detector *)
Definition camera_start (pos dir : v4) : v4 := propagate (-100) pos dir.

(** ** 400-477: the elements. Classes with None are left out; [boom], [detectors]: results of the two methods *)
Record variant := Variant { v_classes : list (option string); v_boom : list string; v_detectors : list string }.
Fixpoint somes {A} (l : list (option A)) : list A := match l with [] => [] | Some a :: l => a :: somes l | None :: l => somes l end.
Definition assemble (v : variant) : list string := somes (v_classes v) ++ v_boom v ++ v_detectors v ++ ["tagversion"]%string.
Definition arcus_classes : list (option string) := [Some "Aperture"; Some "SimpleSPOs"; Some "CATGratings"; Some "FiltersAndQE"]%string.
Definition perfect_arcus : variant := Variant arcus_classes [] ["CircularDetector"; "ProjectOntoPlane"; "Propagator"; "DetCamera"; "ProjectOntoPlane"; "FocalPlaneDet"]%string.
Definition arcus_for_plot : variant := Variant arcus_classes ["FourSidedBoom"]%string ["DetCamera"]%string.
Definition arcus_for_sixte : variant := Variant [Some "Aperture"; Some "SimpleSPOs"; Some "CATGratings"; None]%string [] ["FocalPlaneDet"]%string.
(** The object: [parts name] are the parts of an element and [bases name] the other classes it is an instance of *)
Definition instrument (bases : string -> list string) (parts : string -> list tree) (v : variant) : tree :=
  Tree 0 ["Arcus"; "Sequence"; "BaseContainer"]%string true (map (fun c => Tree 1 (c :: bases c) (negb (Nat.eqb (List.length (parts c)) 0)) (parts c)) (assemble v)).
