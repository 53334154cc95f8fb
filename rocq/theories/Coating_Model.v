(** Multi layer coatings: models /repo/marxs/optics/multiLayerMirror.py:94-179 (MultiLayerEfficiency, MultiLayerMirror) on top of Brewster_Model. One photon that hits
    the mirror. The two files are read into lists of rows. *)
From Verif Require Export Brewster_Model CatStack_Model Osip_Model Analysis_Model.
Open Scope R_scope.

(** A row of the reflectivity file: X(mm), Peak lambda, Peak, FWHM(nm) *)
Record coat := Coat { c_x : R; c_lambda : R; c_peak : R; c_fwhm : R }.
(** multiLayerMirror.py:132-153 interp_files. [pol]: rows (Photon energy, Polarization) of the second file; [vy]: length of [v_y]; [y]: first local coordinate. A division by 0 gives
    inf or nan, [None]. *)
Definition tested_fraction (pol : list (R * R)) (energy : R) : result R := interp (map (fun r => (fst r / 1000, snd r)) pol) energy.
Definition by_position (g : coat -> R) (vy : R) (refl : list coat) (y : R) : result R := interp (map (fun r => (c_x r / vy - 1, g r)) refl) (y / vy).
Definition interp_files (refl : list coat) (pol : list (R * R)) (vy energy y : R) : result (R * num * R) :=
  bind (tested_fraction pol energy) (fun tested =>
  bind (by_position c_lambda vy refl y) (fun peak =>
  bind (by_position c_peak vy refl y) (fun top =>
  bind (by_position c_fwhm vy refl y) (fun width => Ok (peak, num_div (Some top) (Some tested), width))))).
(** multiLayerMirror.py:155-170: the factor for the probability. Where there is no width (a line that is not reflected at all), the quotient is not used. *)
Definition layer_factor (refl : list coat) (pol : list (R * R)) (vy energy y : R) : result num :=
  bind (interp_files refl pol vy energy y) (fun r =>
  match r with (peak, top, width) =>
    if Reqb (width * width / (8 * ln 2)) 0 then Ok (Some 0)
    else Ok (match top with Some t => Some (ml_probability (123984282 / 100000000 / energy) peak t width) | None => None end)
  end).
(** The two layers one after the other: [cs] is the component of the polarization perpendicular to the plane of incidence (44-92) *)
Definition mirror_factor (refl : list coat) (pol : list (R * R)) (vy energy y cs : R) : result num :=
  bind (layer_factor refl pol vy energy y) (fun f => Ok (match f with Some f => Some (cs * cs * f) | None => None end)).
(** multiLayerMirror.py:173-179: keywords. Arguments are evaluated from left to right, elements and keywords can not be given twice. *)
Definition multilayer_mirror (kw : dict pyv) : result (m4 * list (string * dict pyv)) :=
  match dget "reflFile" kw with
  | None => Err KeyError
  | Some f =>
      match dget "testedPolarization" kw with
      | None => Err KeyError
      | Some t =>
          let kw := ddel "testedPolarization" (ddel "reflFile" kw) in
          if din "elements" kw || din "keywords" kw then Err TypeError
          else bind (flat_rest kw) (fun m => Ok (m, [("FlatBrewsterMirror", []); ("MultiLayerEfficiency", [("reflFile", f); ("testedPolarization", t)])]))
      end
  end%string.

(** Spec: linear interpolation in a table, the end values outside *)
Definition on_table (pts : list (R * R)) (x v : R) : Prop :=
  (exists p r, pts = p :: r /\ x <= fst p /\ v = snd p) \/
  (exists l p, pts = l ++ [p] /\ fst p <= x /\ v = snd p) \/
  (exists l p q r, pts = l ++ p :: q :: r /\ fst p <= x <= fst q /\ v = snd p + (snd q - snd p) * ((x - fst p) / (fst q - fst p))).
