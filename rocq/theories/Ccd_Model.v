(** Energy redistribution of a CCD: models /repo/marxs/optics/detector.py:195-202 (CCDRedistNormal.specific_process_photons).
    [sigma] is [sig_ccd] (interpolation in the table of widths), [draws] the standard normal numbers behind [norm.rvs], one per photon of the list. *)
From Verif Require Export Photons_Model.
Open Scope Q_scope.

Definition redist (sigma : Q -> Q) (energy : cell) (draw : Q) : cell :=
  match energy with CNum (Some e) => CNum (Some (e + sigma e * draw)) | _ => nan end.
(** The energies of *all* photons are used, not only those marked in the mask. *)
Definition ccd_specific (sigma : Q -> Q) (draws : list Q) (t : table) (m : list bool) : result (list (option string * value)) :=
  match getcol t "energy" with
  | None => Err KeyError
  | Some en => Ok [(Some "energy_detected"%string, Array (map (fun ed => redist sigma (fst ed) (snd ed)) (combine en draws)))]
  end.
Definition ccd (sigma : Q -> Q) (draws : list Q) : element :=
  {| meth := Specific (ccd_specific sigma draws); output_columns := []; loc_coos_name := None; id_col := None; id_num := 0 |}.
