(** Energy resolution of a detector: models /repo/marxs/optics/detector.py:156-202 (CCDRedistNormal: table of widths, sig_ccd, cdf, interval and the detected energy) with real numbers; [np.interp] as in Analysis_Model (for
    ascending energies), the distribution of the standard normal law [Phi] and its quantiles are arguments. Energies are in keV. Ccd_Model has the columns of the photon list. *)
From Verif Require Export Analysis_Model Osip_Model.
From Coq Require Export Rpower.
Open Scope R_scope.

(** detector.py:156 *)
Definition fwhm2sig : R := 2 * sqrt (2 * ln 2).
(** table of widths: columns *)
Definition widths := dict (list R).
(** detector.py:161-164: the table after the detector was made. It is the table of the user, which is changed in place *)
Definition with_sigma (tab : widths) : result widths :=
  if din "sigma"%string tab then Ok tab else
  match dget "FWHM"%string tab with
  | Some l => Ok (dset "sigma"%string (map (fun w => w / fwhm2sig) l) tab)
  | None => Err KeyError
  end.
(** detector.py:161-165: a detector has the table that was passed as [tab_width] *)
Definition ccd_init (tab_width : option widths) : result widths := match tab_width with Some tab => with_sigma tab | None => Err KeyError end.
(** detector.py:181-183 for one energy *)
Definition sig_ccd (tab : widths) (e : R) : result R :=
  match dget "energy"%string tab, dget "sigma"%string tab with
  | Some en, Some s => if Nat.eqb (List.length en) (List.length s) then Analysis_Model.interp (combine en s) e else Err ValueError
  | _, _ => Err KeyError
  end.
(** detector.py:186-188. With a width of 0 the argument is infinite, or nan at the energy itself *)
Definition cdf (Phi : R -> R) (tab : widths) (x loc : R) : result (option R) :=
  bind (sig_ccd tab loc) (fun s => Ok (if Reqb s 0 then if Rltb loc x then Some 1 else if Rltb x loc then Some 0 else None else Some (Phi ((x - loc) / s)))).
(** detector.py:191-193 for one energy; [q]: norm.interval(alpha) *)
Definition interval (q : R * R) (tab : widths) (loc : R) : result (R * R) :=
  bind (sig_ccd tab loc) (fun s => Ok (fst q * s + loc, snd q * s + loc)).
(** detector.py:195-202 for one photon; [d]: a number from the standard normal law. norm.rvs refuses negative widths *)
Definition detected (tab : widths) (e d : R) : result R := bind (sig_ccd tab e) (fun s => if Rltb s 0 then Err ValueError else Ok (e + s * d)).

(** Spec: shape of a normal distribution with width [s], 1 at the maximum *)
Definition bell (s x : R) : R := exp (- (x * x) / (2 * (s * s))).
(** Spec: a table whose energies ascend, with the widths (FWHM) [ws] at the energies [en] *)
Definition fwhm_table (pts : list (R * R)) : widths := [("energy", map fst pts); ("FWHM", map snd pts)]%string.
(** Spec: a table with the widths (sigma) *)
Definition sigma_table (pts : list (R * R)) : widths := [("energy", map fst pts); ("sigma", map snd pts)]%string.
