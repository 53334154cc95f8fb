(** Wrong period or wrong direction of the grooves: notions for statements on optics/grating.py:186-266 (FlatGrating, CATGrating), design/tolerancing.py:175-199 [varyperiod] and the energies of Overlap_Model. Simplifications: as in Instrument_Model. *)
From Verif Require Export Tilt_Model Overlap_Model.
Open Scope R_scope.

(** ** Spec *)
(** the same photon with another energy *)
Definition with_energy (e : R) (ph : lphoton) : lphoton := LPhoton (l_dir ph) (l_pos ph) (l_pol ph) e (l_prob ph).
