(** Spectra on a flat detector parallel to a transmission grating: notions for statements on optics/grating.py:186-266 (FlatGrating, CATGrating) and optics/detector.py (FlatDetector). Simplifications: as in Instrument_Model; no new code is modelled here. *)
From Verif Require Export Ruling_Model.
Open Scope R_scope.

(** ** Spec *)
(** the place at distance [h] for a sine [S] of the angle of diffraction: h * tan (asin S) *)
Definition screen (h S : R) : R := h * (S / sqrt (1 - S * S)).
(** the sine of the angle that is read off the place [x] at distance [h] *)
Definition sine_of (h x : R) : R := x / sqrt (h * h + x * x).
