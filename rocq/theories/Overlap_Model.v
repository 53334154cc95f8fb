(** Overlapping orders: notions for statements that put together the spectrograph of Instrument_Model (optics/grating.py, detector.py, design/rowland.py) and the windows for
    order sorting of Osip_Model (reduction/osip.py:62-147, 434-437, 523-528). Simplification: the energy that a CCD measures is one number, given from outside. *)
From Verif Require Export Osip_Model Layers_Model.
Open Scope R_scope.

(** ** Spec *)
(** the energy that is assigned to a photon found at the diffraction angle with the sine [so], if its order is taken to be [n]: the grating equation for period [per] and sign [s] *)
Definition line_energy (s per so : R) (n : Z) : R := s * IZR n * energy2wave / (per * so).
(** the energy [E] measured by the CCD is in the window that is set for energy [en] and order [n] *)
Definition in_window (osip_range : R -> Z -> R * R) (en : R) (n : Z) (E : R) : Prop := fst (osip_range en n) < E < snd (osip_range en n).
(** the photon is sorted into order [n]: it is in the window at the energy that belongs to its place on the detector for order [n] *)
Definition sorted_into (osip_range : R -> Z -> R * R) (s per so : R) (n : Z) (E : R) : Prop := in_window osip_range (line_energy s per so n) n E.
