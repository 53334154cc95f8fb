(** Tilted transmission gratings: notions for statements on optics/grating.py:99-301 [FlatGrating], [CATGrating] after design/tolerancing.py:107-132 [moveelem]. Simplifications: as in Align_Model. *)
From Verif Require Export Align_Model.
Open Scope R_scope.

(** ** Spec *)
(** the normal of the grating, on the side to which the photon flies *)
Definition facing (p n : v3) : v3 := if Rleb 0 (dot3 p n) then n else neg3 n.
(** the number that is added to the sine by a grating: order times wavelength over period, with the sign convention [c] *)
Definition sine_step (c : convention) (p disp : v3) (m : Z) (wave per : R) : R := (match c with FlatSign => 1 | CATSign => if Rleb (dot3 p disp) 0 then -1 else 1 end) * (IZR m * wave / per).
