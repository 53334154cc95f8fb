(** Elements that are written for one photon at a time (/repo/marxs/optics/base.py:98-142 and 186-197): notions for statements about the model of Photons_Model. Simplifications: as there. *)
From Verif Require Export Photons_Model.
Open Scope nat_scope.

(** ** Spec *)
(** the columns that are always returned, optics/base.py:189-190 *)
Definition five : list string := ["dir"; "pos"; "energy"; "polarization"; "probability"].
(** [process_photon] returns [outs] for photon [i], as many values as there are columns, the fifth of them is a probability [q], and the photon has the probability [pr] *)
Definition photon_ok (e : element) (f : cell -> cell -> cell -> cell -> result (list cell)) (t : table) (i : nat) (outs : list cell) (q pr : Q) : Prop := exists d p en po,
  getcell t "dir" i = Some d /\ getcell t "pos" i = Some p /\ getcell t "energy" i = Some en /\ getcell t "polarization" i = Some po /\ f d p en po = Ok outs /\
  length outs = 5 + length (output_columns e) /\ nth_error outs 4 = Some (CNum (Some q)) /\ (0 <= q <= 1)%Q /\ probability t i = Some pr.
