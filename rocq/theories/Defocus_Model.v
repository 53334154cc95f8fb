(** Detectors out of focus: notions for statements about Instrument_Model (optics/mirror.py:53-82, detector.py) and /repo/marxs/analysis/analysis.py:27-38 (mean_width_2d in Analysis_Model). *)
From Verif Require Export Whole_Model Analysis_Model.
Open Scope R_scope.

(** ** Spec *)
(** the detector is parallel to the lens and has the same axes, but can have another size *)
Definition parallel_to (m md : m4) : Prop := exists j ky kz, j <> 0 /\ 0 < ky /\ 0 < kz /\ xyz (v_x md) = scale3 j (xyz (v_x m)) /\ xyz (v_y md) = scale3 ky (xyz (v_y m)) /\ xyz (v_z md) = scale3 kz (xyz (v_z m)).
(** one minus the way from lens to detector in units of the way to the focus, both measured along the normal of the lens *)
Definition blur (m md : m4) (f : R) (d : v3) : R := 1 - dot3 (sub3 (xyz (center md)) (xyz (center m))) (xyz (v_x m)) / (f * dot3 d (xyz (v_x m))).
(** a photon of direction [d] with coordinates [fst c] on the lens has the coordinates [snd c] on the detector; there can be filters etc. on the way *)
Definition seen (m md : m4) (off f : R) (refl : R -> R -> R) (rn : R -> option R) (d : v3) (c : (R * R) * (R * R)) : Prop :=
  exists ph ps drs ph1 q d2 q2, Forall well_made ps /\ all_straight ps (tl drs) /\ Instrument_Model.meets m ph = Some (d, q, fst c) /\
    through (PLens m off f refl rn :: ps) drs ph = Ok ph1 /\ Instrument_Model.meets md ph1 = Some (d2, q2, snd c).
