(** design/tolerancing.py:107-132 [moveelem] on the elements of Instrument_Model: [pos4d] of one element is multiplied from the left with the matrix of a shift and of
    three rotations, and every method of the element that looks at [pos4d] (or its inverse) later uses the new one. Simplifications: as in Instrument_Model; the
    element was not moved before ([pos4d_orig] is the [pos4d] it was made with); inverse matrices ([np.linalg.inv]) are exact. *)
From Verif Require Export Whole_Model Placement_Model.
Open Scope R_scope.

(** the inverse of the matrix [move] of tolerancing.py:129-131, in closed form *)
Definition back6 (t a : v3) : m4 := aff (trans3 (euler2mat a)) (neg3 (app3 (trans3 (euler2mat a)) t)).
(** tolerancing.py:129-132: shift [t], angles [a] *)
Definition moved (t a : v3) (p : part) : part := displace_part (move6 t a) (back6 t a) p.

(** ** Spec *)
(** the opposite move *)
Definition moved_back (t a : v3) (p : part) : part := displace_part (back6 t a) (move6 t a) p.
(** what happens to a photon that hits the element does not depend on where it hits: gratings with one period, filters, surfaces that scatter, Brewster mirrors, detectors *)
Definition uniform (p : part) : Prop :=
  match p with
  | PGrating _ _ _ _ per => forall l l', per l = per l'
  | PRandom _ _ | PFilter _ _ | PBrewster _ _ | PDetector _ => True
  | _ => False
  end.
(** the photon with another position *)
Definition at_point (q : v3) (ph : lphoton) : lphoton := LPhoton (l_dir ph) (Some q) (l_pol ph) (l_energy ph) (l_prob ph).
(** the point with coordinates 0, 0 and the distance [off] below the center, on the optical axis of a lens *)
Definition axis_foot (m : m4) (off : R) : v3 := sub3 (xyz (center m)) (scale3 (off / norm3 (xyz (v_z m))) (xyz (v_z m))).
