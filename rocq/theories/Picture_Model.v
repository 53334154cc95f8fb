(** Pictures of extended sources: notions for statements that put together /repo/marxs/source/basesources.py (RadialDistributionSource, DiskSource, SphericalDiskSource, GaussSource in Source_Model), /repo/marxs/source/pointing.py (FixedPointing, JitterPointing)
    and the telescope of Telescope_Model. Simplifications: as there. *)
From Verif Require Export Telescope_Model.
Open Scope R_scope.

(** ** Spec *)
(** all photons from the place [ra], [dec] on the sky that hit the lens fly on towards the point [F], whatever place of the aperture they come through *)
Definition imaged_at (t : telescope) (ra dec : R) (F : v3) : Prop := forall u1 u2 r o, observe t ra dec u1 u2 = Some (r, o) ->
  (forall r0, enter (t_point t) (t_aper t) ra dec u1 u2 = Some r0 -> fst (fst (plane_intersect (t_lens t) (hom (y_dir r0) 0) (hom (y_pos r0) 1))) = true) ->
  norm3 (y_dir r) = 1 /\ exists k, 0 < k /\ add3 (y_pos r) (scale3 k (y_dir r)) = F.
(** a telescope whose parts are rectangles and whose pointing is not distorted *)
Definition telescope_ok (t : telescope) : Prop := affine (p_ref (t_point t)) /\ orthonormal (lin (p_ref (t_point t))) /\ perpendicular_axes (t_aper t) /\ perpendicular_axes (t_lens t) /\ 0 < t_f t.
(** the same telescope with another roll angle *)
Definition rolled (p : pointing) (a : R) : pointing := Pointing (p_ra p) (p_dec p) (p_roll p + a) (p_ref p).
