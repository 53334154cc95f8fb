(** Flat mirrors that are tilted, in pairs, and in a converging beam: notions for statements about the model of /repo/marxs/optics/multiLayerMirror.py:52-57 (Brewster_Model). Simplifications: as there. *)
From Verif Require Export Brewster_Model Rot_Model.
Open Scope R_scope.

(** ** Spec *)
(** a mirror with the unit normal [n] and the inverse [minv] of its position *)
Definition facing (m minv : m4) (n : v3) : Prop := perpendicular_axes m /\ mul4 minv m = id4 /\ dot3 n n = 1 /\ exists s, 0 < s /\ xyz (v_x m) = scale3 s n.
(** the mirror image of the point [p] in the plane of the mirror *)
Definition mirror_image (m : m4) (n p : v3) : v3 := sub3 p (scale3 (2 * dot3 (sub3 p (xyz (center m))) n) n).
