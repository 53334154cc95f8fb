(** Property C245: flat mirrors that are tilted, in pairs, and in a converging beam. *)
From Verif Require Import Vec_Proofs Coords_Proofs Plane_Proofs Rot_Proofs Brewster_Proofs.
From Verif Require Export Fold_Proofs.
Open Scope R_scope.
Local Notation reflect := Brewster_Model.reflect.

(** ** C245 *)
(** A mirror deflects a ray that meets it under the grazing angle [g] by twice this angle. *)
Theorem C245_angle : forall m minv n d g, facing m minv n -> dot3 d d = 1 -> dot3 d n = - sin g -> exists r, reflect m minv (hom d 0) = Some (hom r 0) /\ dot3 r r = 1 /\ dot3 d r = cos (2 * g).
Proof.
  intros m minv n d g F D G. exists (refl d n). split; [now apply reflect_refl|]. split; [rewrite refl_unit; [exact D|apply F]|]. rewrite refl_dot by exact D. rewrite G, cos_2a_sin. ring.
Qed.
Print Assumptions C245_angle.
(** Light paths can be reversed. *)
Theorem C245_reverse : forall m minv n d r, facing m minv n -> dot3 d d = 1 -> reflect m minv (hom d 0) = Some (hom r 0) -> reflect m minv (hom (neg3 r) 0) = Some (hom (neg3 d) 0).
Proof.
  intros m minv n d r F D H. rewrite (reflect_refl m minv n d F D) in H. assert (E : refl d n = r). { apply (f_equal (fun o => match o with Some v => xyz v | None => zero3 end)) in H. generalize dependent (refl d n). clear. intros v H. destruct v, r. exact H. }
  subst r. assert (N : dot3 n n = 1) by apply F. rewrite (reflect_refl m minv n (neg3 (refl d n)) F); [now rewrite refl_back|]. transitivity (dot3 (refl d n) (refl d n)); [generalize (refl d n); clear; vring|]. now rewrite refl_unit.
Qed.
Print Assumptions C245_reverse.
(** Tilting a mirror by the angle [a] around an axis [u] perpendicular to the plane of incidence turns the reflected ray by [2 a] around this axis. *)
Theorem C245_tilt : forall m minv m' minv' n u a d, facing m minv n -> facing m' minv' (app3 (axangle2mat_n u a) n) -> dot3 u u = 1 -> dot3 u n = 0 -> dot3 d u = 0 -> dot3 d d = 1 ->
  exists r r', reflect m minv (hom d 0) = Some (hom r 0) /\ reflect m' minv' (hom d 0) = Some (hom r' 0) /\ r' = app3 (axangle2mat_n u (2 * a)) r.
Proof.
  intros m minv m' minv' n u a d F F' U O P D. exists (refl d n), (refl d (app3 (axangle2mat_n u a) n)). split; [now apply reflect_refl|]. split; [now apply reflect_refl|]. apply tilt; [|exact P]. split; [exact U|]. split; [apply F|exact O].
Qed.
Print Assumptions C245_tilt.
(** Two mirrors that are inclined to each other by [a] around an axis [u] in the planes of both turn every ray by [2 a] around this axis, from whatever direction it comes. *)
Theorem C245_pair : forall m minv m' minv' n u a d, facing m minv n -> facing m' minv' (app3 (axangle2mat_n u a) n) -> dot3 u u = 1 -> dot3 u n = 0 -> dot3 d d = 1 ->
  exists r r', reflect m minv (hom d 0) = Some (hom r 0) /\ reflect m' minv' (hom r 0) = Some (hom r' 0) /\ r' = app3 (axangle2mat_n u (2 * a)) d.
Proof.
  intros m minv m' minv' n u a d F F' U O D. exists (refl d n), (refl (refl d n) (app3 (axangle2mat_n u a) n)). split; [now apply reflect_refl|]. split; [apply reflect_refl; [exact F'|rewrite refl_unit; [exact D|apply F]]|]. apply pair_turn. split; [exact U|]. split; [apply F|exact O].
Qed.
Print Assumptions C245_pair.
(** So turning both mirrors together around the axis does not change where the ray goes. *)
Theorem C245_together : forall m1 i1 m2 i2 m1' i1' m2' i2' n u a b d, facing m1 i1 n -> facing m2 i2 (app3 (axangle2mat_n u a) n) ->
  facing m1' i1' (app3 (axangle2mat_n u b) n) -> facing m2' i2' (app3 (axangle2mat_n u b) (app3 (axangle2mat_n u a) n)) -> dot3 u u = 1 -> dot3 u n = 0 -> dot3 d d = 1 ->
  exists r r' e, reflect m1 i1 (hom d 0) = Some (hom r 0) /\ reflect m2 i2 (hom r 0) = Some (hom e 0) /\ reflect m1' i1' (hom d 0) = Some (hom r' 0) /\ reflect m2' i2' (hom r' 0) = Some (hom e 0).
Proof.
  intros m1 i1 m2 i2 m1' i1' m2' i2' n u a b d F1 F2 F1' F2' U O D. assert (N : dot3 n n = 1) by apply F1. assert (FR : framed u n) by (split; [exact U|split; [exact N|exact O]]). rewrite (turn_twice u n b a FR) in F2'. destruct (turned_framed u n b FR) as (_ & N' & O').
  destruct (C245_pair m1 i1 m2 i2 n u a d F1 F2 U O D) as (r & e & A & B & E). destruct (C245_pair m1' i1' m2' i2' (app3 (axangle2mat_n u b) n) u a d F1' F2' U O' D) as (r' & e' & A' & B' & E').
  exists r, r', e. split; [exact A|]. split; [exact B|]. split; [exact A'|]. rewrite E, <- E'. exact B'.
Qed.
Print Assumptions C245_together.
(** All rays from a point come from its mirror image after the reflection ([k] negative), and rays that fly to a point, as behind a lens, fly to its mirror image ([k] positive). *)
Theorem C245_image : forall m minv n a b q d k p, facing m minv n -> in_rectangle m a b q -> dot3 d d = 1 -> add3 q (scale3 k d) = p ->
  exists r, reflect m minv (hom d 0) = Some (hom r 0) /\ add3 q (scale3 k r) = mirror_image m n p.
Proof.
  intros m minv n a b q d k p F Q D <-. exists (refl d n). split; [now apply reflect_refl|]. symmetry. apply image_line; [apply F|]. exact (on_plane m minv n a b q F Q).
Qed.
Print Assumptions C245_image.
(** The mirror image is as far behind the mirror as the point is in front of it, and the image of the image is the point itself. *)
Theorem C245_behind : forall m minv n p, facing m minv n -> dot3 (sub3 (mirror_image m n p) (xyz (center m))) n = - dot3 (sub3 p (xyz (center m))) n /\ mirror_image m n (mirror_image m n p) = p.
Proof.
  intros m minv n p F. assert (N : dot3 n n = 1) by apply F. assert (E : dot3 (sub3 (mirror_image m n p) (xyz (center m))) n = - dot3 (sub3 p (xyz (center m))) n).
  { unfold mirror_image. transitivity (dot3 (sub3 p (xyz (center m))) n - 2 * dot3 (sub3 p (xyz (center m))) n * dot3 n n); [generalize (dot3 (sub3 p (xyz (center m))) n) at 1 3 as x; intros x|rewrite N; ring].
    generalize (xyz (center m)). clear. revert n p x. vring. }
  split; [exact E|]. unfold mirror_image at 1. rewrite E. unfold mirror_image. generalize (dot3 (sub3 p (xyz (center m))) n). clear. revert n p. vring.
Qed.
Print Assumptions C245_behind.
(** A mirror and the same mirror tilted by any angle around the z axis, and a ray in the plane that is perpendicular to the axis. *)
Example C245_example : forall a, facing id4 id4 (V3 1 0 0) /\ facing (aff (axangle2mat_n (V3 0 0 1) a) zero3) (aff (trans3 (axangle2mat_n (V3 0 0 1) a)) zero3) (app3 (axangle2mat_n (V3 0 0 1) a) (V3 1 0 0)) /\
  let u := V3 0 0 1 in let d := V3 (- (3 / 5)) (4 / 5) 0 in dot3 u u = 1 /\ dot3 u (V3 1 0 0) = 0 /\ dot3 d u = 0 /\ dot3 d d = 1 /\ in_rectangle id4 (1 / 2) 0 (V3 0 (1 / 2) 0).
Proof.
  intros a. assert (G : forall r : m3, orthonormal r -> facing (aff r zero3) (aff (trans3 r) zero3) (app3 r (V3 1 0 0))).
  { intros r O. pose proof (proj1 (orthonormal_iff r) O) as I. pose proof (orthonormal_dot r (V3 1 0 0) (V3 1 0 0) O) as N1. pose proof (orthonormal_dot r (V3 0 1 0) (V3 0 1 0) O) as N2. pose proof (orthonormal_dot r (V3 0 0 1) (V3 0 0 1) O) as N3.
    pose proof (orthonormal_dot r (V3 1 0 0) (V3 0 1 0) O) as N4. pose proof (orthonormal_dot r (V3 1 0 0) (V3 0 0 1) O) as N5. pose proof (orthonormal_dot r (V3 0 1 0) (V3 0 0 1) O) as N6.
    assert (X : xyz (v_x (aff r zero3)) = app3 r (V3 1 0 0)) by (unfold v_x, v_y, v_z; clear; vring). assert (Y : xyz (v_y (aff r zero3)) = app3 r (V3 0 1 0)) by (unfold v_x, v_y, v_z; clear; vring). assert (Z : xyz (v_z (aff r zero3)) = app3 r (V3 0 0 1)) by (unfold v_x, v_y, v_z; clear; vring).
    split; [|split; [|split]].
    - unfold perpendicular_axes. rewrite X, Y, Z, N4, N5, N6. split; [repeat split|]. split; [apply unit_nonzero; rewrite N1; vu; ring|]. split; [apply unit_nonzero; rewrite N2; vu; ring|]. split; [apply unit_nonzero; rewrite N3; vu; ring|]. repeat split; vu; ring.
    - rewrite aff_mul, I, <- aff_id. f_equal. clear. generalize (trans3 r). vring.
    - rewrite N1. clear. vu. ring.
    - exists 1. split; [lra|]. rewrite X. symmetry. apply scale3_1. }
  split.
  - pose proof (G id3) as H. rewrite app3_id in H. replace (trans3 id3) with id3 in H by vring. rewrite aff_id in H. apply H. apply orthonormal_iff. vring.
  - split; [apply G, axangle_orthonormal; vu; ring|]. cbv zeta. unfold in_rectangle, v_y, v_z, center. vu. repeat split; try field; try lra. cbn. f_equal; field.
Qed.
