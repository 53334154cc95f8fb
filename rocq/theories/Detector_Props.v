(** Property C38. *)
From Verif Require Import Vec_Proofs Coords_Proofs Detector_Proofs Plane_Proofs.
Open Scope R_scope.

(** A photon gets pixel coordinates iff it hits the rectangle of the chip; they are given by its relative position (a, b) on the chip. *)
Theorem C38_pixels : forall m pix d p x y, perpendicular_axes m -> 0 < pix -> flat_detector m pix (hom d 0) (hom p 1) = Some (x, y) ->
  exists k a b n0 n1, 0 <= k /\ in_rectangle m a b (add3 p (scale3 k d)) /\ flat_npix m pix = Some (n0, n1) /\
    x = a * norm3 (xyz (v_y m)) / pix + (IZR n0 - 1) / 2 /\ y = b * norm3 (xyz (v_z m)) / pix + (IZR n1 - 1) / 2.
Proof.
  intros m pix d p x y P X H. destruct (flat_detector_spec m pix d p x y P H) as (k & a & b & K & I & Ex & Ey).
  destruct (decompose44_zooms m P) as (r & zx & D). unfold flat_npix. rewrite D. eexists k, a, b, _, _. split; [exact K|]. split; [exact I|]. split; [reflexivity|].
  split; [exact Ex|exact Ey].
Qed.
Print Assumptions C38_pixels.
Theorem C38_hit : forall m pix d p, perpendicular_axes m ->
  ((exists x y, flat_detector m pix (hom d 0) (hom p 1) = Some (x, y)) <->
   dot3 d (xyz (v_x m)) <> 0 /\ exists k a b, 0 <= k /\ in_rectangle m a b (add3 p (scale3 k d))).
Proof. intros m pix d p P. rewrite flat_detector_hit, plane_hit_iff by exact P. reflexivity. Qed.
Print Assumptions C38_hit.
(** If the size of the chip is a multiple of the pixel size, pixel coordinates lie between -1/2 and n - 1/2. *)
Theorem C38_range_partial : forall m pix d p x y n0 n1, perpendicular_axes m -> 0 < pix -> flat_detector m pix (hom d 0) (hom p 1) = Some (x, y) ->
  2 * norm3 (xyz (v_y m)) / pix = IZR n0 -> 2 * norm3 (xyz (v_z m)) / pix = IZR n1 ->
  flat_npix m pix = Some (n0, n1) /\ - (1 / 2) <= x <= IZR n0 - 1 / 2 /\ - (1 / 2) <= y <= IZR n1 - 1 / 2.
Proof.
  intros m pix d p x y n0 n1 P X H E0 E1. destruct (flat_detector_spec m pix d p x y P H) as (k & a & b & K & (A & B & _) & -> & ->).
  destruct (decompose44_zooms m P) as (r & zx & D). unfold flat_npix. rewrite D. cbn [y3 z3].
  destruct (detpix_exact _ pix X n0 a E0 A (norm3_nonneg _)) as [-> R0]. destruct (detpix_exact _ pix X n1 b E1 B (norm3_nonneg _)) as [-> R1]. auto.
Qed.
Print Assumptions C38_range_partial.
(** Without that assumption pixel coordinates exceed the range by at most a quarter pixel ... *)
Theorem C38_range_general_partial : forall m pix d p x y n0 n1, perpendicular_axes m -> 0 < pix -> flat_detector m pix (hom d 0) (hom p 1) = Some (x, y) ->
  flat_npix m pix = Some (n0, n1) -> - (3 / 4) <= x <= IZR n0 - 1 / 4 /\ - (3 / 4) <= y <= IZR n1 - 1 / 4.
Proof.
  intros m pix d p x y n0 n1 P X H N. destruct (flat_detector_spec m pix d p x y P H) as (k & a & b & K & (A & B & _) & -> & ->).
  destruct (decompose44_zooms m P) as (r & zx & D). unfold flat_npix in N. rewrite D in N. cbn [y3 z3] in N. injection N as <- <-.
  pose proof (detpix_range _ pix X a A (norm3_nonneg (xyz (v_y m)))) as [R0 B0]. pose proof (detpix_range _ pix X b B (norm3_nonneg (xyz (v_z m)))) as [R1 B1].
  split; lra.
Qed.
Print Assumptions C38_range_general_partial.
(** pixel coordinates grow by one per pixel size, and the center of the chip is at the center pixel *)
Theorem C38_monotone : forall z pix c d, 0 < pix -> (c < d -> detpix z pix c < detpix z pix d) /\ detpix z pix (c + pix) = detpix z pix c + 1 /\
  detpix z pix 0 = (IZR (npix z pix) - 1) / 2.
Proof. intros z pix c d P. split; [now apply detpix_mono|]. split; [now apply detpix_step|now apply detpix_center]. Qed.
Print Assumptions C38_monotone.
(** There is a warning if and only if the number of pixels differs from the size by more than one hundredth of a pixel; without warning,
    pixel coordinates are in the range to 1/200 of a pixel. *)
Theorem C38_warning : forall z pix, (pixel_warning z pix = true <-> 1 / 100 < Rabs (2 * z / pix - IZR (npix z pix))) /\
  (0 < pix -> 0 <= z -> pixel_warning z pix = false -> forall a, -1 <= a <= 1 ->
   - (1 / 2) - 1 / 200 <= detpix z pix (a * z) <= IZR (npix z pix) - 1 / 2 + 1 / 200).
Proof.
  intros z pix. unfold pixel_warning. split; [apply Rltb_true|]. intros P Z W a A. apply Rltb_false in W.
  destruct (detpix_range z pix P a A Z) as [[B C] _]. rewrite (Rabs_minus_sym (IZR (npix z pix))) in B, C. lra.
Qed.
Print Assumptions C38_warning.

(** A chip of 2 x 2 mm with pixels of 0.8 mm has 2 pixels per side; a photon close to its edge is in pixel coordinate -3/4. *)
Lemma axes_id : perpendicular_axes id4.
Proof.
  unfold perpendicular_axes, affine. cbn. repeat split; try (intros H; first [apply (f_equal x3) in H; cbn in H; lra | apply (f_equal y3) in H; cbn in H; lra | apply (f_equal z3) in H; cbn in H; lra]); vu; ring.
Qed.
Lemma norm_y : norm3 (xyz (v_y id4)) = 1. Proof. apply norm3_1. unfold v_y. vu. ring. Qed.
Lemma norm_z : norm3 (xyz (v_z id4)) = 1. Proof. apply norm3_1. unfold v_z. vu. ring. Qed.
Lemma npix_52 : npix 1 (4 / 5) = 2%Z.
Proof.
  unfold npix, Rround. replace (2 * 1 / (4 / 5)) with (5 / 2) by field. rewrite (Rfloor_unique (5 / 2) 2) by lra.
  cbv zeta. rewrite (proj2 (Rltb_false (5 / 2 - 2) (1 / 2))) by lra. rewrite (proj2 (Rltb_false (1 / 2) (5 / 2 - 2))) by lra. reflexivity.
Qed.
Theorem C38_range_refuted :
  ~ (forall m pix d p x y n0 n1, perpendicular_axes m -> 0 < pix -> flat_detector m pix (hom d 0) (hom p 1) = Some (x, y) ->
       flat_npix m pix = Some (n0, n1) -> - (1 / 2) <= x <= IZR n0 - 1 / 2).
Proof.
  intros H. pose (d := V3 1 0 0). pose (p := V3 (-5) (-1) 0).
  assert (Hit : exists x y, flat_detector id4 (4 / 5) (hom d 0) (hom p 1) = Some (x, y)).
  { apply C38_hit; [exact axes_id|]. split; [unfold d, v_x; vu; lra|]. exists 5, (-1), 0. split; [lra|]. unfold in_rectangle. split; [lra|]. split; [lra|].
    unfold d, p, center, v_y, v_z. vu. f_equal; ring. }
  destruct Hit as (x & y & E). destruct (C38_pixels id4 (4 / 5) d p x y axes_id ltac:(lra) E) as (k & a & b & n0 & n1 & K & (A & B & Q) & N & X & Y).
  specialize (H id4 (4 / 5) d p x y n0 n1 axes_id ltac:(lra) E N).
  assert (Aa : a = -1). { unfold d, p, center, v_y, v_z in Q. vu. injection Q. intros. lra. }
  destruct (decompose44_zooms id4 axes_id) as (r & zx & D). unfold flat_npix in N. rewrite D in N. cbn [y3 z3] in N.
  assert (N0 : npix (norm3 (xyz (v_y id4))) (4 / 5) = n0) by congruence.
  rewrite norm_y, npix_52 in N0. rewrite norm_y, <- N0, Aa in X. lra.
Qed.
Print Assumptions C38_range_refuted.
(** 2 x 2 pixels of 1 mm *)
Example C38_example : exists x y, flat_detector id4 1 (hom (V3 1 0 0) 0) (hom (V3 (-5) (1 / 2) 0) 1) = Some (x, y) /\ x = 1 /\ y = 1 / 2 /\ flat_npix id4 1 = Some (2, 2)%Z.
Proof.
  pose (d := V3 1 0 0). pose (p := V3 (-5) (1 / 2) 0).
  assert (Hit : exists x y, flat_detector id4 1 (hom d 0) (hom p 1) = Some (x, y)).
  { apply C38_hit; [exact axes_id|]. split; [unfold d, v_x; vu; lra|]. exists 5, (1 / 2), 0. split; [lra|]. unfold in_rectangle. split; [lra|]. split; [lra|].
    unfold d, p, center, v_y, v_z. vu. f_equal; ring. }
  destruct Hit as (x & y & E). destruct (C38_pixels id4 1 d p x y axes_id ltac:(lra) E) as (k & a & b & n0 & n1 & K & (A & B & Q) & N & X & Y).
  destruct (C38_range_partial id4 1 d p x y 2 2 axes_id ltac:(lra) E) as (N' & _); [rewrite norm_y; field|rewrite norm_z; field|].
  rewrite N in N'. injection N' as -> ->. exists x, y. split; [exact E|]. rewrite norm_y in X. rewrite norm_z in Y.
  assert (Q2 : a = 1 / 2 /\ b = 0). { unfold d, p, center, v_y, v_z in Q. vu. injection Q. intros. split; lra. }
  destruct Q2 as [-> ->]. split; [lra|]. split; [lra|exact N].
Qed.
