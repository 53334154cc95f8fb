(** Properties C175 and C176: a whole telescope. *)
From Verif Require Export Telescope_Model.
From Verif Require Import Vec_Proofs Plane_Proofs Lens_Proofs Detector_Proofs Source_Proofs Source_Props Aperture_Proofs Telescope_Proofs.
Open Scope R_scope.

(** ** C175 *)
(** All photons of a source that hit the lens fly on, with unit direction, towards one point, wherever they entered: the center of the lens plus the focal length times their first direction. *)
Theorem C175_image : forall t ra dec, affine (p_ref (t_point t)) -> orthonormal (lin (p_ref (t_point t))) -> perpendicular_axes (t_aper t) -> perpendicular_axes (t_lens t) ->
  exists F, norm3 (sub3 F (xyz (center (t_lens t)))) = Rabs (t_f t) /\ forall u1 u2 r o, observe t ra dec u1 u2 = Some (r, o) ->
  (forall r0, enter (t_point t) (t_aper t) ra dec u1 u2 = Some r0 -> fst (fst (plane_intersect (t_lens t) (hom (y_dir r0) 0) (hom (y_pos r0) 1))) = true) ->
  norm3 (y_dir r) = 1 /\ exists k, 0 < k /\ add3 (y_pos r) (scale3 k (y_dir r)) = F.
Proof.
  intros t ra dec A O PA PL. destruct (dir_unit (t_point t) ra dec A O) as (d & D & U & _). exists (image (t_lens t) (t_f t) d). split.
  - unfold image. replace (sub3 (add3 (xyz (center (t_lens t))) (scale3 (t_f t) d)) (xyz (center (t_lens t)))) with (scale3 (t_f t) d) by (generalize (xyz (center (t_lens t))) (t_f t); clear; vring). rewrite norm3_scale. unfold norm3. rewrite U, sqrt_1. ring.
  - intros u1 u2 r o E H. destruct (observe_focus t ra dec u1 u2 r o A O PA PL H E) as (d' & D' & N & K & _). assert (DD : d' = d). { rewrite D in D'. apply (f_equal (fun o => match o with Some v => xyz v | None => zero3 end)) in D'. clear - D'. destruct d, d'. exact (eq_sym D'). } subst d'. auto.
Qed.
Print Assumptions C175_image.
(** The images of two sources at an angle [th] are [2 f sin (th / 2)] apart. *)
Theorem C175_scale : forall p m f ra dec ra' dec' th, affine (p_ref p) -> orthonormal (lin (p_ref p)) -> 0 < f -> 0 <= th <= PI -> dot3 (skyvec ra dec) (skyvec ra' dec') = cos th ->
  exists d d', photons_dir p ra dec = Some (hom d 0) /\ photons_dir p ra' dec' = Some (hom d' 0) /\ norm3 (sub3 (image m f d) (image m f d')) = 2 * f * sin (th / 2).
Proof.
  intros p m f ra dec ra' dec' th A O F T C. destruct (C113_angles p ra dec ra' dec' A O) as (d & d' & D & D' & U & U' & E). exists d, d'. split; [exact D|]. split; [exact D'|]. apply image_scale; try assumption. now rewrite E.
Qed.
Print Assumptions C175_scale.
(** A photon that passes beside the lens is left as it is. *)
Theorem C175_missed : forall m f refl r, fst (fst (plane_intersect m (hom (y_dir r) 0) (hom (y_pos r) 1))) = false -> through_lens m f refl r = Some r.
Proof. intros m f refl r H. unfold through_lens. destruct (plane_intersect _ _ _) as [[[|] ip] il]; [discriminate|reflexivity]. Qed.
Print Assumptions C175_missed.
(** A detector through that point at the fractions [a], [b] of its edges records all of them in one pixel. *)
Theorem C175_pixel : forall t ra dec a b, affine (p_ref (t_point t)) -> orthonormal (lin (p_ref (t_point t))) -> perpendicular_axes (t_aper t) -> perpendicular_axes (t_lens t) -> perpendicular_axes (t_det t) ->
  (exists d, photons_dir (t_point t) ra dec = Some (hom d 0) /\ in_rectangle (t_det t) a b (image (t_lens t) (t_f t) d)) ->
  forall u1 u2 r o, observe t ra dec u1 u2 = Some (r, o) -> (forall r0, enter (t_point t) (t_aper t) ra dec u1 u2 = Some r0 -> fst (fst (plane_intersect (t_lens t) (hom (y_dir r0) 0) (hom (y_pos r0) 1))) = true) ->
  dot3 (y_dir r) (xyz (v_x (t_det t))) <> 0 -> let wy := norm3 (xyz (v_y (t_det t))) in let wz := norm3 (xyz (v_z (t_det t))) in
  o = Some (a * wy / t_pix t + (IZR (npix wy (t_pix t)) - 1) / 2, b * wz / t_pix t + (IZR (npix wz (t_pix t)) - 1) / 2).
Proof.
  intros t ra dec a b A O PA PL PD (d & D & I) u1 u2 r o E H X. destruct (observe_focus t ra dec u1 u2 r o A O PA PL H E) as (d' & D' & _ & _ & Q). assert (DD : d' = d). { rewrite D in D'. apply (f_equal (fun o => match o with Some v => xyz v | None => zero3 end)) in D'. clear - D'. destruct d, d'. exact (eq_sym D'). } subst d'. exact (Q a b PD I X).
Qed.
Print Assumptions C175_pixel.
(** A telescope along the x axis (opening no larger than the lens and in front of it, detector at the focus), pointed at the source, records every photon, in the central pixel. Its probability is the square of the reflectivity. *)
Theorem C175_onaxis : forall p x0 ax ay az f lx ly lz refl dx dy dz pix u1 u2, p_ref p = id4 -> 0 < f -> f <= x0 -> 0 < ax -> 0 < ay <= ly -> 0 < az <= lz -> 0 < lx -> 0 < dx -> 0 < dy -> 0 < dz -> 0 < pix -> 0 <= u1 <= 1 -> 0 <= u2 <= 1 ->
  exists r, observe (Telescope p (upright x0 ax ay az) (upright f lx ly lz) f refl (upright 0 dx dy dz) pix) (p_ra p) (p_dec p) u1 u2 = Some (r, Some ((IZR (npix dy pix) - 1) / 2, (IZR (npix dz pix) - 1) / 2)) /\
  exists s, y_prob r = refl s * refl s.
Proof. exact onaxis_center. Qed.
Print Assumptions C175_onaxis.
(** Off axis: a photon of direction [d] through the point [y], [z] of the lens is recorded at [f d_y / c - y (1 / c - 1)], where [c] is the cosine of the angle between [d] and the axis. *)
Theorem C175_offaxis : forall f lx ly lz refl dx dy dz pix r r' y z, let c := - x3 (y_dir r) in let Y := f * y3 (y_dir r) / c - y * (1 / c - 1) in let Z := f * z3 (y_dir r) / c - z * (1 / c - 1) in
  0 < f -> 0 < lx -> 0 < ly -> 0 < lz -> 0 < dx -> 0 < dy -> 0 < dz -> 0 < c -> dot3 (y_dir r) (y_dir r) = 1 ->
  fst (fst (plane_intersect (upright f lx ly lz) (hom (y_dir r) 0) (hom (y_pos r) 1))) = true -> (exists k, add3 (y_pos r) (scale3 k (y_dir r)) = V3 f y z) -> through_lens (upright f lx ly lz) f refl r = Some r' -> Rabs Y <= dy -> Rabs Z <= dz ->
  flat_detector (upright 0 dx dy dz) pix (hom (y_dir r') 0) (hom (y_pos r') 1) = Some (Y / pix + (IZR (npix dy pix) - 1) / 2, Z / pix + (IZR (npix dz pix) - 1) / 2).
Proof. exact offaxis_point. Qed.
Print Assumptions C175_offaxis.
(** So the flat detector does not image an off-axis source in one pixel: two photons of one direction. *)
Lemma npix_10 : npix 10 1 = 20%Z. Proof. unfold npix. replace (2 * 10 / 1) with (IZR 20) by lra. apply Rround_IZR. Qed.
Definition slanted (y : R) : ray := Ray (V3 (- 3 / 5) (4 / 5) 0) (V3 6 y 0) 1.
Lemma slanted_hit y : -6 <= y <= 6 -> fst (fst (plane_intersect (upright 6 1 6 6) (hom (y_dir (slanted y)) 0) (hom (y_pos (slanted y)) 1))) = true.
Proof.
  intros Y. apply plane_hit_iff; [apply upright_axes; lra|]. unfold slanted. cbn [y_dir y_pos]. split; [unfold upright, v_x; vu; cbn; lra|]. exists 0, (y / 6), 0. split; [lra|]. split; [lra|]. split; [lra|]. unfold upright, center, v_y, v_z. vu. f_equal; field.
Qed.
Theorem C175_flat_refuted : exists y y' r r', y_dir (slanted y) = y_dir (slanted y') /\ through_lens (upright 6 1 6 6) 6 (fun _ => 1) (slanted y) = Some r /\ through_lens (upright 6 1 6 6) 6 (fun _ => 1) (slanted y') = Some r' /\
  flat_detector (upright 0 1 10 10) 1 (hom (y_dir r) 0) (hom (y_pos r) 1) = Some (8 + 19 / 2, 19 / 2) /\ flat_detector (upright 0 1 10 10) 1 (hom (y_dir r') 0) (hom (y_pos r') 1) = Some (6 + 19 / 2, 19 / 2).
Proof.
  assert (PL : perpendicular_axes (upright 6 1 6 6)) by (apply upright_axes; lra).
  assert (T : forall y, -3 <= y <= 3 -> exists r, through_lens (upright 6 1 6 6) 6 (fun _ => 1) (slanted y) = Some r).
  { intros y Y. unfold through_lens. destruct (plane_intersect _ _ _) as [[h ip] il] eqn:E. pose proof (slanted_hit y ltac:(lra)) as H. rewrite E in H. cbn in H. subst h. destruct (plane_hit_values _ _ _ _ ip il PL E) as [_ V]. destruct (V eq_refl) as (k & a & b & q & _ & (_ & _ & RQ) & _ & -> & _).
    assert (L : exists out p, perfect_lens (upright 6 1 6 6) 0 6 (fun _ => 1) (y_dir (slanted y)) (xyz (hom q 1)) = Some (out, p)).
    { apply lens_total; [exact PL| |]. intros Z. apply (f_equal x3) in Z. cbn in Z. lra.
      rewrite image_focus; [|exact PL|unfold slanted; vu; cbn; lra]. intros Z. apply (f_equal (fun o => match o with Some v => x3 v | None => 0 end)) in Z. assert (X : x3 (xyz (hom q 1)) = 6) by (rewrite RQ; unfold upright, center, v_y, v_z; vu; cbn; ring). rewrite X in Z. unfold image, upright, center, slanted in Z. cbn in Z. lra. }
    destruct L as (out & p & L). rewrite L. now eexists. }
  destruct (T 0 ltac:(lra)) as [r R1]. destruct (T 3 ltac:(lra)) as [r' R2]. exists 0, 3, r, r'. split; [reflexivity|]. split; [exact R1|]. split; [exact R2|].
  assert (G : forall y r0, -3 <= y <= 3 -> through_lens (upright 6 1 6 6) 6 (fun _ => 1) (slanted y) = Some r0 -> flat_detector (upright 0 1 10 10) 1 (hom (y_dir r0) 0) (hom (y_pos r0) 1) = Some (8 - y * (2 / 3) + 19 / 2, 19 / 2)).
  { intros y r0 Y E. rewrite (C175_offaxis 6 1 6 6 (fun _ => 1) 1 10 10 1 (slanted y) r0 y 0); try lra.
    - rewrite npix_10. unfold slanted. cbn [y_dir x3 y3 z3]. f_equal. f_equal; field.
    - unfold slanted. cbn [y_dir x3]. lra.
    - unfold slanted. vu. cbn. lra.
    - apply slanted_hit. lra.
    - exists 0. unfold slanted. cbn [y_pos y_dir]. vu. f_equal; ring.
    - exact E.
    - unfold slanted. cbn [y_dir x3 y3 z3]. replace (6 * (4 / 5) / - (- 3 / 5) - y * (1 / - (- 3 / 5) - 1)) with (8 - y * (2 / 3)) by field. apply Rabs_le. lra.
    - unfold slanted. cbn [y_dir x3 y3 z3]. replace (6 * 0 / - (- 3 / 5) - 0 * (1 / - (- 3 / 5) - 1)) with 0 by field. rewrite Rabs_R0. lra. }
  split; [rewrite (G 0 r) by (lra || assumption)|rewrite (G 3 r') by (lra || assumption)]; f_equal; f_equal; lra.
Qed.
Print Assumptions C175_flat_refuted.
Example C175_example : exists r, observe (Telescope (Pointing 1 (1 / 2) 2 id4) (upright 12 1 5 5) (upright 6 1 6 6) 6 (fun _ => 1 / 2) (upright 0 1 10 10) 1) 1 (1 / 2) (1 / 4) 1 = Some (r, Some (19 / 2, 19 / 2)) /\ y_prob r = 1 / 4.
Proof.
  destruct (C175_onaxis (Pointing 1 (1 / 2) 2 id4) 12 1 5 5 6 1 6 6 (fun _ => 1 / 2) 1 10 10 1 (1 / 4) 1) as (r & E & s & P); try lra; [reflexivity|].
  exists r. split; [|rewrite P; lra]. cbn [p_ra p_dec] in E. rewrite E, npix_10. f_equal. f_equal. f_equal. f_equal; lra.
Qed.

(** ** C176 *)
(** The requested number of photons, one per second from time 0, all of the given energy and with probability 1; their direction is the image of -x. *)
Theorem C176_photons : forall energy n ref angles, (0 < n <= length angles)%nat -> exists l, mono_photons energy (INR n) ref angles = Ok l /\ length l = n /\
  forall i, (i < n)%nat -> exists o, nth_error l i = Some (INR i, energy, o, 1) /\ forall d q, o = Some (d, q) -> d = app4 ref (V4 (-1) 0 0 0).
Proof.
  intros energy n ref angles [N L]. destruct (mono_spec energy n ref angles L N) as (l & E & LL & H). exists l. split; [exact E|]. split; [exact LL|]. intros i I. destruct (H i I) as (a & _ & Q). eexists. split; [exact Q|].
  intros d q O. unfold fixed_pointing in O. pose proof (C113_onaxis (Pointing (PI / 6) (PI / 6) 0 ref)) as D. cbn [p_ra p_dec p_ref] in D. rewrite D in O. destruct (photons_pol _ _ _); [|discriminate]. now apply (f_equal (fun o => match o with Some (v, _) => v | None => d end)) in O.
Qed.
Print Assumptions C176_photons.
(** For a rotated and shifted coordinate system there are no nan, and the polarization is a unit vector perpendicular to the direction. *)
Theorem C176_polarization : forall energy n ref angles, (0 < n <= length angles)%nat -> affine ref -> rotation (lin ref) -> exists l, mono_photons energy (INR n) ref angles = Ok l /\
  forall i, (i < n)%nat -> exists d q, nth_error l i = Some (INR i, energy, Some (hom d 0, hom q 0), 1) /\ dot3 d d = 1 /\ dot3 q q = 1 /\ dot3 d q = 0.
Proof.
  intros energy n ref angles [N L] A R. destruct (mono_spec energy n ref angles L N) as (l & E & LL & H). exists l. split; [exact E|]. intros i I. destruct (H i I) as (a & _ & Q).
  assert (C : 0 < cos (PI / 6)) by (apply cos_gt_0; pose proof PI_RGT_0; lra). destruct (C114_pol (Pointing (PI / 6) (PI / 6) 0 ref) (PI / 6) (PI / 6) (uniform 0 (2 * PI) a) A R C) as (m & d & q & Ro & F & _ & D & _ & QQ & DQ).
  rewrite F in Q. exists d, q. split; [exact Q|]. split; [|now split]. rewrite D. destruct Ro as [Oo _]. rewrite orthonormal_dot by exact Oo. rewrite neg3_dot. apply skyvec_unit.
Qed.
Print Assumptions C176_polarization.
Example C176_example : exists l o, mono_photons (3 / 2) 2 id4 [0; 1 / 2; 1 / 3] = Ok l /\ length l = 2%nat /\ nth_error l 1 = Some (1, 3 / 2, o, 1).
Proof.
  destruct (C176_photons (3 / 2) 2 id4 [0; 1 / 2; 1 / 3]) as (l & E & L & H); [cbn; lia|]. destruct (H 1%nat) as (o & Q & _); [lia|]. exists l, o. split; [exact E|]. split; [exact L|exact Q].
Qed.
