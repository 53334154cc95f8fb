(** C234: the image on a detector that is not in the focus of a lens. *)
From Verif Require Import Defocus_Model.
From Verif Require Import Base_Proofs Vec_Proofs Coords_Proofs Plane_Proofs Lens_Proofs Grating_Proofs Instrument_Proofs Instrument_Proofs2 Layers_Proofs Whole_Proofs Analysis_Proofs Analysis_Proofs2 Instrument_Props.
From Verif Require Import Defocus_Proofs.
Open Scope R_scope.
Open Scope list_scope.

(** ** C234 *)
(** A photon of direction [d] that enters the lens at [q]: it is detected on the line between [q] and the focus [F]; how far from [F] depends on the lens and the detector only. *)
Theorem C234_position : forall m md off f refl rn d ph ps drs ph1 q loc d2 q2 loc2, perpendicular_axes m -> perpendicular_axes md -> parallel_to m md -> dot3 d d = 1 -> f <> 0 ->
  Forall well_made ps -> all_straight ps (tl drs) -> Instrument_Model.meets m ph = Some (d, q, loc) -> through (PLens m off f refl rn :: ps) drs ph = Ok ph1 -> Instrument_Model.meets md ph1 = Some (d2, q2, loc2) ->
  let F := add3 (sub3 (xyz (center m)) (scale3 (off / norm3 (xyz (v_z m))) (xyz (v_z m)))) (scale3 f d) in q2 = add3 F (scale3 (blur m md f d) (sub3 q F)).
Proof. exact blurred. Qed.
Print Assumptions C234_position.
(** The spot is a scaled picture of the illuminated part of the lens: distances in both detector coordinates are those on the lens times the same number. *)
Theorem C234_spot : forall m md off f refl rn d c c', perpendicular_axes m -> perpendicular_axes md -> parallel_to m md -> dot3 d d = 1 -> f <> 0 -> seen m md off f refl rn d c -> seen m md off f refl rn d c' ->
  fst (snd c) - fst (snd c') = blur m md f d * (fst (fst c) - fst (fst c')) /\ snd (snd c) - snd (snd c') = blur m md f d * (snd (fst c) - snd (fst c')).
Proof.
  intros m md off f refl rn d c c' P PD PA U Fz S S'. rewrite (seen_scaled m md off f refl rn d c P PD PA U Fz S), (seen_scaled m md off f refl rn d c' P PD PA U Fz S'). cbn [fst snd]. split; ring.
Qed.
Print Assumptions C234_spot.
(** The width of the spot as calculated by mean_width_2d is the width of the illuminated part of the lens times the absolute value of this number. *)
Theorem C234_width : forall m md off f refl rn d l w, perpendicular_axes m -> perpendicular_axes md -> parallel_to m md -> dot3 d d = 1 -> f <> 0 -> Forall (seen m md off f refl rn d) l ->
  mean_width_2d (map fst l) = Some w -> mean_width_2d (map snd l) = Some (Rabs (blur m md f d) * w).
Proof. exact width_scaled. Qed.
Print Assumptions C234_width.
(** The number: 0 if and only if the focus is in the plane of the detector ... *)
Theorem C234_focus : forall m md off f d, perpendicular_axes m -> parallel_to m md -> dot3 d (xyz (v_x m)) <> 0 -> f <> 0 ->
  let F := add3 (sub3 (xyz (center m)) (scale3 (off / norm3 (xyz (v_z m))) (xyz (v_z m)))) (scale3 f d) in
  blur m md f d = 0 <-> dot3 (sub3 F (xyz (center md))) (xyz (v_x md)) = 0.
Proof.
  intros m md off f d P (j & ky & kz & J & _ & _ & VX & _) N Fz F. pose proof (focus_height m off f d P) as H. change (focus_of m off f d) with F in H. rewrite VX, dot3_scale_r.
  assert (E : dot3 (sub3 F (xyz (center md))) (xyz (v_x m)) = f * dot3 d (xyz (v_x m)) * blur m md f d).
  { unfold blur. replace (dot3 (sub3 F (xyz (center md))) (xyz (v_x m))) with (dot3 (sub3 F (xyz (center m))) (xyz (v_x m)) - dot3 (sub3 (xyz (center md)) (xyz (center m))) (xyz (v_x m))) by (generalize F (xyz (center md)) (xyz (center m)) (xyz (v_x m)); clear; intros; vu; ring).
    rewrite H. field. now split. }
  rewrite E. pose proof (Rmult_integral_contrapositive_currified f _ Fz N) as K. split; [intros ->; ring|]. intros Z. apply Rmult_integral in Z. destruct Z as [Z|Z]; [congruence|]. apply Rmult_integral in Z. destruct Z as [Z|Z]; [congruence|exact Z].
Qed.
Print Assumptions C234_focus.
(** ... and 1 - x / f for photons along the optical axis, if the detector is at a distance [x] behind the lens. *)
Theorem C234_on_axis : forall m md f d x, dot3 d (xyz (v_x m)) <> 0 -> f <> 0 -> xyz (center md) = add3 (xyz (center m)) (scale3 x d) -> blur m md f d = 1 - x / f.
Proof.
  intros m md f d x N Fz E. unfold blur. rewrite E. replace (dot3 (sub3 (add3 (xyz (center m)) (scale3 x d)) (xyz (center m))) (xyz (v_x m))) with (x * dot3 d (xyz (v_x m))) by (generalize (xyz (center m)) (xyz (v_x m)); clear; intros; vu; ring). field. now split.
Qed.
Print Assumptions C234_on_axis.
(** Example: a lens with focal length 1 at the origin and a detector half way to the focus; the photon that enters the lens at y = 1/2 is seen at y = 1/4. *)
Definition half_way : m4 := M4 (V4 1 0 0 0) (V4 0 1 0 0) (V4 0 0 1 0) (V4 (- (1 / 2)) 0 0 1).
Example ex_C234 : perpendicular_axes half_way /\ parallel_to id4 half_way /\ blur id4 half_way 1 (V3 (-1) 0 0) = 1 / 2 /\ seen id4 half_way 0 1 (fun _ _ => 1) (fun _ => None) (V3 (-1) 0 0) ((1 / 2, 0), (1 / 4, 0)).
Proof.
  assert (A : perpendicular_axes half_way).
  { unfold perpendicular_axes, half_way. split; [repeat split|]. cbn [v_x v_y v_z b0 b1 b2 xyz x4 y4 z4].
    repeat split; try (intros K; pose proof (f_equal x3 K); pose proof (f_equal y3 K); pose proof (f_equal z3 K); cbn in *; lra); vu; ring. }
  split; [exact A|]. split; [exists 1, 1, 1; repeat split; try lra; unfold half_way; vu; cbn; f_equal; ring|].
  split; [unfold blur, half_way; vu; cbn; field|].
  destruct (ex_lens_one dr0 (1 / 2)) as (n & v & N & O & _); [lra|]. set (d2 := scale3 (/ n) (V3 (-1) (- (1 / 2)) 0)).
  exists (ex_photon (1 / 2) 0 (V3 0 1 0) 1 1), [], [], (LPhoton (Some d2) (Some (V3 0 (1 / 2) 0)) v 1 (Some (1 * (1 * 1)))), (V3 0 (1 / 2) 0), d2, (V3 (- (1 / 2)) (1 / 4) 0).
  split; [constructor|]. split; [exact I|]. split; [apply ex_meets; lra|]. split; [cbn [through]; change (hd (Draw 0 0 0 0 0 0 0) []) with dr0; fold ex_lens; rewrite O; reflexivity|].
  assert (N1 : forall w, w = V3 0 1 0 \/ w = V3 0 0 1 -> norm3 w = 1) by (intros w [->| ->]; apply norm3_1; vu; ring).
  apply (meets_iff _ _ _ _ _ A). cbn [l_dir l_pos]. assert (0 < / n) by (apply Rinv_0_lt_compat; lra). split; [reflexivity|]. split; [unfold d2, half_way; intros K; vu; cbn in K; lra|].
  exists (V3 0 (1 / 2) 0), (n / 2), (1 / 4), 0. split; [reflexivity|]. split; [lra|]. split; [unfold d2; vu; f_equal; field; lra|]. split; [unfold in_rectangle, half_way; repeat split; try lra; cbn; vu; f_equal; ring|].
  unfold half_way. cbn [snd v_y v_z b1 b2 xyz x4 y4 z4]. rewrite !N1 by auto. f_equal; ring.
Qed.
