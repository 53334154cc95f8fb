(** Properties C35, C36, C78, C79. *)
From Verif Require Import Vec_Proofs Grating_Proofs Plane_Proofs.
Open Scope R_scope.

(** The direction of the grooves and the direction of dispersion for groove angle [g] are the local z and y axes, rotated by [g] in the plane. *)
Theorem C35_grooves : forall ey ez g,
  e_groove ey ez g = add3 (scale3 (- sin g) ey) (scale3 (cos g) ez) /\ e_perp_groove ey ez g = add3 (scale3 (cos g) ey) (scale3 (sin g) ez).
Proof. intros. unfold e_groove, e_perp_groove. rewrite cos_neg, sin_neg. split; [reflexivity|]. generalize (cos g) (sin g). clear. vring. Qed.
Print Assumptions C35_grooves.
(** Grating equation: [mat] any position without shear, [p] the normalized incoming direction, not parallel to the grating. *)
Theorem C35_equation : forall c tr mat g dir m wave per out bl ey ez en p,
  perpendicular_axes mat -> dir <> zero3 -> plane_bases mat = Some (ey, ez, en) -> p = scale3 (/ norm3 dir) dir -> dot3 p (xyz en) <> 0 ->
  grating c tr mat g dir m wave per = Some (out, bl) ->
  let l := e_groove (xyz ey) (xyz ez) g in let disp := e_perp_groove (xyz ey) (xyz ez) g in
  norm3 out = 1 /\ dot3 out l = dot3 p l /\
  dot3 out disp = dot3 p disp + (match c with FlatSign => 1 | CATSign => if Rleb (dot3 p disp) 0 then -1 else 1 end) * (IZR m * wave / per) /\
  0 <= (if tr then 1 else -1) * dot3 out (xyz en) * dot3 p (xyz en).
Proof. exact grating_main. Qed.
Print Assumptions C35_equation.
(** Every non-evanescent order has a direction, all others get nan. *)
Theorem C35_evanescent : forall c tr mat g dir m wave per ey ez en p,
  perpendicular_axes mat -> dir <> zero3 -> plane_bases mat = Some (ey, ez, en) -> p = scale3 (/ norm3 dir) dir ->
  let l := e_groove (xyz ey) (xyz ez) g in let disp := e_perp_groove (xyz ey) (xyz ez) g in
  let t := dot3 p disp + (match c with FlatSign => 1 | CATSign => if Rleb (dot3 p disp) 0 then -1 else 1 end) * (IZR m * wave / per) in
  (exists r, grating c tr mat g dir m wave per = Some r) <-> t * t + dot3 p l * dot3 p l <= 1.
Proof. exact grating_exists. Qed.
Print Assumptions C35_evanescent.
(** Order 0: straight through in transmission, mirror reflection for a reflection grating. *)
Theorem C35_order_zero : forall c mat g dir wave per ey ez en p,
  perpendicular_axes mat -> dir <> zero3 -> plane_bases mat = Some (ey, ez, en) -> p = scale3 (/ norm3 dir) dir -> dot3 p (xyz en) <> 0 ->
  option_map fst (grating c true mat g dir 0 wave per) = Some p /\
  option_map fst (grating c false mat g dir 0 wave per) = Some (sub3 p (scale3 (2 * dot3 p (xyz en)) (xyz en))).
Proof. exact grating_zero. Qed.
Print Assumptions C35_order_zero.
(** Normal incidence on the unrotated grating, first order with wavelength / period = 3/5. *)
Lemma e1_ne : V3 1 0 0 <> zero3. Proof. intros H. apply (f_equal x3) in H. cbn in H. lra. Qed.
Lemma e1_unit : V3 1 0 0 = scale3 (/ norm3 (V3 1 0 0)) (V3 1 0 0).
Proof. rewrite (proj2 (norm3_1 (V3 1 0 0))) by (vu; ring). vu. f_equal; field. Qed.
Example C35_example : exists out bl, grating FlatSign true id4 0 (V3 1 0 0) 1 (3 / 5) 1 = Some (out, bl) /\ y3 out = 3 / 5 /\ z3 out = 0 /\ norm3 out = 1.
Proof.
  destruct (C35_evanescent FlatSign true id4 0 (V3 1 0 0) 1 (3 / 5) 1 _ _ _ _ id4_axes e1_ne id4_bases e1_unit) as [_ H].
  destruct H as [[out bl] G]. { unfold e_groove, e_perp_groove. rewrite Ropp_0, sin_0, cos_0. vu. lra. }
  exists out, bl. split; [exact G|].
  destruct (C35_equation FlatSign true id4 0 (V3 1 0 0) 1 (3 / 5) 1 out bl _ _ _ _ id4_axes e1_ne id4_bases e1_unit ltac:(vu; lra) G) as (N & L & D & _).
  unfold e_groove, e_perp_groove in L, D. rewrite Ropp_0, sin_0, cos_0 in L, D. clear G. destruct out as [x y z]. vu. repeat split; lra.
Qed.

(** C36: the documented direction of displacement is the local z axis; the code displaces along the local y axis. *)
Theorem C36_direction_refuted :
  ~ (forall mat dir m wave per out bl ey ez en p,
       perpendicular_axes mat -> dir <> zero3 -> plane_bases mat = Some (ey, ez, en) -> p = scale3 (/ norm3 dir) dir -> dot3 p (xyz en) <> 0 ->
       (0 < m)%Z -> 0 < wave -> 0 < per -> grating FlatSign true mat 0 dir m wave per = Some (out, bl) -> dot3 p (xyz ez) < dot3 out (xyz ez)).
Proof.
  intros H. destruct C35_example as (out & bl & G & Y & Z & N).
  specialize (H id4 (V3 1 0 0) 1%Z (3 / 5) 1 out bl _ _ _ _ id4_axes e1_ne id4_bases e1_unit ltac:(vu; lra) ltac:(lia) ltac:(lra) ltac:(lra) G).
  clear G. destruct out as [x y z]. vu. lra.
Qed.
Print Assumptions C36_direction_refuted.
Theorem C36_displacement_along_y : forall tr mat dir m wave per out bl ey ez en p,
  perpendicular_axes mat -> dir <> zero3 -> plane_bases mat = Some (ey, ez, en) -> p = scale3 (/ norm3 dir) dir -> dot3 p (xyz en) <> 0 ->
  grating FlatSign tr mat 0 dir m wave per = Some (out, bl) ->
  dot3 out (xyz ey) = dot3 p (xyz ey) + IZR m * wave / per /\ dot3 out (xyz ez) = dot3 p (xyz ez).
Proof.
  intros tr mat dir m wave per out bl ey ez en p A D B U N G.
  destruct (grating_main FlatSign tr mat 0 dir m wave per out bl ey ez en p A D B U N G) as (_ & L & Dd & _).
  unfold e_groove, e_perp_groove in L, Dd. rewrite Ropp_0, sin_0, cos_0 in L, Dd.
  assert (E1 : forall v, dot3 v (add3 (scale3 0 (xyz ey)) (scale3 1 (xyz ez))) = dot3 v (xyz ez)) by (intros v; generalize (xyz ey) (xyz ez); clear; vring).
  assert (E2 : forall v, dot3 v (sub3 (scale3 1 (xyz ey)) (scale3 0 (xyz ez))) = dot3 v (xyz ey)) by (intros v; generalize (xyz ey) (xyz ez); clear; vring).
  rewrite !E1 in L. rewrite !E2 in Dd. split; [lra|exact L].
Qed.
Print Assumptions C36_displacement_along_y.
Example C36_example : exists out bl, grating FlatSign true id4 0 (V3 1 0 0) 1 (3 / 5) 1 = Some (out, bl) /\ dot3 out (V3 0 1 0) = 3 / 5 /\ dot3 out (V3 0 0 1) = 0.
Proof.
  destruct C35_example as (out & bl & G & _). exists out, bl. split; [exact G|].
  destruct (C36_displacement_along_y true id4 (V3 1 0 0) 1 (3 / 5) 1 out bl _ _ _ _ id4_axes e1_ne id4_bases e1_unit ltac:(vu; lra) G) as [Y Z]. clear G. destruct out as [x y z]. vu. split; lra.
Qed.
(** "If the grating is rotated by -pi the physical situation is the same, but the sign of the grating order will be reversed." *)
Theorem C36_turned : forall tr mat g dir m wave per,
  option_map fst (grating FlatSign tr mat (g + PI) dir (- m) wave per) = option_map fst (grating FlatSign tr mat g dir m wave per).
Proof. exact grating_turn. Qed.
Print Assumptions C36_turned.

(** C78: for a CAT grating turning the grating by pi changes nothing, and the blaze peak (specular reflection off the bars) is at negative orders. *)
Theorem C78_turned : forall tr mat g dir m wave per ey ez en p,
  perpendicular_axes mat -> dir <> zero3 -> plane_bases mat = Some (ey, ez, en) -> p = scale3 (/ norm3 dir) dir ->
  dot3 p (e_perp_groove (xyz ey) (xyz ez) g) <> 0 ->
  option_map fst (grating CATSign tr mat (g + PI) dir m wave per) = option_map fst (grating CATSign tr mat g dir m wave per).
Proof. exact grating_cat_turn. Qed.
Print Assumptions C78_turned.
Theorem C78_blaze_negative : forall mat g dir m wave per ey ez en p,
  perpendicular_axes mat -> dir <> zero3 -> plane_bases mat = Some (ey, ez, en) -> p = scale3 (/ norm3 dir) dir -> dot3 p (xyz en) <> 0 ->
  let disp := e_perp_groove (xyz ey) (xyz ez) g in
  IZR m * wave / per = - (2 * Rabs (dot3 p disp)) ->
  option_map fst (grating CATSign true mat g dir m wave per) = Some (sub3 p (scale3 (2 * dot3 p disp) disp)).
Proof. exact grating_cat_bars. Qed.
Print Assumptions C78_blaze_negative.
(** direction (4, 3, 0): order -1 with wavelength / period = 6/5 goes out at (4/5, -3/5, 0) *)
Lemma d43_ne : V3 4 3 0 <> zero3. Proof. intros H. apply (f_equal x3) in H. cbn in H. lra. Qed.
Lemma d43_unit : V3 (4 / 5) (3 / 5) 0 = scale3 (/ norm3 (V3 4 3 0)) (V3 4 3 0).
Proof.
  assert (E : norm3 (V3 4 3 0) = 5). { unfold norm3. replace (dot3 (V3 4 3 0) (V3 4 3 0)) with (Rsqr 5) by (vu; unfold Rsqr; ring). apply sqrt_Rsqr. lra. }
  rewrite E. vu. f_equal; field.
Qed.
Example C78_example : option_map fst (grating CATSign true id4 0 (V3 4 3 0) (-1) (6 / 5) 1) = Some (V3 (4 / 5) (- (3 / 5)) 0).
Proof.
  rewrite (C78_blaze_negative id4 0 (V3 4 3 0) (-1) (6 / 5) 1 _ _ _ _ id4_axes d43_ne id4_bases d43_unit).
  - unfold e_perp_groove. rewrite Ropp_0, sin_0, cos_0. vu. f_equal. f_equal; field.
  - vu. lra.
  - unfold e_perp_groove. rewrite Ropp_0, sin_0, cos_0. vu.
    replace (4 / 5 * (1 * 0 - 0 * 0) + 3 / 5 * (1 * 1 - 0 * 0) + 0 * (1 * 0 - 0 * 1)) with (3 / 5) by field. rewrite Rabs_pos_eq by lra. lra.
Qed.

(** C79: the blaze angle lies between 0 and pi/2 and is the angle between the normal and the ray, projected along the grooves. *)
Theorem C79_blaze : forall c tr mat g dir m wave per out bl ey ez en p,
  perpendicular_axes mat -> dir <> zero3 -> plane_bases mat = Some (ey, ez, en) -> p = scale3 (/ norm3 dir) dir -> dot3 p (xyz en) <> 0 ->
  grating c tr mat g dir m wave per = Some (out, bl) ->
  let a := dot3 p (xyz en) in let e := dot3 p (e_perp_groove (xyz ey) (xyz ez) g) in
  exists b, bl = Some b /\ 0 <= b <= PI / 2 /\ cos b = Rabs a / sqrt (a * a + e * e) /\ sin b = Rabs e / sqrt (a * a + e * e).
Proof. exact grating_blaze. Qed.
Print Assumptions C79_blaze.
Example C79_example : exists out b, grating CATSign true id4 0 (V3 4 3 0) (-1) (6 / 5) 1 = Some (out, Some b) /\ cos b = 4 / 5.
Proof.
  pose proof C78_example as E. destruct (grating CATSign true id4 0 (V3 4 3 0) (-1) (6 / 5) 1) as [[out bl]|] eqn:G; [|discriminate].
  destruct (C79_blaze CATSign true id4 0 (V3 4 3 0) (-1) (6 / 5) 1 out bl _ _ _ _ id4_axes d43_ne id4_bases d43_unit ltac:(vu; lra) G) as (b & -> & _ & C & _).
  exists out, b. split; [reflexivity|]. rewrite C. unfold e_perp_groove. rewrite Ropp_0, sin_0, cos_0. clear. vu.
  replace (4 / 5 * 1 + 3 / 5 * 0 + 0 * 0) with (4 / 5) by field.
  replace (4 / 5 * (1 * 0 - 0 * 0) + 3 / 5 * (1 * 1 - 0 * 0) + 0 * (1 * 0 - 0 * 1)) with (3 / 5) by field.
  replace (4 / 5 * (4 / 5) + 3 / 5 * (3 / 5)) with 1 by field. rewrite sqrt_1, Rabs_pos_eq by lra. field.
Qed.

(** C130: the blaze angle for bars that are tilted by an angle that changes linearly across the grating *)
Theorem C130_gradient : forall c g x p l n b, blaze_angle p l n = Some b ->
  nonparallel_blaze c g 0 p l n = Some (b + c) /\
  forall dx, nonparallel_blaze c g (x + dx) p l n = option_map (fun a => a + g * dx) (nonparallel_blaze c g x p l n).
Proof.
  intros c g x p l n b B. unfold nonparallel_blaze, blaze_modifier. rewrite B. split; [f_equal; ring|]. intros dx. cbn. f_equal. ring.
Qed.
Print Assumptions C130_gradient.
(** A ray [a l + k (cos th n + sin th d)] makes the angle |th| with the normal. If it comes from the side away from which the bars are tilted, the angle
    with the walls is calculated correctly. *)
Theorem C130_side_partial : forall d l n a k th c g x, dot3 d d = 1 -> dot3 l l = 1 -> dot3 n n = 1 -> dot3 d l = 0 -> dot3 d n = 0 -> dot3 l n = 0 -> 0 < k ->
  let t := blaze_modifier c g x in let p := add3 (scale3 a l) (scale3 k (bar_wall n d th)) in
  0 <= t -> th <= 0 -> t - th <= PI / 2 -> nonparallel_blaze c g x p l n = blaze_angle p l (bar_wall n d t).
Proof.
  intros d l n a k th c g x D L N DL DN LN K t p T TH B. unfold nonparallel_blaze, p. fold t. pose proof PI_RGT_0.
  rewrite (ray_wall d l n a k th t) by (try assumption; lra).
  pose proof (ray_wall d l n a k th 0 D L N DL DN LN K ltac:(lra)) as E. rewrite wall_0 in E. rewrite E. f_equal.
  rewrite !Rabs_left1 by lra. ring.
Qed.
Print Assumptions C130_side_partial.
(** Rays from the other side get the sum of both angles, where the difference is right. *)
Theorem C130_other_side_refuted : forall d l n a k th c g x, dot3 d d = 1 -> dot3 l l = 1 -> dot3 n n = 1 -> dot3 d l = 0 -> dot3 d n = 0 -> dot3 l n = 0 -> 0 < k ->
  let t := blaze_modifier c g x in let p := add3 (scale3 a l) (scale3 k (bar_wall n d th)) in
  0 < t -> 0 < th -> th + t <= PI / 2 -> nonparallel_blaze c g x p l n = Some (th + t) /\ blaze_angle p l (bar_wall n d t) = Some (Rabs (th - t)) /\ th + t <> Rabs (th - t).
Proof.
  intros d l n a k th c g x D L N DL DN LN K t p T TH B. unfold nonparallel_blaze, p. fold t. pose proof PI_RGT_0.
  pose proof (ray_wall d l n a k th 0 D L N DL DN LN K ltac:(lra)) as E. rewrite wall_0 in E. rewrite E.
  split; [f_equal; rewrite Rabs_pos_eq by lra; ring|]. split; [apply ray_wall; try assumption; lra|]. unfold Rabs. destruct (Rcase_abs _); lra.
Qed.
Print Assumptions C130_other_side_refuted.
(** No direction of the tilt makes it right for all rays: for either sign there is a ray and a tilt where it is not. *)
Theorem C130_refuted : forall s, s = 1 \/ s = -1 -> exists d l n p c, dot3 d d = 1 /\ dot3 l l = 1 /\ dot3 n n = 1 /\ dot3 d l = 0 /\ dot3 d n = 0 /\ dot3 l n = 0 /\
  nonparallel_blaze c 0 0 p l n <> blaze_angle p l (bar_wall n d (s * c)).
Proof.
  intros s S. exists (V3 0 1 0), (V3 0 0 1), (V3 1 0 0), (add3 (scale3 0 (V3 0 0 1)) (scale3 1 (bar_wall (V3 1 0 0) (V3 0 1 0) (s * (1 / 10))))), (1 / 100).
  repeat (split; [vu; ring|]). pose proof PI2_3_2. unfold nonparallel_blaze, blaze_modifier.
  pose proof (ray_wall (V3 0 1 0) (V3 0 0 1) (V3 1 0 0) 0 1 (s * (1 / 10)) 0 ltac:(vu; ring) ltac:(vu; ring) ltac:(vu; ring) ltac:(vu; ring) ltac:(vu; ring) ltac:(vu; ring) ltac:(lra) ltac:(destruct S; subst; lra)) as E.
  pose proof (ray_wall (V3 0 1 0) (V3 0 0 1) (V3 1 0 0) 0 1 (s * (1 / 10)) (s * (1 / 100)) ltac:(vu; ring) ltac:(vu; ring) ltac:(vu; ring) ltac:(vu; ring) ltac:(vu; ring) ltac:(vu; ring) ltac:(lra) ltac:(destruct S; subst; lra)) as F.
  rewrite wall_0 in E. rewrite E, F. intros H1. injection H1. destruct S; subst; unfold Rabs; repeat destruct (Rcase_abs _); lra.
Qed.
Print Assumptions C130_refuted.
(** All points on one bar have the same angle if the bars are along the second coordinate; for any other direction of the grooves the angle changes
    along the bar. *)
Theorem C130_bar : forall c g x y s groove, let '(x', y') := (x + s * sin (- groove), y + s * cos (- groove)) in
  blaze_modifier c g x' - blaze_modifier c g x = - (g * s * sin groove).
Proof. intros. unfold blaze_modifier. rewrite sin_neg. ring. Qed.
Print Assumptions C130_bar.
Theorem C130_groove_refuted : forall c g x, g <> 0 -> exists groove s, blaze_modifier c g (x + s * sin (- groove)) <> blaze_modifier c g x.
Proof. intros c g x G. exists (PI / 2), 1. unfold blaze_modifier. rewrite sin_neg, sin_PI2. intros H. apply G. lra. Qed.
Print Assumptions C130_groove_refuted.
(** a ray 0.1 rad from the normal and bars tilted by 0.02 rad + 3 mm * 0.01 rad / mm away from it *)
Example C130_example : nonparallel_blaze (2 / 100) (1 / 100) 3 (bar_wall (V3 1 0 0) (V3 0 1 0) (- (1 / 10))) (V3 0 0 1) (V3 1 0 0) = Some (15 / 100).
Proof.
  replace (bar_wall (V3 1 0 0) (V3 0 1 0) (- (1 / 10))) with (add3 (scale3 0 (V3 0 0 1)) (scale3 1 (bar_wall (V3 1 0 0) (V3 0 1 0) (- (1 / 10))))) by (unfold bar_wall; vu; f_equal; ring).
  pose proof PI2_3_2. pose proof (C130_side_partial (V3 0 1 0) (V3 0 0 1) (V3 1 0 0) 0 1 (- (1 / 10)) (2 / 100) (1 / 100) 3 ltac:(vu; ring) ltac:(vu; ring) ltac:(vu; ring) ltac:(vu; ring) ltac:(vu; ring) ltac:(vu; ring) ltac:(lra)) as E.
  cbv zeta in E. rewrite E; [|unfold blaze_modifier; lra..]. rewrite ray_wall; [|vu; ring..|lra|unfold blaze_modifier; lra].
  f_equal. unfold blaze_modifier. rewrite Rabs_left1 by lra. lra.
Qed.
