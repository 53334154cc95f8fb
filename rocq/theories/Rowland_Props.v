(** Properties C44 and C82-C85. *)
From Verif Require Import Vec_Proofs Rot_Proofs Placement_Proofs Rowland_Proofs Rowland_Proofs2.
Open Scope R_scope.

(** *** C44 *)
Theorem C44_parametric_on_torus : forall t minv th ph, affine (tpos t) -> mul4 minv (tpos t) = id4 ->
  w4 (parametric t th ph) = 1 /\ quartic t minv true (xyz (parametric t th ph)) = Ok 0.
Proof. exact parametric_on. Qed.
Print Assumptions C44_parametric_on_torus.
(** All roots of the quartic are given by the parametric form. *)
Theorem C44_roots_are_parametric : forall t p, 0 < tr t -> (quartic t id4 false p = Ok 0 <-> exists th ph, p = torus_point t th ph).
Proof.
  intros t p H. rewrite <- quartic_complete by exact H. unfold quartic. split; [now intros [= E]|now intros ->].
Qed.
Print Assumptions C44_roots_are_parametric.
(** The vector given for a point has length one and the derivative of the quartic along any vector [v] is the product of [v] with
    it, times a number that is positive unless the point is on the inner side of a self-intersecting torus. *)
Theorem C44_normal_is_gradient : forall t minv th ph v, rigid (tpos t) -> mul4 minv (tpos t) = id4 ->
  w4 (normal_parametric t th ph) = 0 /\ norm3 (xyz (normal_parametric t th ph)) = 1 /\
  exists g, (forall k, quartic t minv true (add3 (xyz (parametric t th ph)) (scale3 k v)) = Ok (g k)) /\
    derivable_pt_lim g 0 (8 * tR t * tr t * (tR t + tr t * cos th) * dot3 (xyz (normal_parametric t th ph)) v).
Proof. exact global_gradient. Qed.
Print Assumptions C44_normal_is_gradient.
(** It points from the center of the tube to the point. *)
Theorem C44_normal_points_outwards : forall t th ph,
  parametric t th ph = add4 (app4 (tpos t) (V4 (tR t * cos ph) 0 (tR t * sin ph) 1)) (scale4 (tr t) (normal_parametric t th ph)).
Proof. exact normal_outwards. Qed.
Print Assumptions C44_normal_points_outwards.
Definition torus21 : torus := Torus 2 1 id4.
Lemma rigid_id : rigid id4.
Proof. split; [repeat split|]. unfold orthonormal, lin, id4, dot3. cbn. repeat split; ring. Qed.
Example C44_example : rigid (tpos torus21) /\ mul4 id4 (tpos torus21) = id4 /\ parametric torus21 0 0 = V4 3 0 0 1 /\ normal_parametric torus21 0 0 = V4 1 0 0 0.
Proof.
  split; [exact rigid_id|]. split; [apply mul4_id_l|]. unfold parametric, normal_parametric, torus_point, torus_normal, torus21. cbn [tpos tR tr]. rewrite !app4_id, cos_0, sin_0.
  unfold hom. cbn. split; f_equal; ring.
Qed.

(** *** C82: from the point back to the parameters *)
Theorem C82_round_trip_partial : forall t minv th ph, affine (tpos t) -> mul4 minv (tpos t) = id4 -> 0 < tR t -> 0 < tr t ->
  cos th <> 0 -> - 2 * tR t < tr t * cos th ->
  exists th' ph', xyzw2parametric t minv true true (parametric t th ph) = Ok (Some (th', ph')) /\ parametric t th' ph' = parametric t th ph /\
    same_angle th th' /\ (tR t + tr t * cos th <> 0 -> same_angle ph ph').
Proof.
  intros t minv th ph A I HR Hr C L. destruct (local_parametric_ok t th ph HR Hr C L) as (th' & ph' & E & S & P & F).
  exists th', ph'. rewrite xyzw_global, E by auto. unfold parametric. rewrite P. auto.
Qed.
Print Assumptions C82_round_trip_partial.
Theorem C82_normal_of_point_partial : forall t minv th ph, affine (tpos t) -> mul4 minv (tpos t) = id4 -> 0 < tR t -> 0 < tr t ->
  cos th <> 0 -> - 2 * tR t < tr t * cos th -> tR t + tr t * cos th <> 0 ->
  torus_normal_at t minv (parametric t th ph) = Ok (Some (normal_parametric t th ph)).
Proof. exact normal_at. Qed.
Print Assumptions C82_normal_of_point_partial.
(** On the top of the torus (cos theta = 0) the parameters are those of another point, for every torus. *)
Theorem C82_top_wrong : forall t ph, 0 < tR t -> 0 < tr t ->
  exists ph', local_parametric t (torus_point t (PI / 2) ph) = Some (0, ph') /\ torus_point t 0 ph' <> torus_point t (PI / 2) ph.
Proof. exact local_parametric_top. Qed.
Print Assumptions C82_top_wrong.
Theorem C82_round_trip_refuted :
  ~ (forall t minv th ph, rigid (tpos t) -> mul4 minv (tpos t) = id4 -> 0 < tr t < tR t ->
     exists th' ph', xyzw2parametric t minv true true (parametric t th ph) = Ok (Some (th', ph')) /\ parametric t th' ph' = parametric t th ph).
Proof.
  intros H. destruct (H torus21 id4 (PI / 2) 0 rigid_id (mul4_id_l _) ltac:(cbn; lra)) as (th & ph & E & Q).
  rewrite xyzw_global in E by (apply rigid_id || apply mul4_id_l). destruct (local_parametric_top torus21 0 ltac:(cbn; lra) ltac:(cbn; lra)) as (ph' & E' & N).
  rewrite E' in E. injection E as <- <-. apply N. unfold parametric in Q. cbn [tpos torus21] in Q. rewrite !app4_id in Q. now apply hom_inj in Q.
Qed.
Print Assumptions C82_round_trip_refuted.
(** Asking for nan at self-intersections always fails. *)
Theorem C82_no_intersectvalid_fails : forall t minv th ph, affine (tpos t) -> mul4 minv (tpos t) = id4 ->
  xyzw2parametric t minv true false (parametric t th ph) = Err TypeError.
Proof. intros. now rewrite xyzw_global. Qed.
Print Assumptions C82_no_intersectvalid_fails.
(** A point that is not on the torus (the equation of the torus, relative to the fourth power of R, is off by more than 1e-8) is refused. *)
Theorem C82_off_torus : forall t minv b q, / 100000000 < Rabs (quartic_local t q / (tR t * tR t * tR t * tR t)) -> xyzw2parametric t minv false b (hom q 1) = Err ValueError.
Proof.
  intros t minv b q H. unfold xyzw2parametric. rewrite h2e1_w1 by reflexivity. cbn [bind]. replace (xyz (hom q 1)) with q by (now destruct q).
  unfold isclose; destruct (Rle_dec _ _) as [L|L]; [|reflexivity]; rewrite Rminus_0_r, Rabs_R0, Rmult_0_r, Rplus_0_r in L; lra.
Qed.
Print Assumptions C82_off_torus.
Example C82_example : cos 0 <> 0 /\ - 2 * tR torus21 < tr torus21 * cos 0 /\ tR torus21 + tr torus21 * cos 0 <> 0.
Proof. rewrite cos_0. cbn. lra. Qed.

(** *** C83: tilted torus *)
Theorem C83_focus_and_grating_on_circle : forall f alpha beta t, cos alpha <> 0 -> design_tilted_torus f alpha beta = Some t ->
  rigid (tpos t) /\ on_rowland_circle t zero3 /\ on_rowland_circle t (V3 f 0 0).
Proof. exact tilted_circle. Qed.
Print Assumptions C83_focus_and_grating_on_circle.
Theorem C83_focus_on_axis : forall f alpha beta t, cos alpha <> 0 -> design_tilted_torus f alpha beta = Some t -> on_torus_axis t zero3.
Proof. exact tilted_axis. Qed.
Print Assumptions C83_focus_on_axis.
Theorem C83_always_defined : forall f alpha beta, cos alpha <> 0 -> exists t, design_tilted_torus f alpha beta = Some t.
Proof. intros f a b C. destruct (tilted_unfold f a b C) as (t & E & _). eauto. Qed.
Print Assumptions C83_always_defined.
(** The center of the torus is on the line through the on-axis grating and the center of the Rowland circle for beta = 2 alpha ... *)
Theorem C83_center_on_line_partial : forall f alpha t, cos alpha <> 0 -> design_tilted_torus f alpha (2 * alpha) = Some t ->
  let cat := V3 f 0 0 in let cc := V3 (f / 2) (f / 2 * tan alpha) 0 in cross3 (sub3 cc cat) (sub3 (tra (tpos t)) cc) = zero3.
Proof.
  intros f a t C E. cbv zeta. rewrite (tilted_center f a (2 * a) t C E). replace (2 * a - 2 * a) with 0 by ring. rewrite sin_0. unfold zero3. f_equal. ring.
Qed.
Print Assumptions C83_center_on_line_partial.
(** ... but not in general. *)
Theorem C83_center_on_line_refuted :
  ~ (forall f alpha beta t, cos alpha <> 0 -> cos beta <> 0 -> design_tilted_torus f alpha beta = Some t ->
     let cat := V3 f 0 0 in let cc := V3 (f / 2) (f / 2 * tan alpha) 0 in cross3 (sub3 cc cat) (sub3 (tra (tpos t)) cc) = zero3).
Proof.
  intros H. assert (P := PI2_3_2). pose proof PI_4. assert (C : cos 0 <> 0) by (rewrite cos_0; lra). assert (C1 : 0 < cos (PI / 4)) by (apply cos_gt_0; lra).
  destruct (tilted_unfold 2 0 (PI / 4) C) as (t & E & Er & ER & _). specialize (H 2 0 (PI / 4) t C ltac:(lra) E). cbv zeta in H.
  rewrite (tilted_center 2 0 (PI / 4) t C E) in H. apply (f_equal z3) in H. cbn in H. rewrite ER, Er, cos_0 in H.
  replace (2 * 0 - PI / 4) with (- (PI / 4)) in H by ring. rewrite sin_neg in H. assert (0 < sin (PI / 4)) by (apply sin_gt_0; lra). nra.
Qed.
Print Assumptions C83_center_on_line_refuted.
Example C83_example : cos 0 <> 0 /\ cos (PI / 4) <> 0.
Proof. rewrite cos_0. assert (P := PI2_3_2). split; [lra|]. assert (0 < cos (PI / 4)) by (apply cos_gt_0; lra). lra. Qed.

(** *** C84: double torus *)
(** The circles of both channels contain the point on the optical axis at distance f and the focus; the circle of the detector has
    both optical axes of the channels on it; and it is the circle of both channels when they are moved to their optical axes. *)
Theorem C84_channel_circles : forall d_BF R' f, 0 < f -> let g := double_rowland_from_channel_distance d_BF R' f in
  (on_rowland_circle (dr_central g) zero3 /\ on_rowland_circle (dr_central g) (V3 f 0 0) /\ on_rowland_circle (dr_central g) (V3 0 d_BF 0)) /\
  (on_rowland_circle (dr_central_m g) zero3 /\ on_rowland_circle (dr_central_m g) (V3 f 0 0) /\ on_rowland_circle (dr_central_m g) (V3 0 (- d_BF) 0)) /\
  (forall k p, dget k (dr_opt_ax g) = Some p -> on_rowland_circle (dr_detector g) (xyz p)).
Proof.
  intros d_BF R' f F g.
  assert (C : forall p, let k := f / 2 * (f / 2) + d_BF / 2 * (d_BF / 2) in
    (on_rowland_circle (dr_central g) p <-> z3 p = 0 /\ (x3 p - f / 2) * (x3 p - f / 2) + (y3 p - d_BF / 2) * (y3 p - d_BF / 2) = k) /\
    (on_rowland_circle (dr_central_m g) p <-> z3 p = 0 /\ (x3 p - f / 2) * (x3 p - f / 2) + (y3 p + d_BF / 2) * (y3 p + d_BF / 2) = k) /\
    (on_rowland_circle (dr_detector g) p <-> z3 p = 0 /\ (x3 p - f / 2) * (x3 p - f / 2) + y3 p * y3 p = k)) by (intros p; exact (double_circles d_BF R' f p F)).
  cbv zeta in C. split; [|split].
  - split; [|split]; apply C; cbn; (split; [reflexivity|field]).
  - split; [|split]; apply C; cbn; (split; [reflexivity|field]).
  - intros k p E. apply C. cbn in E. destruct (String.eqb k "1"); [injection E as <-|destruct (String.eqb k "1m"); [injection E as <-|discriminate]]; cbn; (split; [reflexivity|field]).
Qed.
Print Assumptions C84_channel_circles.
Theorem C84_shared_circle : forall d_BF R' f p, 0 < f -> let g := double_rowland_from_channel_distance d_BF R' f in
  (on_rowland_circle (shift_torus (V4 0 (- dr_d g) 0 1) (dr_central g)) p <-> on_rowland_circle (dr_detector g) p) /\
  (on_rowland_circle (shift_torus (V4 0 (dr_d g) 0 1) (dr_central_m g)) p <-> on_rowland_circle (dr_detector g) p).
Proof. exact double_shared. Qed.
Print Assumptions C84_shared_circle.
Example C84_example : on_rowland_circle (dr_detector (double_rowland_from_channel_distance 6 5 8)) (V3 9 0 0).
Proof. apply (double_circles 6 5 8 (V3 9 0 0)); [lra|]. cbn. lra. Qed.

(** *** C85: channels with an offset *)
Theorem C85_named_channels_partial : forall g offsets, (forall k o, In (k, o) offsets -> In k ["1"; "2"; "1m"; "2m"]%string) -> NoDup (map fst offsets) ->
  exists g', add_offset_double_rowland_channels g offsets = Ok g' /\
    forall k o, In (k, o) offsets -> dget ("rowland_" ++ k)%string (dr_channels g') = Some (shift_torus (offset_axis (dr_d g) k o) (channel_base g k)).
Proof. exact channels_known. Qed.
Print Assumptions C85_named_channels_partial.
(** The axis of a channel is moved by d along y, in opposite directions for the two sets of channels, and then by its offset. *)
Theorem C85_axes : forall d o, offset_axis d "1" o = V4 (x3 o) (y3 o - d) (z3 o) 1 /\ offset_axis d "2" o = V4 (x3 o) (y3 o - d) (z3 o) 1 /\
  offset_axis d "1m" o = V4 (x3 o) (y3 o + d) (z3 o) 1 /\ offset_axis d "2m" o = V4 (x3 o) (y3 o + d) (z3 o) 1.
Proof. intros d [x y z]. unfold offset_axis, hom, add4; cbn; repeat split; f_equal; ring. Qed.
Print Assumptions C85_axes.
(** A third channel alone is an error; after channel 2 the mirrored third channel gets the torus that is not mirrored. *)
Theorem C85_third_channel : forall g o1 o2,
  add_offset_double_rowland_channels g [("3"%string, o1)] = Err UnboundLocalError /\
  exists g', add_offset_double_rowland_channels g [("2"%string, o1); ("3m"%string, o2)] = Ok g' /\
    dget "rowland_3m" (dr_channels g') = Some (shift_torus (offset_axis (dr_d g) "3m" o2) (dr_central g)).
Proof.
  intros g o1 o2. split; [reflexivity|]. eexists. split; [reflexivity|]. cbn [dr_channels]. apply Base_Proofs.dget_dset_eq.
Qed.
Print Assumptions C85_third_channel.
Theorem C85_any_number_refuted :
  ~ (forall g offsets, NoDup (map fst offsets) -> exists g', add_offset_double_rowland_channels g offsets = Ok g' /\
    forall k o, In (k, o) offsets -> dget ("rowland_" ++ k)%string (dr_channels g') = Some (shift_torus (offset_axis (dr_d g) k o) (channel_base g k))).
Proof.
  intros H. destruct (H (DoubleR 0 torus21 torus21 torus21 [] []) [("3"%string, zero3)]) as (g' & E & _); [|discriminate E].
  repeat constructor; cbn; tauto.
Qed.
Print Assumptions C85_any_number_refuted.
Example C85_example : channel_base (DoubleR 0 torus21 (Torus 3 1 id4) torus21 [] []) "2m" = Torus 3 1 id4.
Proof. reflexivity. Qed.
