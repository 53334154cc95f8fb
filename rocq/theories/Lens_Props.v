(** Properties C37, C80. *)
From Verif Require Import Vec_Proofs Lens_Proofs Plane_Proofs.
Open Scope R_scope.

(** The focus point depends on the lens and the direction only, and is at distance [focallength] from the optical axis point *)
Theorem C37_common_focus : forall m d f refl dir pos1 pos2 out1 p1 out2 p2 k, perpendicular_axes m -> 0 < k ->
  perfect_lens m d f refl dir pos1 = Some (out1, p1) -> perfect_lens m d f refl (scale3 k dir) pos2 = Some (out2, p2) ->
  exists F q t1 t2, 0 < t1 /\ 0 < t2 /\ norm3 out1 = 1 /\ norm3 out2 = 1 /\
    add3 pos1 (scale3 t1 out1) = F /\ add3 pos2 (scale3 t2 out2) = F /\
    q = sub3 (xyz (center m)) (scale3 (d / norm3 (xyz (v_z m))) (xyz (v_z m))) /\ norm3 (sub3 F q) = Rabs f.
Proof.
  intros m d f refl dir pos1 pos2 out1 p1 out2 p2 k P K H1 H2. destruct (axis_point m d P) as (q & Q & E).
  destruct (lens_out _ _ _ _ _ _ _ _ H1) as (F & HF & N1 & D1 & A1). destruct (lens_out _ _ _ _ _ _ _ _ H2) as (F' & HF' & N2 & D2 & A2).
  rewrite focus_scale in HF' by exact K. rewrite HF in HF'. injection HF' as <-.
  assert (X : forall pos, pos <> F -> 0 < norm3 (sub3 F pos)).
  { intros pos Np. apply norm3_pos. intros Z. apply Np. rewrite <- (add_sub_cancel3 pos F), Z. clear. vring. }
  exists F, q, (norm3 (sub3 F pos1)), (norm3 (sub3 F pos2)). pose proof (focus_distance m d f dir q F Q HF). auto 10.
Qed.
Print Assumptions C37_common_focus.
(** Every photon gets a direction, except if the hit position is the focus itself. *)
Theorem C37_total : forall m d f refl dir pos, perpendicular_axes m -> dir <> zero3 ->
  (exists out p, perfect_lens m d f refl dir pos = Some (out, p)) <-> focuspoint m d f dir <> Some pos.
Proof. exact lens_total. Qed.
Print Assumptions C37_total.
(** A ray through the point on the optical axis is not deflected (for a positive focal length). *)
Theorem C37_center : forall m d f refl dir q, perpendicular_axes m -> dir <> zero3 -> 0 < f ->
  q = sub3 (xyz (center m)) (scale3 (d / norm3 (xyz (v_z m))) (xyz (v_z m))) ->
  exists p, perfect_lens m d f refl dir q = Some (scale3 (/ norm3 dir) dir, p).
Proof.
  intros m d f refl dir q P D F E. destruct (axis_point m d P) as (q' & Q & E'). rewrite <- E in E'. subst q'.
  destruct (lens_center m d f refl dir q _ P Q (unit3_some dir D)) as (p & H); [lra|]. rewrite (proj2 (Rltb_true 0 f) F) in H. eauto.
Qed.
Print Assumptions C37_center.
Theorem C37_probability : forall m d f refl dir pos out p, (forall a, 0 <= refl a <= 1) -> perfect_lens m d f refl dir pos = Some (out, p) -> 0 <= p <= 1.
Proof. exact lens_probability. Qed.
Print Assumptions C37_probability.
(** The probability is that of two reflections, each at a quarter of the angle by which the ray is deflected. *)
Theorem C37_reflections : forall m d f refl dir pos out p, dir <> zero3 -> perfect_lens m d f refl dir pos = Some (out, p) ->
  exists a, 0 <= 4 * a <= PI / 2 /\ cos (4 * a) = Rabs (dot3 out dir) / norm3 dir /\ p = refl a * refl a.
Proof.
  intros m d f refl dir pos out p N H. unfold perfect_lens in H. destruct (focuspoint m d f dir) as [q|]; [|discriminate].
  pose proof (unit3_some dir N) as U. rewrite U in H. destruct (unit3 (sub3 q pos)) as [o|] eqn:O; [|discriminate].
  injection H as <- <-. set (u := scale3 (/ norm3 dir) dir) in *.
  assert (B : -1 <= dot3 o u <= 1) by (apply unit_dot_bound; [exact (proj1 (proj2 (proj2 (unit3_spec _ _ O))))|exact (proj1 (proj2 (proj2 (unit3_spec _ _ U))))]).
  exists (acos (Rabs (dot3 o u)) / 4). replace (4 * (acos (Rabs (dot3 o u)) / 4)) with (acos (Rabs (dot3 o u))) by field.
  split; [apply acos_abs, B|]. split; [|reflexivity]. pose proof (norm3_pos dir N) as L.
  rewrite cos_acos by (pose proof (Rabs_pos (dot3 o u)); split; [lra|apply Rabs_le; lra]).
  unfold u. rewrite dot3_scale_r, Rabs_mult, (Rabs_pos_eq (/ norm3 dir)) by (left; apply Rinv_0_lt_compat; exact L). unfold Rdiv. ring.
Qed.
Print Assumptions C37_reflections.
(** Lens at the origin with focal length 10, ray along -x hitting at y = 3 *)
Example C37_example : perpendicular_axes id4 /\ focuspoint id4 0 10 (V3 (-1) 0 0) = Some (V3 (-10) 0 0) /\
  exists out p, perfect_lens id4 0 10 (fun _ => 1) (V3 (-1) 0 0) (V3 0 3 0) = Some (out, p).
Proof.
  assert (A : perpendicular_axes id4).
  { unfold perpendicular_axes, affine. cbn. repeat split; try (intros H; first [apply (f_equal x3) in H; cbn in H; lra | apply (f_equal y3) in H; cbn in H; lra | apply (f_equal z3) in H; cbn in H; lra]); vu; ring. }
  assert (D : V3 (-1) 0 0 <> zero3) by (intros H; apply (f_equal x3) in H; cbn in H; lra).
  assert (E : focuspoint id4 0 10 (V3 (-1) 0 0) = Some (V3 (-10) 0 0)).
  { destruct (axis_point id4 0 A) as (q & Q & E). assert (U : dot3 (V3 (-1) 0 0) (V3 (-1) 0 0) = 1) by (vu; ring).
    rewrite (focus_point id4 0 10 _ q _ Q (unit3_of_unit _ U)). f_equal. rewrite E. clear. unfold center, v_z. vu. f_equal; unfold Rdiv; ring. }
  split; [exact A|]. split; [exact E|]. apply C37_total; [exact A|exact D|]. rewrite E. intros H. injection H. intros. lra.
Qed.

(** C80: rays through the center of a thin lens are unchanged; all others are rotated, together with their polarization. *)
Theorem C80_center : forall c f dir pol, thin_lens c f dir c pol = Some (dir, pol).
Proof. exact thin_center. Qed.
Print Assumptions C80_center.
Theorem C80_rotation : forall c f dir hit pol out pol', thin_lens c f dir hit pol = Some (out, pol') ->
  norm3 out = norm3 dir /\ norm3 pol' = norm3 pol /\ dot3 pol' out = dot3 pol dir.
Proof.
  intros c f dir hit pol out pol' H. destruct (thin_rotates _ _ _ _ _ _ _ H) as (rot & [O _] & -> & ->).
  unfold norm3. rewrite !(orthonormal_dot _ _ _ O). auto.
Qed.
Print Assumptions C80_rotation.
(** Rays along the optical axis direction [dir] hitting at radius [r] are bent by the angle r/f towards the axis. They cross it at distance r/tan(r/f), the same for all
    rays of the same radius. *)
Theorem C80_parallel_rays : forall c f dir hit pol, dot3 dir dir = 1 -> dot3 dir (sub3 hit c) = 0 -> hit <> c ->
  let w := sub3 hit c in let r := norm3 w in
  exists out pol', thin_lens c f dir hit pol = Some (out, pol') /\ out = sub3 (scale3 (cos (r / f)) dir) (scale3 (sin (r / f) / r) w).
Proof. exact thin_parallel. Qed.
Print Assumptions C80_parallel_rays.
Theorem C80_crossing : forall c f dir hit pol out pol', dot3 dir dir = 1 -> dot3 dir (sub3 hit c) = 0 -> hit <> c ->
  thin_lens c f dir hit pol = Some (out, pol') -> let r := norm3 (sub3 hit c) in sin (r / f) <> 0 ->
  add3 hit (scale3 (r / sin (r / f)) out) = add3 c (scale3 (r * cos (r / f) / sin (r / f)) dir).
Proof. exact thin_crossing. Qed.
Print Assumptions C80_crossing.
Example C80_example : exists out pol', thin_lens zero3 10 (V3 (-1) 0 0) (V3 0 3 0) (V3 0 1 0) = Some (out, pol') /\ y3 out = - sin (3 / 10) /\ x3 out = - cos (3 / 10).
Proof.
  destruct (C80_parallel_rays zero3 10 (V3 (-1) 0 0) (V3 0 3 0) (V3 0 1 0)) as (out & pol' & T & E).
  - vu; ring.
  - vu; ring.
  - intros H. apply (f_equal y3) in H. cbn in H. lra.
  - exists out, pol'. split; [exact T|].
    assert (N : norm3 (sub3 (V3 0 3 0) zero3) = 3). { unfold norm3. replace (dot3 _ _) with (3 * 3) by (vu; ring). apply sqrt_square. lra. }
    rewrite N in E. rewrite E. generalize (sin (3 / 10)) (cos (3 / 10)). clear. intros. vu. split; field.
Qed.
