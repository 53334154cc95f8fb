(** Property C244: pictures of extended sources, distance from the axis, roll and jitter. *)
From Verif Require Import Vec_Proofs Plane_Proofs Source_Proofs Source_Props Telescope_Proofs Telescope_Props.
From Verif Require Export Picture_Proofs.
Open Scope R_scope.

(** ** C244 *)
(** Every place on the sky has coordinates, so every photon of an extended source is the photon of a point source somewhere. *)
Theorem C244_coordinates : forall v, dot3 v v = 1 -> exists ra dec, skyvec ra dec = v /\ 0 <= ra < 2 * PI /\ - (PI / 2) <= dec <= PI / 2.
Proof. exact coordinates. Qed.
Print Assumptions C244_coordinates.
(** All photons of a disk on the sky (flat or spherical, out to [ao]) are focussed into a spot of radius [2 f sin (ao / 2)] about the image of its center, on a sphere of radius [f] about the lens. *)
Theorem C244_disk : forall t ra dec ai ao, telescope_ok t -> 0 <= ai <= ao -> ao <= PI / 2 -> exists F, imaged_at t ra dec F /\ norm3 (sub3 F (xyz (center (t_lens t)))) = t_f t /\
  forall u phi ra' dec', 0 <= u <= 1 -> skyvec ra' dec' = radial_photon ra dec (disk_radius ai ao u) phi \/ skyvec ra' dec' = radial_photon ra dec (spherical_radius ai ao u) phi ->
  exists F', imaged_at t ra' dec' F' /\ norm3 (sub3 F' (xyz (center (t_lens t)))) = t_f t /\ norm3 (sub3 F F') <= 2 * t_f t * sin (ao / 2).
Proof.
  intros t ra dec ai ao T A B. destruct (images_dot t ra dec T) as (F & I & N & H). exists F. split; [exact I|]. split; [exact N|]. intros u phi ra' dec' U S. destruct (H ra' dec') as (F' & I' & N' & W & _). exists F'. split; [exact I'|]. split; [exact N'|].
  unfold norm3. cbv zeta in W. rewrite W. assert (P : 0 < PI) by apply PI_RGT_0. apply half_angle; [apply T|lra|].
  assert (K : forall d, 0 <= d <= ao -> skyvec ra' dec' = radial_photon ra dec d phi -> cos ao <= dot3 (skyvec ra dec) (skyvec ra' dec')).
  { intros d D E. rewrite E. destruct (C117_distance_partial ra dec d phi) as (_ & _ & L & _). apply Rle_trans with (cos d); [apply cos_decr_1; lra|apply L; lra]. }
  destruct S as [S|S]; [destruct (C117_disk ai ao u A U) as [R _]|destruct (C117_spherical ai ao u A ltac:(lra) U) as [R _]]; (eapply K; [|exact S]; lra).
Qed.
Print Assumptions C244_disk.
(** A Gauss source: the photon with the draws [g1] and [g2] is focussed at most [f sigma sqrt (g1^2 + g2^2)] from the image of the center, as close as the flat approximation says. *)
Theorem C244_gauss : forall t ra dec sigma, telescope_ok t -> exists F, imaged_at t ra dec F /\ norm3 (sub3 F (xyz (center (t_lens t)))) = t_f t /\
  forall g1 g2 ra' dec', skyvec ra' dec' = gauss_photon ra dec sigma g1 g2 ->
  exists F', imaged_at t ra' dec' F' /\ norm3 (sub3 F F') = t_f t * sqrt (2 * (1 - cos (sigma * g1) * cos (sigma * g2))) /\ norm3 (sub3 F F') <= t_f t * (Rabs sigma * sqrt (g1 * g1 + g2 * g2)).
Proof.
  intros t ra dec sigma T. destruct (images_dot t ra dec T) as (F & I & N & H). exists F. split; [exact I|]. split; [exact N|]. intros g1 g2 ra' dec' S. destruct (H ra' dec') as (F' & I' & _ & W & _). exists F'. split; [exact I'|].
  assert (FF : 0 < t_f t) by apply T. assert (E : norm3 (sub3 F F') = t_f t * sqrt (2 * (1 - cos (sigma * g1) * cos (sigma * g2)))).
  { unfold norm3. cbv zeta in W. rewrite W, S. destruct (C119_gauss ra dec sigma g1 g2) as [_ ->]. replace (2 * (t_f t * t_f t) * (1 - cos (sigma * g1) * cos (sigma * g2))) with ((t_f t * t_f t) * (2 * (1 - cos (sigma * g1) * cos (sigma * g2)))) by ring.
    rewrite sqrt_mult_alt by nra. rewrite sqrt_square by lra. reflexivity. }
  split; [exact E|]. rewrite E. apply Rmult_le_compat_l; [lra|]. rewrite <- sqrt_Rsqr_abs, <- sqrt_mult_alt by (unfold Rsqr; nra). apply sqrt_le_1_alt. pose proof (cos_product (sigma * g1) (sigma * g2)). unfold Rsqr. lra.
Qed.
Print Assumptions C244_gauss.
(** A source at an angle [th] from another one is imaged [f sin th] from the line through the center of the lens and the image of the other, [f cos th] along that line: for a pointing at the other this is the distance from the optical axis. *)
Theorem C244_axis : forall t ra dec, telescope_ok t -> exists F, imaged_at t ra dec F /\ norm3 (sub3 F (xyz (center (t_lens t)))) = t_f t /\
  forall ra' dec' th, 0 <= th <= PI -> dot3 (skyvec ra dec) (skyvec ra' dec') = cos th ->
  exists F', imaged_at t ra' dec' F' /\ norm3 (sub3 (sub3 F' (xyz (center (t_lens t)))) (scale3 (cos th) (sub3 F (xyz (center (t_lens t)))))) = t_f t * sin th.
Proof.
  intros t ra dec T. destruct (images_dot t ra dec T) as (F & I & N & H). exists F. split; [exact I|]. split; [exact N|]. intros ra' dec' th A C. destruct (H ra' dec') as (F' & I' & _ & _ & X). exists F'. split; [exact I'|]. exact (X th A C).
Qed.
Print Assumptions C244_axis.
(** Different places on the sky have different images. *)
Theorem C244_distinct : forall t ra dec, telescope_ok t -> exists F, imaged_at t ra dec F /\ forall ra' dec', exists F', imaged_at t ra' dec' F' /\ (F = F' <-> skyvec ra dec = skyvec ra' dec').
Proof.
  intros t ra dec T. destruct (images_dot t ra dec T) as (F & I & N & H). exists F. split; [exact I|]. intros ra' dec'. destruct (H ra' dec') as (F' & I' & _ & W & _). exists F'. split; [exact I'|]. assert (FF : 0 < t_f t) by apply T. cbv zeta in W.
  pose proof (skyvec_unit ra dec) as U. pose proof (skyvec_unit ra' dec') as U'. revert U U' W. generalize (skyvec ra dec) (skyvec ra' dec') (t_f t * t_f t) (Rmult_lt_0_compat _ _ FF FF). clear. intros s s' f2 F0 U U' W.
  assert (Z : forall v : v3, dot3 v v = 0 -> v = V3 0 0 0) by (intros [a b c] E; revert E; vu; intros E; f_equal; nra).
  assert (D : dot3 (sub3 s s') (sub3 s s') = 2 * (1 - dot3 s s')) by (transitivity (dot3 s s + dot3 s' s' - 2 * dot3 s s'); [clear; revert s s'; vring|lra]).
  assert (Q : forall a b : v3, sub3 a b = V3 0 0 0 -> a = b) by (intros [a1 a2 a3] [b1 b2 b3]; unfold sub3; cbn; intros E; injection E; intros; f_equal; lra). split; intros E.
  - apply Q, Z. rewrite D. subst F'. assert (V : dot3 (sub3 F F) (sub3 F F) = 0) by (clear; revert F; vring). rewrite V in W. nra.
  - apply Q, Z. rewrite W. subst s'. rewrite U. ring.
Qed.
Print Assumptions C244_distinct.
(** Rolling the telescope by [a] turns the picture by [a] about the x axis through the center of the lens. *)
Theorem C244_roll : forall t a ra dec, telescope_ok t -> p_ref (t_point t) = id4 -> exists F F', imaged_at t ra dec F /\
  imaged_at (Telescope (rolled (t_point t) a) (t_aper t) (t_lens t) (t_f t) (t_refl t) (t_det t) (t_pix t)) ra dec F' /\
  let v := sub3 F (xyz (center (t_lens t))) in sub3 F' (xyz (center (t_lens t))) = V3 (x3 v) (cos a * y3 v - sin a * z3 v) (sin a * y3 v + cos a * z3 v).
Proof.
  intros t a ra dec T R. set (t' := Telescope _ _ _ _ _ _ _). assert (T' : telescope_ok t') by exact T. destruct (imaged t ra dec T) as (d & D & _ & _ & I). destruct (imaged t' ra dec T') as (d' & D' & _ & _ & I'). change (t_point t') with (rolled (t_point t) a) in D'. change (t_lens t') with (t_lens t) in I'. change (t_f t') with (t_f t) in I'.
  exists (image (t_lens t) (t_f t) d), (image (t_lens t) (t_f t) d'). split; [exact I|]. split; [exact I'|]. destruct (rolled_dir (t_point t) a ra dec R) as (e & e' & E & E' & X & Y & Z). rewrite E in D. rewrite E' in D'.
  assert (ED : e = d) by (apply (f_equal (fun o => match o with Some v => xyz v | None => zero3 end)) in D; clear - D; destruct d, e; exact D).
  assert (ED' : e' = d') by (apply (f_equal (fun o => match o with Some v => xyz v | None => zero3 end)) in D'; clear - D'; destruct d', e'; exact D'). subst e e'. clear - X Y Z.
  unfold image. generalize dependent (xyz (center (t_lens t))). generalize dependent (t_f t). intros f c. destruct d as [p q s], d' as [p' q' s'], c as [c1 c2 c3]. cbn [x3 y3 z3] in X, Y, Z. subst. vu. cbn. f_equal; ring.
Qed.
Print Assumptions C244_roll.
(** Jitter by an angle [a] moves the image of the source on the axis by [2 f sin (|a| / 2)]. *)
Theorem C244_jitter : forall m f j r a, 0 < f -> j <> 0 -> - PI <= a <= PI -> exists d, jitter_vector j r a (V4 (-1) 0 0 0) = Some (hom d 0) /\
  norm3 (sub3 (image m f d) (image m f (V3 (-1) 0 0))) = 2 * f * sin (Rabs a / 2).
Proof.
  intros m f j r a F J A. destruct (C115_onaxis j r a J) as (d & E & _ & U & C). exists d. split; [exact E|]. pose proof (chord m f d (V3 (-1) 0 0) U ltac:(vu; ring)) as W. cbv zeta in W. unfold norm3. rewrite W, C.
  assert (B : 0 <= Rabs a <= PI) by (split; [apply Rabs_pos|apply Rabs_le; lra]). assert (S : 0 <= sin (Rabs a / 2)) by (apply sin_ge_0; lra). rewrite <- (sqrt_square (2 * f * sin (Rabs a / 2))) by (apply Rmult_le_pos; lra). f_equal.
  replace (cos a) with (cos (2 * (Rabs a / 2))); [rewrite cos_2a_sin; ring|]. replace (2 * (Rabs a / 2)) with (Rabs a) by field. unfold Rabs. destruct (Rcase_abs a); [apply cos_neg|reflexivity].
Qed.
Print Assumptions C244_jitter.
Definition ex_picture : telescope := Telescope (Pointing 1 (1 / 2) 2 id4) (upright 12 1 5 5) (upright 6 1 6 6) 6 (fun _ => 1 / 2) (upright 0 1 10 10) 1.
Example C244_example : telescope_ok ex_picture /\ p_ref (t_point ex_picture) = id4 /\ dot3 (skyvec 1 0) (skyvec (1 + PI / 3) 0) = cos (PI / 3) /\
  exists u1 u2 r o, observe ex_picture 1 (1 / 2) u1 u2 = Some (r, Some o).
Proof.
  split; [|split; [reflexivity|split]].
  - unfold telescope_ok, ex_picture. cbn [t_point t_aper t_lens t_f p_ref]. destruct C113_ref_example as [A O]. split; [exact A|]. split; [exact O|]. split; [apply upright_axes; lra|]. split; [apply upright_axes; lra|lra].
  - unfold skyvec. rewrite cos_0, sin_0. replace (PI / 3) with (1 + PI / 3 - 1) at 3 by ring. rewrite (cos_minus (1 + PI / 3) 1). vu. ring.
  - destruct C175_example as (r & E & _). exists (1 / 4), 1, r. eexists. exact E.
Qed.
(** Two sources 60 degrees apart are imaged [f] apart. *)
Example C244_sixty : exists F F', imaged_at ex_picture 1 0 F /\ imaged_at ex_picture (1 + PI / 3) 0 F' /\ dot3 (sub3 F F') (sub3 F F') = 36.
Proof.
  destruct C244_example as (T & _ & D & _). destruct (images_dot ex_picture 1 0 T) as (F & I & _ & H). destruct (H (1 + PI / 3) 0) as (F' & I' & _ & W & _). exists F, F'. split; [exact I|]. split; [exact I'|]. cbv zeta in W. rewrite W, D, cos_PI3. cbn. lra.
Qed.
