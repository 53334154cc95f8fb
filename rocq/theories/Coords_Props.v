(** Properties C19, C20: homogeneous and Pluecker coordinates. *)
From Verif Require Import Vec_Proofs Coords_Model Coords_Proofs.
Open Scope R_scope.

(** ** C19 *)
Theorem C19_round_trip : forall l w, w = 0 \/ w = 1 -> bind (e2h l w) h2e = Ok l.
Proof. exact h2e_e2h. Qed.
Print Assumptions C19_round_trip.
Theorem C19_other_w_rejected : forall l w, (w <> 0 /\ w <> 1) <-> e2h l w = Err ValueError.
Proof. exact e2h_rejects. Qed.
Print Assumptions C19_other_w_rejected.
Theorem C19_mix_refused : forall h a b, In a h -> In b h -> w4 a = 0 -> w4 b <> 0 -> h2e h = Err ValueError.
Proof. exact h2e_mix. Qed.
Print Assumptions C19_mix_refused.
Example C19_mix_example : h2e [V4 1 2 3 0; V4 1 2 3 1] = Err ValueError.
Proof. apply (C19_mix_refused _ (V4 1 2 3 0) (V4 1 2 3 1)); cbn; auto; lra. Qed.
(** Points with non-zero w are divided by w, unless all w are within the tolerance of [np.allclose] of 1. *)
Theorem C19_points_partial : forall h, (forall v, In v h -> w4 v <> 0) -> (exists v, In v h /\ isclose (w4 v) 1 = false) ->
  h2e h = Ok (map (fun v => scale3 (/ w4 v) (xyz v)) h).
Proof. exact h2e_divides. Qed.
Print Assumptions C19_points_partial.
Example C19_points_example : h2e [V4 2 4 6 2; V4 1 2 3 1] = Ok [V3 1 2 3; V3 1 2 3].
Proof.
  rewrite C19_points_partial.
  - cbn. repeat f_equal; unfold scale3, xyz; cbn; f_equal; field.
  - intros v [<-|[<-|[]]]; cbn; lra.
  - exists (V4 2 4 6 2). split; [now left|]. cbn. apply not_true_iff_false. rewrite isclose_true.
    replace (2 - 1) with 1 by ring. rewrite Rabs_R1. lra.
Qed.
(** In every case the result is right up to that tolerance. *)
Theorem C19_points_accuracy : forall h e i v x, (forall v, In v h -> w4 v <> 0) -> h2e h = Ok e ->
  nth_error h i = Some v -> nth_error e i = Some x ->
  norm3 (sub3 x (scale3 (/ w4 v) (xyz v))) <= 2 * / 100000 * norm3 (xyz v).
Proof. exact h2e_accuracy. Qed.
Print Assumptions C19_points_accuracy.
(** But not exactly. *)
Theorem C19_points_exact_refuted : exists v, w4 v <> 0 /\ h2e [v] = Ok [xyz v] /\ scale3 (/ w4 v) (xyz v) <> xyz v.
Proof.
  exists (V4 1 0 0 (1 + / 1000000)). split; [cbn; lra|]. split.
  - unfold h2e. cbn [forallb w4]. replace (isclose (1 + / 1000000) 1) with true; [rewrite orb_true_r; reflexivity|].
    symmetry. apply isclose_true. replace (1 + / 1000000 - 1) with (/ 1000000) by ring. rewrite Rabs_R1, Rabs_pos_eq by lra. lra.
  - intros H. apply (f_equal x3) in H. cbn in H. apply (f_equal (fun r => r * (1 + / 1000000))) in H.
    rewrite Rmult_1_r, Rinv_l in H; lra.
Qed.
Print Assumptions C19_points_exact_refuted.
(** The distance of two points (given by e2h) is the Euclidean distance. *)
Theorem C19_distance : forall p q : list v3, length p = length q ->
  bind (e2h p 1) (fun a => bind (e2h q 1) (fun b => distance_point_point a b)) =
  Ok (map (fun ab => norm3 (sub3 (fst ab) (snd ab))) (combine p q)).
Proof. exact distance_points. Qed.
Print Assumptions C19_distance.

(** ** C20 *)
(** The result is on the plane and, in homogeneous coordinates, on the line. *)
Theorem C20_on_both : forall dir pos pl, let p := intersect_line_plane (dir_point2line dir pos) pl in
  dot3 (xyz pl) (xyz p) + w4 pl * w4 p = 0 /\ exists t, xyz p = add3 (scale3 (w4 p) pos) (scale3 t dir).
Proof.
  intros dir pos pl p. split; [apply intersect_in_plane|]. eexists. apply (intersect_explicit dir pos pl).
Qed.
Print Assumptions C20_on_both.
(** The last coordinate is zero exactly for a line parallel to the plane. *)
Theorem C20_parallel : forall dir pos pl, w4 (intersect_line_plane (dir_point2line dir pos) pl) = 0 <-> dot3 dir (xyz pl) = 0.
Proof. intros. destruct (intersect_explicit dir pos pl) as [-> _]. reflexivity. Qed.
Print Assumptions C20_parallel.
(** If it is not zero, division by it gives the only common point of line and plane. *)
Theorem C20_unique_point : forall dir pos pl, let p := intersect_line_plane (dir_point2line dir pos) pl in w4 p <> 0 ->
  on_line pos dir (scale3 (/ w4 p) (xyz p)) /\ on_plane pl (scale3 (/ w4 p) (xyz p)) /\
  (forall q, on_line pos dir q -> on_plane pl q -> q = scale3 (/ w4 p) (xyz p)).
Proof. exact intersect_euclid. Qed.
Print Assumptions C20_unique_point.
Example C20_example : intersect_line_plane (dir_point2line (V3 2 0 0) (V3 1 2 3)) (V4 1 0 0 (-5)) = V4 10 4 6 2.
Proof. unfold intersect_line_plane, dir_point2line, hom, sub3, cross3, scale3, dot3, xyz. cbn. f_equal; lra. Qed.
(** All coordinates are zero exactly if the line is in the plane. *)
Theorem C20_in_plane : forall dir pos pl, dir <> zero3 ->
  (intersect_line_plane (dir_point2line dir pos) pl = zero4 <-> forall t, on_plane pl (add3 pos (scale3 t dir))).
Proof. exact intersect_zero. Qed.
Print Assumptions C20_in_plane.
(** A line through two points is the line through either of them along their difference; the choice of point does not matter. *)
Theorem C20_two_points : forall p1 p2, e_pointpoint2line p1 p2 = dir_point2line (sub3 p2 p1) p1 /\
  e_pointpoint2line p1 p2 = dir_point2line (sub3 p2 p1) p2.
Proof. exact pointpoint_dirpoint. Qed.
Print Assumptions C20_two_points.
Theorem C20_any_point : forall dir pos t, dir_point2line dir (add3 pos (scale3 t dir)) = dir_point2line dir pos.
Proof. exact line_same_point. Qed.
Print Assumptions C20_any_point.
(** The plane made from a point and a normal direction contains exactly the points whose offset is perpendicular to the normal. *)
Theorem C20_point_normal_plane : forall p d pl q, w4 p <> 0 -> w4 d = 0 -> point_dir2plane p d = Some pl ->
  dot3 (xyz pl) (xyz pl) = 1 /\ (on_plane pl q <-> dot3 (sub3 q (scale3 (/ w4 p) (xyz p))) (xyz d) = 0).
Proof. exact point_dir2plane_spec. Qed.
Print Assumptions C20_point_normal_plane.
Example C20_plane_example : exists pl, point_dir2plane (V4 2 4 6 2) (V4 0 3 4 0) = Some pl.
Proof. apply point_dir2plane_some; [cbn; lra|]. intros H. apply (f_equal y4) in H. cbn in H. lra. Qed.
(** The angle between line and plane normal is the geometric one. *)
Theorem C20_angle : forall l pl a, angle_line_plane l pl = Some a ->
  0 <= a <= PI /\ dot3 (lU l) (xyz pl) = norm3 (lU l) * norm3 (xyz pl) * cos a.
Proof. exact angle_line_plane_spec. Qed.
Print Assumptions C20_angle.
