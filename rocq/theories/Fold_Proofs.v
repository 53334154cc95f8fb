(** Lemmas on flat mirrors *)
From Verif Require Import Vec_Proofs Coords_Proofs Plane_Proofs Rot_Proofs Brewster_Proofs.
From Verif Require Export Fold_Model.
Open Scope R_scope.

Definition refl (d n : v3) : v3 := sub3 d (scale3 (2 * dot3 d n) n).
Lemma unit_nonzero v : dot3 v v = 1 -> v <> zero3.
Proof. intros U E. rewrite E in U. revert U. vu. lra. Qed.
Lemma reflect_refl m minv n d : facing m minv n -> dot3 d d = 1 -> Brewster_Model.reflect m minv (hom d 0) = Some (hom (refl d n) 0).
Proof.
  intros (P & I & N & s & S & X) U. rewrite (reflect_spec m minv d P I (unit_nonzero d U)). rewrite (nrm_one d U). unfold refl.
  assert (E : nrm (xyz (v_x m)) = n). { rewrite X. unfold nrm. rewrite norm3_scale. unfold norm3. rewrite N, sqrt_1, Rabs_pos_eq by lra. rewrite Rmult_1_r. replace (scale3 (/ s) (scale3 s n)) with (scale3 (/ s * s) n) by (clear; revert n; generalize (/ s); vring). rewrite Rinv_l by lra. apply scale3_1. }
  now rewrite E.
Qed.
Lemma refl_unit d n : dot3 n n = 1 -> dot3 (refl d n) (refl d n) = dot3 d d.
Proof. intros N. apply mirror_norm. exact N. Qed.
Lemma refl_back d n : dot3 n n = 1 -> refl (neg3 (refl d n)) n = neg3 d.
Proof.
  intros N. unfold refl at 1. replace (dot3 (neg3 (refl d n)) n) with (dot3 d n). { unfold refl. generalize (dot3 d n). clear. revert d n. vring. }
  transitivity (- dot3 (refl d n) n); [|clear; generalize (refl d n); revert n; vring]. unfold refl. rewrite mirror_flip by exact N. ring.
Qed.
Lemma refl_dot d n : dot3 d d = 1 -> dot3 d (refl d n) = 1 - 2 * (dot3 d n * dot3 d n).
Proof. intros D. unfold refl. rewrite sub_dot_r, D. ring. Qed.
(** ** the frame of axis, normal and the direction perpendicular to both *)
Definition side (u n : v3) : v3 := cross3 u n.
Definition framed (u n : v3) : Prop := dot3 u u = 1 /\ dot3 n n = 1 /\ dot3 u n = 0.
Lemma frame_facts u n : framed u n -> dot3 (side u n) (side u n) = 1 /\ dot3 (side u n) n = 0 /\ dot3 (side u n) u = 0 /\ cross3 u (side u n) = neg3 n.
Proof.
  intros (U & N & O). unfold side. split; [|split; [|split]].
  - transitivity (dot3 u u * dot3 n n - dot3 u n * dot3 u n); [clear; vring|]. rewrite U, N, O. ring.
  - clear. vring.
  - clear. vring.
  - transitivity (sub3 (scale3 (dot3 u n) u) (scale3 (dot3 u u) n)); [clear; vring|]. rewrite U, O. clear. vring.
Qed.
Lemma columns (u n w d : v3) : app3 (M3 u n w) (app3 (trans3 (M3 u n w)) d) = add3 (add3 (scale3 (dot3 d n) n) (scale3 (dot3 d w) w)) (scale3 (dot3 d u) u).
Proof. vring. Qed.
Lemma frame_expand u n d : framed u n -> d = add3 (add3 (scale3 (dot3 d n) n) (scale3 (dot3 d (side u n)) (side u n))) (scale3 (dot3 d u) u).
Proof.
  intros (U & N & O). rewrite <- columns. destruct (cross_frame u n U N O) as [F _]. apply orthonormal_rows in F. fold (side u n) in F. rewrite <- app3_mul, F, app3_id. reflexivity.
Qed.
Lemma frame_dot a b c v1 v2 v3' : dot3 v1 v1 = 1 -> dot3 v2 v2 = 1 -> dot3 v3' v3' = 1 -> dot3 v1 v2 = 0 -> dot3 v1 v3' = 0 -> dot3 v2 v3' = 0 ->
  forall a' b', dot3 (add3 (add3 (scale3 a v1) (scale3 b v2)) (scale3 c v3')) (add3 (scale3 a' v1) (scale3 b' v2)) = a * a' + b * b'.
Proof.
  intros A B C D E F a' b'. transitivity (a * a' * dot3 v1 v1 + (a * b' + b * a') * dot3 v1 v2 + b * b' * dot3 v2 v2 + c * a' * dot3 v1 v3' + c * b' * dot3 v2 v3'); [clear; vring|]. rewrite A, B, D, E, F. ring.
Qed.
Lemma turned_normal u n a : framed u n -> app3 (axangle2mat_n u a) n = add3 (scale3 (cos a) n) (scale3 (sin a) (side u n)).
Proof. intros (U & N & O). rewrite axangle_rodrigues. unfold rodrigues. rewrite O. fold (side u n). generalize (cos a) (sin a) (side u n). clear. vring. Qed.
Lemma turned_frame u n t al be ga : framed u n -> app3 (axangle2mat_n u t) (add3 (add3 (scale3 al n) (scale3 be (side u n))) (scale3 ga u)) =
  add3 (add3 (scale3 (al * cos t - be * sin t) n) (scale3 (be * cos t + al * sin t) (side u n))) (scale3 ga u).
Proof.
  intros F. destruct (frame_facts u n F) as (W & WN & WU & CW). destruct F as (U & N & O). rewrite axangle_rodrigues. unfold rodrigues.
  replace (dot3 u (add3 (add3 (scale3 al n) (scale3 be (side u n))) (scale3 ga u))) with (al * dot3 u n + be * dot3 (side u n) u + ga * dot3 u u) by (generalize (side u n); clear; vring). rewrite O, WU, U.
  replace (cross3 u (add3 (add3 (scale3 al n) (scale3 be (side u n))) (scale3 ga u))) with (add3 (scale3 al (cross3 u n)) (scale3 be (cross3 u (side u n)))) by (generalize (side u n); clear; vring). rewrite CW. fold (side u n).
  generalize (cos t) (sin t) (side u n). clear. vring.
Qed.
Lemma refl_frame u n a al be ga : framed u n -> refl (add3 (add3 (scale3 al n) (scale3 be (side u n))) (scale3 ga u)) (add3 (scale3 (cos a) n) (scale3 (sin a) (side u n))) =
  add3 (add3 (scale3 (al - 2 * (al * cos a + be * sin a) * cos a) n) (scale3 (be - 2 * (al * cos a + be * sin a) * sin a) (side u n))) (scale3 ga u).
Proof.
  intros F. destruct (frame_facts u n F) as (W & WN & WU & CW). destruct F as (U & N & O). unfold refl. rewrite frame_dot; [|exact N|exact W|exact U|now rewrite dot3_comm|now rewrite dot3_comm|exact WU]. generalize (al * cos a + be * sin a) (cos a) (sin a) (side u n). clear. vring.
Qed.
Lemma refl_first u n al be ga : framed u n -> refl (add3 (add3 (scale3 al n) (scale3 be (side u n))) (scale3 ga u)) n = add3 (add3 (scale3 (- al) n) (scale3 be (side u n))) (scale3 ga u).
Proof.
  intros F. pose proof (refl_frame u n 0 al be ga F) as E. rewrite cos_0, sin_0 in E. replace (add3 (scale3 1 n) (scale3 0 (side u n))) with n in E by (generalize (side u n); clear; vring). rewrite E. f_equal. f_equal; f_equal; ring.
Qed.
(** a mirror that is tilted by [a] around an axis perpendicular to the plane of incidence *)
Lemma tilt u n d a : framed u n -> dot3 d u = 0 -> refl d (app3 (axangle2mat_n u a) n) = app3 (axangle2mat_n u (2 * a)) (refl d n).
Proof.
  intros F D. rewrite turned_normal by exact F. pose proof (frame_expand u n d F) as E. rewrite D in E. revert E. generalize (dot3 d n) (dot3 d (side u n)). intros al be E. rewrite E. clear E. rewrite refl_first, refl_frame, turned_frame by exact F.
  rewrite cos_2a, sin_2a. pose proof (sin2_cos2 a) as S. unfold Rsqr in S. pose proof (f_equal (Rmult al) S) as SA. pose proof (f_equal (Rmult be) S) as SB. f_equal. f_equal; f_equal; lra.
Qed.
(** two mirrors, the second turned by [a] with respect to the first around the axis *)
Lemma pair_turn u n d a : framed u n -> refl (refl d n) (app3 (axangle2mat_n u a) n) = app3 (axangle2mat_n u (2 * a)) d.
Proof.
  intros F. rewrite turned_normal by exact F. pose proof (frame_expand u n d F) as E. revert E. generalize (dot3 d n) (dot3 d (side u n)) (dot3 d u). intros al be ga E. rewrite E. clear E. rewrite refl_first, refl_frame, turned_frame by exact F.
  rewrite cos_2a, sin_2a. pose proof (sin2_cos2 a) as S. unfold Rsqr in S. pose proof (f_equal (Rmult al) S) as SA. pose proof (f_equal (Rmult be) S) as SB. f_equal. f_equal; f_equal; lra.
Qed.
Lemma turn_twice u n a b : framed u n -> app3 (axangle2mat_n u a) (app3 (axangle2mat_n u b) n) = app3 (axangle2mat_n u b) (app3 (axangle2mat_n u a) n).
Proof.
  intros F. rewrite (turned_normal u n b), (turned_normal u n a) by exact F. assert (K : forall x y : R, add3 (scale3 x n) (scale3 y (side u n)) = add3 (add3 (scale3 x n) (scale3 y (side u n))) (scale3 0 u)) by (generalize (side u n); clear; vring). rewrite (K (cos b) (sin b)), (turned_frame u n a) by exact F. rewrite (K (cos a) (sin a)), (turned_frame u n b) by exact F. f_equal. f_equal; f_equal; ring.
Qed.
Lemma turned_framed u n b : framed u n -> framed u (app3 (axangle2mat_n u b) n).
Proof.
  intros (U & N & O). split; [exact U|]. split; [rewrite orthonormal_dot; [exact N|now apply axangle_orthonormal]|]. rewrite <- (axangle_axis u b U) at 1. rewrite orthonormal_dot; [exact O|now apply axangle_orthonormal].
Qed.
(** ** images *)
Lemma on_plane m minv n a b q : facing m minv n -> in_rectangle m a b q -> dot3 (sub3 q (xyz (center m))) n = 0.
Proof.
  intros (P & _ & N & s & S & X) (_ & _ & ->). destruct P as (_ & _ & _ & _ & Y & Z & _). rewrite X in Y, Z. rewrite dot3_scale_l in Y, Z. assert (Y' : dot3 n (xyz (v_y m)) = 0) by nra. assert (Z' : dot3 n (xyz (v_z m)) = 0) by nra.
  transitivity (a * dot3 n (xyz (v_y m)) + b * dot3 n (xyz (v_z m))); [generalize (xyz (center m)) (xyz (v_y m)) (xyz (v_z m)); clear; revert n; vring|]. rewrite Y', Z'. ring.
Qed.
Lemma image_line m n q d k : dot3 n n = 1 -> dot3 (sub3 q (xyz (center m))) n = 0 -> mirror_image m n (add3 q (scale3 k d)) = add3 q (scale3 k (refl d n)).
Proof.
  intros N Q. unfold mirror_image, refl. replace (dot3 (sub3 (add3 q (scale3 k d)) (xyz (center m))) n) with (dot3 (sub3 q (xyz (center m))) n + k * dot3 d n) by (generalize (xyz (center m)); clear; revert q d n; vring). rewrite Q. generalize (dot3 d n). clear. revert q d n. vring.
Qed.
