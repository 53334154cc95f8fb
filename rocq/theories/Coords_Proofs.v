(** Lemmas about [Coords_Model]. *)
From Verif Require Import Vec_Proofs Coords_Model.
Open Scope R_scope.

Lemma forallb_map {A B} (f : B -> bool) (g : A -> B) l : forallb f (map g l) = forallb (fun x => f (g x)) l.
Proof. induction l as [|a l IH]; cbn [map forallb]; [reflexivity|]. now rewrite IH. Qed.
Lemma forallb_const {A} (l : list A) : forallb (fun _ => true) l = true.
Proof. induction l as [|a l IH]; [reflexivity|exact IH]. Qed.
Lemma xyz_hom v w : xyz (hom v w) = v.
Proof. now destruct v. Qed.
Lemma hom_xyz v : hom (xyz v) (w4 v) = v.
Proof. now destruct v. Qed.

Lemma h2e_e2h l w : w = 0 \/ w = 1 -> bind (e2h l w) h2e = Ok l.
Proof.
  intros H. unfold e2h. assert (E : Reqb w 0 || Reqb w 1 = true).
  { apply orb_true_iff. rewrite !Reqb_true. exact H. }
  rewrite E. cbn [negb bind]. unfold h2e. rewrite !forallb_map.
  assert (X : (forallb (fun x : v3 => Reqb (w4 (hom x w)) 0) l || forallb (fun x : v3 => isclose (w4 (hom x w)) 1) l) = true).
  { apply orb_true_iff. cbn [hom w4]. destruct H as [-> | ->].
    - left. apply forallb_forall. intros. now apply Reqb_true.
    - right. apply forallb_forall. intros. apply isclose_true. rewrite Rminus_eq_0, Rabs_R0, Rabs_R1. lra. }
  rewrite X, map_map. f_equal. rewrite <- (map_id l) at 2. apply map_ext. intros a. apply xyz_hom.
Qed.
Lemma e2h_rejects l w : (w <> 0 /\ w <> 1) <-> e2h l w = Err ValueError.
Proof.
  unfold e2h. destruct (Reqb w 0) eqn:E0; [apply Reqb_true in E0|apply Reqb_false in E0];
    (destruct (Reqb w 1) eqn:E1; [apply Reqb_true in E1|apply Reqb_false in E1]); cbn; split; intros; try discriminate; tauto.
Qed.
Lemma h2e_mix h a b : In a h -> In b h -> w4 a = 0 -> w4 b <> 0 -> h2e h = Err ValueError.
Proof.
  intros Ha Hb Wa Wb. unfold h2e.
  assert (E1 : forallb (fun v => Reqb (w4 v) 0) h = false).
  { apply not_true_iff_false. intros X. rewrite forallb_forall in X. apply Wb. now apply Reqb_true, X. }
  assert (E2 : forallb (fun v => isclose (w4 v) 1) h = false).
  { apply not_true_iff_false. intros X. rewrite forallb_forall in X. specialize (X a Ha). apply isclose_true in X.
    rewrite Wa in X. replace (0 - 1) with (Ropp 1) in X by ring. rewrite Rabs_Ropp, Rabs_R1 in X. lra. }
  assert (E3 : forallb (fun v => negb (Reqb (w4 v) 0)) h = false).
  { apply not_true_iff_false. intros X. rewrite forallb_forall in X. specialize (X a Ha). apply negb_true_iff, Reqb_false in X. tauto. }
  now rewrite E1, E2, E3.
Qed.
Lemma h2e_divides h : (forall v, In v h -> w4 v <> 0) -> (exists v, In v h /\ isclose (w4 v) 1 = false) ->
  h2e h = Ok (map (fun v => scale3 (/ w4 v) (xyz v)) h).
Proof.
  intros N (c & Hc & Wc). unfold h2e.
  assert (E1 : forallb (fun v => Reqb (w4 v) 0) h = false).
  { apply not_true_iff_false. intros X. rewrite forallb_forall in X. apply (N c Hc). now apply Reqb_true, X. }
  assert (E2 : forallb (fun v => isclose (w4 v) 1) h = false).
  { apply not_true_iff_false. intros X. rewrite forallb_forall in X. specialize (X c Hc). congruence. }
  assert (E3 : forallb (fun v => negb (Reqb (w4 v) 0)) h = true).
  { apply forallb_forall. intros v Hv. apply negb_true_iff, Reqb_false. now apply N. }
  now rewrite E1, E2, E3.
Qed.
Lemma h2e_total h : (exists e, h2e h = Ok e /\ length e = length h) \/ h2e h = Err ValueError.
Proof.
  unfold h2e. destruct (_ || _); [left; eexists; split; [reflexivity|apply map_length]|].
  destruct (forallb _ h); [left; eexists; split; [reflexivity|apply map_length]|now right].
Qed.
(** whatever branch is taken the result agrees with the exact conversion up to the tolerance of [np.allclose] *)
Lemma h2e_accuracy h e i v x : (forall v, In v h -> w4 v <> 0) -> h2e h = Ok e -> nth_error h i = Some v -> nth_error e i = Some x ->
  norm3 (sub3 x (scale3 (/ w4 v) (xyz v))) <= 2 * / 100000 * norm3 (xyz v).
Proof.
  intros N H Hv Hx. pose proof (nth_error_In _ _ Hv) as Iv. pose proof (N v Iv) as W.
  pose proof (norm3_nonneg (xyz v)) as P.
  unfold h2e in H. destruct (forallb (fun v => Reqb (w4 v) 0) h) eqn:E1.
  { rewrite forallb_forall in E1. destruct W. now apply Reqb_true, E1. }
  destruct (forallb (fun v => isclose (w4 v) 1) h) eqn:E2; cbn [orb] in H.
  - injection H as H. subst e. rewrite nth_error_map, Hv in Hx. cbn in Hx. injection Hx as <-.
    replace (sub3 (xyz v) (scale3 (/ w4 v) (xyz v))) with (scale3 (1 - / w4 v) (xyz v)) by vring.
    rewrite norm3_scale. apply Rmult_le_compat_r; [exact P|].
    rewrite forallb_forall in E2. pose proof (E2 v Iv) as C. apply isclose_true in C. rewrite Rabs_R1 in C.
    set (w := w4 v) in *.
    assert (Wp : 99 / 100 < w). { revert C. unfold Rabs. destruct (Rcase_abs (w - 1)); lra. }
    replace (1 - / w) with ((w - 1) * / w) by (field; lra). rewrite Rabs_mult, (Rabs_pos_eq (/ w)) by (left; apply Rinv_0_lt_compat; lra).
    assert (I : 0 < / w < 100 / 99).
    { split; [apply Rinv_0_lt_compat; lra|]. replace (100 / 99) with (/ (99 / 100)) by field. apply Rinv_lt_contravar; nra. }
    pose proof (Rabs_pos (w - 1)). nra.
  - destruct (forallb (fun v => negb (Reqb (w4 v) 0)) h); [|discriminate]. injection H as H. subst e.
    rewrite nth_error_map, Hv in Hx. cbn in Hx. injection Hx as <-.
    replace (sub3 _ _) with zero3 by vring. replace (norm3 zero3) with 0 by (symmetry; now apply norm3_zero). nra.
Qed.

(** *** distance *)
Lemma distance_points (p q : list v3) : length p = length q ->
  bind (e2h p 1) (fun a => bind (e2h q 1) (fun b => distance_point_point a b)) =
  Ok (map (fun ab => norm3 (sub3 (fst ab) (snd ab))) (combine p q)).
Proof.
  intros L. unfold e2h. replace (Reqb 1 1) with true by (symmetry; now apply Reqb_true).
  rewrite orb_true_r. cbn [negb bind]. unfold distance_point_point.
  assert (X : forall l, h2e (map (fun v => hom v 1) l) = Ok l).
  { intros l. pose proof (h2e_e2h l 1 (or_intror eq_refl)) as Y. unfold e2h in Y.
    replace (Reqb 1 1) with true in Y by (symmetry; now apply Reqb_true). rewrite orb_true_r in Y. exact Y. }
  now rewrite !X.
Qed.

(** *** lines *)
Lemma pointpoint_dirpoint p1 p2 : e_pointpoint2line p1 p2 = dir_point2line (sub3 p2 p1) p1 /\
  e_pointpoint2line p1 p2 = dir_point2line (sub3 p2 p1) p2.
Proof. unfold e_pointpoint2line, dir_point2line. split; f_equal; vring. Qed.
Lemma line_same_point dir pos t : dir_point2line dir (add3 pos (scale3 t dir)) = dir_point2line dir pos.
Proof. unfold dir_point2line. f_equal. vring. Qed.
Lemma intersect_explicit dir pos pl :
  let p := intersect_line_plane (dir_point2line dir pos) pl in
  w4 p = dot3 dir (xyz pl) /\ xyz p = add3 (scale3 (w4 p) pos) (scale3 (- (dot3 (xyz pl) pos + w4 pl)) dir).
Proof. cbn zeta. unfold intersect_line_plane, dir_point2line. cbn [lU lV]. split; [reflexivity|vring]. Qed.
Lemma intersect_in_plane dir pos pl :
  let p := intersect_line_plane (dir_point2line dir pos) pl in dot3 (xyz pl) (xyz p) + w4 pl * w4 p = 0.
Proof. cbn zeta. unfold intersect_line_plane, dir_point2line. cbn [lU lV]. vring. Qed.
Lemma intersect_euclid dir pos pl :
  let p := intersect_line_plane (dir_point2line dir pos) pl in w4 p <> 0 ->
  on_line pos dir (scale3 (/ w4 p) (xyz p)) /\ on_plane pl (scale3 (/ w4 p) (xyz p)) /\
  (forall q, on_line pos dir q -> on_plane pl q -> q = scale3 (/ w4 p) (xyz p)).
Proof.
  intros p W. destruct (intersect_explicit dir pos pl) as [E1 E2]. fold p in E1, E2.
  set (s := dot3 (xyz pl) pos + w4 pl) in *.
  assert (F : scale3 (/ w4 p) (xyz p) = add3 pos (scale3 (- s / w4 p) dir)).
  { rewrite E2. apply v3_eq; vu; field; exact W. }
  split; [|split].
  - exists (- s / w4 p). exact F.
  - unfold on_plane. rewrite dot3_scale_r. pose proof (intersect_in_plane dir pos pl) as H. cbn zeta in H. fold p in H.
    replace (/ w4 p * dot3 (xyz pl) (xyz p)) with ((dot3 (xyz pl) (xyz p)) / w4 p) by (unfold Rdiv; ring).
    replace (dot3 (xyz pl) (xyz p)) with (- (w4 pl * w4 p)) by lra. field. exact W.
  - intros q [t ->] H. rewrite F. unfold on_plane in H. rewrite dot3_add_r, dot3_scale_r, (dot3_comm (xyz pl) dir), <- E1 in H.
    replace t with (- s / w4 p); [reflexivity|]. apply (Rmult_eq_reg_r (w4 p)); [|exact W]. unfold s in *. field_simplify; [|exact W]. lra.
Qed.
Lemma intersect_zero dir pos pl : dir <> zero3 ->
  (intersect_line_plane (dir_point2line dir pos) pl = zero4 <-> forall t, on_plane pl (add3 pos (scale3 t dir))).
Proof.
  intros N. destruct (intersect_explicit dir pos pl) as [E1 E2].
  set (p := intersect_line_plane (dir_point2line dir pos) pl) in *. unfold on_plane. split.
  - intros H t. rewrite H in E1, E2. cbn [zero4 w4] in E1, E2. rewrite dot3_add_r, dot3_scale_r, (dot3_comm (xyz pl) dir), <- E1.
    set (s := dot3 (xyz pl) pos + w4 pl) in *.
    assert (X : scale3 s dir = zero3).
    { replace (scale3 s dir) with (neg3 (xyz zero4)); [vring|]. rewrite E2. vring. }
    assert (s = 0) as S.
    { destruct (Req_dec s 0) as [S|S]; [exact S|]. destruct N. rewrite <- (scale3_1 dir), <- (Rinv_l s S), <- scale3_scale3, X. vring. }
    unfold s in S. lra.
  - intros H. pose proof (H 0) as H0. pose proof (H 1) as H1. rewrite dot3_add_r, dot3_scale_r in H0, H1.
    assert (D : dot3 (xyz pl) dir = 0) by lra. assert (S : dot3 (xyz pl) pos + w4 pl = 0) by lra.
    rewrite dot3_comm, D in E1. rewrite E1, S in E2. rewrite <- (hom_xyz p), E1, E2. vring.
Qed.
Lemma point_dir2plane_spec p d pl q : w4 p <> 0 -> w4 d = 0 -> point_dir2plane p d = Some pl ->
  dot3 (xyz pl) (xyz pl) = 1 /\ (on_plane pl q <-> dot3 (sub3 q (scale3 (/ w4 p) (xyz p))) (xyz d) = 0).
Proof.
  intros W D H. unfold point_dir2plane in H. unfold unit4 in H. destruct (Req_EM_T (norm4 d) 0) as [E|E]; [discriminate|].
  destruct (Req_EM_T (w4 p) 0) as [X|X]; [contradiction|]. injection H as <-. rewrite xyz_hom. unfold on_plane. rewrite xyz_hom.
  assert (Nd : norm4 d * norm4 d = dot3 (xyz d) (xyz d)). { rewrite norm4_sqr. destruct d. cbn in D. subst. vu. ring. }
  assert (E4 : xyz (scale4 (/ norm4 d) d) = scale3 (/ norm4 d) (xyz d)) by reflexivity.
  split.
  - rewrite E4, dot3_scale_l, dot3_scale_r, <- Nd. field. exact E.
  - assert (K : dot3 (xyz (scale4 (/ norm4 d) d)) q + w4 (hom (xyz (scale4 (/ norm4 d) d)) (- dot4 p (scale4 (/ norm4 d) d) / w4 p)) =
      / norm4 d * dot3 (sub3 q (scale3 (/ w4 p) (xyz p))) (xyz d)).
    { clear Nd E4. set (k := norm4 d) in *. destruct p as [p1 p2 p3 p4], d as [d1 d2 d3 d4], q as [q1 q2 q3]. cbn [w4] in D, W, X. subst d4. vu. field. tauto. }
    rewrite K. split; intros H.
    + apply Rmult_integral in H. destruct H as [H|H]; [|exact H]. exfalso. now apply (Rinv_neq_0_compat _ E).
    + rewrite H. ring.
Qed.
Lemma point_dir2plane_some p d : w4 p <> 0 -> d <> zero4 -> exists pl, point_dir2plane p d = Some pl.
Proof.
  intros W D. unfold point_dir2plane, unit4. destruct (Req_EM_T (norm4 d) 0) as [E|E]; [destruct D; now apply norm4_zero|].
  destruct (Req_EM_T (w4 p) 0) as [X|X]; [contradiction|]. eauto.
Qed.
Lemma angle_line_plane_spec l pl a : angle_line_plane l pl = Some a ->
  0 <= a <= PI /\ dot3 (lU l) (xyz pl) = norm3 (lU l) * norm3 (xyz pl) * cos a.
Proof.
  unfold angle_line_plane. destruct (Req_EM_T _ 0) as [E|E]; [discriminate|]. intros H. injection H as <-.
  split; [apply acos_bound|]. rewrite cos_acos; [field; split; intros X; apply E; rewrite X; ring|].
  set (n := norm3 (lU l) * norm3 (xyz pl)) in *.
  assert (Np : 0 < n). { unfold n in *. pose proof (norm3_nonneg (lU l)). pose proof (norm3_nonneg (xyz pl)). nra. }
  pose proof (cauchy (lU l) (xyz pl)) as C. rewrite <- !norm3_sqr in C.
  assert (C' : dot3 (lU l) (xyz pl) * dot3 (lU l) (xyz pl) <= n * n) by (unfold n; nra).
  assert (- n <= dot3 (lU l) (xyz pl) <= n) by (split; nra).
  split; apply (Rmult_le_reg_r n); try exact Np; unfold Rdiv; rewrite ?Rmult_assoc, Rinv_l by lra; lra.
Qed.
