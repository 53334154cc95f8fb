(** Lemmas about [Lens_Model]. *)
From Verif Require Import Vec_Proofs Coords_Proofs Plane_Proofs Rot_Proofs.
From Verif Require Export Lens_Model.
Open Scope R_scope.

Lemma sub_add3 p q : sub3 (add3 p q) p = q. Proof. vring. Qed.
Lemma neg_sub3 a b : neg3 (sub3 a b) = sub3 b a. Proof. vring. Qed.
Lemma scale_scale3 a b v : scale3 a (scale3 b v) = scale3 (a * b) v. Proof. vring. Qed.
Lemma scale3_1 v : scale3 1 v = v. Proof. vring. Qed.
Lemma scale3_m1 v : scale3 (-1) v = neg3 v. Proof. vring. Qed.
Lemma add_sub_cancel3 a b : add3 a (sub3 b a) = b. Proof. vring. Qed.
Lemma axis_point m d : perpendicular_axes m -> exists q, optical_axis_point m d = Some q /\
  q = sub3 (xyz (center m)) (scale3 (d / norm3 (xyz (v_z m))) (xyz (v_z m))).
Proof.
  intros P. destruct P as ((W0 & W1 & W2 & W3) & _ & _ & Nz & _). unfold optical_axis_point, e_z.
  rewrite (unit4_hom0 (v_z m)) by assumption. eexists. split; [reflexivity|].
  unfold Rdiv. generalize (/ norm3 (xyz (v_z m))). generalize (xyz (v_z m)) (center m). clear. intros v c k. vring.
Qed.
Lemma unit3_scale k v : 0 < k -> unit3 (scale3 k v) = unit3 v.
Proof.
  intros K. unfold unit3. assert (N : norm3 (scale3 k v) = k * norm3 v) by (rewrite norm3_scale, Rabs_pos_eq by lra; reflexivity). rewrite N.
  destruct (Req_EM_T (norm3 v) 0) as [E|E].
  - rewrite E, Rmult_0_r. destruct (Req_EM_T 0 0); [reflexivity|lra].
  - destruct (Req_EM_T (k * norm3 v) 0) as [F|F]; [apply Rmult_integral in F; lra|]. f_equal. rewrite scale_scale3. f_equal. field. lra.
Qed.
Lemma unit3_of_unit u : dot3 u u = 1 -> unit3 u = Some u.
Proof.
  intros H. assert (N : norm3 u = 1) by now apply norm3_1. unfold unit3. rewrite N. destruct (Req_EM_T 1 0); [lra|]. rewrite Rinv_1, scale3_1. reflexivity.
Qed.
Lemma unit3_neg v : unit3 (neg3 v) = option_map neg3 (unit3 v).
Proof.
  assert (N : norm3 (neg3 v) = norm3 v) by (unfold norm3; f_equal; clear; vring). unfold unit3. rewrite N.
  destruct (Req_EM_T (norm3 v) 0); [reflexivity|]. cbn. f_equal. generalize (/ norm3 v). clear. vring.
Qed.
Lemma focus_scale m d f k dir : 0 < k -> focuspoint m d f (scale3 k dir) = focuspoint m d f dir.
Proof. intros K. unfold focuspoint. now rewrite unit3_scale. Qed.
Lemma focus_point m d f dir q u : optical_axis_point m d = Some q -> unit3 dir = Some u -> focuspoint m d f dir = Some (add3 q (scale3 f u)).
Proof. intros Q U. unfold focuspoint. now rewrite Q, U. Qed.
Lemma focus_distance m d f dir q F : optical_axis_point m d = Some q -> focuspoint m d f dir = Some F -> norm3 (sub3 F q) = Rabs f.
Proof.
  intros Q H. unfold focuspoint in H. rewrite Q in H. destruct (unit3 dir) as [u|] eqn:U; [|discriminate]. injection H as <-. 
  destruct (unit3_spec _ _ U) as (_ & _ & UU & _). rewrite sub_add3, norm3_scale, (proj2 (norm3_1 u) UU). ring.
Qed.
Lemma lens_out m d f refl dir pos out p : perfect_lens m d f refl dir pos = Some (out, p) ->
  exists F, focuspoint m d f dir = Some F /\ norm3 out = 1 /\ pos <> F /\ add3 pos (scale3 (norm3 (sub3 F pos)) out) = F.
Proof.
  unfold perfect_lens. destruct (focuspoint m d f dir) as [F|]; [|discriminate]. destruct (unit3 dir) as [u|]; [|discriminate].
  destruct (unit3 (sub3 F pos)) as [o|] eqn:U; [|discriminate]. intros H. injection H as <- _. exists F. split; [reflexivity|].
  destruct (unit3_spec _ _ U) as (N & E & UU & A). split; [now apply norm3_1|]. split.
  - intros ->. apply N. clear. vring.
  - subst o. rewrite scale_scale3, Rinv_r by (pose proof (norm3_pos _ N); lra). rewrite scale3_1. apply add_sub_cancel3.
Qed.
Lemma lens_total m d f refl dir pos : perpendicular_axes m -> dir <> zero3 ->
  (exists out p, perfect_lens m d f refl dir pos = Some (out, p)) <-> focuspoint m d f dir <> Some pos.
Proof.
  intros P D. destruct (axis_point m d P) as (q & Q & _). unfold perfect_lens. rewrite (focus_point m d f dir q _ Q (unit3_some dir D)), (unit3_some dir D).
  set (F := add3 q _). split.
  - intros (o & p & H) E. injection E as ->. replace (sub3 pos pos) with zero3 in H by (clear; vring). rewrite unit3_zero in H. discriminate.
  - intros N. rewrite unit3_some; [eauto|]. intros Z. apply N. f_equal. rewrite <- (add_sub_cancel3 pos F), Z. clear. vring.
Qed.
Lemma lens_center m d f refl dir q u : perpendicular_axes m -> optical_axis_point m d = Some q -> unit3 dir = Some u -> f <> 0 ->
  exists p, perfect_lens m d f refl dir q = Some (if Rltb 0 f then u else neg3 u, p).
Proof.
  intros P Q U F. unfold perfect_lens. rewrite (focus_point m d f dir q u Q U), U, sub_add3.
  destruct (unit3_spec _ _ U) as (_ & _ & UU & _).
  destruct (Rltb 0 f) eqn:S.
  - apply Rltb_true in S. rewrite unit3_scale, unit3_of_unit by assumption. eauto.
  - apply Rltb_false in S. replace (scale3 f u) with (scale3 (- f) (neg3 u)) by (clear; vring).
    rewrite unit3_scale, unit3_neg, (unit3_of_unit u UU) by lra. cbn. eauto.
Qed.
Lemma lens_probability m d f refl dir pos out p : (forall a, 0 <= refl a <= 1) -> perfect_lens m d f refl dir pos = Some (out, p) -> 0 <= p <= 1.
Proof.
  intros R. unfold perfect_lens. destruct (focuspoint m d f dir) as [F|]; [|discriminate]. destruct (unit3 dir) as [u|]; [|discriminate].
  destruct (unit3 (sub3 F pos)) as [o|]; [|discriminate]. intros H. injection H as _ <-. set (a := acos _ / 4). pose proof (R a). nra.
Qed.
Lemma acos_abs x : -1 <= x <= 1 -> 0 <= acos (Rabs x) <= PI / 2.
Proof.
  intros B. assert (A : -1 <= Rabs x <= 1) by (pose proof (Rabs_pos x); split; [lra|apply Rabs_le; lra]).
  pose proof (acos_bound (Rabs x)) as [B1 B2]. split; [exact B1|].
  destruct (Rle_or_lt (acos (Rabs x)) (PI / 2)) as [L|L]; [exact L|exfalso].
  pose proof (cos_acos (Rabs x) A). pose proof (cos_lt_0 (acos (Rabs x)) L ltac:(pose proof PI_RGT_0; lra)). pose proof (Rabs_pos x). lra.
Qed.
Lemma unit_dot_bound u v : dot3 u u = 1 -> dot3 v v = 1 -> -1 <= dot3 u v <= 1.
Proof.
  intros U V. assert (A : 0 <= dot3 (sub3 u v) (sub3 u v) /\ 0 <= dot3 (add3 u v) (add3 u v)) by (split; apply dot3_nonneg).
  assert (E : dot3 (sub3 u v) (sub3 u v) = dot3 u u - 2 * dot3 u v + dot3 v v) by (clear; vd; vu; ring).
  assert (F : dot3 (add3 u v) (add3 u v) = dot3 u u + 2 * dot3 u v + dot3 v v) by (clear; vd; vu; ring). lra.
Qed.
(** *** ThinLens *)
Lemma thin_center c f dir pol : thin_lens c f dir c pol = Some (dir, pol).
Proof.
  unfold thin_lens. replace (norm3 (sub3 c c)) with 0. { now rewrite (proj2 (Reqb_true 0 0)). }
  symmetry. apply norm3_zero. clear. vring.
Qed.
Lemma rotation_id : rotation id3.
Proof. unfold rotation, orthonormal. vu. repeat split; ring. Qed.
Lemma thin_rotates c f dir hit pol out pol' : thin_lens c f dir hit pol = Some (out, pol') ->
  exists rot, rotation rot /\ out = app3 rot dir /\ pol' = app3 rot pol.
Proof.
  unfold thin_lens. cbv zeta. destruct (Reqb _ 0).
  - intros H. injection H as <- <-. exists id3. split; [apply rotation_id|]. split; symmetry; apply app3_id.
  - destruct (axangle2mat _ _) as [rot|] eqn:E; [|discriminate]. intros H. injection H as <- <-. exists rot.
    destruct (axangle2mat_Some _ _ _ E) as (_ & R & _). split; [exact R|]. split; reflexivity.
Qed.
Lemma thin_exact c f dir hit pol : cross3 dir (sub3 hit c) <> zero3 ->
  let w := sub3 hit c in let r := norm3 w in let n := cross3 dir w in
  exists out pol', thin_lens c f dir hit pol = Some (out, pol') /\
    out = sub3 (scale3 (cos (r / f)) dir) (scale3 (sin (r / f) / norm3 n) (cross3 n dir)).
Proof.
  intros N w r n. assert (R : r <> 0). { intros E. apply norm3_zero in E. apply N. fold w. rewrite E. clear. vring. }
  unfold thin_lens. cbv zeta. fold w. fold r. rewrite (proj2 (Reqb_false r 0) R). fold n. unfold axangle2mat.
  fold w in N. fold n in N. rewrite (unit3_some n N). eexists. eexists. split; [reflexivity|].
  rewrite axangle_rodrigues. unfold rodrigues. replace (- r / f) with (- (r / f)) by (unfold Rdiv; ring). rewrite cos_neg, sin_neg.
  assert (Z : dot3 (scale3 (/ norm3 n) n) dir = 0). { rewrite dot3_scale_l. unfold n. rewrite dot3_comm, dot3_cross_l. ring. }
  rewrite Z. replace (cross3 (scale3 (/ norm3 n) n) dir) with (scale3 (/ norm3 n) (cross3 n dir)) by (generalize (/ norm3 n); clear; vring).
  unfold Rdiv. generalize (cos (r * / f)) (sin (r * / f)) (/ norm3 n) (cross3 n dir). clear. vring.
Qed.
Lemma thin_parallel c f dir hit pol : dot3 dir dir = 1 -> dot3 dir (sub3 hit c) = 0 -> hit <> c ->
  let w := sub3 hit c in let r := norm3 w in
  exists out pol', thin_lens c f dir hit pol = Some (out, pol') /\ out = sub3 (scale3 (cos (r / f)) dir) (scale3 (sin (r / f) / r) w).
Proof.
  intros U P N w r. fold w in P.
  assert (W : w <> zero3). { intros E. apply N. rewrite <- (add_sub_cancel3 c hit). fold w. rewrite E. clear. vring. }
  pose proof (norm3_pos w W) as R. fold r in R.
  assert (L : dot3 (cross3 dir w) (cross3 dir w) = r * r). { rewrite lagrange, U, P. unfold r. rewrite norm3_sqr. ring. }
  assert (Nn : norm3 (cross3 dir w) = r). { unfold norm3. rewrite L. apply sqrt_square. lra. }
  assert (Z : cross3 dir w <> zero3). { intros E. apply norm3_zero in E. lra. }
  destruct (thin_exact c f dir hit pol Z) as (out & pol' & T & E). exists out, pol'. split; [exact T|]. rewrite E. fold w. fold r. rewrite Nn. f_equal. f_equal.
  transitivity (sub3 (scale3 (dot3 dir dir) w) (scale3 (dot3 dir w) dir)); [clear; vring|]. rewrite U, P. clear. vring.
Qed.
Lemma thin_crossing c f dir hit pol out pol' : dot3 dir dir = 1 -> dot3 dir (sub3 hit c) = 0 -> hit <> c ->
  thin_lens c f dir hit pol = Some (out, pol') -> let r := norm3 (sub3 hit c) in sin (r / f) <> 0 ->
  add3 hit (scale3 (r / sin (r / f)) out) = add3 c (scale3 (r * cos (r / f) / sin (r / f)) dir).
Proof.
  intros U P N T r S. destruct (thin_parallel c f dir hit pol U P N) as (o & p & T' & E). rewrite T in T'. injection T' as <- _. rewrite E. fold r.
  assert (R : r <> 0). { intros Z. apply norm3_zero in Z. apply N. rewrite <- (add_sub_cancel3 c hit), Z. clear. vring. }
  set (w := sub3 hit c) in *. replace hit with (add3 c w) by apply add_sub_cancel3.
  set (cs := cos (r / f)) in *. set (sn := sin (r / f)) in *. clearbody cs sn w r. clear - S R.
  apply v3_eq; vu; field; auto.
Qed.
