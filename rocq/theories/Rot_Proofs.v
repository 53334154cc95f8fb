(** Lemmas about [Rot_Model]. *)
From Verif Require Import Vec_Proofs Coords_Proofs.
From Verif Require Export Rot_Model.
Open Scope R_scope.

Lemma sc1 t : sin t * sin t + cos t * cos t = 1.
Proof. pose proof (sin2_cos2 t) as H. unfold Rsqr in H. exact H. Qed.

(** *** axis and angle *)
(** Rodrigues' formula *)
Definition rodrigues (u : v3) (t : R) (v : v3) : v3 :=
  add3 (add3 (scale3 (cos t) v) (scale3 (sin t) (cross3 u v))) (scale3 ((1 - cos t) * dot3 u v) u).
Lemma axangle_rodrigues u t v : app3 (axangle2mat_n u t) v = rodrigues u t v.
Proof. destruct u as [x y z], v as [a b c]. unfold axangle2mat_n, rodrigues. cbv zeta. generalize (cos t) (sin t). intros. vring. Qed.
Lemma axangle_trans u t : trans3 (axangle2mat_n u t) = axangle2mat_n u (- t).
Proof.
  destruct u as [x y z]. unfold axangle2mat_n. cbv zeta. rewrite cos_neg, sin_neg. generalize (cos t) (sin t). intros. vring.
Qed.
Lemma axangle_orthonormal u t : dot3 u u = 1 -> orthonormal (axangle2mat_n u t).
Proof.
  intros H. destruct u as [x y z]. pose proof (sc1 t) as S. unfold orthonormal, axangle2mat_n. cbv zeta.
  generalize dependent (sin t). generalize (cos t). intros c s S. vu.
  assert (Z2 : z * z = 1 - x * x - y * y) by lra. assert (S2 : s * s = 1 - c * c) by lra. clear H S.
  repeat split.
  - transitivity (x * x * (x * x) * (1 - c) * (1 - c) + 2 * x * x * (1 - c) * c + c * c + x * x * (y * y) * (1 - c) * (1 - c) + z * z * (s * s)
      + (z * z) * (x * x) * (1 - c) * (1 - c) + y * y * (s * s)); [ring|]. rewrite S2, Z2. ring.
  - transitivity (x * x * (y * y) * (1 - c) * (1 - c) + z * z * (s * s) + y * y * (y * y) * (1 - c) * (1 - c) + 2 * y * y * (1 - c) * c + c * c
      + (z * z) * (y * y) * (1 - c) * (1 - c) + x * x * (s * s)); [ring|]. rewrite S2, Z2. ring.
  - transitivity (x * x * (z * z) * (1 - c) * (1 - c) + y * y * (s * s) + y * y * (z * z) * (1 - c) * (1 - c) + x * x * (s * s)
      + (z * z) * (z * z) * (1 - c) * (1 - c) + 2 * (z * z) * (1 - c) * c + c * c); [ring|]. rewrite S2, Z2. ring.
  - transitivity (x * y * ((x * x + y * y + z * z) * ((1 - c) * (1 - c)) + 2 * (1 - c) * c - s * s)); [ring|].
    rewrite S2, Z2. ring.
  - transitivity (x * z * ((x * x + y * y + z * z) * ((1 - c) * (1 - c)) + 2 * (1 - c) * c - s * s)); [ring|].
    rewrite S2, Z2. ring.
  - transitivity (z * y * ((x * x + y * y + z * z) * ((1 - c) * (1 - c)) + 2 * (1 - c) * c - s * s)); [ring|].
    rewrite S2, Z2. ring.
Qed.
Lemma axangle_det u t : dot3 u u = 1 -> det3 (axangle2mat_n u t) = 1.
Proof.
  intros H. destruct u as [x y z]. pose proof (sc1 t) as S. unfold axangle2mat_n. cbv zeta.
  generalize dependent (sin t). generalize (cos t). intros c s S. vu.
  assert (S2 : s * s = 1 - c * c) by lra.
  transitivity ((x * x + y * y + z * z) * (1 - c) * (c * c + (x * x + y * y + z * z) * (s * s)) + c * c * c + c * (x * x + y * y + z * z) * (s * s)); [ring|].
  rewrite H, S2. ring.
Qed.
Lemma axangle_rotation u t : dot3 u u = 1 -> rotation (axangle2mat_n u t).
Proof. intros H. split; [now apply axangle_orthonormal|now apply axangle_det]. Qed.
Lemma axangle_axis u t : dot3 u u = 1 -> app3 (axangle2mat_n u t) u = u.
Proof.
  intros H. rewrite axangle_rodrigues. unfold rodrigues. rewrite cross3_self, H. generalize (cos t) (sin t). vring.
Qed.
Lemma axangle_inverse u t : dot3 u u = 1 -> mul3 (axangle2mat_n u t) (axangle2mat_n u (- t)) = id3.
Proof. intros H. rewrite <- axangle_trans. apply orthonormal_rows. now apply axangle_orthonormal. Qed.
(** the angle between a vector perpendicular to the axis and its image is the given one *)
Lemma axangle_angle u t v : dot3 u v = 0 -> dot3 (app3 (axangle2mat_n u t) v) v = cos t * dot3 v v.
Proof.
  intros H. rewrite axangle_rodrigues. unfold rodrigues. rewrite !dot3_add_l, !dot3_scale_l, H.
  rewrite (dot3_comm (cross3 u v)), dot3_cross_r. ring.
Qed.
Lemma axangle2mat_Some axis t m : axangle2mat axis t = Some m -> axis <> zero3 /\ rotation m /\ app3 m axis = axis /\
  axangle2mat axis (- t) = Some (trans3 m) /\ forall v, dot3 axis v = 0 -> dot3 (app3 m v) v = cos t * dot3 v v.
Proof.
  unfold axangle2mat. destruct (unit3 axis) as [u|] eqn:E; [|discriminate]. intros H. injection H as <-.
  destruct (unit3_spec _ _ E) as (N & _ & U & A). split; [exact N|]. split; [now apply axangle_rotation|]. split; [|split].
  - rewrite A at 1. rewrite app3_scale, axangle_axis by exact U. now symmetry.
  - now rewrite axangle_trans.
  - intros v P. apply axangle_angle. rewrite A, dot3_scale_l in P. apply Rmult_integral in P. destruct P as [P|P]; [|exact P].
    exfalso. apply N. now apply norm3_zero.
Qed.
Lemma axangle2mat_total axis t : axis <> zero3 -> exists m, axangle2mat axis t = Some m.
Proof. intros H. unfold axangle2mat. rewrite unit3_some by exact H. eauto. Qed.

(** *** ex2vec_fix *)
Lemma isclose_refl a : isclose a a = true.
Proof. apply isclose_true. rewrite Rminus_eq_0, Rabs_R0. pose proof (Rabs_pos a). lra. Qed.
Lemma allclose3_refl a : allclose3 a a = true.
Proof. unfold allclose3. now rewrite !isclose_refl. Qed.
Lemma unit_parallel a f : dot3 a a = 1 -> dot3 f f = 1 -> sub3 f (scale3 (dot3 f a) a) = zero3 -> f = a \/ f = neg3 a.
Proof.
  intros A F H. set (k := dot3 f a) in *.
  assert (E : f = scale3 k a). { apply v3_eq; [apply (f_equal x3) in H|apply (f_equal y3) in H|apply (f_equal z3) in H]; cbn in *; lra. }
  rewrite E, dot3_scale_l, dot3_scale_r, A in F. assert ((k - 1) * (k + 1) = 0) as K by lra.
  apply Rmult_integral in K. destruct K as [K|K]; [left|right]; rewrite E.
  - replace k with 1 by lra. apply scale3_1.
  - replace k with (-1) by lra. vring.
Qed.
Lemma cross_frame a b : dot3 a a = 1 -> dot3 b b = 1 -> dot3 a b = 0 -> rotation (M3 a b (cross3 a b)).
Proof.
  intros A B AB. assert (C : dot3 (cross3 a b) (cross3 a b) = 1) by (rewrite lagrange, A, B, AB; ring).
  unfold rotation, orthonormal, det3. cbn [a0 a1 a2]. rewrite dot3_cross_l, dot3_cross_r. split; [auto 10|].
  rewrite triple_cycle, (triple_cycle b). exact C.
Qed.
Lemma ex2vec_fix_spec e1 efix m : ex2vec_fix e1 efix = Ok (Some m) ->
  rotation m /\ unit3 e1 = Some (a0 m) /\ exists p q, 0 < q /\ a1 m = add3 (scale3 p e1) (scale3 q efix).
Proof.
  unfold ex2vec_fix. destruct (unit3 e1) as [a|] eqn:E1; [|discriminate]. destruct (unit3 efix) as [f|] eqn:E2; [|discriminate].
  destruct (_ || _); [discriminate|]. destruct (unit3 (sub3 f _)) as [b|] eqn:E3; [|discriminate]. intros H. injection H as <-.
  destruct (unit3_spec _ _ E1) as (N1 & U1 & A & _). destruct (unit3_spec _ _ E2) as (N2 & U2 & F & _).
  destruct (unit3_spec _ _ E3) as (N3 & U3 & B & _).
  assert (AB : dot3 a b = 0).
  { rewrite U3, dot3_scale_r, dot3_sub_r, dot3_scale_r, A, (dot3_comm f a). ring. }
  split; [now apply cross_frame|]. split; [reflexivity|]. cbn [a1].
  pose proof (norm3_pos _ N1). pose proof (norm3_pos _ N2). pose proof (norm3_pos _ N3).
  set (n := norm3 (sub3 f (scale3 (dot3 f a) a))) in *. set (d := dot3 f a) in *.
  exists (- d * / n * / norm3 e1), (/ n * / norm3 efix). split.
  { apply Rmult_lt_0_compat; apply Rinv_0_lt_compat; assumption. }
  rewrite U3, U1, U2. vring.
Qed.
Lemma ex2vec_fix_ok e1 efix : e1 <> zero3 -> efix <> zero3 ->
  (exists m, ex2vec_fix e1 efix = Ok (Some m)) \/ ex2vec_fix e1 efix = Err ValueError.
Proof.
  intros N1 N2. unfold ex2vec_fix. rewrite !unit3_some by assumption.
  destruct (unit3_spec _ _ (unit3_some _ N1)) as (_ & _ & A & _). destruct (unit3_spec _ _ (unit3_some _ N2)) as (_ & _ & F & _).
  set (a := scale3 (/ norm3 e1) e1) in *. set (f := scale3 (/ norm3 efix) efix) in *.
  destruct (allclose3 a f || allclose3 a (neg3 f)) eqn:C; [now right|]. left.
  rewrite unit3_some; [eauto|]. intros Z. apply orb_false_iff in C. destruct C as [C1 C2].
  destruct (unit_parallel a f A F Z) as [E|E].
  - rewrite E, allclose3_refl in C1. discriminate.
  - replace (neg3 f) with a in C2 by (rewrite E; vring). rewrite allclose3_refl in C2. discriminate.
Qed.
Lemma ex2vec_fix_parallel e1 k : e1 <> zero3 -> k <> 0 -> ex2vec_fix e1 (scale3 k e1) = Err ValueError.
Proof.
  intros N K. assert (N2 : scale3 k e1 <> zero3).
  { intros H. apply N. rewrite <- (scale3_1 e1), <- (Rinv_l k K), <- scale3_scale3, H. vring. }
  unfold ex2vec_fix. rewrite !unit3_some by assumption.
  pose proof (norm3_pos _ N). rewrite norm3_scale.
  destruct (Rle_dec 0 k) as [P|P].
  - replace (scale3 (/ (Rabs k * norm3 e1)) (scale3 k e1)) with (scale3 (/ norm3 e1) e1).
    + now rewrite allclose3_refl.
    + rewrite scale3_scale3. f_equal. rewrite Rabs_pos_eq by lra. field. lra.
  - replace (neg3 (scale3 (/ (Rabs k * norm3 e1)) (scale3 k e1))) with (scale3 (/ norm3 e1) e1).
    + now rewrite allclose3_refl, orb_true_r.
    + replace (neg3 (scale3 (/ (Rabs k * norm3 e1)) (scale3 k e1))) with (scale3 (- (/ (Rabs k * norm3 e1)) * k) e1) by vring.
      f_equal. rewrite Rabs_left by lra. field. lra.
Qed.
(** refused inputs are parallel or antiparallel up to the tolerance of [np.allclose] *)
Lemma ex2vec_fix_refused e1 efix : ex2vec_fix e1 efix = Err ValueError ->
  exists a f, unit3 e1 = Some a /\ unit3 efix = Some f /\ (allclose3 a f = true \/ allclose3 a (neg3 f) = true).
Proof.
  unfold ex2vec_fix. destruct (unit3 e1) as [a|]; [|discriminate]. destruct (unit3 efix) as [f|]; [|discriminate].
  destruct (allclose3 a f || allclose3 a (neg3 f)) eqn:C; [intros _; apply orb_true_iff in C; eauto 6|].
  destruct (unit3 _); discriminate.
Qed.

(** *** polarization vectors *)
Definition conv_axis (r : v3) : v3 := if isclose (x3 r) 0 && isclose (z3 r) 0 then V3 1 0 0 else V3 0 1 0.
Lemma conv_not_parallel r : dot3 r r = 1 -> sub3 (conv_axis r) (scale3 (dot3 r (conv_axis r)) r) <> zero3.
Proof.
  intros U H. unfold conv_axis in H. destruct r as [x y z]. cbn [x3 z3] in H.
  destruct (isclose x 0 && isclose z 0) eqn:C.
  - apply andb_true_iff in C. destruct C as [C1 C2]. apply isclose_true in C1. rewrite Rminus_0_r, Rabs_R0 in C1.
    assert (B : -1 < x < 1) by (revert C1; unfold Rabs; destruct (Rcase_abs x); lra).
    apply (f_equal x3) in H. vu. assert (1 = x * x) by nra. nra.
  - assert (x * x + z * z = 0) as XZ by (apply (f_equal y3) in H; vu; nra).
    assert (x = 0 /\ z = 0) as [-> ->] by (split; nra). rewrite !isclose_refl in C. discriminate.
Qed.
Lemma polarization_frame dir : xyz dir <> zero3 -> exists r v1, unit3 (xyz dir) = Some r /\ dot3 r r = 1 /\ dot3 v1 v1 = 1 /\
  dot3 r v1 = 0 /\ (forall u, dot3 u u = 1 -> dot3 u r = 0 -> dot3 u (conv_axis r) <= dot3 v1 (conv_axis r)) /\
  forall t, polarization_vector dir t = Some (hom (add3 (scale3 (cos t) v1) (scale3 (sin t) (cross3 r v1))) 0).
Proof.
  intros N. destruct (unit3_spec _ _ (unit3_some _ N)) as (_ & _ & U & _).
  set (r := scale3 (/ norm3 (xyz dir)) (xyz dir)) in *. pose proof (conv_not_parallel r U) as NP.
  set (w := sub3 (conv_axis r) (scale3 (dot3 r (conv_axis r)) r)) in *.
  destruct (unit3_spec _ _ (unit3_some _ NP)) as (_ & _ & V & W).
  set (v1 := scale3 (/ norm3 w) w) in *. exists r, v1.
  assert (RW : dot3 r w = 0). { unfold w. rewrite dot3_sub_r, dot3_scale_r, U. ring. }
  assert (RV : dot3 r v1 = 0). { unfold v1. rewrite dot3_scale_r, RW. ring. }
  split; [now apply unit3_some|]. split; [exact U|]. split; [exact V|]. split; [exact RV|]. split.
  - intros u Uu Ur. pose proof (norm3_pos _ NP) as P.
    assert (E : forall q, dot3 q r = 0 -> dot3 q (conv_axis r) = norm3 w * dot3 q v1).
    { intros q Q. assert (EW : dot3 q w = norm3 w * dot3 q v1) by (rewrite W at 1; apply dot3_scale_r).
      rewrite <- EW. unfold w. rewrite dot3_sub_r, dot3_scale_r, Q. ring. }
    rewrite (E u Ur), (E v1) by (now rewrite dot3_comm). rewrite V. pose proof (cauchy u v1) as C. rewrite Uu, V in C.
    assert (dot3 u v1 <= 1) by nra. nra.
  - intros t. unfold polarization_vector. rewrite unit3_some by exact N. fold r. cbv zeta. fold (conv_axis r). fold w.
    rewrite unit3_some by exact NP. reflexivity.
Qed.
Lemma frame_dot r v1 s t : dot3 r r = 1 -> dot3 v1 v1 = 1 -> dot3 r v1 = 0 ->
  dot3 (add3 (scale3 (cos s) v1) (scale3 (sin s) (cross3 r v1))) (add3 (scale3 (cos t) v1) (scale3 (sin t) (cross3 r v1))) = cos (s - t).
Proof.
  intros R V RV. rewrite !dot3_add_l, !dot3_add_r, !dot3_scale_l, !dot3_scale_r.
  assert (C : dot3 (cross3 r v1) (cross3 r v1) = 1) by (rewrite lagrange, R, V, RV; ring).
  rewrite C, V, (dot3_comm (cross3 r v1) v1), dot3_cross_r, cos_minus. ring.
Qed.

(** *** parallel transport *)
Lemma jones3_eye : jones3 eye2 = id3.
Proof. reflexivity. Qed.
Section Transport.
Variables d1 d2 : v3.
Hypothesis U1 : dot3 d1 d1 = 1.
Hypothesis U2 : dot3 d2 d2 = 1.
Hypothesis S0 : norm3 (cross3 d1 d2) <> 0.
Let s := scale3 (/ norm3 (cross3 d1 d2)) (cross3 d1 d2).
Lemma s_unit : dot3 s s = 1.
Proof. unfold s. rewrite dot3_scale_l, dot3_scale_r, <- norm3_sqr. field. exact S0. Qed.
Lemma s_d1 : dot3 s d1 = 0.
Proof. unfold s. rewrite dot3_scale_l, (dot3_comm _ d1), dot3_cross_l. ring. Qed.
Lemma s_d2 : dot3 s d2 = 0.
Proof. unfold s. rewrite dot3_scale_l, (dot3_comm _ d2), dot3_cross_r. ring. Qed.
Lemma frame_ortho d : dot3 d d = 1 -> dot3 s d = 0 -> orthonormal (M3 s (cross3 d s) d).
Proof.
  intros U SD. unfold orthonormal. cbn [a0 a1 a2]. rewrite s_unit, dot3_cross_r, (dot3_comm (cross3 d s) d), dot3_cross_l, SD, U.
  rewrite lagrange, U, s_unit, (dot3_comm d s), SD. repeat split; ring.
Qed.
Lemma Oin_ortho : orthonormal (M3 s (cross3 d1 s) d1).
Proof. apply frame_ortho; [exact U1|apply s_d1]. Qed.
Lemma Oout_ortho : orthonormal (M3 s (cross3 d2 s) d2).
Proof. apply frame_ortho; [exact U2|apply s_d2]. Qed.
End Transport.

Lemma transport_spec dir1 dir2 d1 d2 j rn : unit3 dir1 = Some d1 -> unit3 dir2 = Some d2 -> isclose (norm3 (cross3 d1 d2)) 0 = false ->
  exists s m, paralleltransport_matrix dir1 dir2 j rn = Some m /\ cross3 d1 d2 = scale3 (norm3 (cross3 d1 d2)) s /\ dot3 s s = 1 /\
    app3 m s = add3 (scale3 (j11 j) s) (scale3 (j21 j) (cross3 d2 s)) /\
    app3 m (cross3 d1 s) = add3 (scale3 (j12 j) s) (scale3 (j22 j) (cross3 d2 s)) /\
    app3 m d1 = d2 /\
    (j = eye2 -> orthonormal m) /\
    (forall v, dot3 v d1 = 0 -> dot3 (app3 m v) d2 = 0).
Proof.
  intros E1 E2 C. destruct (unit3_spec _ _ E1) as (_ & _ & U1 & _). destruct (unit3_spec _ _ E2) as (_ & _ & U2 & _).
  assert (S0 : norm3 (cross3 d1 d2) <> 0). { intros X. rewrite X, isclose_refl in C. discriminate. }
  unfold paralleltransport_matrix. rewrite E1, E2, C. cbv zeta.
  set (s := scale3 (/ norm3 (cross3 d1 d2)) (cross3 d1 d2)).
  assert (Us : dot3 s s = 1) by (now apply s_unit).
  assert (Oi : orthonormal (M3 s (cross3 d1 s) d1)) by (now apply Oin_ortho).
  assert (Oo : orthonormal (M3 s (cross3 d2 s) d2)) by (now apply Oout_ortho).
  exists s. eexists. split; [reflexivity|].
  split; [unfold s; rewrite scale3_scale3, Rinv_r by exact S0; now rewrite scale3_1|]. split; [exact Us|].
  set (Oin := M3 s (cross3 d1 s) d1) in *. set (Oout := M3 s (cross3 d2 s) d2) in *.
  assert (T : forall v, app3 (mul3 Oout (mul3 (jones3 j) (trans3 Oin))) v = app3 Oout (app3 (jones3 j) (app3 (trans3 Oin) v))).
  { intros v. now rewrite !app3_mul. }
  assert (CO : forall v, app3 (trans3 Oin) v = V3 (dot3 s v) (dot3 (cross3 d1 s) v) (dot3 d1 v)).
  { intros v. unfold Oin. generalize (cross3 d1 s). intros q. clear. vring. }
  destruct Oi as (O1 & O2 & O3 & O4 & O5 & O6). unfold Oin in O1, O2, O3, O4, O5, O6. cbn [a0 a1 a2] in *.
  split; [|split; [|split; [|split]]].
  - rewrite T, CO, Us, (dot3_comm (cross3 d1 s)), O4, (dot3_comm d1), O5. unfold Oout, jones3. generalize (cross3 d2 s). intros q. clear. vring.
  - rewrite T, CO, O2, O4, (dot3_comm d1), O6. unfold Oout, jones3. generalize (cross3 d2 s). intros q. clear. vring.
  - rewrite T, CO, O3, O5, O6. unfold Oout, jones3. generalize (cross3 d2 s). intros q. clear. vring.
  - intros ->. rewrite jones3_eye, mul3_id_l. apply orthonormal_mul; [exact Oo|]. apply orthonormal_trans.
    unfold Oin. now apply Oin_ortho.
  - intros v V. rewrite T, CO, (dot3_comm d1), V. unfold Oout at 1, jones3, app3. cbn [x3 y3 z3 a0 a1 a2].
    destruct Oo as (P1 & P2 & P3 & P4 & P5 & P6). unfold Oout in P1, P2, P3, P4, P5, P6. cbn [a0 a1 a2] in *.
    rewrite !dot3_add_l, !dot3_scale_l, P3, P5, P6.
    generalize (dot3 s v) (dot3 (cross3 d1 s) v). intros p q. vu. ring.
Qed.
(** parallel rays: the polarization stays as it is and is still transverse up to the tolerance *)
Lemma transport_parallel dir1 dir2 d1 d2 j v : unit3 dir1 = Some d1 -> unit3 dir2 = Some d2 -> isclose (norm3 (cross3 d1 d2)) 0 = true ->
  paralleltransport_matrix dir1 dir2 j true = Some id3 /\
  (dot3 v d1 = 0 -> Rabs (dot3 v d2) <= / 100000000 * norm3 v).
Proof.
  intros E1 E2 C. destruct (unit3_spec _ _ E1) as (_ & _ & U1 & _). destruct (unit3_spec _ _ E2) as (_ & _ & U2 & _).
  unfold paralleltransport_matrix. rewrite E1, E2, C. split; [reflexivity|]. intros V.
  apply isclose_true in C. rewrite Rminus_0_r, Rabs_R0, Rmult_0_r, Rplus_0_r in C.
  pose proof (norm3_nonneg (cross3 d1 d2)) as P. rewrite Rabs_pos_eq in C by exact P.
  assert (K : dot3 v d2 * dot3 v d2 <= dot3 v v * dot3 (cross3 d1 d2) (cross3 d1 d2)).
  { set (q := sub3 d2 (scale3 (dot3 d1 d2) d1)).
    assert (Q1 : dot3 v q = dot3 v d2) by (unfold q; rewrite dot3_sub_r, dot3_scale_r, V; ring).
    assert (Q2 : dot3 q q = dot3 (cross3 d1 d2) (cross3 d1 d2)).
    { unfold q. rewrite lagrange, dot3_sub_l, !dot3_sub_r, !dot3_scale_l, !dot3_scale_r, U1, U2, (dot3_comm d2 d1). ring. }
    pose proof (cauchy v q) as CS. rewrite Q1, Q2 in CS. exact CS. }
  rewrite <- !norm3_sqr in K. set (sn := norm3 (cross3 d1 d2)) in *. set (vn := norm3 v) in *.
  assert (Pv : 0 <= vn) by apply norm3_nonneg.
  apply (Rle_trans _ (vn * sn)); [|nra]. apply Rsqr_incr_0_var; [|nra]. rewrite <- Rsqr_abs. unfold Rsqr. nra.
Qed.
