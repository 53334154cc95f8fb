(** Properties C25-C29, C76: rotations and polarization. *)
From Verif Require Import Vec_Proofs Coords_Proofs Rot_Model Rot_Proofs.
Open Scope R_scope.

(** ** C25 *)
Theorem C25_unit_transverse : forall dir t, xyz dir <> zero3 -> exists p, polarization_vector dir t = Some p /\
  w4 p = 0 /\ dot3 (xyz p) (xyz p) = 1 /\ dot3 (xyz p) (xyz dir) = 0.
Proof.
  intros dir t N. destruct (polarization_frame dir N) as (r & v1 & E & U & V & RV & _ & P).
  eexists. split; [apply P|]. split; [reflexivity|]. rewrite xyz_hom. split.
  - rewrite frame_dot by assumption. rewrite Rminus_eq_0. apply cos_0.
  - destruct (unit3_spec _ _ E) as (_ & _ & _ & D). rewrite D, dot3_scale_r, dot3_add_l, !dot3_scale_l.
    rewrite (dot3_comm v1), RV, (dot3_comm (cross3 r v1)), dot3_cross_l. ring.
Qed.
Print Assumptions C25_unit_transverse.
(** Two angles give vectors that enclose the difference of the angles; in particular 0 and pi/2 are orthogonal. *)
Theorem C25_angles : forall dir s t p q, xyz dir <> zero3 ->
  polarization_vector dir s = Some p -> polarization_vector dir t = Some q -> dot3 (xyz p) (xyz q) = cos (s - t).
Proof.
  intros dir s t p q N Hp Hq. destruct (polarization_frame dir N) as (r & v1 & E & U & V & RV & _ & P).
  rewrite P in Hp, Hq. injection Hp as <-. injection Hq as <-. rewrite !xyz_hom. now apply frame_dot.
Qed.
Print Assumptions C25_angles.
(** Angle 0 is the transverse unit vector closest to +y (or +x for rays along y). *)
Theorem C25_convention : forall dir p u, xyz dir <> zero3 -> polarization_vector dir 0 = Some p ->
  dot3 u u = 1 -> dot3 u (xyz dir) = 0 ->
  exists r, unit3 (xyz dir) = Some r /\
  (if isclose (x3 r) 0 && isclose (z3 r) 0 then x3 u <= x3 (xyz p) else y3 u <= y3 (xyz p)).
Proof.
  intros dir p u N Hp U T. destruct (polarization_frame dir N) as (r & v1 & E & _ & _ & _ & M & P).
  exists r. split; [exact E|]. rewrite P in Hp. injection Hp as <-. rewrite xyz_hom, cos_0, sin_0.
  assert (X : add3 (scale3 1 v1) (scale3 0 (cross3 r v1)) = v1) by vring. rewrite X.
  assert (T' : dot3 u r = 0). { destruct (unit3_spec _ _ E) as (_ & -> & _ & _). rewrite dot3_scale_r, T. ring. }
  specialize (M u U T'). unfold conv_axis in M. destruct (isclose (x3 r) 0 && isclose (z3 r) 0); vu; destruct u, v1; lra.
Qed.
Print Assumptions C25_convention.
Example C25_example : xyz (V4 0 (-2) 0 0) <> zero3.
Proof. intros H. apply (f_equal y3) in H. cbn in H. lra. Qed.

(** ** C26 *)
(** Rays that change direction: transverse stays transverse, scalar products (so lengths) stay, the component [s]
    perpendicular to both rays stays. *)
Theorem C26_transport : forall dir1 dir2 d1 d2 pol, unit3 (xyz dir1) = Some d1 -> unit3 (xyz dir2) = Some d2 ->
  isclose (norm3 (cross3 d1 d2)) 0 = false -> dot3 (xyz pol) d1 = 0 ->
  exists p, parallel_transport dir1 dir2 pol None None = Some p /\ w4 p = 0 /\
    dot3 (xyz p) d2 = 0 /\ norm3 (xyz p) = norm3 (xyz pol) /\
    dot3 (xyz p) (cross3 d1 d2) = dot3 (xyz pol) (cross3 d1 d2).
Proof.
  intros dir1 dir2 d1 d2 pol E1 E2 C T. destruct (transport_spec _ _ d1 d2 eye2 true E1 E2 C) as (s & m & M & S & Us & As & Ap & Ad & O & Tr).
  unfold parallel_transport. rewrite M. eexists. split; [reflexivity|]. split; [reflexivity|]. rewrite xyz_hom.
  specialize (O eq_refl). split; [now apply Tr|]. split; [now apply orthonormal_norm|].
  assert (As' : app3 m s = s) by (rewrite As; cbn [eye2 j11 j21]; generalize (cross3 d2 s); vring).
  rewrite S, !dot3_scale_r. f_equal. rewrite <- As' at 1. now apply orthonormal_dot.
Qed.
Print Assumptions C26_transport.
Example C26_example : unit3 (xyz (V4 1 0 0 0)) = Some (V3 1 0 0) /\ unit3 (xyz (V4 0 1 0 0)) = Some (V3 0 1 0) /\
  isclose (norm3 (cross3 (V3 1 0 0) (V3 0 1 0))) 0 = false.
Proof.
  split; [apply unit3_unit; vu; ring|]. split; [apply unit3_unit; vu; ring|].
  assert (N : norm3 (cross3 (V3 1 0 0) (V3 0 1 0)) = 1) by (apply norm3_1; vu; ring). rewrite N.
  apply not_true_iff_false. rewrite isclose_true, Rminus_0_r, Rabs_R1, Rabs_R0. lra.
Qed.
(** The transport matrix is a rotation that maps the old to the new direction, so two polarizations keep their relative
    orientation. *)
Theorem C26_matrix : forall dir1 dir2 d1 d2 rn, unit3 dir1 = Some d1 -> unit3 dir2 = Some d2 ->
  isclose (norm3 (cross3 d1 d2)) 0 = false ->
  exists m, paralleltransport_matrix dir1 dir2 eye2 rn = Some m /\ orthonormal m /\ app3 m d1 = d2.
Proof.
  intros dir1 dir2 d1 d2 rn E1 E2 C. destruct (transport_spec _ _ d1 d2 eye2 rn E1 E2 C) as (s & m & M & _ & _ & _ & _ & A & O & _).
  exists m. auto.
Qed.
Print Assumptions C26_matrix.
(** With a Jones matrix: s and p components are mixed by it. *)
Theorem C26_jones : forall dir1 dir2 d1 d2 j rn, unit3 dir1 = Some d1 -> unit3 dir2 = Some d2 ->
  isclose (norm3 (cross3 d1 d2)) 0 = false ->
  exists s m, paralleltransport_matrix dir1 dir2 j rn = Some m /\ cross3 d1 d2 = scale3 (norm3 (cross3 d1 d2)) s /\ dot3 s s = 1 /\
    app3 m s = add3 (scale3 (j11 j) s) (scale3 (j21 j) (cross3 d2 s)) /\
    app3 m (cross3 d1 s) = add3 (scale3 (j12 j) s) (scale3 (j22 j) (cross3 d2 s)).
Proof.
  intros dir1 dir2 d1 d2 j rn E1 E2 C. destruct (transport_spec _ _ d1 d2 j rn E1 E2 C) as (s & m & M & S & Us & A1 & A2 & _).
  exists s, m. auto.
Qed.
Print Assumptions C26_jones.
(** Rays that keep their direction (or turn back) keep their polarization. *)
Theorem C26_unchanged : forall dir1 dir2 d1 d2 pol, unit3 (xyz dir1) = Some d1 -> unit3 (xyz dir2) = Some d2 ->
  isclose (norm3 (cross3 d1 d2)) 0 = true ->
  parallel_transport dir1 dir2 pol None None = Some (hom (xyz pol) 0) /\
  (dot3 (xyz pol) d1 = 0 -> Rabs (dot3 (xyz pol) d2) <= / 100000000 * norm3 (xyz pol)).
Proof.
  intros dir1 dir2 d1 d2 pol E1 E2 C. destruct (transport_parallel _ _ d1 d2 eye2 (xyz pol) E1 E2 C) as [M B].
  split; [|exact B]. unfold parallel_transport. rewrite M. now rewrite app3_id.
Qed.
Print Assumptions C26_unchanged.
(** Without the replacement of nans the matrix for such rays is not defined, whatever the Jones matrix; with it, it is the unit matrix. *)
Theorem C26_replace_nans : forall dir1 dir2 d1 d2 j, unit3 dir1 = Some d1 -> unit3 dir2 = Some d2 -> isclose (norm3 (cross3 d1 d2)) 0 = true ->
  paralleltransport_matrix dir1 dir2 j false = None /\ paralleltransport_matrix dir1 dir2 j true = Some id3.
Proof. intros dir1 dir2 d1 d2 j E1 E2 C. unfold paralleltransport_matrix. now rewrite E1, E2, C. Qed.
Print Assumptions C26_replace_nans.

(** ** C76 *)
(** The keyword arguments of [parallel_transport] have no effect. *)
Theorem C76_keywords_refuted : forall d1 d2 pol j rn,
  parallel_transport d1 d2 pol j rn = parallel_transport d1 d2 pol None None.
Proof. reflexivity. Qed.
Print Assumptions C76_keywords_refuted.
(** while [paralleltransport_matrix] with the Jones matrix 0 would remove a transverse polarization. *)
Theorem C76_matrix_uses_them : forall dir1 dir2 d1 d2 rn, unit3 dir1 = Some d1 -> unit3 dir2 = Some d2 ->
  isclose (norm3 (cross3 d1 d2)) 0 = false ->
  exists s m, paralleltransport_matrix dir1 dir2 (Jones 0 0 0 0) rn = Some m /\ dot3 s s = 1 /\ dot3 s d1 = 0 /\ app3 m s = zero3.
Proof.
  intros dir1 dir2 d1 d2 rn E1 E2 C.
  destruct (transport_spec _ _ d1 d2 (Jones 0 0 0 0) rn E1 E2 C) as (s & m & M & S & Us & A1 & _).
  exists s, m. split; [exact M|]. split; [exact Us|]. split.
  - assert (N : norm3 (cross3 d1 d2) <> 0). { intros X. rewrite X, isclose_refl in C. discriminate. }
    assert (X : dot3 d1 (cross3 d1 d2) = 0) by apply dot3_cross_l. rewrite S, dot3_scale_r in X.
    apply Rmult_integral in X. rewrite dot3_comm. tauto.
  - rewrite A1. cbn [j11 j21]. generalize (cross3 d2 s). vring.
Qed.
Print Assumptions C76_matrix_uses_them.
Example C76_example : exists s m, paralleltransport_matrix (V3 1 0 0) (V3 0 1 0) (Jones 0 0 0 0) true = Some m /\ dot3 s s = 1 /\ app3 m s = zero3.
Proof. destruct C26_example as (A & B & C). destruct (C76_matrix_uses_them _ _ _ _ true A B C) as (s & m & M & S & _ & Z). now exists s, m. Qed.

(** ** C27: [Q_reflection] raises for every input shape. *)
Theorem C27_refuted : forall (A : Type) shape (value : A), Q_reflection shape value = Err ValueError.
Proof. reflexivity. Qed.
Print Assumptions C27_refuted.
Example C27_example : Q_reflection [3]%Z 5 = Err ValueError /\ Q_reflection [2; 3]%Z 5 = Err ValueError.
Proof. split; apply C27_refuted. Qed.

(** ** C28 *)
Theorem C28_rotation : forall axis t, axis <> zero3 -> exists m, axangle2mat axis t = Some m /\
  (forall u v, dot3 (app3 m u) (app3 m v) = dot3 u v) /\ (forall v, norm3 (app3 m v) = norm3 v) /\
  det3 m = 1 /\ app3 m axis = axis /\
  (exists m', axangle2mat axis (- t) = Some m' /\ mul3 m m' = id3 /\ mul3 m' m = id3).
Proof.
  intros axis t N. destruct (axangle2mat_total axis t N) as [m M]. exists m. split; [exact M|].
  destruct (axangle2mat_Some _ _ _ M) as (_ & [O D] & A & I & _).
  split; [intros; now apply orthonormal_dot|]. split; [intros; now apply orthonormal_norm|]. split; [exact D|]. split; [exact A|].
  exists (trans3 m). split; [exact I|]. split; [now apply orthonormal_rows|now apply orthonormal_iff].
Qed.
Print Assumptions C28_rotation.
(** A vector perpendicular to the axis is turned by the given angle. *)
Theorem C28_angle : forall axis t m v, axangle2mat axis t = Some m -> dot3 axis v = 0 -> dot3 (app3 m v) v = cos t * dot3 v v.
Proof. intros axis t m v M. apply (axangle2mat_Some _ _ _ M). Qed.
Print Assumptions C28_angle.
(** The sense of rotation: a quarter turn about [u] maps a perpendicular [v] to [u x v]. *)
Theorem C28_right_handed : forall u v m, dot3 u u = 1 -> dot3 u v = 0 -> axangle2mat u (PI / 2) = Some m -> app3 m v = cross3 u v.
Proof.
  intros u v m U P M. unfold axangle2mat in M. rewrite unit3_unit in M by exact U. injection M as <-.
  rewrite axangle_rodrigues. unfold rodrigues. rewrite cos_PI2, sin_PI2, P. vring.
Qed.
Print Assumptions C28_right_handed.
Example C28_example : V3 0 0 2 <> zero3 /\ dot3 (V3 0 0 2) (V3 1 5 0) = 0.
Proof. split; [|vu; ring]. intros H. apply (f_equal z3) in H. cbn in H. lra. Qed.

(** ** C29 *)
Theorem C29_aligned : forall e1 efix m, ex2vec_fix e1 efix = Ok (Some m) ->
  rotation m /\ unit3 e1 = Some (a0 m) /\ exists p q, 0 < q /\ a1 m = add3 (scale3 p e1) (scale3 q efix).
Proof. exact ex2vec_fix_spec. Qed.
Print Assumptions C29_aligned.
(** Parallel and antiparallel vectors are refused; *)
Theorem C29_parallel_refused : forall e1 k, e1 <> zero3 -> k <> 0 -> ex2vec_fix e1 (scale3 k e1) = Err ValueError.
Proof. exact ex2vec_fix_parallel. Qed.
Print Assumptions C29_parallel_refused.
(** other non-zero vectors give a matrix unless they are (anti)parallel up to the tolerance of [np.allclose]. *)
Theorem C29_otherwise_matrix : forall e1 efix, e1 <> zero3 -> efix <> zero3 ->
  (exists m, ex2vec_fix e1 efix = Ok (Some m)) \/
  (ex2vec_fix e1 efix = Err ValueError /\
   exists a f, unit3 e1 = Some a /\ unit3 efix = Some f /\ (allclose3 a f = true \/ allclose3 a (neg3 f) = true)).
Proof.
  intros e1 efix N1 N2. destruct (ex2vec_fix_ok e1 efix N1 N2) as [H|H]; [now left|right].
  split; [exact H|]. now apply ex2vec_fix_refused.
Qed.
Print Assumptions C29_otherwise_matrix.
Example C29_example : exists m, ex2vec_fix (V3 1 0 0) (V3 0 1 0) = Ok (Some m).
Proof.
  assert (U : unit3 (V3 1 0 0) = Some (V3 1 0 0)) by (apply unit3_unit; vu; ring).
  assert (F : unit3 (V3 0 1 0) = Some (V3 0 1 0)) by (apply unit3_unit; vu; ring).
  destruct (C29_otherwise_matrix (V3 1 0 0) (V3 0 1 0)) as [H|(_ & a & f & Ea & Ef & H)]; [| |exact H|exfalso].
  - intros H. apply (f_equal x3) in H. cbn in H. lra.
  - intros H. apply (f_equal y3) in H. cbn in H. lra.
  - rewrite U in Ea. rewrite F in Ef. injection Ea as <-. injection Ef as <-.
    assert (X : isclose 1 0 = false). { apply not_true_iff_false. rewrite isclose_true, Rminus_0_r, Rabs_R1, Rabs_R0. lra. }
    assert (Y : isclose 1 (-0) = false). { replace (-0) with 0 by ring. exact X. }
    unfold allclose3, neg3 in H. cbn [x3 y3 z3] in H. rewrite X, Y in H. cbn in H. destruct H; discriminate.
Qed.
