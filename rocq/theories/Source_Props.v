(** Properties of sources and pointing (C113 - C119). *)
From Verif Require Import Source_Proofs.
From Coq Require Import List.
Open Scope R_scope.

(** ** C113 *)
(** The photon travels against the direction of its source: with the aimpoint along x, the direction at position angle roll
    (North through East) along z and the one 90 degrees East of it along y. *)
Theorem C113_dir : forall p ra dec,
  let s := skyvec ra dec in
  let x := skyvec (p_ra p) (p_dec p) in
  let z := add3 (scale3 (cos (p_roll p)) (north_at (p_ra p) (p_dec p))) (scale3 (sin (p_roll p)) (east_at (p_ra p))) in
  let y := sub3 (scale3 (cos (p_roll p)) (east_at (p_ra p))) (scale3 (sin (p_roll p)) (north_at (p_ra p) (p_dec p))) in
  rotation (M3 x y z) /\
  photons_dir p ra dec = Some (app4 (p_ref p) (V4 (- dot3 s x) (- dot3 s y) (- dot3 s z) 0)).
Proof.
  intros p ra dec. cbv zeta. split.
  - pose proof (rotation_trans _ (offset_rotation (p_ra p) (p_dec p) (p_roll p))) as H.
    replace (M3 _ _ _) with (trans3 (offset_matrix (p_ra p) (p_dec p) (p_roll p))); [exact H|].
    apply m3_eq; [apply dot_ext|apply dot_ext|apply dot_ext]; intros w; (etransitivity; [|apply dot3_comm]); cbn [a0 a1 a2].
    all: pose proof (offset_app (p_ra p) (p_dec p) (p_roll p) w) as E.
    + apply (f_equal x3) in E. cbn [x3] in E. rewrite <- E. destruct w, (offset_matrix _ _ _) as [[] [] []]. vu. ring.
    + apply (f_equal y3) in E. cbn [y3] in E. rewrite <- E. destruct w, (offset_matrix _ _ _) as [[] [] []]. vu. ring.
    + apply (f_equal z3) in E. cbn [z3] in E. rewrite <- E. destruct w, (offset_matrix _ _ _) as [[] [] []]. vu. ring.
  - rewrite photons_dir_eq. unfold p_offset. now rewrite offset_app.
Qed.
Print Assumptions C113_dir.
(** An on-axis source shines along the optical axis. *)
Theorem C113_onaxis : forall p, photons_dir p (p_ra p) (p_dec p) = Some (app4 (p_ref p) (V4 (-1) 0 0 0)).
Proof.
  intros p. destruct (C113_dir p (p_ra p) (p_dec p)) as [(O & D) E]. rewrite E. cbv zeta in *.
  destruct O as (X & _ & _ & XY & XZ & _). cbn [a0 a1 a2] in *. rewrite X, XY, XZ. now rewrite Ropp_0.
Qed.
Print Assumptions C113_onaxis.
(** Angles between sources are angles between photon directions, which are of unit length, for every coordinate system. *)
Theorem C113_angles : forall p ra dec ra' dec', affine (p_ref p) -> orthonormal (lin (p_ref p)) -> exists d d',
  photons_dir p ra dec = Some (hom d 0) /\ photons_dir p ra' dec' = Some (hom d' 0) /\ dot3 d d = 1 /\ dot3 d' d' = 1 /\
  dot3 d d' = dot3 (skyvec ra dec) (skyvec ra' dec').
Proof.
  intros p ra dec ra' dec' A O. rewrite !photons_dir_eq, !app_dir by exact A. eexists. eexists. split; [reflexivity|]. split; [reflexivity|].
  rewrite !orthonormal_dot by exact O. rewrite !neg3_dot. destruct (offset_rotation (p_ra p) (p_dec p) (p_roll p)) as [Q _]. fold (p_offset p) in Q.
  rewrite <- !neg_app, !orthonormal_dot by exact Q. rewrite !skyvec_unit. repeat split. vring.
Qed.
Print Assumptions C113_angles.
Definition pointing0 : pointing := Pointing 0 0 0 id4.
Example C113_example : photons_dir pointing0 0 (PI / 6) = Some (V4 (- cos (PI / 6)) 0 (- (1 / 2)) 0).
Proof.
  destruct (C113_dir pointing0 0 (PI / 6)) as [_ E]. rewrite E. unfold pointing0. cbn [p_ra p_dec p_roll p_ref].
  unfold skyvec, north_at, east_at. rewrite sin_0, cos_0, sin_PI6. rewrite app4_id. f_equal. vu. f_equal; ring.
Qed.
Example C113_ref_example : affine (p_ref pointing0) /\ orthonormal (lin (p_ref pointing0)).
Proof. unfold affine, orthonormal. vu. cbn. repeat split; lra. Qed.

(** ** C114 *)
(** The polarization vector is the image of the direction at the polarization angle, measured from North through East at the position
    of the photon, under the map that takes the sky to the coordinate system. It is a unit vector perpendicular to the ray. *)
Theorem C114_pol : forall p ra dec a, affine (p_ref p) -> rotation (lin (p_ref p)) -> 0 < cos dec ->
  exists m d q, rotation m /\ fixed_pointing p ra dec a = Some (hom d 0, hom q 0) /\
    (forall ra' dec', photons_dir p ra' dec' = Some (hom (app3 m (neg3 (skyvec ra' dec'))) 0)) /\
    d = app3 m (neg3 (skyvec ra dec)) /\
    q = app3 m (add3 (scale3 (cos a) (north_at ra dec)) (scale3 (sin a) (east_at ra))) /\
    dot3 q q = 1 /\ dot3 d q = 0.
Proof.
  intros p ra dec a A R C. set (m := mul3 (lin (p_ref p)) (p_offset p)). assert (Ro : rotation m) by now apply M_rot.
  exists m. do 2 eexists. split; [exact Ro|]. unfold fixed_pointing. rewrite dir_M, pol_M by assumption. fold m. split; [reflexivity|].
  split; [intros; rewrite dir_M by assumption; fold m; now rewrite neg_app|]. rewrite neg_app. split; [reflexivity|]. split; [reflexivity|].
  rewrite <- neg_app, !orthonormal_dot by apply Ro. pose proof (cs1 a) as CA. pose proof (cs1 ra) as CR. pose proof (cs1 dec) as CD.
  rewrite !dot3_add_l, !dot3_add_r, !dot3_scale_l, !dot3_scale_r, north_unit.
  assert (E1 : dot3 (north_at ra dec) (east_at ra) = 0) by (unfold north_at, east_at; vu; ring).
  assert (E2 : dot3 (east_at ra) (east_at ra) = 1) by (unfold east_at; vu; lra).
  assert (E3 : dot3 (neg3 (skyvec ra dec)) (north_at ra dec) = 0).
  { unfold skyvec, north_at. vu. transitivity (- (sin dec * cos dec) * (1 - (cos ra * cos ra + sin ra * sin ra))); [ring|]. rewrite cs1. ring. }
  assert (E4 : dot3 (neg3 (skyvec ra dec)) (east_at ra) = 0) by (unfold skyvec, east_at; vu; ring).
  rewrite (dot3_comm (east_at ra) (north_at ra dec)), E1, E2, E3, E4. split; [|ring]. transitivity (cos a * cos a + sin a * sin a); [ring|exact CA].
Qed.
Print Assumptions C114_pol.
Example C114_example : exists d q, rotation (lin (p_ref pointing0)) /\ 0 < cos 0 /\ fixed_pointing pointing0 0 0 (PI / 2) = Some (hom d 0, hom q 0) /\ dot3 q q = 1 /\ dot3 d q = 0.
Proof.
  destruct C113_ref_example as [A O]. assert (R : rotation (lin (p_ref pointing0))) by (split; [exact O|]; vu; cbn; lra).
  assert (C : 0 < cos 0) by (rewrite cos_0; lra). destruct (C114_pol pointing0 0 0 (PI / 2) A R C) as (_ & d & q & _ & F & _ & _ & _ & Q & D). now exists d, q.
Qed.
(** As documented, no value results for a source exactly on a pole. *)
Theorem C114_pole : forall p ra dec a, affine (p_ref p) -> rotation (lin (p_ref p)) -> cos dec = 0 -> fixed_pointing p ra dec a = None.
Proof. intros p ra dec a A R C. unfold fixed_pointing. rewrite dir_M, pol_pole by assumption. reflexivity. Qed.
Print Assumptions C114_pole.
(** For a left-handed coordinate system the angle is counted from North through West. *)
Theorem C114_lefthanded_refuted : exists p, affine (p_ref p) /\ orthonormal (lin (p_ref p)) /\
  fixed_pointing p 0 0 (PI / 2) = Some (V4 (-1) 0 0 0, V4 0 1 0 0) /\
  app4 (p_ref p) (hom (app3 (p_offset p) (east_at 0)) 0) = V4 0 (-1) 0 0.
Proof.
  set (r := M4 (V4 1 0 0 0) (V4 0 (-1) 0 0) (V4 0 0 1 0) (V4 0 0 0 1)). exists (Pointing 0 0 0 r). cbn [p_ref].
  split; [unfold affine; cbn; auto|]. split; [unfold orthonormal; vu; cbn; repeat split; lra|].
  assert (OFF : p_offset (Pointing 0 0 0 r) = id3).
  { unfold p_offset, offset_matrix, astro_x, astro_y, astro_z. cbn [p_ra p_dec p_roll]. rewrite Ropp_0, cos_0, sin_0. vu. f_equal; f_equal; ring. }
  split.
  - unfold fixed_pointing. pose proof (C113_onaxis (Pointing 0 0 0 r)) as D. cbn [p_ra p_dec p_ref] in D. rewrite D.
    unfold photons_pol. cbv zeta. rewrite OFF, app3_id. cbn [p_ref]. rewrite sin_PI2, cos_PI2.
    replace (sub4 _ _) with (hom (V3 0 0 1) 0) by (unfold r; vu; f_equal; ring). rewrite unit4_hom, unit3_unit by (vu; ring).
    f_equal. f_equal; unfold r; vu; f_equal; ring.
  - rewrite OFF, app3_id. unfold east_at, r. rewrite sin_0, cos_0. vu. f_equal; ring.
Qed.
Print Assumptions C114_lefthanded_refuted.
(** This holds for all left-handed systems: directions as before, polarization angle from North through West. *)
Lemma unit4_minus v : unit4 (scale4 (-1) v) = option_map (scale4 (-1)) (unit4 v).
Proof.
  unfold unit4. assert (N : norm4 (scale4 (-1) v) = norm4 v) by (unfold norm4; f_equal; unfold dot4, scale4; cbn; ring). rewrite N. destruct (Req_EM_T (norm4 v) 0); [reflexivity|]. cbn [option_map]. f_equal. unfold scale4. cbn. f_equal; ring.
Qed.
Lemma pointing_minus p ra dec a : let m := p_ref p in
  fixed_pointing (Pointing (p_ra p) (p_dec p) (p_roll p) (M4 (scale4 (-1) (b0 m)) (scale4 (-1) (b1 m)) (scale4 (-1) (b2 m)) (b3 m))) ra dec a =
  option_map (fun dq => (scale4 (-1) (fst dq), scale4 (-1) (snd dq))) (fixed_pointing p ra dec (- a)).
Proof.
  intros m. set (p' := Pointing _ _ _ _). assert (OFF : p_offset p' = p_offset p) by reflexivity. assert (AP : forall v, app4 (p_ref p') (hom v 0) = scale4 (-1) (app4 (p_ref p) (hom v 0))) by (intros v; unfold p', app4, m, hom, scale4, add4; cbn; f_equal; ring).
  unfold fixed_pointing, photons_dir. rewrite OFF. destruct (unit3 (neg3 (app3 (p_offset p) (skyvec ra dec)))) as [u|]; [|reflexivity]. rewrite AP. set (d := app4 (p_ref p) (hom u 0)).
  unfold photons_pol. cbv zeta. rewrite OFF, AP. set (n := app4 (p_ref p) (hom (app3 (p_offset p) (V3 0 0 1)) 0)).
  assert (E : sub4 (scale4 (-1) n) (scale4 (dot4 (scale4 (-1) n) (scale4 (-1) d)) (scale4 (-1) d)) = scale4 (-1) (sub4 n (scale4 (dot4 n d) d))) by (clearbody n d; unfold sub4, scale4, dot4; cbn; f_equal; ring).
  rewrite E, unit4_minus. destruct (unit4 (sub4 n (scale4 (dot4 n d) d))) as [w|]; [|reflexivity]. cbn [option_map fst snd]. do 2 f_equal. rewrite cos_neg, sin_neg. clearbody d. unfold add4, scale4, hom, cross3, xyz. cbn. f_equal; ring.
Qed.
Theorem C114_lefthanded : forall p ra dec a, affine (p_ref p) -> orthonormal (lin (p_ref p)) -> det3 (lin (p_ref p)) = -1 -> 0 < cos dec ->
  exists m d q, orthonormal m /\ fixed_pointing p ra dec a = Some (hom d 0, hom q 0) /\
    (forall ra' dec', photons_dir p ra' dec' = Some (hom (app3 m (neg3 (skyvec ra' dec'))) 0)) /\ d = app3 m (neg3 (skyvec ra dec)) /\
    q = app3 m (sub3 (scale3 (cos a) (north_at ra dec)) (scale3 (sin a) (east_at ra))).
Proof.
  intros p ra dec a A O D C. set (r := M4 (scale4 (-1) (b0 (p_ref p))) (scale4 (-1) (b1 (p_ref p))) (scale4 (-1) (b2 (p_ref p))) (b3 (p_ref p))). set (p' := Pointing (p_ra p) (p_dec p) (p_roll p) r).
  assert (A' : affine (p_ref p')). { destruct A as (A0 & A1 & A2 & A3). unfold affine, p', r, scale4. cbn. rewrite A0, A1, A2. repeat split; try ring. exact A3. }
  assert (R' : rotation (lin (p_ref p'))).
  { split. - destruct O as (O1 & O2 & O3 & O4 & O5 & O6). unfold orthonormal, lin, p', r, scale4, dot3, xyz in *. cbn in *. repeat split; lra.
    - transitivity (- det3 (lin (p_ref p))); [unfold det3, lin, p', r, scale4, dot3, cross3, xyz; cbn; ring|rewrite D; ring]. }
  destruct (C114_pol p' ra dec (- a) A' R' C) as (m & d & q & Ro & F & Dir & Ed & Eq & _). pose proof (pointing_minus p ra dec (- a)) as PM. cbv zeta in PM. fold r in PM. fold p' in PM. rewrite F, Ropp_involutive in PM.
  destruct (fixed_pointing p ra dec a) as [[d0 q0]|]; [|discriminate]. cbn [option_map fst snd] in PM. assert (E1 : hom d 0 = scale4 (-1) d0) by congruence. assert (E2 : hom q 0 = scale4 (-1) q0) by congruence.
  set (m' := M3 (neg3 (a0 m)) (neg3 (a1 m)) (neg3 (a2 m))). assert (AM : forall v, app3 m' v = neg3 (app3 m v)) by (intros v; unfold m', app3, neg3, add3, scale3; cbn; f_equal; ring). exists m', (neg3 d), (neg3 q).
  split; [destruct Ro as [(O1 & O2 & O3 & O4 & O5 & O6) _]; unfold m', orthonormal, neg3, dot3 in *; cbn in *; repeat split; lra|].
  assert (BK : forall u w, hom u 0 = scale4 (-1) w -> w = hom (neg3 u) 0). { intros u [x y z w] H. unfold hom, scale4, neg3 in *. cbn in *. injection H as H1 H2 H3 H4. f_equal; lra. }
  rewrite <- (BK _ _ E1), <- (BK _ _ E2). split; [reflexivity|]. split.
  { intros ra' dec'. specialize (Dir ra' dec'). unfold photons_dir in *. change (p_offset p') with (p_offset p) in Dir. destruct (unit3 (neg3 (app3 (p_offset p) (skyvec ra' dec')))) as [u|]; [|discriminate].
    assert (AP : app4 (p_ref p') (hom u 0) = scale4 (-1) (app4 (p_ref p) (hom u 0))) by (unfold p', r, app4, hom, scale4, add4; cbn; f_equal; ring). rewrite AP in Dir. f_equal. rewrite AM. apply BK. congruence. }
  rewrite !AM, Ed, Eq. split; [reflexivity|]. rewrite cos_neg, sin_neg. f_equal. f_equal. clear. generalize (cos a) (sin a) (north_at ra dec) (east_at ra). vring.
Qed.
Print Assumptions C114_lefthanded.

(** ** C115 *)
(** With the default orientation an on-axis photon is deflected by the drawn angle, towards a direction given by the other draw. *)
Theorem C115_onaxis : forall j r a, j <> 0 -> exists d, jitter_vector j r a (V4 (-1) 0 0 0) = Some (hom d 0) /\
  d = V3 (- cos a) (sin a * cos r) (- (sin a * sin r)) /\ dot3 d d = 1 /\ dot3 d (V3 (-1) 0 0) = cos a.
Proof.
  intros j r a J. exists (V3 (- cos a) (sin a * cos r) (- (sin a * sin r))). split; [rewrite jitter_onaxis by exact J; reflexivity|]. split; [reflexivity|].
  pose proof (cs1 a). pose proof (cs1 r). vu. split; [|ring].
  transitivity (cos a * cos a + sin a * sin a * (cos r * cos r + sin r * sin r)); [ring|]. rewrite cs1. lra.
Qed.
Print Assumptions C115_onaxis.
(** Direction and polarization are turned together: lengths and angles are kept. Zero jitter changes nothing. *)
Theorem C115_rigid : forall j r a d q, exists d' q', jitter_vector j r a (hom d 0) = Some (hom d' 0) /\
  jitter_vector j r a (hom q 0) = Some (hom q' 0) /\ dot3 d' d' = dot3 d d /\ dot3 q' q' = dot3 q q /\ dot3 d' q' = dot3 d q /\
  (j = 0 -> d' = d /\ q' = q).
Proof.
  intros j r a d q. destruct (Req_EM_T j 0) as [-> |J].
  - exists d, q. rewrite !jitter_zero. repeat split.
  - exists (app3 (axangle2mat_n (V3 0 (sin r) (cos r)) (- a)) d), (app3 (axangle2mat_n (V3 0 (sin r) (cos r)) (- a)) q).
    rewrite !jitter_eq, !xyz_hom by exact J. rewrite !orthonormal_dot by (apply axangle_orthonormal, jitter_axis). repeat split; contradiction.
Qed.
Print Assumptions C115_rigid.
(** Photons from anywhere: the deflection is at most the drawn angle, exactly so if the drawn axis is perpendicular to the photon. *)
Theorem C115_anywhere : forall j r a d, j <> 0 -> dot3 d d = 1 -> exists d', jitter_vector j r a (hom d 0) = Some (hom d' 0) /\
  dot3 d' d = cos a + (1 - cos a) * (sin r * y3 d + cos r * z3 d)² /\ cos a <= dot3 d' d.
Proof.
  intros j r a d J U. rewrite jitter_eq, xyz_hom by exact J. eexists. split; [reflexivity|].
  assert (E : dot3 (app3 (axangle2mat_n (V3 0 (sin r) (cos r)) (- a)) d) d = cos a + (1 - cos a) * (sin r * y3 d + cos r * z3 d)²).
  { rewrite axangle_rodrigues by apply jitter_axis. unfold rodrigues. rewrite cos_neg, sin_neg. transitivity (cos a * dot3 d d + (1 - cos a) * (sin r * y3 d + cos r * z3 d)²); [|rewrite U; ring]. unfold Rsqr. destruct d as [x y z]. vu. cbn. ring. }
  split; [exact E|]. rewrite E. pose proof (COS_bound a) as [_ B]. pose proof (Rle_0_sqr (sin r * y3 d + cos r * z3 d)). nra.
Qed.
Print Assumptions C115_anywhere.
Example C115_ex_anywhere : exists d', jitter_vector 1 (PI / 2) PI (hom (V3 (3 / 5) 0 (4 / 5)) 0) = Some (hom d' 0) /\ dot3 d' (V3 (3 / 5) 0 (4 / 5)) = -1.
Proof.
  destruct (C115_anywhere 1 (PI / 2) PI (V3 (3 / 5) 0 (4 / 5)) ltac:(lra) ltac:(vu; lra)) as (d' & J & D & _). exists d'. split; [exact J|]. rewrite D, cos_PI, sin_PI2, cos_PI2. unfold Rsqr. cbn. ring.
Qed.
(** So for the on-axis photon of any pointing the claim holds for all draws if and only if the optical axis is the x axis. *)
Theorem C115_reference_partial : forall p j, j <> 0 -> affine (p_ref p) -> orthonormal (lin (p_ref p)) -> exists d, photons_dir p (p_ra p) (p_dec p) = Some (hom d 0) /\ dot3 d d = 1 /\
  ((forall r a, exists d', jitter_vector j r a (hom d 0) = Some (hom d' 0) /\ dot3 d' d = cos a) <-> y3 d = 0 /\ z3 d = 0).
Proof.
  intros p j J A O. rewrite C113_onaxis. set (d := app3 (lin (p_ref p)) (V3 (-1) 0 0)). exists d.
  assert (E : app4 (p_ref p) (V4 (-1) 0 0 0) = hom d 0). { unfold d. destruct A as (A0 & A1 & A2 & A3). destruct (p_ref p) as [[x0 y0 z0 w0] [x1 y1 z1 w1] [x2 y2 z2 w2] [x' y' z' w']]. cbn in A0, A1, A2, A3. subst. unfold app4, app3, lin, hom, add4, add3, scale4, scale3. cbn. f_equal; ring. }
  assert (U : dot3 d d = 1) by (unfold d; rewrite orthonormal_dot by exact O; vu; ring). split; [now rewrite E|]. split; [exact U|]. split.
  - intros H. assert (K : forall r, sin r * y3 d + cos r * z3 d = 0).
    { intros r. destruct (H r PI) as (d' & JV & D). destruct (C115_anywhere j r PI d J U) as (d2 & JV2 & D2 & _). assert (E2 : hom d' 0 = hom d2 0) by congruence. apply (f_equal xyz) in E2. rewrite !xyz_hom in E2. subst d2. rewrite D, cos_PI in D2. apply Rsqr_0_uniq. lra. }
    pose proof (K 0) as K0. pose proof (K (PI / 2)) as K1. rewrite sin_0, cos_0 in K0. rewrite sin_PI2, cos_PI2 in K1. split; lra.
  - intros [Y Z] r a. destruct (C115_anywhere j r a d J U) as (d' & JV & D & _). exists d'. split; [exact JV|]. rewrite D, Y, Z. unfold Rsqr. ring.
Qed.
Print Assumptions C115_reference_partial.
(** The axis of the jitter does not follow [reference_transform]: with the optical axis along z there is a direction of jitter without
    any deflection. *)
Theorem C115_reference_refuted : exists p, affine (p_ref p) /\ rotation (lin (p_ref p)) /\
  photons_dir p (p_ra p) (p_dec p) = Some (V4 0 0 (-1) 0) /\
  forall j a, jitter_vector j 0 a (V4 0 0 (-1) 0) = Some (V4 0 0 (-1) 0).
Proof.
  set (r := M4 (V4 0 0 1 0) (V4 1 0 0 0) (V4 0 1 0 0) (V4 0 0 0 1)). exists (Pointing 0 0 0 r). cbn [p_ref].
  split; [unfold affine; cbn; auto|]. split; [unfold rotation, orthonormal; vu; cbn; repeat split; lra|]. split.
  - rewrite C113_onaxis. cbn [p_ref]. f_equal. unfold r. vu. f_equal; ring.
  - intros j a. destruct (Req_EM_T j 0) as [-> |J]; [apply jitter_zero|]. rewrite jitter_eq by exact J. f_equal.
    change (xyz (V4 0 0 (-1) 0)) with (V3 0 0 (-1)). rewrite axangle_rodrigues. unfold rodrigues. rewrite sin_0, cos_0, cos_neg, sin_neg.
    generalize (cos a) (sin a). intros. vu. f_equal; ring.
Qed.
Print Assumptions C115_reference_refuted.
Example C115_example : jitter_vector 1 0 (PI / 2) (V4 (-1) 0 0 0) = Some (V4 0 1 0 0).
Proof. rewrite jitter_onaxis by lra. rewrite sin_PI2, cos_PI2, sin_0, cos_0. f_equal. f_equal; ring. Qed.

(** ** C116 *)
(** A constant flux gives the times 0, 1/rate, 2/rate, ... below the exposure time, all of them. *)
Theorem C116_times : forall rate T, 0 < rate -> exists ts, generate_times (FluxScalar rate) T = Ok ts /\
  (forall t, In t ts <-> exists k, t = INR k / rate /\ t < T) /\
  (forall k, (k < length ts)%nat -> nth_error ts k = Some (INR k / rate)).
Proof.
  intros rate T R. destruct (Rle_dec T 0) as [H|H].
  - exists []. split; [now apply times_empty|]. split; [|intros k K; now apply Nat.nlt_0_r in K]. intros t. split; [intros []|].
    intros (k & -> & L). exfalso. assert (0 <= INR k / rate); [|lra]. apply Rmult_le_pos; [apply pos_INR|left; now apply Rinv_0_lt_compat].
  - destruct (times_spec rate T R) as (ts & E & N & L); [lra|]. exists ts. split; [exact E|]. split; [|exact N]. intros t. split.
    + intros I. apply In_nth_error in I. destruct I as [k K]. assert (Lk : (k < length ts)%nat) by (apply nth_error_Some; congruence).
      exists k. rewrite (N k Lk) in K. injection K as <-. split; [reflexivity|]. now apply L.
    + intros (k & -> & Lt). apply (nth_error_In _ k). apply N. now apply L.
Qed.
Print Assumptions C116_times.
(** Energies from a table: one for each time, in a bin of positive flux density; the first flux density does not matter at all. *)
Theorem C116_energy_table : forall x y h order ts draws, hist_init x (0 :: tl y) = Ok h -> Permutation order (seq 0 (length x)) -> x <> [] ->
  (length ts <= length draws)%nat -> Forall (fun cv => 0 < fst cv <= Rsum (h_mass h) /\ 0 <= snd cv < 1) draws ->
  exists es, generate_energies (VTable x y) order ts draws = Ok es /\ length es = length ts /\
    Forall (fun e => exists i, (S i < length x)%nat /\ 0 < nth (S i) y 0 /\ nth i x 0 <= e < nth (S i) x 0) es.
Proof.
  intros x y h order ts draws I P NE L F. cbn [generate_energies]. rewrite I. cbn [bind].
  destruct (draw_all_spec x (0 :: tl y) h order (firstn (length ts) draws) I NE P) as (es & E & Le & Q).
  { rewrite Forall_forall in *. intros cv H. apply F. rewrite <- (firstn_skipn (length ts) draws). apply in_or_app. now left. }
  exists es. split; [exact E|]. split; [rewrite Le, firstn_length; now apply Nat.min_l|].
  eapply Forall_impl; [|exact Q]. intros e (i & Li & Pi & B). exists i. split; [exact Li|]. split; [|exact B].
  destruct y as [|y0 y]; [cbn in Pi; destruct i; lra|exact Pi].
Qed.
Print Assumptions C116_energy_table.
Theorem C116_first_ignored : forall x a b y order ts draws,
  generate_energies (VTable x (a :: y)) order ts draws = generate_energies (VTable x (b :: y)) order ts draws.
Proof. reflexivity. Qed.
Print Assumptions C116_first_ignored.
(** The same is said about the table of polarization angles but a negative first value is refused there. Other values are ignored. *)
Theorem C116_first_pol_refuted : forall order ts es draws angles,
  generate_polarization (VTable [0; 1] [-1; 1]) order ts es draws angles = Err ValueError /\
  exists h, hist_init [0; 1] [1; 1] = Ok h.
Proof.
  intros. split.
  - cbn [generate_polarization]. unfold hist_init. cbn [length Nat.eqb negb forallb]. now rewrite (proj2 (Rleb_false 0 (-1))) by lra.
  - destruct (hist_init_ok [0; 1] [1; 1]) as [H _]; [discriminate|]. apply H. split; [reflexivity|]. split.
    + intros v [<-|[<-|[]]]; lra.
    + intros i Hi. cbn in Hi. destruct i as [|[|]]; cbn; lra || lia.
Qed.
Print Assumptions C116_first_pol_refuted.
Theorem C116_first_pol_partial : forall x a b y order ts es draws angles, 0 <= a -> 0 <= b ->
  generate_polarization (VTable x (a :: y)) order ts es draws angles = generate_polarization (VTable x (b :: y)) order ts es draws angles.
Proof.
  intros x a b y order ts es draws angles A B. cbn [generate_polarization]. f_equal. unfold hist_init. cbn [length forallb].
  rewrite !(proj2 (Rleb_true 0 _)) by assumption. destruct x as [|x0 x]; [reflexivity|]. cbn [combine map fst snd].
  now rewrite !Rmult_0_r.
Qed.
Print Assumptions C116_first_pol_partial.
(** Scalars are copied to every photon, functions have to return one value for each photon, unpolarized light gets angles in
    [0, 2 pi), anything else is refused. *)
Theorem C116_other_energies : forall order ts draws,
  (forall e, generate_energies (VScalar e) order ts draws = Ok (repeat e (length ts))) /\
  (forall f, (length (f ts) = length ts -> generate_energies (VCallable f) order ts draws = Ok (f ts)) /\
             (length (f ts) <> length ts -> generate_energies (VCallable f) order ts draws = Err Exception)) /\
  generate_energies VOther order ts draws = Err Exception.
Proof.
  intros order ts draws. split; [reflexivity|]. split; [|reflexivity]. intros f. cbn [generate_energies]. split; intros H.
  - now rewrite (proj2 (Nat.eqb_eq _ _) H).
  - now rewrite (proj2 (Nat.eqb_neq _ _) H).
Qed.
Print Assumptions C116_other_energies.
Theorem C116_other_pol : forall order ts es draws angles, (length ts <= length angles)%nat -> Forall (fun u => 0 <= u < 1) angles ->
  (forall a, generate_polarization (VScalar a) order ts es draws angles = Ok (repeat a (length ts))) /\
  (forall f, (length (f (ts, es)) = length ts -> generate_polarization (VCallable f) order ts es draws angles = Ok (f (ts, es))) /\
             (length (f (ts, es)) <> length ts -> generate_polarization (VCallable f) order ts es draws angles = Err Exception)) /\
  (exists ps, generate_polarization VNone order ts es draws angles = Ok ps /\ length ps = length ts /\ Forall (fun a => 0 <= a < 2 * PI) ps) /\
  generate_polarization VOther order ts es draws angles = Err Exception.
Proof.
  intros order ts es draws angles L F. split; [reflexivity|]. split; [|split; [|reflexivity]].
  - intros f. cbn [generate_polarization]. split; intros H.
    + now rewrite (proj2 (Nat.eqb_eq _ _) H).
    + now rewrite (proj2 (Nat.eqb_neq _ _) H).
  - eexists. split; [reflexivity|]. rewrite map_length, firstn_length. split; [now apply Nat.min_l|].
    rewrite Forall_forall in *. intros a I. apply in_map_iff in I. destruct I as (u & <- & I).
    assert (U : 0 <= u < 1). { apply F. rewrite <- (firstn_skipn (length ts) angles). apply in_or_app. now left. }
    unfold uniform. pose proof PI_RGT_0. nra.
Qed.
Print Assumptions C116_other_pol.
(** Unpolarized sources: angles up to [b] are drawn with probability b / (2 pi). *)
Theorem C116_unpolarized : forall order ts es draws angles ps i u a b, generate_polarization VNone order ts es draws angles = Ok ps ->
  nth_error ps i = Some a -> nth_error angles i = Some u -> (a <= b <-> u <= b / (2 * PI)).
Proof.
  intros order ts es draws angles ps i u a b H A U. injection H as <-. rewrite nth_error_map in A.
  assert (F : forall (l : list R) n, nth_error (firstn n l) i = None \/ nth_error (firstn n l) i = nth_error l i).
  { clear. induction i as [|i IH]; intros [|x l] [|n]; cbn; auto. }
  destruct (F angles (length ts)) as [E|E]; rewrite E in A; [discriminate|]. rewrite U in A. injection A as <-. unfold uniform.
  pose proof PI_RGT_0. assert (Q : b = b / (2 * PI) * (2 * PI)) by (field; lra). split; intros K; [|rewrite Q; nra].
  apply Rmult_le_reg_r with (2 * PI); [lra|]. rewrite <- Q. lra.
Qed.
Print Assumptions C116_unpolarized.
(** Every photon starts with probability 1, and the columns are those of the three generators. *)
Theorem C116_photons : forall fl en pol oe op de dp an T rows, generate_photons fl en pol oe op de dp an T = Ok rows ->
  exists ts es ps, generate_times fl T = Ok ts /\ generate_energies en oe ts de = Ok es /\ generate_polarization pol op ts es dp an = Ok ps /\
    length es = length ts /\ length ps = length ts /\ map (fun r => fst (fst (fst r))) rows = ts /\ map (fun r => snd (fst (fst r))) rows = es /\
    map (fun r => snd (fst r)) rows = ps /\ Forall (fun r => snd r = 1) rows.
Proof.
  intros fl en pol oe op de dp an T rows H. unfold generate_photons in H.
  destruct (generate_times fl T) as [ts|] eqn:E1; [|discriminate]. cbn [bind] in H.
  destruct (generate_energies en oe ts de) as [es|] eqn:E2; [|discriminate]. cbn [bind] in H.
  destruct (generate_polarization pol op ts es dp an) as [ps|] eqn:E3; [|discriminate]. cbn [bind] in H.
  destruct (Nat.eqb (length es) (length ts)) eqn:L1; [|discriminate]. destruct (Nat.eqb (length ps) (length ts)) eqn:L2; [|discriminate].
  cbn [andb negb] in H. injection H as <-. apply Nat.eqb_eq in L1, L2. exists ts, es, ps. repeat (split; [auto; fail|]).
  clear - L1 L2. revert es ps L1 L2. induction ts as [|t ts IH]; intros [|e es] [|q ps] L1 L2; try discriminate; [cbn; auto|].
  injection L1 as L1. injection L2 as L2. destruct (IH es ps L1 L2) as (A & B & C & D). cbn. rewrite A, B, C.
  repeat (split; [reflexivity|]). constructor; [reflexivity|exact D].
Qed.
Print Assumptions C116_photons.
Example C116_example : exists ts, generate_times (FluxScalar 2) 1 = Ok ts /\ In (1 / 2) ts /\ ~ In 1 ts.
Proof.
  destruct (C116_times 2 1 ltac:(lra)) as (ts & E & I & _). exists ts. split; [exact E|]. split.
  - apply I. exists 1%nat. cbn. lra.
  - intros H. apply I in H. destruct H as (k & _ & H). lra.
Qed.

(** ** C117 *)
(** Radii drawn by DiskSource lie between the two limits, equal areas (of a flat sky) get equal shares. *)
Theorem C117_disk : forall ai ao u, 0 <= ai <= ao -> 0 <= u <= 1 -> ai <= disk_radius ai ao u <= ao /\
  forall r, 0 <= r -> (disk_radius ai ao u <= r <-> u * (PI * (ao * ao - ai * ai)) <= PI * (r * r - ai * ai)).
Proof.
  intros ai ao u A U. split; [now apply disk_in|]. intros r R. rewrite disk_cdf by assumption. pose proof PI_RGT_0. split; intros H1.
  - replace (u * (PI * (ao * ao - ai * ai))) with (PI * (u * (ao * ao - ai * ai))) by ring. apply Rmult_le_compat_l; lra.
  - apply (Rmult_le_reg_l PI); lra.
Qed.
Print Assumptions C117_disk.
(** Radii drawn by SphericalDiskSource lie between the two limits, equal solid angles get equal shares. *)
Theorem C117_spherical : forall ai ao u, 0 <= ai <= ao -> ao <= PI -> 0 <= u <= 1 -> ai <= spherical_radius ai ao u <= ao /\
  forall r, 0 <= r <= PI -> (spherical_radius ai ao u <= r <-> u * (2 * PI * (cos ai - cos ao)) <= 2 * PI * (cos ai - cos r)).
Proof.
  intros ai ao u A B U. split; [now apply spherical_in|]. intros r R. rewrite spherical_cdf by assumption. pose proof PI_RGT_0. split; intros H1.
  - replace (u * (2 * PI * (cos ai - cos ao))) with (2 * PI * (u * (cos ai - cos ao))) by ring. apply Rmult_le_compat_l; lra.
  - apply Rle_ge. apply Rmult_le_reg_l with (2 * PI) in H1 || idtac. assert (u * (cos ai - cos ao) <= cos ai - cos r); [|lra].
    apply (Rmult_le_reg_l (2 * PI)); lra.
Qed.
Print Assumptions C117_spherical.
(** The photon is placed at an angular distance from the center which is at most the drawn one, and equal to it along the
    four main directions. *)
Theorem C117_distance_partial : forall ra dec d phi, dot3 (radial_photon ra dec d phi) (radial_photon ra dec d phi) = 1 /\
  dot3 (skyvec ra dec) (radial_photon ra dec d phi) = cos (d * sin phi) * cos (d * cos phi) /\
  (0 <= d <= PI / 2 -> cos d <= dot3 (skyvec ra dec) (radial_photon ra dec d phi)) /\
  (sin phi = 0 \/ cos phi = 0 -> dot3 (skyvec ra dec) (radial_photon ra dec d phi) = cos d).
Proof.
  intros ra dec d phi. split; [apply relative_unit|]. rewrite radial_dist. split; [reflexivity|]. split; [apply gdist_all|].
  intros H. unfold gdist. pose proof (cs1 phi) as C. destruct H as [H|H]; rewrite H in *; rewrite Rmult_0_r, cos_0.
  - assert (X : cos phi = 1 \/ cos phi = -1) by nra. destruct X as [-> | ->]; [now rewrite Rmult_1_r, Rmult_1_l|].
    replace (d * -1) with (- d) by ring. rewrite cos_neg. ring.
  - assert (X : sin phi = 1 \/ sin phi = -1) by nra. destruct X as [-> | ->]; [now rewrite !Rmult_1_r|].
    replace (d * -1) with (- d) by ring. rewrite cos_neg. ring.
Qed.
Print Assumptions C117_distance_partial.
(** In other directions the spherical geometry is not respected: a ring at 90 degrees sends photons from inside of its inner edge. *)
Theorem C117_distance_refuted : exists phi, forall ra dec u, 0 <= u <= 1 ->
  let d := spherical_radius (PI / 2) (PI / 2) u in
  d = PI / 2 /\ cos (PI / 2) < dot3 (skyvec ra dec) (radial_photon ra dec d phi).
Proof.
  exists (PI / 4). intros ra dec u U. cbv zeta. pose proof PI_RGT_0 as P.
  assert (D : spherical_radius (PI / 2) (PI / 2) u = PI / 2).
  { pose proof (spherical_in (PI / 2) (PI / 2) u). lra. }
  rewrite D. split; [reflexivity|]. rewrite radial_dist, cos_PI2. unfold gdist. rewrite sin_PI4, cos_PI4.
  assert (0 < 1 / sqrt 2 < 1).
  { assert (1 < sqrt 2) by (rewrite <- sqrt_1 at 1; apply sqrt_lt_1; lra). split; [apply Rdiv_lt_0_compat; lra|].
    apply (Rmult_lt_reg_r (sqrt 2)); [lra|]. unfold Rdiv. rewrite Rmult_assoc, Rinv_l by lra. lra. }
  assert (0 < cos (PI / 2 * (1 / sqrt 2))); [|now apply Rmult_lt_0_compat].
  apply cos_gt_0; nra.
Qed.
Print Assumptions C117_distance_refuted.
Example C117_example : disk_radius 3 5 0 = 3 /\ disk_radius 3 5 1 = 5.
Proof.
  unfold disk_radius. split.
  - replace (3 * 3 + 0 * (5 * 5 - 3 * 3)) with (3 * 3) by ring. apply sqrt_square. lra.
  - replace (3 * 3 + 1 * (5 * 5 - 3 * 3)) with (5 * 5) by ring. apply sqrt_square. lra.
Qed.

(** ** C118 *)
(** LabPointSourceCone: inside of the cone, uniform in solid angle - unless the cone points along z. *)
Theorem C118_cone_partial : forall direction half u1 u2, cross3 direction (V3 0 0 1) <> zero3 -> 0 <= half <= PI -> 0 <= u2 <= 1 ->
  exists d v, unit3 direction = Some d /\ cone_photon direction half u1 u2 = Some v /\ dot3 v v = 1 /\
    dot3 v d = 1 - u2 * (1 - cos half) /\ cos half <= dot3 v d.
Proof.
  intros direction half u1 u2 N H U. assert (N0 : direction <> zero3). { intros ->. apply N. vring. }
  pose proof (unit3_some _ N0) as UD. destruct (unit3_spec _ _ UD) as (_ & _ & DD & ED).
  set (d := scale3 (/ norm3 direction) direction) in *.
  assert (Nd : cross3 d (V3 0 0 1) <> zero3).
  { intros E. apply N. rewrite ED, cross3_scale_l, E. vring. }
  destruct (z_to_d d DD Nd) as (m & E & Ro & Z). exists d, (app3 m (cone_local half u1 u2)). split; [exact UD|].
  unfold cone_photon. rewrite UD, E. split; [reflexivity|]. rewrite orthonormal_dot by apply Ro. split; [apply cone_local_unit|].
  rewrite <- Z at 1. rewrite <- Z. rewrite orthonormal_dot by apply Ro.
  assert (X : dot3 (cone_local half u1 u2) (V3 0 0 1) = 1 - u2 * (1 - cos half)).
  { rewrite <- (cone_local_z half u1 u2 U). generalize (cone_local half u1 u2). vring. }
  rewrite X. split; [reflexivity|]. pose proof (COS_bound half). nra.
Qed.
Print Assumptions C118_cone_partial.
(** A cone along the z-axis, in either direction, has no valid photon directions at all. *)
Theorem C118_cone_refuted : forall k half u1 u2, k <> 0 -> cone_photon (V3 0 0 k) half u1 u2 = None.
Proof.
  intros k half u1 u2 K. assert (N : V3 0 0 k <> zero3). { intros H. apply (f_equal z3) in H. contradiction. }
  unfold cone_photon. rewrite unit3_some by exact N. unfold axangle2mat.
  replace (cross3 (scale3 (/ norm3 (V3 0 0 k)) (V3 0 0 k)) (V3 0 0 1)) with zero3 by (generalize (norm3 (V3 0 0 k)); vring).
  now rewrite unit3_zero.
Qed.
Print Assumptions C118_cone_refuted.
(** FarLabPointSource: photons start inside of the rectangle and fly away from the source. *)
Theorem C118_farlab : forall m source u1 u2, affine m -> 0 <= u1 <= 1 -> 0 <= u2 <= 1 ->
  exists y z, -1 <= y <= 1 /\ -1 <= z <= 1 /\ fst (farlab m source u1 u2) = add4 (add4 (center m) (scale4 y (v_y m))) (scale4 z (v_z m)) /\
    w4 (fst (farlab m source u1 u2)) = 1 /\
    fst (farlab m source u1 u2) = add4 (hom source 1) (snd (farlab m source u1 u2)).
Proof.
  intros m source u1 u2 A U1 U2. exists (uniform (-1) 1 u1), (uniform (-1) 1 u2). unfold uniform. split; [nra|]. split; [nra|].
  unfold farlab, uniform. cbn [fst snd]. generalize (-1 + (1 - -1) * u1) (-1 + (1 - -1) * u2). intros y z.
  destruct m as [[a1 a2 a3 a4] [b1 b2 b3 b4] [c1 c2 c3 c4] [e1 e2 e3 e4]]. destruct A as (Wa & Wb & Wc & We). cbn in Wa, Wb, Wc, We. subst.
  unfold center, v_y, v_z. destruct source as [s1 s2 s3]. vu. split; [f_equal; ring|]. split; [ring|]. f_equal; ring.
Qed.
Print Assumptions C118_farlab.
Example C118_example : cross3 (V3 1 0 0) (V3 0 0 1) <> zero3.
Proof. intros H. apply (f_equal y3) in H. cbn in H. lra. Qed.

(** ** C119 *)
(** SymbolFSource: for coordinates given in ICRS the letter is drawn with its corner at the coordinates. *)
Theorem C119_F_partial : forall ra dec size elem u, 0 <= size -> 0 <= u <= 1 ->
  let q := symbolF_photon (fun c => c) (ra, dec) size elem u in
  ra <= fst q <= ra + size /\ dec <= snd q <= dec + size / 2 /\ (snd q = dec \/ fst q = ra + size \/ fst q = ra + 8 / 10 * size).
Proof.
  intros ra dec size elem u S U. cbv zeta. unfold symbolF_photon, symbolF. destruct elem as [|[|]]; cbn [fst snd].
  all: split; [nra|]; split; [nra|]; auto.
Qed.
Print Assumptions C119_F_partial.
(** For another coordinate system the transformation to ICRS is applied twice: the letter is not at the place of a point source with the
    same coordinates. The system used here differs from ICRS by 10 degrees in longitude. *)
Theorem C119_F_refuted : exists to_icrs from_icrs : R * R -> R * R, (forall c, from_icrs (to_icrs c) = c) /\ (forall c, to_icrs (from_icrs c) = c) /\
  point_photon to_icrs (0, 0) = (10, 0) /\ symbolF_photon to_icrs (0, 0) 1 0 0 = (20, 0) /\
  forall elem u, 0 <= u <= 1 -> symbolF_photon to_icrs (0, 0) 1 elem u <> point_photon to_icrs (0, 0).
Proof.
  exists (fun c => (fst c + 10, snd c)), (fun c => (fst c - 10, snd c)).
  split; [intros [a b]; cbn; f_equal; lra|]. split; [intros [a b]; cbn; f_equal; lra|].
  split; [apply injective_projections; unfold point_photon; cbn [fst snd]; lra|].
  split; [apply injective_projections; unfold symbolF_photon, symbolF; cbn [fst snd]; lra|]. intros elem u U H. unfold symbolF_photon, point_photon, symbolF in H.
  destruct elem as [|[|]]; apply (f_equal fst) in H; cbn [fst snd] in H; lra.
Qed.
Print Assumptions C119_F_refuted.
(** Gaussian sources: at zero draws the photon is at the center, and a draw along one axis moves it by sigma times the draw. *)
Theorem C119_gauss : forall ra dec sigma g1 g2,
  dot3 (gauss_photon ra dec sigma g1 g2) (gauss_photon ra dec sigma g1 g2) = 1 /\
  dot3 (skyvec ra dec) (gauss_photon ra dec sigma g1 g2) = cos (sigma * g1) * cos (sigma * g2).
Proof. intros. unfold gauss_photon. split; [apply relative_unit|]. rewrite relative_dist. ring. Qed.
Print Assumptions C119_gauss.
Example C119_example : symbolF_photon (fun c => c) (10, 20) 1 1 1 = (11, 20 + 1 / 2).
Proof. unfold symbolF_photon, symbolF. f_equal; lra. Qed.
