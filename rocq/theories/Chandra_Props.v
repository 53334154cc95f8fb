(** Properties C120 - C126 and C129: moving photons, Chandra pointing and ACIS, the tube-shaped detector. *)
From Verif Require Import Vec_Proofs Rot_Proofs Coords_Proofs Plane_Proofs Cylinder_Proofs Base_Proofs Chandra_Proofs.
From Verif Require Import Angles_Proofs.
From Coq Require Import String List.
Open Scope R_scope.

(** ** C120 *)
(** A photon with a direction of unit length moves by exactly the given distance along its ray, forward or backward; moving back restores
    the position, and points stay points. *)
Theorem C120_distance_partial : forall d pos dir, dot3 dir dir = 1 -> exists q,
  propagate d (hom pos 1) (hom dir 0) = hom q 1 /\ norm3 (sub3 q pos) = Rabs d /\ dot3 (sub3 q pos) dir = d.
Proof.
  intros d pos dir U. exists (add3 pos (scale3 d dir)). split; [unfold propagate; vring|].
  replace (sub3 (add3 pos (scale3 d dir)) pos) with (scale3 d dir) by vring.
  rewrite norm3_scale, (proj2 (norm3_1 dir) U), dot3_scale_l, U. split; ring.
Qed.
Print Assumptions C120_distance_partial.
Theorem C120_back : forall d pos dir, propagate (- d) (propagate d pos dir) dir = pos.
Proof. intros. unfold propagate. vring. Qed.
Print Assumptions C120_back.
Theorem C120_steps : forall d e pos dir, propagate d (propagate e pos dir) dir = propagate (d + e) pos dir.
Proof. intros. unfold propagate. vring. Qed.
Print Assumptions C120_steps.
(** Photons of a far laboratory source have directions of arbitrary length and move by more than the given distance. *)
Theorem C120_farlab_refuted : exists m source u1 u2 pos dir, farlab m source u1 u2 = (hom pos 1, hom dir 0) /\
  propagate 1 (hom pos 1) (hom dir 0) = hom (add3 pos dir) 1 /\ norm3 (sub3 (add3 pos dir) pos) = 5.
Proof.
  exists id4, (V3 5 0 0), (1 / 2), (1 / 2), (V3 0 0 0), (V3 (-5) 0 0). unfold farlab, uniform. cbv zeta. rewrite app4_id. split; [|split].
  - apply injective_projections; cbn [fst snd]; vu; f_equal; field.
  - unfold propagate. vring.
  - replace (sub3 _ _) with (scale3 (-5) (V3 1 0 0)) by vring. rewrite norm3_scale, (proj2 (norm3_1 (V3 1 0 0))) by vring.
    rewrite Rabs_left by lra. ring.
Qed.
Print Assumptions C120_farlab_refuted.
Example C120_example : propagate (-10) (hom (V3 12 1 0) 1) (hom (V3 0 1 0) 0) = hom (V3 12 (-9) 0) 1 /\ dot3 (V3 0 1 0) (V3 0 1 0) = 1.
Proof. unfold propagate. split; [vu; f_equal; ring|vring]. Qed.

(** ** C121 *)
(** Declination and roll offset are at most the amplitude; the offset along right ascension is, on the sky, at most the amplitude. *)
Theorem C121_bound : forall l dec t, cos dec <> 0 ->
  Rabs (x3 (dither l dec t) * cos dec) <= Rabs (x3 (l_amp l)) /\ Rabs (y3 (dither l dec t)) <= Rabs (y3 (l_amp l)) /\
  Rabs (z3 (dither l dec t)) <= Rabs (z3 (l_amp l)).
Proof.
  intros l dec t C. unfold dither. cbn [x3 y3 z3]. split; [|split; apply wave_bound].
  replace (_ / cos dec * cos dec) with (wave (x3 (l_amp l)) (x3 (l_period l)) (x3 (l_phase l)) t) by (field; exact C). apply wave_bound.
Qed.
Print Assumptions C121_bound.
(** The pattern closes after a time that is a common multiple of the periods. *)
Theorem C121_period : forall l dec t T n1 n2 n3, x3 (l_period l) <> 0 -> y3 (l_period l) <> 0 -> z3 (l_period l) <> 0 ->
  T = INR n1 * x3 (l_period l) -> T = INR n2 * y3 (l_period l) -> T = INR n3 * z3 (l_period l) ->
  dither l dec (t + T) = dither l dec t.
Proof.
  intros l dec t T n1 n2 n3 P1 P2 P3 E1 E2 E3. unfold dither. f_equal; [f_equal; rewrite E1|rewrite E2|rewrite E3]; now apply wave_period.
Qed.
Print Assumptions C121_period.
(** At time zero the offset is given by the phases; a quarter of a period after a passage through zero the offset is the amplitude. *)
Theorem C121_phase : forall l dec, dither l dec 0 =
  V3 (x3 (l_amp l) * sin (x3 (l_phase l)) / cos dec) (y3 (l_amp l) * sin (y3 (l_phase l))) (z3 (l_amp l) * sin (z3 (l_phase l))).
Proof. intros l dec. unfold dither, wave. f_equal; [f_equal|..]; do 2 f_equal; unfold Rdiv; ring. Qed.
Print Assumptions C121_phase.
Theorem C121_quarter : forall l dec, y3 (l_period l) <> 0 -> y3 (l_phase l) = 0 -> y3 (dither l dec (y3 (l_period l) / 4)) = y3 (l_amp l).
Proof.
  intros l dec P F. unfold dither, wave. cbn [y3]. rewrite F. replace (2 * PI * (y3 (l_period l) / 4) / y3 (l_period l) + 0) with (PI / 2) by (field; exact P).
  rewrite sin_PI2. ring.
Qed.
Print Assumptions C121_quarter.
(** periods 1000 s and 700 s: the pattern closes after 7000 s *)
Definition chandra_dither : lissajous := Lissajous (V3 8 8 0) (V3 1000 700 1000) (V3 0 0 0).
Example C121_example : y3 (dither chandra_dither 0 175) = 8 /\ dither chandra_dither 0 (175 + 7000) = dither chandra_dither 0 175.
Proof.
  split.
  - replace 175 with (y3 (l_period chandra_dither) / 4) by (cbn; lra). rewrite C121_quarter; cbn; [reflexivity|lra|reflexivity].
  - apply (C121_period _ _ _ _ 7 10 7); cbn; lra.
Qed.

(** ** C122 *)
(** With constant roll the pointing at each time is the offset position, turned around the nominal pointing by the roll angle. *)
Theorem C122_pointing : forall p l times, times <> [] ->
  (forall t t', In t times -> In t' times -> z3 (dither l (p_dec p) t) = z3 (dither l (p_dec p) t')) ->
  exists pts, dither_pointing p l times = Ok pts /\
  Forall2 (fun t pt => let '(ra, dec, roll) := pt in
     skyvec ra dec = rodrigues (skyvec (p_ra p) (p_dec p)) roll
                       (skyvec (p_ra p + x3 (dither l (p_dec p) t)) (p_dec p + y3 (dither l (p_dec p) t))) /\
     roll = p_roll p + z3 (dither l (p_dec p) t) /\ 0 <= ra < 2 * PI /\ - (PI / 2) <= dec <= PI / 2) times pts.
Proof.
  intros p l times N C. assert (H : In (hd 0 times) times) by (destruct times; [congruence|now left]).
  rewrite pointing_const; [|exact N|]. 2:{ intros t I. rewrite (C t (hd 0 times) I H). apply isclose_refl. }
  eexists. split; [reflexivity|]. set (r0 := p_roll p + _).
  assert (R : forall t, In t times -> p_roll p + z3 (dither l (p_dec p) t) = r0) by (intros t I; unfold r0; now rewrite (C t (hd 0 times) I H)).
  clearbody r0. clear N C H. induction times as [|t ts IH]; [constructor|]. cbn [map]. constructor.
  - pose proof (point_at_sky p r0 (dither l (p_dec p) t)) as E. destruct (point_at _ _ _) as [[ra dec] roll].
    destruct E as (E & Er & A). split; [|auto]. rewrite E, Er, R by now left. reflexivity.
  - apply IH. intros u I. apply R. now right.
Qed.
Print Assumptions C122_pointing.
(** The dithered direction of a photon is that of a fixed pointing at the position and roll for its time. *)
Theorem C122_direction_partial : forall p l photons pts, dither_pointing p l (map snd photons) = Ok pts ->
  exists ds, lissajous_dir p l photons = Ok ds /\
  forall i sky t ra dec roll, nth_error photons i = Some (sky, t) -> nth_error pts i = Some (ra, dec, roll) ->
    exists d, nth_error ds i = Some d /\ photons_dir (Pointing ra dec roll id4) (fst sky) (snd sky) = Some d.
Proof.
  intros p l photons pts E. unfold lissajous_dir. rewrite E. cbn [bind]. eexists. split; [reflexivity|].
  intros i sky t ra dec roll P Q. exists (dither_dir (ra, dec, roll) sky). split; [|symmetry; apply dither_dir_eq].
  rewrite nth_error_map. assert (C : nth_error (combine pts (map fst photons)) i = Some ((ra, dec, roll), sky)).
  { clear E. revert pts photons P Q. induction i as [|i IH]; intros [|a pts] [|b ph] P Q; cbn in *; try discriminate.
    - injection P as ->. injection Q as ->. reflexivity.
    - now apply (IH pts ph). }
  now rewrite C.
Qed.
Print Assumptions C122_direction_partial.
(** Without dither every photon has the direction that a fixed pointing gives, for every roll. *)
Theorem C122_no_dither_partial : forall p l photons, l_amp l = V3 0 0 0 -> p_ref p = id4 -> 0 < cos (p_dec p) -> photons <> [] ->
  exists ds, lissajous_dir p l photons = Ok ds /\ Forall2 (fun ph d => photons_dir p (fst (fst ph)) (snd (fst ph)) = Some d) photons ds.
Proof.
  intros p l photons A I C N.
  assert (D : forall t, dither l (p_dec p) t = V3 0 0 0).
  { intros t. unfold dither. rewrite A. cbn [x3 y3 z3]. rewrite !wave_zero. f_equal. unfold Rdiv. ring. }
  destruct (C122_pointing p l (map snd photons)) as (pts & E & F).
  { destruct photons; [congruence|discriminate]. }
  { intros. now rewrite !D. }
  unfold lissajous_dir. rewrite E. cbn [bind]. eexists. split; [reflexivity|]. clear E N. revert pts F.
  induction photons as [|[[ra dec] t] ph IH]; intros pts F; inversion F; subst; [constructor|]. cbn [map combine]. constructor; [|now apply IH].
  cbn [fst snd]. destruct y as [[ra' dec'] roll']. destruct H1 as (Es & Er & _ & B). rewrite D in Es, Er. cbn [x3 y3 z3] in Es, Er. rewrite Rplus_0_r in Er.
  rewrite !Rplus_0_r in Es.
  assert (R : rodrigues (skyvec (p_ra p) (p_dec p)) roll' (skyvec (p_ra p) (p_dec p)) = skyvec (p_ra p) (p_dec p)).
  { rewrite <- axangle_rodrigues. apply axangle_axis, skyvec_unit. }
  rewrite R in Es. rewrite dither_dir_eq, !photons_dir_eq. cbn [p_ref fst snd]. rewrite I. unfold p_offset. cbn [p_ra p_dec p_roll]. rewrite Er.
  assert (C' : 0 <= cos dec') by (apply cos_ge_0; lra).
  now rewrite (offset_ext (p_ra p) (p_dec p) ra' dec' (p_roll p)).
Qed.
Print Assumptions C122_no_dither_partial.
(** A pointing whose roll is dithered cannot be calculated, ... *)
Theorem C122_roll_refuted : exists p l times, times <> [] /\ dither_pointing p l times = Err UnboundLocalError.
Proof.
  exists (Pointing 0 0 0 id4), (Lissajous (V3 0 0 1) (V3 1 1 4) (V3 0 0 0)), [0; 1]. split; [discriminate|].
  apply (pointing_roll _ _ _ 1 1); [cbn; auto| |reflexivity]. unfold dither, wave. cbn [p_roll p_dec l_amp l_period l_phase x3 y3 z3 hd].
  replace (2 * PI * 1 / 4 + 0) with (PI / 2) by field. replace (2 * PI * 0 / 4 + 0) with 0 by field. rewrite sin_PI2, sin_0.
  unfold isclose. destruct (Rle_dec _ _) as [H|H]; [|reflexivity]. exfalso. replace (0 + 1 * 1 - (0 + 1 * 0)) with 1 in H by ring.
  replace (0 + 1 * 0) with 0 in H by ring. rewrite Rabs_R0, Rabs_R1 in H. lra.
Qed.
Print Assumptions C122_roll_refuted.
(** ... in general: whenever the roll at some time differs from the first by more than the tolerance of allclose. *)
Theorem C122_roll_error : forall p l times t, In t times ->
  / 100000000 + / 100000 * Rabs (p_roll p + z3 (dither l (p_dec p) (hd 0 times))) < Rabs (z3 (dither l (p_dec p) t) - z3 (dither l (p_dec p) (hd 0 times))) ->
  dither_pointing p l times = Err UnboundLocalError.
Proof.
  intros p l times t I H. apply (pointing_roll p l times t t I); [|reflexivity]. unfold isclose. destruct (Rle_dec _ _) as [L|L]; [|reflexivity].
  exfalso. replace (p_roll p + z3 (dither l (p_dec p) t) - (p_roll p + z3 (dither l (p_dec p) (hd 0 times)))) with (z3 (dither l (p_dec p) t) - z3 (dither l (p_dec p) (hd 0 times))) in L by ring.
  lra.
Qed.
Print Assumptions C122_roll_error.
(** an empty photon list is an error, *)
Theorem C122_empty_refuted : forall p l, lissajous_dir p l [] = Err IndexError.
Proof. reflexivity. Qed.
Print Assumptions C122_empty_refuted.
(** the reference transformation has no effect, *)
Theorem C122_reference_refuted : exists p l, l_amp l = V3 0 0 0 /\ affine (p_ref p) /\ rotation (lin (p_ref p)) /\
  photons_dir p 0 0 = Some (V4 0 (-1) 0 0) /\ lissajous_dir p l [((0, 0), 0)] = Ok [V4 (-1) 0 0 0].
Proof.
  exists (Pointing 0 0 0 (M4 (V4 0 1 0 0) (V4 (-1) 0 0 0) (V4 0 0 1 0) (V4 0 0 0 1))), (Lissajous (V3 0 0 0) (V3 1 1 1) (V3 0 0 0)).
  cbn [l_amp p_ref]. split; [reflexivity|]. split; [unfold affine; cbn; auto|]. split; [unfold rotation, orthonormal; vu; cbn; repeat split; lra|].
  assert (SK : forall m, photons_dir (Pointing 0 0 0 m) 0 0 = Some (app4 m (V4 (-1) 0 0 0))).
  { intros m. rewrite photons_dir_eq. unfold p_offset. cbn [p_ra p_dec p_roll p_ref]. rewrite offset_app. unfold skyvec, east_at, north_at.
    rewrite sin_0, cos_0. do 2 f_equal. vu. f_equal; ring. }
  split. { rewrite SK. f_equal. vu. f_equal; ring. }
  destruct (C122_no_dither_partial (Pointing 0 0 0 id4) (Lissajous (V3 0 0 0) (V3 1 1 1) (V3 0 0 0)) [((0, 0), 0)]) as (ds & E & F);
    [reflexivity|reflexivity|cbn; rewrite cos_0; lra|discriminate|].
  inversion F as [|ph d phs ds' P F' X Y]; subst. inversion F'; subst. cbn [fst snd] in P. rewrite SK, app4_id in P.
  injection P as <-. exact E.
Qed.
Print Assumptions C122_reference_refuted.
(** and the aspect solution is never written. *)
Theorem C122_write_asol_refuted : forall p l exposure timestep, write_asol p l exposure timestep <> Ok tt.
Proof. intros p l T dt. unfold write_asol. destruct (dither_pointing _ _ _); discriminate. Qed.
Print Assumptions C122_write_asol_refuted.
Example C122_example : let l := Lissajous (V3 8 8 0) (V3 1000 707 1000) (V3 0 0 0) in
  (forall t t', z3 (dither l 0 t) = z3 (dither l 0 t')) /\ 0 < cos 0.
Proof. cbv zeta. unfold dither. cbn [x3 y3 z3 l_amp]. split; [intros; now rewrite !wave_zero|]. rewrite cos_0. lra. Qed.

(** ** C123 *)
(** Seen from the spacecraft (axes x to the nominal target, y and z as for photons) the pattern is turned by twice the roll angle ... *)
Theorem C123_frame : forall p l times pts i t ra dec roll,
  (forall t t', In t times -> In t' times -> z3 (dither l (p_dec p) t) = z3 (dither l (p_dec p) t')) ->
  dither_pointing p l times = Ok pts -> nth_error times i = Some t -> nth_error pts i = Some (ra, dec, roll) ->
  let u := app3 (offset_matrix (p_ra p) (p_dec p) 0) (skyvec (p_ra p + x3 (dither l (p_dec p) t)) (p_dec p + y3 (dither l (p_dec p) t))) in
  app3 (offset_matrix (p_ra p) (p_dec p) roll) (skyvec ra dec) =
    V3 (x3 u) (cos (2 * roll) * y3 u - sin (2 * roll) * z3 u) (sin (2 * roll) * y3 u + cos (2 * roll) * z3 u).
Proof.
  intros p l times pts i t ra dec roll C E T P. cbv zeta.
  destruct (C122_pointing p l times) as (pts' & E' & F); [destruct times; [destruct i|]; discriminate|exact C|].
  assert (pts' = pts) by congruence. subst pts'. clear E E'.
  assert (X : skyvec ra dec = rodrigues (skyvec (p_ra p) (p_dec p)) roll
                       (skyvec (p_ra p + x3 (dither l (p_dec p) t)) (p_dec p + y3 (dither l (p_dec p) t)))).
  { clear C. revert i T P. induction F as [|t' pt ts pts H F IH]; intros [|i] T P; cbn in T, P; try discriminate.
    - injection T as ->. injection P as ->. apply H.
    - now apply (IH i). }
  rewrite X, offset_rodrigues. cbv zeta. replace (roll + roll) with (2 * roll) by ring. reflexivity.
Qed.
Print Assumptions C123_frame.
(** ... so that pitch and yaw are along spacecraft axes for roll angles that are a multiple of 180 degrees, *)
Theorem C123_axes_partial : forall p l times pts i t ra dec roll, sin roll = 0 ->
  (forall t t', In t times -> In t' times -> z3 (dither l (p_dec p) t) = z3 (dither l (p_dec p) t')) ->
  dither_pointing p l times = Ok pts -> nth_error times i = Some t -> nth_error pts i = Some (ra, dec, roll) ->
  app3 (offset_matrix (p_ra p) (p_dec p) roll) (skyvec ra dec) =
  app3 (offset_matrix (p_ra p) (p_dec p) 0) (skyvec (p_ra p + x3 (dither l (p_dec p) t)) (p_dec p + y3 (dither l (p_dec p) t))).
Proof.
  intros p l times pts i t ra dec roll S C E T P. rewrite (C123_frame p l times pts i t ra dec roll C E T P). cbv zeta.
  rewrite cos_2a, sin_2a, S. pose proof (cs1 roll) as Q. rewrite S in Q. replace (cos roll * cos roll - 0 * 0) with 1 by lra.
  destruct (app3 _ _) as [x y z]. cbn [x3 y3 z3]. f_equal; ring.
Qed.
Print Assumptions C123_axes_partial.
(** but for a roll of 90 degrees a positive pitch of the spacecraft becomes a negative one. *)
Theorem C123_axes_refuted : exists p l delta pts ra dec roll, 0 < sin delta /\ p_dec p = 0 /\
  y3 (dither l (p_dec p) 0) = delta /\ x3 (dither l (p_dec p) 0) = 0 /\
  dither_pointing p l [0] = Ok pts /\ pts = [(ra, dec, roll)] /\ roll = p_roll p /\
  app3 (offset_matrix (p_ra p) (p_dec p) 0) (skyvec (p_ra p) (p_dec p + delta)) = V3 (cos delta) 0 (sin delta) /\
  app3 (offset_matrix (p_ra p) (p_dec p) roll) (skyvec ra dec) = V3 (cos delta) 0 (- sin delta).
Proof.
  set (p := Pointing 0 0 (PI / 2) id4). set (l := Lissajous (V3 0 (PI / 6) 0) (V3 1 1 1) (V3 0 (PI / 2) 0)).
  assert (D : dither l (p_dec p) 0 = V3 0 (PI / 6) 0).
  { rewrite C121_phase. unfold l, p. cbn [l_amp l_phase p_dec x3 y3 z3]. rewrite sin_PI2, sin_0, cos_0. f_equal; field. }
  destruct (C122_pointing p l [0]) as (pts & E & F); [discriminate| |].
  { intros t t' [<- |[]] [<- |[]]. reflexivity. }
  inversion F as [|t0 pt ts pts' H F' X Y]; subst. inversion F'; subst. destruct pt as [[ra dec] roll].
  destruct H as (_ & R & _). rewrite D in R. cbn [z3] in R. rewrite Rplus_0_r in R.
  assert (U : app3 (offset_matrix (p_ra p) (p_dec p) 0) (skyvec (p_ra p) (p_dec p + PI / 6)) = V3 (cos (PI / 6)) 0 (sin (PI / 6))).
  { rewrite offset_app. unfold p, skyvec, east_at, north_at. cbn [p_ra p_dec]. rewrite Rplus_0_l, sin_0, cos_0. vu. f_equal; ring. }
  exists p, l, (PI / 6), [(ra, dec, roll)], ra, dec, roll. rewrite !D. cbn [x3 y3].
  split; [rewrite sin_PI6; lra|]. split; [reflexivity|]. split; [reflexivity|]. split; [reflexivity|]. split; [exact E|]. split; [reflexivity|].
  split; [exact R|]. split; [exact U|].
  rewrite (C123_frame p l [0] [(ra, dec, roll)] 0 0 ra dec roll); [|now intros t t' [<- |[]] [<- |[]]|exact E|reflexivity|reflexivity].
  cbv zeta. rewrite D. cbn [x3 y3]. rewrite Rplus_0_r, U. cbn [x3 y3 z3]. rewrite R. unfold p. cbn [p_roll].
  replace (2 * (PI / 2)) with PI by field. rewrite cos_PI, sin_PI. f_equal; ring.
Qed.
Print Assumptions C123_axes_refuted.
(** roll 180 degrees, no roll dither *)
Example C123_example : sin PI = 0 /\ z3 (dither chandra_dither 0 3) = z3 (dither chandra_dither 0 4).
Proof. split; [apply sin_PI|]. unfold dither, chandra_dither. cbn [x3 y3 z3 l_amp]. now rewrite !wave_zero. Qed.

(** ** C124 *)
(** Chips are mapped to TDET without distortion, *)
Theorem C124_isometry : forall id x y x' y' a b a' b', chip2tdet (x, y) id = Ok (a, b) -> chip2tdet (x', y') id = Ok (a', b') ->
  (a - a') * (a - a') + (b - b') * (b - b') = (x - x') * (x - x') + (y - y') * (y - y').
Proof. exact tdet_isometry. Qed.
Print Assumptions C124_isometry.
(** every position on one of the ten chips is mapped, into the range of the header keywords, *)
Theorem C124_range : forall id x y, (id < 10)%nat -> 1 / 2 <= x <= 2049 / 2 -> 1 / 2 <= y <= 2049 / 2 ->
  exists a b, chip2tdet (x, y) id = Ok (a, b) /\ 2 <= a <= 8191 /\ 2 <= b <= 8191.
Proof.
  intros id x y H X Y. destruct (tdet_ok id (x, y) H) as [[a b] E]. exists a, b. split; [exact E|].
  destruct (tdet_range id x y a b H E X Y) as (ox & oy & B & A1 & B1).
  do 10 (destruct id as [|id]; [cbn [nth_error tdet_box] in B; injection B as <- <-; lra|]). destruct id; discriminate.
Qed.
Print Assumptions C124_range.
(** and different chips never share a position. *)
Theorem C124_disjoint : forall i j x y x' y' t t', i <> j -> chip2tdet (x, y) i = Ok t -> chip2tdet (x', y') j = Ok t' ->
  1 / 2 <= x <= 2049 / 2 -> 1 / 2 <= y <= 2049 / 2 -> 1 / 2 <= x' <= 2049 / 2 -> 1 / 2 <= y' <= 2049 / 2 -> t <> t'.
Proof.
  intros i j x y x' y' [a b] [a' b'] N E E' X Y X' Y' Q. injection Q as <- <-.
  assert (L : forall id c t, chip2tdet c id = Ok t -> (id < 10)%nat).
  { intros id c t H. unfold chip2tdet in H. destruct (nth_error tdet_scale id) eqn:S; [|discriminate]. change 10%nat with (length tdet_scale).
    apply nth_error_Some. congruence. }
  destruct (tdet_range i x y a b (L _ _ _ E) E X Y) as (p & q & B1 & R1 & R2).
  destruct (tdet_range j x' y' a b (L _ _ _ E') E' X' Y') as (r & s & B2 & R3 & R4).
  pose proof (tdet_boxes i j p q r s N B1 B2). lra.
Qed.
Print Assumptions C124_disjoint.
Theorem C124_unknown : forall c id, (10 <= id)%nat -> chip2tdet c id = Err IndexError.
Proof. intros c id H. unfold chip2tdet. rewrite (proj2 (nth_error_None tdet_scale id)); [reflexivity|exact H]. Qed.
Print Assumptions C124_unknown.
(** The chips of ACIS-I are turned by a right angle to either side, those of ACIS-S are only shifted; this is where they are. *)
Theorem C124_exact : forall x y,
  chip2tdet (x, y) 0 = Ok (3061 + y, 5132 - x) /\ chip2tdet (x, y) 1 = Ok (5132 - y, 4107 + x) /\
  chip2tdet (x, y) 2 = Ok (3061 + y, 4086 - x) /\ chip2tdet (x, y) 3 = Ok (5132 - y, 3061 + x) /\
  forall k, (k < 6)%nat -> chip2tdet (x, y) (4 + k) = Ok (791 + 1042 * INR k + x, 1702 + y).
Proof.
  intros x y. destruct sin_3PI2' as [S3 C3]. pose proof sin_PI2 as S1. pose proof cos_PI2 as C1. pose proof sin_0 as S0. pose proof cos_0 as C0.
  unfold chip2tdet. cbn [nth_error tdet_scale tdet_handedness tdet_origin tdet_theta repeat fst snd]. rewrite S1, C1, S3, C3.
  repeat (split; [do 2 f_equal; lra|]). intros k K.
  do 6 (destruct k as [|k]; [cbn [Nat.add nth_error tdet_scale tdet_handedness tdet_origin tdet_theta repeat fst snd INR]; rewrite S0, C0; do 2 f_equal; lra|]). lia.
Qed.
Print Assumptions C124_exact.
(** I0 is turned: its first row is the left column in TDET *)
Example C124_example : chip2tdet (1, 1) 0 = Ok (3062, 5131) /\ chip2tdet (1, 1024) 0 = Ok (4085, 5131) /\ chip2tdet (1, 1) 7 = Ok (3918, 1703).
Proof.
  unfold chip2tdet. cbn [nth_error tdet_scale tdet_handedness tdet_origin tdet_theta repeat fst snd]. rewrite sin_PI2, cos_PI2, sin_0, cos_0.
  repeat split; do 2 f_equal; lra.
Qed.

(** ** C125 *)
(** The position of a chip reproduces the measured corners, moved to the aimpoint; *)
Theorem C125_corners : forall c aim off m, chip_pos4d c aim off = Some m ->
  let shift v := hom (sub3 (add3 (add3 v olsi) aim) off) 1 in
  app4 m (V4 0 (-1) (-1) 1) = shift (c_LL c) /\ app4 m (V4 0 1 (-1) 1) = shift (c_LR c) /\ app4 m (V4 0 (-1) 1 1) = shift (c_UL c) /\
  app4 m (V4 0 1 1 1) = shift (sub3 (add3 (c_LR c) (c_UL c)) (c_LL c)).
Proof. exact chip_corners. Qed.
Print Assumptions C125_corners.
(** the fourth corner, which is not used, agrees to one micron for all chips in the table. *)
Theorem C125_fourth_corner : forall c, In c acis_corners ->
  let d := sub3 (c_UR c) (sub3 (add3 (c_LR c) (c_UL c)) (c_LL c)) in
  Rabs (x3 d) <= 1 / 1000 /\ Rabs (y3 d) <= 1 / 1000 /\ Rabs (z3 d) <= 1 / 1000.
Proof. exact acis_parallelogram. Qed.
Print Assumptions C125_fourth_corner.
(** All chips have 1024 x 1024 pixels and face the mirror. *)
Theorem C125_pixels : forall c aim off, In c acis_corners -> exists m, chip_pos4d c aim off = Some m /\
  flat_npix m (24 / 1000) = Some (1024, 1024)%Z /\ 0 < x3 (a0 (lin m)).
Proof. exact acis_chips. Qed.
Print Assumptions C125_pixels.
(** The edges of a chip are at the chip coordinates 0.5 and 1024.5, to 0.1 pixels. *)
Theorem C125_chip_pixel : forall z c, npix z (24 / 1000) = 1024%Z -> -1 <= c <= 1 ->
  chip_pixel z (24 / 1000) (c * (512 * (24 / 1000))) = 512 + 1 / 2 + 512 * c.
Proof. intros z c N C. unfold chip_pixel, centerpix. rewrite N. field. Qed.
Print Assumptions C125_chip_pixel.
(** ACIS can be set up for every selection of chips and every aimpoint if there is no other keyword ... *)
Theorem C125_init_partial : forall chips aim, (forall i, In i chips -> (i < 10)%nat) -> exists a,
  acis_init chips [("aimpoint"%string, aim)] = Ok a /\ a_offset a = V3 0 0 0 /\
  Forall2 (fun i m => exists c, nth_error acis_corners i = Some c /\ m = chip_pos4d c aim (V3 0 0 0)) chips (a_pos a).
Proof.
  intros chips aim H. unfold acis_init. cbn [dget ddel String.eqb Ascii.eqb Bool.eqb]. cbn [pop_list bind].
  assert (S : exists pos, select_chips (map (fun c => chip_pos4d c aim (V3 0 0 0)) acis_corners) chips = Ok pos /\
     Forall2 (fun i m => exists c, nth_error acis_corners i = Some c /\ m = chip_pos4d c aim (V3 0 0 0)) chips pos).
  { induction chips as [|i r IH]; [exists []; split; [reflexivity|constructor]|].
    destruct IH as (pos & E & F); [intros j J; apply H; now right|]. cbn [select_chips]. rewrite nth_error_map.
    destruct (nth_error acis_corners i) as [c|] eqn:C.
    - cbn [option_map]. rewrite E. cbn [bind]. eexists. split; [reflexivity|]. constructor; [|exact F]. eauto.
    - exfalso. apply nth_error_None in C. specialize (H i (or_introl eq_refl)). cbn in C. lia. }
  destruct S as (pos & ES & F). change (ddel "aimpoint" [("aimpoint"%string, aim)]) with (@nil (string * v3)). cbn [pop_list bind]. rewrite ES. cbn [bind]. eexists. split; [reflexivity|]. auto.
Qed.
Print Assumptions C125_init_partial.
(** ... and never with one. In particular, the detector offset cannot be set. *)
Theorem C125_offset_refuted : forall chips kwargs aim k v, dget "aimpoint" kwargs = Some aim -> k <> "aimpoint"%string -> dget k kwargs = Some v ->
  acis_init chips kwargs = Err TypeError.
Proof.
  intros chips kwargs aim k v A N K. unfold acis_init. rewrite A. cbv zeta.
  destruct (ddel "aimpoint" kwargs) as [|kv r] eqn:D; [|reflexivity]. exfalso.
  rewrite <- (dget_ddel_neq k "aimpoint" kwargs) in K by congruence. rewrite D in K. discriminate.
Qed.
Print Assumptions C125_offset_refuted.
Example C125_example : exists a, acis_init [3; 7]%nat [("aimpoint"%string, V3 (-782 / 1000) 0 (-233592 / 1000))] = Ok a /\
  acis_init [3%nat] [("aimpoint"%string, V3 0 0 0); ("DetOffsetX"%string, V3 1 0 0)] = Err TypeError.
Proof.
  destruct (C125_init_partial [3; 7]%nat (V3 (-782 / 1000) 0 (-233592 / 1000))) as (a & E & _); [cbn; lia|]. exists a. split; [exact E|].
  apply (C125_offset_refuted _ _ (V3 0 0 0) "DetOffsetX" (V3 1 0 0)); reflexivity || discriminate.
Qed.

(** ** C126 *)
(** SKY is DET turned by the roll angle around the center. *)
Theorem C126_rotation : forall roll q, let '(dx, dy) := acis_det q in let '(sx, sy) := acis_sky roll q in
  sx - odet = cos roll * (dx - odet) + sin roll * (dy - odet) /\ sy - odet = - sin roll * (dx - odet) + cos roll * (dy - odet).
Proof. exact acis_rotation. Qed.
Print Assumptions C126_rotation.
(** A source is imaged through the center of the mirror. For roll angles that are a multiple of 180 degrees its SKY coordinates are its
    position in the tangential plane, with East to the left (lower x) and North up, in pixels of 0.492 arcsec. *)
Theorem C126_sky_partial : forall p ra dec k d, p_ref p = id4 -> 0 < dot3 (skyvec ra dec) (skyvec (p_ra p) (p_dec p)) ->
  photons_dir p ra dec = Some d -> 0 < k -> sin (p_roll p) = 0 ->
  acis_sky (p_roll p) (add3 (V3 (1006165 / 100) 0 0) (scale3 k (xyz d))) =
    (8193 / 2 - fst (tangent_plane p ra dec) / (492 / 1000 / 3600 * PI / 180), 8193 / 2 + snd (tangent_plane p ra dec) / (492 / 1000 / 3600 * PI / 180)).
Proof.
  intros p ra dec k d I S D K R. change (1006165 / 100) with focallength. change (8193 / 2) with odet. change (492 / 1000 / 3600 * PI / 180) with pixsize_rad. pose proof (sky_chief p ra dec k d I S D K) as E. cbv zeta in E. destruct (tangent_plane p ra dec) as [xi eta].
  rewrite E. cbn [fst snd]. rewrite cos_2a, sin_2a, R. pose proof (cs1 (p_roll p)) as Q. rewrite R in Q.
  replace (cos (p_roll p) * cos (p_roll p) - 0 * 0) with 1 by lra. f_equal; f_equal; f_equal; ring.
Qed.
Print Assumptions C126_sky_partial.
(** For any other roll angle the image is turned by twice this angle, *)
Theorem C126_sky_turned_refuted : forall p ra dec k d, p_ref p = id4 -> 0 < dot3 (skyvec ra dec) (skyvec (p_ra p) (p_dec p)) ->
  photons_dir p ra dec = Some d -> 0 < k ->
  let q := add3 (V3 (1006165 / 100) 0 0) (scale3 k (xyz d)) in let (xi, eta) := tangent_plane p ra dec in
  acis_sky (p_roll p) q = (odet - (cos (2 * p_roll p) * xi - sin (2 * p_roll p) * eta) / pixsize_rad,
                           odet + (sin (2 * p_roll p) * xi + cos (2 * p_roll p) * eta) / pixsize_rad).
Proof. exact sky_chief. Qed.
Print Assumptions C126_sky_turned_refuted.
(** e.g. a source in the North is seen in the South for a roll of 90 degrees. *)
Theorem C126_sky_refuted : exists p ra dec d, p_ref p = id4 /\ photons_dir p ra dec = Some d /\ 0 < dot3 (skyvec ra dec) (skyvec (p_ra p) (p_dec p)) /\
  0 < snd (tangent_plane p ra dec) /\ fst (tangent_plane p ra dec) = 0 /\
  forall k, 0 < k -> snd (acis_sky (p_roll p) (add3 (V3 (1006165 / 100) 0 0) (scale3 k (xyz d)))) < odet.
Proof.
  change (1006165 / 100) with focallength.
  set (p := Pointing 0 0 (PI / 2) id4). 
  assert (S : 0 < dot3 (skyvec 0 (PI / 6)) (skyvec (p_ra p) (p_dec p))).
  { unfold p, skyvec. cbn [p_ra p_dec]. rewrite sin_0, cos_0. assert (0 < cos (PI / 6)) by (apply cos_gt_0; pose proof PI_RGT_0; lra). vu. lra. }
  exists p, 0, (PI / 6). rewrite photons_dir_eq. eexists. split; [reflexivity|]. split; [reflexivity|]. split; [exact S|].
  assert (T : snd (tangent_plane p 0 (PI / 6)) = sin (PI / 6) / cos (PI / 6) /\ fst (tangent_plane p 0 (PI / 6)) = 0).
  { unfold tangent_plane, p, skyvec, east_at, north_at. cbn [p_ra p_dec fst snd]. rewrite sin_0, cos_0.
    assert (0 < cos (PI / 6)) by (apply cos_gt_0; pose proof PI_RGT_0; lra). vu. split; field; lra. }
  destruct T as [T1 T2].
  assert (Pos : 0 < sin (PI / 6) / cos (PI / 6)).
  { apply Rdiv_lt_0_compat; [rewrite sin_PI6; lra|]. apply cos_gt_0; pose proof PI_RGT_0; lra. }
  split; [rewrite T1; exact Pos|]. split; [exact T2|]. intros k K.
  pose proof (sky_chief p 0 (PI / 6) k _ eq_refl S (photons_dir_eq p 0 (PI / 6)) K) as E. cbv zeta in E.
  destruct (tangent_plane p 0 (PI / 6)) as [xi eta]. cbn [fst snd] in T1, T2. rewrite E. cbn [snd].
  unfold p. cbn [p_roll]. replace (2 * (PI / 2)) with PI by field. rewrite cos_PI, sin_PI, T1.
  pose proof pix_pos. assert (0 < sin (PI / 6) / cos (PI / 6) / pixsize_rad) by now apply Rdiv_lt_0_compat.
  replace ((0 * xi + -1 * (sin (PI / 6) / cos (PI / 6))) / pixsize_rad) with (- (sin (PI / 6) / cos (PI / 6) / pixsize_rad)).
  - lra.
  - unfold Rdiv. ring.
Qed.
Print Assumptions C126_sky_refuted.
(** the aimpoint is at the center for every roll *)
Example C126_example : forall roll, acis_sky roll (V3 0 0 0) = (odet, odet).
Proof. intros roll. unfold acis_sky. cbv zeta. cbn [x3 y3 z3]. unfold Rdiv. f_equal; ring. Qed.

(** ** C129 *)
(** On a circular tube the pixel numbers measure the way along the circumference and along the axis in units of the pixel size. *)
Theorem C129_pixels_partial : forall m minv lim0 lim1 pix dir pos X Y, mul4 m minv = id4 -> mul4 minv m = id4 -> affine minv ->
  perpendicular_axes m -> 0 < det3 (lin m) -> norm3 (xyz (v_x m)) = norm3 (xyz (v_y m)) -> 0 < pix ->
  circular_detector m minv lim0 lim1 pix (hom dir 0) (hom pos 1) = Some (X, Y) ->
  exists k phi z, 0 <= k /\ - PI < phi <= PI /\ -1 <= z <= 1 /\
    hom (add3 pos (scale3 k dir)) 1 = app4 m (V4 (cos phi) (sin phi) z 1) /\
    X * pix = norm3 (xyz (v_x m)) * phi /\ Y * pix = z * norm3 (xyz (v_z m)).
Proof.
  intros m minv lim0 lim1 pix dir pos X Y I1 I2 Ai P D C Px E. assert (A : affine m) by apply P.
  destruct (tube_zoom m P D) as (r & Z). unfold circular_detector in E. rewrite Z in E.
  destruct (cylinder_intersect m minv lim0 lim1 true (hom dir 0) (hom pos 1)) as [[[h ip] il]|] eqn:CI; [|discriminate].
  destruct h; [|discriminate]. destruct il as [[phi z]|]; [|discriminate].
  destruct (cylinder_values m minv lim0 lim1 dir pos true ip (Some (phi, z)) I1 I2 A Ai CI) as [_ V]. destruct (V eq_refl) as (k & u & K & T & Q & _ & _ & L).
  destruct (L P) as (phi' & B & Cu & Su & Il). assert (phi' = phi) by congruence. subst phi'. assert (z = z3 u * norm3 (xyz (b2 m))) by congruence. subst z.
  cbn [x3] in E. unfold circular_detpix in E. exists k, phi, (z3 u). destruct T as (_ & T & _). split; [exact K|]. split; [exact B|]. split; [exact T|].
  split. { rewrite <- Q. rewrite <- Cu, <- Su. now destruct u. }
  injection E as <- <-. change (v_z m) with (b2 m). split; field; lra.
Qed.
Print Assumptions C129_pixels_partial.
(** Every photon that hits the tube gets pixel numbers, no other one does. *)
Theorem C129_hit : forall m minv lim0 lim1 pix dir pos, mul4 m minv = id4 -> mul4 minv m = id4 -> affine minv -> perpendicular_axes m ->
  ((exists x, circular_detector m minv lim0 lim1 pix (hom dir 0) (hom pos 1) = Some x) <->
   (~ exists s, dir = scale3 s (xyz (b2 m))) /\
     exists k u, 0 <= k /\ on_tube lim0 lim1 u /\ app4 m (hom u 1) = hom (add3 pos (scale3 k dir)) 1).
Proof.
  intros m minv lim0 lim1 pix dir pos I1 I2 Ai P. assert (A : affine m) by apply P.
  destruct (cylinder_hit_iff m minv lim0 lim1 dir pos I1 I2 A Ai) as (h & ip & il & E & H). rewrite <- H. clear H.
  unfold circular_detector. rewrite E. destruct (decompose44_perp_zoom m P) as (r & zx & zy & Z). rewrite Z.
  destruct (cylinder_values m minv lim0 lim1 dir pos h ip il I1 I2 A Ai E) as [_ V]. split.
  - intros [x X]. destruct h; [reflexivity|discriminate].
  - intros ->. destruct (V eq_refl) as (k & u & _ & _ & _ & _ & _ & L). destruct (L P) as (phi & _ & _ & _ & ->). eauto.
Qed.
Print Assumptions C129_hit.
(** For an elliptic tube pixel numbers are not lengths: they only know the first half axis, and a quarter turn from (1, 0) to (0, 3) counts
    as PI/2 although the points are further apart than that. *)
Theorem C129_elliptic_refuted : forall pix, 0 < pix ->
  let m := M4 (V4 1 0 0 0) (V4 0 3 0 0) (V4 0 0 1 0) (V4 0 0 0 1) in
  exists r X X' Y, decompose44 m = Some (zero3, r, V3 1 3 1, zero3) /\ circular_detpix 1 pix 0 0 = (X, Y) /\ circular_detpix 1 pix (PI / 2) 0 = (X', Y) /\
    (X' - X) * pix < norm3 (sub3 (xyz (app4 m (V4 (cos (PI / 2)) (sin (PI / 2)) 0 1))) (xyz (app4 m (V4 (cos 0) (sin 0) 0 1)))).
Proof.
  intros pix P m. assert (PA : perpendicular_axes m).
  { unfold perpendicular_axes, affine, m. cbn. repeat split; try (intros H; first [apply (f_equal x3) in H; cbn in H; lra | apply (f_equal y3) in H; cbn in H; lra | apply (f_equal z3) in H; cbn in H; lra]); vu; ring. }
  destruct (tube_zoom m PA) as (r & Z). { unfold m. vu. lra. }
  assert (N1 : norm3 (xyz (v_x m)) = 1) by (apply norm3_1; unfold m, v_x; vring).
  assert (N3 : norm3 (xyz (v_z m)) = 1) by (apply norm3_1; unfold m, v_z; vring).
  assert (N2 : norm3 (xyz (v_y m)) = 3).
  { replace (xyz (v_y m)) with (scale3 3 (V3 0 1 0)) by (unfold m, v_y; vring). rewrite norm3_scale, (proj2 (norm3_1 (V3 0 1 0))) by vring. rewrite Rabs_pos_eq by lra. ring. }
  rewrite N1, N2, N3 in Z. exists r. eexists _, _, _. split; [exact Z|]. split; [reflexivity|]. split; [reflexivity|].
  rewrite sin_PI2, cos_PI2, sin_0, cos_0. replace ((PI / 2 * 1 / pix + 0 - (0 * 1 / pix + 0)) * pix) with (PI / 2) by (field; lra).
  replace (sub3 _ _) with (V3 (-1) 3 0) by (unfold m; vring). apply Rsqr_incrst_0; [|pose proof PI_RGT_0; lra|apply norm3_nonneg].
  unfold Rsqr. rewrite norm3_sqr. pose proof PI_4. pose proof PI_RGT_0. vu. nra.
Qed.
Print Assumptions C129_elliptic_refuted.
(** A tube of radius 2: a ray from the center along y hits at a quarter turn. *)
Definition tubeC : m4 := M4 (V4 2 0 0 0) (V4 0 2 0 0) (V4 0 0 3 0) (V4 0 0 0 1).
Definition tubeCi : m4 := M4 (V4 (/2) 0 0 0) (V4 0 (/2) 0 0) (V4 0 0 (/3) 0) (V4 0 0 0 1).
Example C129_example : mul4 tubeC tubeCi = id4 /\ mul4 tubeCi tubeC = id4 /\ affine tubeCi /\ perpendicular_axes tubeC /\ 0 < det3 (lin tubeC) /\
  on_tube (- PI) PI (V3 0 1 0) /\ app4 tubeC (hom (V3 0 1 0) 1) = hom (add3 (V3 0 0 0) (scale3 1 (V3 0 2 0))) 1.
Proof.
  split; [unfold tubeC, tubeCi; vu; f_equal; f_equal; field|]. split; [unfold tubeC, tubeCi; vu; f_equal; f_equal; field|].
  split; [unfold affine; cbn; auto|]. split.
  { unfold perpendicular_axes, affine, tubeC. cbn. repeat split; try (intros H; first [apply (f_equal x3) in H; cbn in H; lra | apply (f_equal y3) in H; cbn in H; lra | apply (f_equal z3) in H; cbn in H; lra]); vu; ring. }
  split; [unfold tubeC; vu; lra|]. split; [|unfold tubeC; vring].
  unfold on_tube. cbn [x3 y3 z3]. split; [ring|]. split; [lra|]. exists (PI / 2). rewrite sin_PI2, cos_PI2. split; [reflexivity|]. split; [reflexivity|].
  apply angle_between_full. exists 1%Z. unfold twopi. ring.
Qed.
