(** Lemmas about [Chandra_Model]. *)
From Verif Require Import Vec_Proofs Rot_Proofs Coords_Proofs Position_Proofs Plane_Proofs Cylinder_Proofs Detector_Proofs.
From Verif Require Export Chandra_Model Source_Proofs.
From Coq Require Import List Lra Lia.
Open Scope R_scope.

(** *** dither *)
Lemma wave_bound a T f t : Rabs (wave a T f t) <= Rabs a.
Proof.
  unfold wave. rewrite Rabs_mult. pose proof (SIN_bound (2 * PI * t / T + f)) as B.
  assert (Rabs (sin (2 * PI * t / T + f)) <= 1) by (unfold Rabs; destruct (Rcase_abs _); lra).
  pose proof (Rabs_pos a). nra.
Qed.
Lemma wave_zero T f t : wave 0 T f t = 0. Proof. unfold wave. ring. Qed.
Lemma wave_period a T f t n : T <> 0 -> wave a T f (t + INR n * T) = wave a T f t.
Proof.
  intros H. unfold wave. replace (2 * PI * (t + INR n * T) / T + f) with (2 * PI * t / T + f + 2 * INR n * PI) by (field; exact H).
  now rewrite sin_period.
Qed.

Lemma e_vector_eq lon lat : e_vector lon lat = V3 (sin lon * cos lat) (cos lon * cos lat) (sin lat).
Proof. unfold e_vector. cbv zeta. rewrite sin_shift, cos_shift. reflexivity. Qed.
(** the two first coordinates are exchanged *)
Definition swap (v : v3) : v3 := V3 (y3 v) (x3 v) (z3 v).
Lemma e_vector_swap lon lat : swap (e_vector lon lat) = skyvec lon lat.
Proof. rewrite e_vector_eq. unfold swap, skyvec. cbn [x3 y3 z3]. f_equal; ring. Qed.
Lemma swap_swap v : swap (swap v) = v. Proof. now destruct v. Qed.
Lemma swap_dot u v : dot3 (swap u) (swap v) = dot3 u v. Proof. destruct u, v. unfold swap. vu. ring. Qed.
(** in mirrored coordinates rotations have the opposite sense *)
Lemma swap_rodrigues u t v : swap (rodrigues u t v) = rodrigues (swap u) (- t) (swap v).
Proof.
  unfold rodrigues. rewrite cos_neg, sin_neg, swap_dot. generalize (cos t) (sin t) (dot3 u v). intros c s k.
  destruct u, v. unfold swap. vu. f_equal; ring.
Qed.

Lemma cs_Rmod a : cos (Rmod a (2 * PI)) = cos a /\ sin (Rmod a (2 * PI)) = sin a.
Proof.
  destruct (Rmod_eq a (2 * PI)) as [n ->]. replace (a - 2 * PI * IZR n) with (a + 2 * IZR (- n) * PI) by (rewrite opp_IZR; ring).
  split.
  - destruct (Z_le_gt_dec 0 (- n)) as [H|H].
    + replace (IZR (- n)) with (INR (Z.to_nat (- n))) by (rewrite INR_IZR_INZ, Z2Nat.id by lia; reflexivity). apply cos_period.
    + rewrite <- (cos_period (a + 2 * IZR (- n) * PI) (Z.to_nat n)). f_equal. rewrite INR_IZR_INZ, Z2Nat.id by lia. rewrite opp_IZR. ring.
  - destruct (Z_le_gt_dec 0 (- n)) as [H|H].
    + replace (IZR (- n)) with (INR (Z.to_nat (- n))) by (rewrite INR_IZR_INZ, Z2Nat.id by lia; reflexivity). apply sin_period.
    + rewrite <- (sin_period (a + 2 * IZR (- n) * PI) (Z.to_nat n)). f_equal. rewrite INR_IZR_INZ, Z2Nat.id by lia. rewrite opp_IZR. ring.
Qed.
Lemma atan2_polar y x : let r := sqrt (x * x + y * y) in r * cos (atan2 y x) = x /\ r * sin (atan2 y x) = y.
Proof.
  cbv zeta. set (r := sqrt (x * x + y * y)). assert (S : 0 <= x * x + y * y) by nra. pose proof (sqrt_sqrt _ S) as R. fold r in R.
  destruct (Req_EM_T r 0) as [Z|Z].
  - rewrite Z in *. assert (x = 0 /\ y = 0) as [-> ->] by (split; nra). split; ring.
  - assert (P : 0 < r) by (pose proof (sqrt_pos (x * x + y * y)); unfold r in *; lra).
    assert (E : atan2 y x = atan2 (y / r) (x / r)).
    { unfold atan2. fold r. replace (x / r * (x / r) + y / r * (y / r)) with ((x * x + y * y) / (r * r)) by (field; exact Z).
      rewrite R. replace ((x * x + y * y) / (x * x + y * y)) with 1 by (field; intro Q; apply Z; rewrite Q in R; nra).
      rewrite sqrt_1, (proj2 (Reqb_false _ _) Z), (proj2 (Reqb_false 1 0)) by lra.
      replace (x / r / 1) with (x / r) by (unfold Rdiv; rewrite Rinv_1; ring).
      destruct (Rleb 0 y) eqn:L.
      - apply Rleb_true in L. rewrite (proj2 (Rleb_true 0 (y / r))); [reflexivity|]. apply Rmult_le_pos; [exact L|]. left. now apply Rinv_0_lt_compat.
      - apply Rleb_false in L. rewrite (proj2 (Rleb_false 0 (y / r))); [reflexivity|]. unfold Rdiv. pose proof (Rinv_0_lt_compat r P). nra. }
    destruct (atan2_unit (x / r) (y / r)) as (C & Sn & _).
    { replace (x / r * (x / r) + y / r * (y / r)) with ((x * x + y * y) / (r * r)) by (field; exact Z). rewrite R. field. intro Q. apply Z. rewrite Q in R. nra. }
    rewrite E, C, Sn. split; field; exact Z.
Qed.
Lemma vector2sky_spec v : dot3 v v = 1 -> skyvec (fst (vector2sky v)) (snd (vector2sky v)) = swap v /\ 0 <= cos (snd (vector2sky v)) /\
  0 <= fst (vector2sky v) < 2 * PI /\ - (PI / 2) <= snd (vector2sky v) <= PI / 2.
Proof.
  intros U. destruct v as [x y z]. unfold vector2sky, skyvec, swap. cbn [fst snd x3 y3 z3]. vu.
  destruct (cs_Rmod (atan2 x y)) as [C S]. rewrite C, S, cos_shift, sin_shift.
  assert (Z : -1 <= z <= 1) by nra. rewrite cos_acos by exact Z. rewrite sin_acos by exact Z.
  replace (1 - z²) with (y * y + x * x) by (unfold Rsqr; lra). destruct (atan2_polar x y) as [A B]. rewrite A, B.
  split; [reflexivity|]. split; [apply sqrt_pos|]. pose proof PI_RGT_0. split; [apply Rmod_bound; lra|]. pose proof (acos_bound z). lra.
Qed.

Lemma e_vector_unit lon lat : dot3 (e_vector lon lat) (e_vector lon lat) = 1.
Proof. rewrite <- swap_dot, e_vector_swap. apply skyvec_unit. Qed.
Lemma point_at_sky p r0 delta : let '(ra, dec, roll) := point_at p (axangle2mat_n (e_vector (p_ra p) (p_dec p)) (- r0)) delta in
  skyvec ra dec = rodrigues (skyvec (p_ra p) (p_dec p)) r0 (skyvec (p_ra p + x3 delta) (p_dec p + y3 delta)) /\
  roll = p_roll p + z3 delta /\ 0 <= ra < 2 * PI /\ - (PI / 2) <= dec <= PI / 2.
Proof.
  unfold point_at. set (v := app3 _ _).
  assert (U : dot3 v v = 1). { unfold v. rewrite orthonormal_dot by (apply axangle_orthonormal, e_vector_unit). apply e_vector_unit. }
  destruct (vector2sky_spec v U) as (E & _ & A & B). destruct (vector2sky v) as [ra dec]. cbn [fst snd] in *.
  split; [|auto]. rewrite E. unfold v. rewrite axangle_rodrigues, swap_rodrigues, !e_vector_swap, Ropp_involutive. reflexivity.
Qed.

Lemma pointing_const p l times : times <> [] ->
  (forall t, In t times -> isclose (p_roll p + z3 (dither l (p_dec p) t)) (p_roll p + z3 (dither l (p_dec p) (hd 0 times))) = true) ->
  dither_pointing p l times = Ok (map (fun t => point_at p (axangle2mat_n (e_vector (p_ra p) (p_dec p))
      (- (p_roll p + z3 (dither l (p_dec p) (hd 0 times))))) (dither l (p_dec p) t)) times).
Proof.
  intros N H. destruct times as [|t0 ts]; [congruence|]. unfold dither_pointing. cbv zeta.
  cbn [map hd] in *. rewrite (proj2 (forallb_forall _ _)).
  - now rewrite map_map.
  - intros r I. cbn [In] in I. rewrite map_map in I. destruct I as [<- |I]; [apply H; now left|].
    apply in_map_iff in I. destruct I as (t & <- & T). apply H. now right.
Qed.
Lemma isclose_refl r : isclose r r = true.
Proof.
  unfold isclose. destruct (Rle_dec _ _) as [_|H]; [reflexivity|]. exfalso. apply H. replace (r - r) with 0 by ring. rewrite Rabs_R0.
  pose proof (Rabs_pos r). nra.
Qed.
Lemma pointing_roll p l times t1 t2 : In t1 times -> isclose (p_roll p + z3 (dither l (p_dec p) t1)) (p_roll p + z3 (dither l (p_dec p) (hd 0 times))) = false ->
  t2 = t1 -> dither_pointing p l times = Err UnboundLocalError.
Proof.
  intros I H _. destruct times as [|t0 ts]; [easy|]. unfold dither_pointing. cbv zeta. cbn [map hd] in *.
  destruct (forallb _ _) eqn:F; [|reflexivity]. rewrite forallb_forall in F.
  assert (In (p_roll p + z3 (dither l (p_dec p) t1)) (map (fun delta => p_roll p + z3 delta) (map (dither l (p_dec p)) (t0 :: ts)))).
  { rewrite map_map. now apply (in_map (fun t => p_roll p + z3 (dither l (p_dec p) t))). }
  cbn [map] in H0. apply F in H0. congruence.
Qed.

(** *** direction *)
Lemma euler_offset ra dec roll : trans3 (euler_rzyx ra (- dec) (- roll)) = offset_matrix ra dec roll.
Proof.
  unfold euler_rzyx, offset_matrix, axangle2mat_n, astro_x, astro_y, astro_z. cbv zeta. rewrite !cos_neg, !sin_neg.
  generalize (cos ra) (sin ra) (cos dec) (sin dec) (cos roll) (sin roll). intros. vu. f_equal; f_equal; ring.
Qed.
Lemma dither_dir_eq ra dec roll sky : Some (dither_dir (ra, dec, roll) sky) = photons_dir (Pointing ra dec roll id4) (fst sky) (snd sky).
Proof.
  rewrite photons_dir_eq. unfold dither_dir. rewrite euler_offset. cbn [p_ref]. rewrite app4_id. unfold p_offset. cbn [p_ra p_dec p_roll].
  now rewrite neg_app.
Qed.
Lemma offset_ext ra dec ra' dec' roll : skyvec ra dec = skyvec ra' dec' -> 0 < cos dec -> 0 <= cos dec' ->
  offset_matrix ra dec roll = offset_matrix ra' dec' roll.
Proof.
  intros E C C'. unfold skyvec in E. injection E as E1 E2 E3. pose proof (cs1 dec). pose proof (cs1 dec'). rewrite E3 in *.
  assert (D : cos dec = cos dec') by (apply Rsqr_inj; unfold Rsqr; lra). rewrite D in *.
  assert (cos ra = cos ra') by (apply Rmult_eq_reg_l with (cos dec'); lra). assert (sin ra = sin ra') by (apply Rmult_eq_reg_l with (cos dec'); lra).
  unfold offset_matrix, astro_x, astro_y, astro_z. rewrite !cos_neg, !sin_neg. rewrite D, E3, H1, H2. reflexivity.
Qed.

(** the frame at a pointing *)
Lemma frame_dots ra dec : let P := skyvec ra dec in let E := east_at ra in let N := north_at ra dec in
  dot3 P P = 1 /\ dot3 E E = 1 /\ dot3 N N = 1 /\ dot3 P E = 0 /\ dot3 P N = 0 /\ dot3 E N = 0 /\ cross3 P E = N /\ cross3 P N = neg3 E.
Proof.
  cbv zeta. unfold skyvec, east_at, north_at. pose proof (cs1 ra) as A. pose proof (cs1 dec) as D.
  revert A D. generalize (cos ra) (sin ra) (cos dec) (sin dec). intros c s C S A D. vu.
  repeat split.
  - transitivity (C * C * (c * c + s * s) + S * S); [ring|]. rewrite A. lra.
  - lra.
  - transitivity (S * S * (c * c + s * s) + C * C); [ring|]. rewrite A. lra.
  - ring.
  - transitivity (- (C * S) * (c * c + s * s) + C * S); [ring|]. rewrite A. ring.
  - ring.
  - f_equal; [ring|ring|]. transitivity (C * (c * c + s * s)); [ring|]. rewrite A. ring.
  - f_equal; [| |ring].
    + transitivity (s * (C * C + S * S)); [ring|]. rewrite D. ring.
    + transitivity (- c * (C * C + S * S)); [ring|]. rewrite D. ring.
Qed.
Lemma offset_rodrigues ra dec roll r v :
  app3 (offset_matrix ra dec roll) (rodrigues (skyvec ra dec) r v) =
  let u := app3 (offset_matrix ra dec 0) v in
  V3 (x3 u) (cos (roll + r) * y3 u - sin (roll + r) * z3 u) (sin (roll + r) * y3 u + cos (roll + r) * z3 u).
Proof.
  cbv zeta. destruct (frame_dots ra dec) as (PP & EE & NN & PE & PN & EN & CE & CN). revert PP EE NN PE PN EN CE CN.
  rewrite !offset_app. generalize (skyvec ra dec) (east_at ra) (north_at ra dec). intros P E N PP EE NN PE PN EN CE CN.
  cbn [x3 y3 z3]. rewrite cos_0, sin_0. unfold rodrigues.
  assert (T : forall w, dot3 (cross3 P v) w = - dot3 v (cross3 P w)) by (intros; vring).
  rewrite !dot3_add_l, !dot3_scale_l, !T.
  assert (X : cross3 P P = zero3) by apply cross3_self. rewrite X.
  assert (LS : forall a b, cross3 P (sub3 (scale3 a E) (scale3 b N)) = add3 (scale3 a N) (scale3 b E)).
  { intros a b. transitivity (sub3 (scale3 a (cross3 P E)) (scale3 b (cross3 P N))); [vring|]. rewrite CE, CN. vring. }
  assert (LA : forall a b, cross3 P (add3 (scale3 a N) (scale3 b E)) = sub3 (scale3 b N) (scale3 a E)).
  { intros a b. transitivity (add3 (scale3 a (cross3 P N)) (scale3 b (cross3 P E))); [vring|]. rewrite CE, CN. vring. }
  rewrite LS, LA. 
  assert (DS : forall a b w, dot3 w (sub3 (scale3 a E) (scale3 b N)) = a * dot3 w E - b * dot3 w N) by (intros; vring).
  assert (DA : forall a b w, dot3 w (add3 (scale3 a N) (scale3 b E)) = a * dot3 w N + b * dot3 w E) by (intros; vring).
  assert (DN : forall a b w, dot3 w (sub3 (scale3 b N) (scale3 a E)) = b * dot3 w N - a * dot3 w E) by (intros; vring).
  assert (DZ : dot3 v zero3 = 0) by vring.
  rewrite !DS, !DA, !DN, DZ, PP, PE, PN, cos_plus, sin_plus, (dot3_comm P v). f_equal; ring.
Qed.

(** *** tdet *)
Lemma sin_3PI2' : sin (3 * (PI / 2)) = -1 /\ cos (3 * (PI / 2)) = 0.
Proof. split; [apply sin_3PI2|apply cos_3PI2]. Qed.
(** lower left corner of the chips *)
Definition tdet_box : list (R * R) :=
  [(3061, 4107); (4107, 4107); (3061, 3061); (4107, 3061); (791, 1702); (1833, 1702); (2875, 1702); (3917, 1702); (4959, 1702); (6001, 1702)].
Ltac chips n := do 10 (destruct n as [|n]; [|]); try (exfalso; lia).
Lemma tdet_cases id x y : (id < 10)%nat -> exists a b sx sy (f : bool) ox oy,
  nth_error tdet_box id = Some (ox, oy) /\ (sx = 1 \/ sx = -1) /\ (sy = 1 \/ sy = -1) /\
  chip2tdet (x, y) id = Ok (a, b) /\
  a = ox + 1 / 2 + (if Rlt_dec sx 0 then 1024 else 0) + sx * ((if f then y else x) - 1 / 2) /\
  b = oy + 1 / 2 + (if Rlt_dec sy 0 then 1024 else 0) + sy * ((if f then x else y) - 1 / 2).
Proof.
  intros H. destruct sin_3PI2' as [S3 C3]. pose proof sin_PI2 as S1. pose proof cos_PI2 as C1. pose proof sin_0 as S0. pose proof cos_0 as C0.
  assert (K : forall s h ox oy th, nth_error tdet_scale id = Some s -> nth_error tdet_handedness id = Some h ->
    nth_error tdet_origin id = Some (ox, oy) -> nth_error tdet_theta id = Some th ->
    chip2tdet (x, y) id = Ok (s * h * (cos th * (x - 1 / 2) + sin th * (y - 1 / 2)) + (ox + 1 / 2), s * h * (- sin th * (x - 1 / 2) + cos th * (y - 1 / 2)) + (oy + 1 / 2))).
  { intros. unfold chip2tdet. now rewrite H0, H1, H2, H3. }
  do 10 (destruct id as [|id];
    [eexists _, _; first
       [ exists 1, (-1), true; eexists _, _; split; [reflexivity|]; split; [lra|]; split; [lra|]; split; [apply K; reflexivity|];
         rewrite ?S1, ?C1; destruct (Rlt_dec 1 0); [lra|]; destruct (Rlt_dec (-1) 0); [|lra]; split; lra
       | exists (-1), 1, true; eexists _, _; split; [reflexivity|]; split; [lra|]; split; [lra|]; split; [apply K; reflexivity|];
         rewrite ?S3, ?C3; destruct (Rlt_dec 1 0); [lra|]; destruct (Rlt_dec (-1) 0); [|lra]; split; lra
       | exists 1, 1, false; eexists _, _; split; [reflexivity|]; split; [lra|]; split; [lra|]; split; [apply K; reflexivity|];
         rewrite ?S0, ?C0; destruct (Rlt_dec 1 0); [lra|]; split; lra ]|]).
  lia.
Qed.
Lemma tdet_ok id c : (id < 10)%nat -> exists t, chip2tdet c id = Ok t.
Proof. intros H. destruct c as [x y]. destruct (tdet_cases id x y H) as (a & b & _ & _ & _ & _ & _ & _ & _ & _ & E & _). eauto. Qed.
Lemma tdet_range id x y a b : (id < 10)%nat -> chip2tdet (x, y) id = Ok (a, b) -> 1 / 2 <= x <= 2049 / 2 -> 1 / 2 <= y <= 2049 / 2 ->
  exists ox oy, nth_error tdet_box id = Some (ox, oy) /\ ox + 1 / 2 <= a <= ox + 1024 + 1 / 2 /\ oy + 1 / 2 <= b <= oy + 1024 + 1 / 2.
Proof.
  intros H E X Y. destruct (tdet_cases id x y H) as (a' & b' & sx & sy & f & ox & oy & B & SX & SY & E' & A1 & B1).
  rewrite E' in E. injection E as <- <-. exists ox, oy. split; [exact B|].
  destruct (Rlt_dec sx 0), (Rlt_dec sy 0), f; destruct SX, SY; subst sx sy; lra.
Qed.
Lemma tdet_isometry id x y x' y' a b a' b' : chip2tdet (x, y) id = Ok (a, b) -> chip2tdet (x', y') id = Ok (a', b') ->
  (a - a') * (a - a') + (b - b') * (b - b') = (x - x') * (x - x') + (y - y') * (y - y').
Proof.
  intros E E'. assert (H : (id < 10)%nat).
  { unfold chip2tdet in E. destruct (nth_error tdet_scale id) eqn:S; [|discriminate]. change 10%nat with (length tdet_scale).
    apply nth_error_Some. congruence. }
  assert (S : nth_error tdet_scale id = Some 1 /\ nth_error tdet_handedness id = Some 1).
  { unfold tdet_scale, tdet_handedness. split; (rewrite nth_error_nth' with (d := 1) by exact H; f_equal; apply nth_repeat). }
  destruct S as [S1 S2]. unfold chip2tdet in E, E'. rewrite S1, S2 in E, E'.
  destruct (nth_error tdet_origin id) as [[ox oy]|]; [|discriminate]. destruct (nth_error tdet_theta id) as [th|]; [|discriminate].
  cbn [fst snd] in *. injection E as <- <-. injection E' as <- <-. pose proof (cs1 th) as C.
  transitivity ((cos th * cos th + sin th * sin th) * ((x - x') * (x - x') + (y - y') * (y - y'))); [ring|]. rewrite C. ring.
Qed.
Lemma tdet_boxes i j p q r s : i <> j -> nth_error tdet_box i = Some (p, q) -> nth_error tdet_box j = Some (r, s) ->
  p + 1025 < r \/ r + 1025 < p \/ q + 1025 < s \/ s + 1025 < q.
Proof.
  intros N A B.
  do 10 (destruct i as [|i]; [cbn [nth_error tdet_box] in A; injection A as <- <-;
      do 10 (destruct j as [|j]; [cbn [nth_error tdet_box] in B; first [congruence | injection B as <- <-; lra]|]); destruct j; discriminate |]).
  destruct i; discriminate.
Qed.

(** *** chips *)
Lemma unit3_some_nonzero v n : unit3 v = Some n -> v <> zero3 /\ dot3 n n = 1 /\ n = scale3 (/ norm3 v) v.
Proof.
  intros E. assert (N : v <> zero3). { intros ->. rewrite unit3_zero in E. discriminate. }
  split; [exact N|]. rewrite unit3_some in E by exact N. injection E as <-. split; [|reflexivity].
  apply norm3_1. rewrite norm3_scale. pose proof (norm3_pos v N) as P. rewrite Rabs_pos_eq by (left; now apply Rinv_0_lt_compat). field. lra.
Qed.
Lemma gram_zooms q o n t : unit3 (cross3 q o) = Some n ->
  exists r zx sz s, decompose44 (aff (M3 n q o) t) = Some (t, r, V3 zx (norm3 q) sz, s) /\ 0 <= sz /\ sz * sz * dot3 q q = dot3 q q * dot3 o o - dot3 q o * dot3 q o /\ 0 < norm3 q.
Proof.
  intros U. destruct (unit3_some_nonzero _ _ U) as (N & NN & E).
  assert (Q : q <> zero3). { intros ->. apply N. vring. }
  pose proof (norm3_pos q Q) as QP. assert (QQ : norm3 q * norm3 q = dot3 q q) by apply norm3_sqr.
  assert (NQ : dot3 n q = 0) by (rewrite E, dot3_scale_l; replace (dot3 (cross3 q o) q) with 0 by vring; ring).
  assert (NO : dot3 n o = 0) by (rewrite E, dot3_scale_l; replace (dot3 (cross3 q o) o) with 0 by vring; ring).
  unfold decompose44. cbv zeta.
  replace (xyz (b0 (aff (M3 n q o) t))) with n by (destruct n; reflexivity). replace (xyz (b1 (aff (M3 n q o) t))) with q by (destruct q; reflexivity).
  replace (xyz (b2 (aff (M3 n q o) t))) with o by (destruct o; reflexivity). replace (xyz (b3 (aff (M3 n q o) t))) with t by (destruct t; reflexivity).
  rewrite (proj2 (norm3_1 n) NN), (proj2 (Reqb_false 1 0)) by lra. rewrite Rinv_1, scale3_1, NQ, NO.
  replace (sub3 q (scale3 0 n)) with q by (rewrite scale3_0; vring). rewrite (proj2 (Reqb_false (norm3 q) 0)) by lra.
  set (o' := sub3 o _).
  assert (O' : o' = sub3 o (scale3 (dot3 q o / dot3 q q) q)).
  { unfold o'. rewrite scale3_0, dot3_scale_l, scale3_scale3. rewrite <- QQ.
    replace (/ norm3 q * dot3 q o * / norm3 q) with (dot3 q o / (norm3 q * norm3 q)) by (field; lra). vring. }
  assert (SQ : norm3 o' * norm3 o' * dot3 q q = dot3 q q * dot3 o o - dot3 q o * dot3 q o).
  { rewrite norm3_sqr, O'. assert (DQ : 0 < dot3 q q) by (rewrite <- QQ; nra).
    assert (EX : forall a, dot3 (sub3 o (scale3 a q)) (sub3 o (scale3 a q)) = dot3 o o - 2 * a * dot3 q o + a * a * dot3 q q) by (intros; vring).
    rewrite EX. field. lra. }
  assert (O0 : norm3 o' <> 0).
  { intros Z. rewrite Z in SQ. apply N. apply norm3_zero.
    assert (L : dot3 (cross3 q o) (cross3 q o) = dot3 q q * dot3 o o - dot3 q o * dot3 q o) by vring.
    unfold norm3. rewrite L. replace (_ - _) with 0 by lra. apply sqrt_0. }
  rewrite (proj2 (Reqb_false (norm3 o') 0)) by exact O0.
  destruct (Rltb _ 0); eexists _, _, (norm3 o'), _; (split; [reflexivity|]); (split; [apply norm3_nonneg|]); (split; [exact SQ|exact QP]).
Qed.
Lemma npix_1024 z : 0 <= z -> 150847524 / 1000000 < z * z < 151142436 / 1000000 -> npix z (24 / 1000) = 1024%Z.
Proof.
  intros P [A B]. assert (L : 12282 / 1000 < z) by nra. assert (U : z < 12294 / 1000) by nra.
  unfold npix, Rround. set (w := 2 * z / (24 / 1000)). assert (W : 1023 + 1 / 2 < w < 1024 + 1 / 2) by (unfold w; lra). cbv zeta.
  destruct (Rlt_dec w 1024) as [H|H].
  - rewrite (Rfloor_unique w 1023) by lra. rewrite (proj2 (Rltb_false _ _)) by lra. now rewrite (proj2 (Rltb_true _ _)) by lra.
  - rewrite (Rfloor_unique w 1024) by lra. now rewrite (proj2 (Rltb_true _ _)) by lra.
Qed.
(** For vectors with [dots] in the given range the chip has 1024 x 1024 pixels *)
Lemma chip_pixels c aim off : let q := scale3 (1 / 2) (sub3 (c_LR c) (c_LL c)) in let o := scale3 (1 / 2) (sub3 (c_UL c) (c_LL c)) in
  0 < x3 (cross3 (sub3 (c_LR c) (c_LL c)) (sub3 (c_UL c) (c_LL c))) ->
  15090 / 100 < dot3 q q < 15110 / 100 -> 15090 / 100 < dot3 o o < 15110 / 100 -> - 1 < dot3 q o < 1 ->
  exists m, chip_pos4d c aim off = Some m /\ flat_npix m (24 / 1000) = Some (1024, 1024)%Z /\ 0 < x3 (a0 (lin m)).
Proof.
  cbv zeta. intros X Q O QO. unfold chip_pos4d. cbv zeta.
  set (ey := sub3 (c_LR c) (c_LL c)) in *. set (ez := sub3 (c_UL c) (c_LL c)) in *.
  assert (N : cross3 ey ez <> zero3). { intros E. rewrite E in X. unfold zero3 in X. cbn [x3] in X. lra. }
  rewrite unit3_some by exact N. pose proof (norm3_pos _ N) as NP. set (n := scale3 (/ norm3 (cross3 ey ez)) (cross3 ey ez)).
  eexists. split; [reflexivity|].
  assert (CR : cross3 (scale3 (1 / 2) ey) (scale3 (1 / 2) ez) = scale3 (1 / 4) (cross3 ey ez)) by (clear; vu; f_equal; field).
  assert (U : unit3 (cross3 (scale3 (1 / 2) ey) (scale3 (1 / 2) ez)) = Some n).
  { rewrite CR. assert (dot3 n n = 1).
    { apply norm3_1. unfold n. rewrite norm3_scale, Rabs_pos_eq by (left; now apply Rinv_0_lt_compat). field. lra. }
    replace (scale3 (1 / 4) (cross3 ey ez)) with (scale3 (1 / 4 * norm3 (cross3 ey ez)) n).
    - apply unit3_scale; [nra|exact H].
    - unfold n. rewrite scale3_scale3. f_equal. field. lra. }
  destruct (gram_zooms _ _ n (sub3 (add3 (add3 (add3 (add3 (c_LL c) (scale3 (1 / 2) ey)) (scale3 (1 / 2) ez)) olsi) aim) off) U) as (r & zx & sz & s & E & S0 & S1 & QP).
  split.
  - unfold flat_npix. rewrite E. cbn [y3 z3]. f_equal. f_equal; apply npix_1024.
    + lra.
    + rewrite norm3_sqr. lra.
    + exact S0.
    + assert (Lo : sz * sz * dot3 (scale3 (1 / 2) ey) (scale3 (1 / 2) ey) <= dot3 (scale3 (1 / 2) ey) (scale3 (1 / 2) ey) * dot3 (scale3 (1 / 2) ez) (scale3 (1 / 2) ez)) by nra.
      assert (Up : dot3 (scale3 (1 / 2) ey) (scale3 (1 / 2) ey) * dot3 (scale3 (1 / 2) ez) (scale3 (1 / 2) ez) - 1 <= sz * sz * dot3 (scale3 (1 / 2) ey) (scale3 (1 / 2) ey)) by nra.
      revert Lo Up Q O. generalize (dot3 (scale3 (1 / 2) ey) (scale3 (1 / 2) ey)) (dot3 (scale3 (1 / 2) ez) (scale3 (1 / 2) ez)) (sz * sz). intros a b t Lo Up Q O.
      split.
      * assert (a * (b - t) <= 1) by lra. assert (b - t <= 1 / 100) by nra. lra.
      * assert (a * (t - b) <= 0) by lra. assert (t - b <= 0) by nra. lra.
  - change (a0 (lin (aff (M3 n (scale3 (1 / 2) ey) (scale3 (1 / 2) ez)) (sub3 (add3 (add3 (add3 (add3 (c_LL c) (scale3 (1 / 2) ey)) (scale3 (1 / 2) ez)) olsi) aim) off)))) with (xyz (hom n 0)).
    rewrite xyz_hom. unfold n. destruct (cross3 ey ez) as [cx cy cz] eqn:EC. cbn [x3] in X. unfold scale3. cbn [x3].
    apply Rmult_lt_0_compat; [now apply Rinv_0_lt_compat|exact X].
Qed.
Lemma acis_chips c aim off : In c acis_corners -> exists m, chip_pos4d c aim off = Some m /\ flat_npix m (24 / 1000) = Some (1024, 1024)%Z /\ 0 < x3 (a0 (lin m)).
Proof.
  intros I. unfold acis_corners in I. repeat (destruct I as [<- |I]; [apply chip_pixels; unfold um; cbn [c_LL c_LR c_UL]; vu; lra|]). destruct I.
Qed.
Lemma acis_parallelogram c : In c acis_corners ->
  let d := sub3 (c_UR c) (sub3 (add3 (c_LR c) (c_UL c)) (c_LL c)) in
  Rabs (x3 d) <= 1 / 1000 /\ Rabs (y3 d) <= 1 / 1000 /\ Rabs (z3 d) <= 1 / 1000.
Proof.
  intros I. cbv zeta. unfold acis_corners in I.
  repeat (destruct I as [<- |I]; [unfold um; cbn [c_LL c_LR c_UL c_UR]; vu; repeat split; apply Rabs_le; lra|]). destruct I.
Qed.
Lemma chip_corners c aim off m : chip_pos4d c aim off = Some m ->
  let shift v := hom (sub3 (add3 (add3 v olsi) aim) off) 1 in
  app4 m (V4 0 (-1) (-1) 1) = shift (c_LL c) /\ app4 m (V4 0 1 (-1) 1) = shift (c_LR c) /\ app4 m (V4 0 (-1) 1 1) = shift (c_UL c) /\
  app4 m (V4 0 1 1 1) = shift (sub3 (add3 (c_LR c) (c_UL c)) (c_LL c)).
Proof.
  unfold chip_pos4d. cbv zeta. destruct (unit3 _) as [n|]; [|discriminate]. intros E. assert (E' : m = aff (M3 n (scale3 (1 / 2) (sub3 (c_LR c) (c_LL c))) (scale3 (1 / 2) (sub3 (c_UL c) (c_LL c))))
    (sub3 (add3 (add3 (add3 (add3 (c_LL c) (scale3 (1 / 2) (sub3 (c_LR c) (c_LL c)))) (scale3 (1 / 2) (sub3 (c_UL c) (c_LL c)))) olsi) aim) off)) by congruence.
  subst m. clear E. generalize (c_LL c) (c_LR c) (c_UL c) olsi. intros ll lr ul ol. destruct ll, lr, ul, ol, aim, off, n. vu. repeat split; f_equal; field.
Qed.

(** *** det and sky *)
Lemma pix_pos : 0 < pixsize_rad. Proof. unfold pixsize_rad. pose proof PI_RGT_0. lra. Qed.
Lemma acis_rotation roll q : let '(dx, dy) := acis_det q in let '(sx, sy) := acis_sky roll q in
  sx - odet = cos roll * (dx - odet) + sin roll * (dy - odet) /\ sy - odet = - sin roll * (dx - odet) + cos roll * (dy - odet).
Proof. unfold acis_det, acis_sky. cbv zeta. split; ring. Qed.
Lemma sky_chief p ra dec k d : p_ref p = id4 -> 0 < dot3 (skyvec ra dec) (skyvec (p_ra p) (p_dec p)) -> photons_dir p ra dec = Some d -> 0 < k ->
  let q := add3 (V3 focallength 0 0) (scale3 k (xyz d)) in let (xi, eta) := tangent_plane p ra dec in
  acis_sky (p_roll p) q = (odet - (cos (2 * p_roll p) * xi - sin (2 * p_roll p) * eta) / pixsize_rad,
                           odet + (sin (2 * p_roll p) * xi + cos (2 * p_roll p) * eta) / pixsize_rad).
Proof.
  intros I S D K. cbv zeta. unfold tangent_plane. cbv zeta. rewrite photons_dir_eq, I, app4_id in D. unfold p_offset in D. rewrite offset_app in D.
  assert (D' : d = hom (neg3 (V3 (dot3 (skyvec ra dec) (skyvec (p_ra p) (p_dec p)))
     (dot3 (skyvec ra dec) (sub3 (scale3 (cos (p_roll p)) (east_at (p_ra p))) (scale3 (sin (p_roll p)) (north_at (p_ra p) (p_dec p)))))
     (dot3 (skyvec ra dec) (add3 (scale3 (cos (p_roll p)) (north_at (p_ra p) (p_dec p))) (scale3 (sin (p_roll p)) (east_at (p_ra p))))))) 0) by congruence.
  subst d. clear D I. rewrite xyz_hom.
  set (sP := dot3 (skyvec ra dec) (skyvec (p_ra p) (p_dec p))) in *.
  replace (dot3 (skyvec ra dec) (sub3 _ _)) with (cos (p_roll p) * dot3 (skyvec ra dec) (east_at (p_ra p)) - sin (p_roll p) * dot3 (skyvec ra dec) (north_at (p_ra p) (p_dec p)))
    by (generalize (skyvec ra dec) (east_at (p_ra p)) (north_at (p_ra p) (p_dec p)); intros; vring).
  replace (dot3 (skyvec ra dec) (add3 _ _)) with (cos (p_roll p) * dot3 (skyvec ra dec) (north_at (p_ra p) (p_dec p)) + sin (p_roll p) * dot3 (skyvec ra dec) (east_at (p_ra p)))
    by (generalize (skyvec ra dec) (east_at (p_ra p)) (north_at (p_ra p) (p_dec p)); intros; vring).
  generalize (dot3 (skyvec ra dec) (east_at (p_ra p))) (dot3 (skyvec ra dec) (north_at (p_ra p) (p_dec p))). intros E N.
  pose proof pix_pos as PX. unfold acis_sky, neg3, scale3, add3. cbn [x3 y3 z3].
  replace (2 * p_roll p) with (p_roll p + p_roll p) by ring. rewrite cos_plus, sin_plus.
  generalize (cos (p_roll p)) (sin (p_roll p)). intros c s.
  replace (focallength + k * - sP - focallength) with (- (k * sP)) by ring. assert (KS : 0 < k * sP) by now apply Rmult_lt_0_compat.
  apply injective_projections; cbn [fst snd]; field; repeat split; lra.
Qed.

(** *** tube *)
Lemma tube_zoom m : perpendicular_axes m -> 0 < det3 (lin m) -> exists r, decompose44 m = Some (tra m, r, V3 (norm3 (xyz (v_x m))) (norm3 (xyz (v_y m))) (norm3 (xyz (v_z m))), zero3).
Proof.
  intros P D. destruct (decompose44_zooms m P) as (r & zx & E). exists r. rewrite E. do 3 f_equal.
  apply decompose44_spec in E. destruct E as (_ & [O Dr] & _ & L). rewrite shear3_0, mul3_id_r in L. cbn [x3] in *.
  assert (B : xyz (v_x m) = scale3 zx (a0 r)).
  { change (xyz (v_x m)) with (a0 (lin m)). rewrite L. clear. generalize (norm3 (xyz (v_y m))) (norm3 (xyz (v_z m))). intros. unfold diag3, mul3, app3. vring. }
  assert (N : norm3 (a0 r) = 1) by (apply norm3_1; apply O).
  destruct P as (_ & _ & N1 & N2 & _). pose proof (norm3_pos _ N1). pose proof (norm3_pos _ N2).
  assert (D2 : det3 (lin m) = zx * (norm3 (xyz (v_y m)) * norm3 (xyz (v_z m))) * det3 r).
  { rewrite L. clear. generalize (norm3 (xyz (v_y m))) (norm3 (xyz (v_z m))). intros. unfold diag3, mul3, app3. vring. }
  rewrite Dr in D2. assert (0 < zx). { destruct (Rlt_dec 0 zx) as [H1|H1]; [exact H1|]. exfalso.
    assert (0 < norm3 (xyz (v_y m)) * norm3 (xyz (v_z m))) by now apply Rmult_lt_0_compat. nra. }
  rewrite B, norm3_scale, N, Rabs_pos_eq by lra. f_equal. ring.
Qed.
