From Verif Require Export Mission_Model Base_Proofs Vec_Proofs Rot_Proofs.
Open Scope R_scope.

(** ** Quality factor *)
Lemma qf_range : forall sigma d, 0 < qf_factor sigma d <= 1.
Proof.
  intros sigma d. unfold qf_factor. set (x := 2 * PI * sigma / d). split; [apply exp_pos|]. rewrite <- exp_0. assert (H : 0 <= x ^ 2) by (cbn; rewrite Rmult_1_r; apply Rle_0_sqr).
  destruct (Rle_lt_or_eq_dec _ _ H) as [L|E]; [left; apply exp_increasing; lra|right; f_equal; lra].
Qed.
Lemma pow_range : forall f n, 0 < f <= 1 -> 0 < f ^ n <= 1.
Proof. intros f n H. split; [apply pow_lt; lra|]. induction n as [|n IH]; cbn; [lra|]. assert (0 < f ^ n) by (apply pow_lt; lra). nra. Qed.
Lemma pow_decr : forall f n m, 0 < f <= 1 -> (n <= m)%nat -> f ^ m <= f ^ n.
Proof.
  intros f n m H L. replace m with ((m - n) + n)%nat by lia. rewrite pow_add. assert (A := pow_range f (m - n) H). assert (B := pow_range f n H). nra.
Qed.

(** ** L1 *)
Lemma l1_rows_spec : forall open trans photons cat index draws out, length index = length cat -> length draws = length cat -> l1_rows open trans photons cat index draws = Ok out ->
  length out = length cat /\ forall j c i r, nth_error cat j = Some c -> nth_error index j = Some i -> nth_error draws j = Some r ->
    exists p, nth_error photons i = Some p /\ exists c', nth_error out j = Some c' /\ l1_photon open trans c p r = Ok c'.
Proof.
  intros open trans photons. induction cat as [|c cat IH]; intros index draws out L1 L2 H.
  - cbn in H. injection H as <-. split; [reflexivity|]. intros [|j] c i r Q; discriminate.
  - destruct index as [|i index]; [discriminate|]. destruct draws as [|r draws]; [discriminate|]. cbn [l1_rows] in H. destruct (nth_error photons i) as [p|] eqn:P; [|discriminate].
    destruct (l1_photon open trans c p r) as [c'|e] eqn:C; [|discriminate]. cbn [bind] in H. destruct (l1_rows open trans photons cat index draws) as [l|e] eqn:E; [|discriminate]. cbn [bind] in H. injection H as <-.
    destruct (IH index draws l ltac:(cbn in L1; lia) ltac:(cbn in L2; lia) E) as [A B]. split; [cbn; lia|]. intros [|j] c0 i0 r0 Q1 Q2 Q3.
    + cbn in Q1, Q2, Q3. injection Q1 as <-. injection Q2 as <-. injection Q3 as <-. exists p. split; [exact P|]. exists c'. split; [reflexivity|exact C].
    + cbn in Q1, Q2, Q3. apply (B j c0 i0 r0 Q1 Q2 Q3).
Qed.
Lemma nonzero_spec : forall mask k j i, nth_error (nonzero_from k mask) j = Some i -> (k <= i)%nat /\ nth_error mask (i - k) = Some true.
Proof.
  induction mask as [|b mask IH]; intros k j i H; [destruct j; discriminate|]. cbn in H. destruct b.
  - destruct j as [|j]; [injection H as <-; rewrite Nat.sub_diag; split; [lia|reflexivity]|]. cbn in H. destruct (IH (S k) j i H) as [A B]. split; [lia|]. replace (i - k)%nat with (S (i - S k)) by lia. exact B.
  - destruct (IH (S k) j i H) as [A B]. split; [lia|]. replace (i - k)%nat with (S (i - S k)) by lia. exact B.
Qed.
Lemma nonzero_length : forall mask k, length (nonzero_from k mask) = length (filter (fun b : bool => b) mask).
Proof. induction mask as [|[] mask IH]; intros k; cbn; auto. Qed.
Lemma l1_rows_ok : forall open trans photons cat index draws, (forall i, In i index -> (i < length photons)%nat) -> (forall p, In p photons -> exists t, trans (l_energy p) = Ok t) ->
  exists out, l1_rows open trans photons cat index draws = Ok out.
Proof.
  intros open trans photons. induction cat as [|c cat IH]; intros index draws B T; [eexists; reflexivity|]. destruct index as [|i index]; [eexists; reflexivity|]. destruct draws as [|r draws]; [eexists; reflexivity|].
  cbn [l1_rows]. destruct (nth_error photons i) as [p|] eqn:P; [|apply nth_error_None in P; specialize (B i (or_introl eq_refl)); lia].
  destruct (IH index draws ltac:(intros; apply B; right; assumption) T) as [l ->]. unfold l1_photon. destruct (Rltb open r); [|eexists; reflexivity]. destruct (T p (nth_error_In _ _ P)) as [t ->]. eexists. reflexivity.
Qed.

(** ** L2 *)
Lemma sqrt3_bounds : 17 / 10 < sqrt 3 < 18 / 10.
Proof.
  assert (P : 0 <= sqrt 3) by apply sqrt_pos. assert (Q : sqrt 3 * sqrt 3 = 3) by (apply sqrt_sqrt; lra). split; nra.
Qed.
Lemma sin_acos_abs : forall c, Rabs c <= 1 -> 0 <= sin (acos (Rabs c)) <= 1 /\ sin (acos (Rabs c)) = sqrt (1 - c * c).
Proof.
  intros c H. assert (P := Rabs_pos c). assert (E : sin (acos (Rabs c)) = sqrt (1 - c * c)).
  { rewrite sin_acos by lra. f_equal. unfold Rsqr. rewrite <- Rabs_mult. rewrite Rabs_right; [reflexivity|]. apply Rle_ge, Rle_0_sqr. }
  rewrite E. split; [|reflexivity]. split; [apply sqrt_pos|]. assert (N := Rle_0_sqr c). unfold Rsqr in N. rewrite <- sqrt_1 at 2. apply sqrt_le_1_alt. lra.
Qed.
Lemma l2_form : forall depth p w c, 0 < p -> l2_probability depth p w c = (p - w) * ((p - w) * sqrt 3 - 2 * depth * sin (acos (Rabs c))) / (p * p * sqrt 3).
Proof. intros depth p w c H. assert (S := sqrt3_bounds). unfold l2_probability. cbn [pow]. field. split; lra. Qed.
Lemma l2_upper : forall depth p w c, 0 <= w < p -> 0 <= depth -> Rabs c <= 1 -> l2_probability depth p w c <= ((p - w) / p) ^ 2 /\ ((p - w) / p) ^ 2 <= 1.
Proof.
  intros depth p w c W D C. destruct (sin_acos_abs c C) as [[S0 S1] _]. assert (T := sqrt3_bounds). split.
  - unfold l2_probability. set (s := sin (acos (Rabs c))) in *. assert (0 <= depth * (p - w) * s / (p ^ 2 / 2 * sqrt 3)); [|lra].
    assert (0 < p ^ 2) by (apply pow_lt; lra). apply Rmult_le_pos; [apply Rmult_le_pos; [nra|lra]|]. apply Rlt_le, Rinv_0_lt_compat. nra.
  - assert (Q : 0 <= (p - w) / p <= 1). { split; [apply Rmult_le_pos; [lra|apply Rlt_le, Rinv_0_lt_compat; lra]|]. apply Rmult_le_reg_r with p; [lra|]. unfold Rdiv. rewrite Rmult_assoc, Rinv_l by lra. lra. }
    cbn. nra.
Qed.
Lemma l2_sign : forall depth p w c, w < p -> 0 < p -> (0 <= l2_probability depth p w c <-> 2 * depth * sin (acos (Rabs c)) <= (p - w) * sqrt 3).
Proof.
  intros depth p w c W P. rewrite l2_form by exact P. assert (T := sqrt3_bounds). set (s := sin (acos (Rabs c))).
  assert (K : 0 < (p - w) / (p * p * sqrt 3)). { apply Rmult_lt_0_compat; [lra|]. apply Rinv_0_lt_compat. apply Rmult_lt_0_compat; [nra|lra]. }
  replace ((p - w) * ((p - w) * sqrt 3 - 2 * depth * s) / (p * p * sqrt 3)) with ((p - w) / (p * p * sqrt 3) * ((p - w) * sqrt 3 - 2 * depth * s)) by (unfold Rdiv; ring).
  set (k := (p - w) / (p * p * sqrt 3)) in *. clearbody k s. split; intros H; [|nra]. destruct (Rle_lt_dec (2 * depth * s) ((p - w) * sqrt 3)); [assumption|nra].
Qed.
Lemma l2_default : forall c, Rabs c <= 1 -> 0 <= l2_probability (1 / 2) (9622504 / 10000000) (962250 / 10000000) c.
Proof.
  intros c C. destruct (sin_acos_abs c C) as [[S0 S1] _]. assert (T := sqrt3_bounds). apply l2_sign; lra.
Qed.

(** ** Rods *)
Lemma combine_map_nth : forall {A B C} (f : A * B -> C) a b j x y, nth_error a j = Some x -> nth_error b j = Some y -> nth_error (map f (combine a b)) j = Some (f (x, y)).
Proof. intros A B C f. induction a as [|x0 a IH]; intros b [|j] x y H1 H2; destruct b as [|y0 b]; try discriminate; cbn in *; [congruence|eauto]. Qed.
Lemma rod_lengths : forall m h p, length m = length p -> length h = length p -> exists h' p', rod_process m (Some h, p) = (Some h', p') /\ length h' = length p /\ length p' = length p /\
  (forall j b hb pb, nth_error m j = Some b -> nth_error h j = Some hb -> nth_error p j = Some pb -> nth_error h' j = Some (orb b hb) /\ nth_error p' j = Some (if b then 0 else pb)).
Proof.
  intros m h p L1 L2. do 2 eexists. split; [reflexivity|]. cbn [fst snd]. split; [rewrite map_length, combine_length; lia|]. split; [rewrite map_length, combine_length; lia|].
  intros j b hb pb A B C. rewrite (combine_map_nth _ _ _ _ _ _ A B), (combine_map_nth _ _ _ _ _ _ A C). destruct b; split; reflexivity.
Qed.
Definition any_hit (masks : list (list bool)) (j : nat) : bool := existsb (fun m => nth j m false) masks.
Lemma boom_spec : forall masks h p, (forall m, In m masks -> length m = length p) -> length h = length p ->
  exists h' p', boom masks (Some h, p) = (Some h', p') /\ length h' = length p /\ length p' = length p /\
  (forall j hb pb, nth_error h j = Some hb -> nth_error p j = Some pb -> nth_error h' j = Some (orb (any_hit masks j) hb) /\ nth_error p' j = Some (if any_hit masks j then 0 else pb)).
Proof.
  induction masks as [|m masks IH]; intros h p L1 L2.
  - exists h, p. split; [reflexivity|]. split; [exact L2|]. split; [reflexivity|]. intros j hb pb A B. cbn. auto.
  - destruct (rod_lengths m h p (L1 m (or_introl eq_refl)) L2) as (h1 & p1 & E & A & B & C).
    destruct (IH h1 p1) as (h' & p' & E' & A' & B' & C'); [intros m' Hm; rewrite B; apply L1; right; exact Hm|lia|].
    exists h', p'. change (boom (m :: masks) (Some h, p)) with (boom masks (rod_process m (Some h, p))). rewrite E. split; [exact E'|]. split; [lia|]. split; [lia|].
    intros j hb pb Hh Hp. assert (Hm : exists b, nth_error m j = Some b). { destruct (nth_error m j) as [b|] eqn:Q; [eexists; reflexivity|]. apply nth_error_None in Q. assert (j < length p)%nat by (apply nth_error_Some; congruence). specialize (L1 m (or_introl eq_refl)). lia. }
    destruct Hm as [b Hm]. destruct (C j b hb pb Hm Hh Hp) as [D1 D2]. destruct (C' j _ _ D1 D2) as [F1 F2]. unfold any_hit in *. cbn [existsb]. rewrite (nth_error_nth _ _ false Hm). rewrite F1, F2.
    destruct b, (existsb (fun m0 => nth j m0 false) masks), hb; split; reflexivity.
Qed.

(** ** Positions in a boom *)
Lemma rod_end_compose : forall s t r z, rod_end s (compose t r z) = add3 t (scale3 (s * x3 z) (a0 r)).
Proof. intros. unfold rod_end, compose, diag3. vring. Qed.
Lemma a0_roty : forall a, a0 (roty a) = V3 (cos a) 0 (- sin a).
Proof. intros. unfold roty, axangle2mat_n. cbn [a0]. apply v3_eq; cbn; ring. Qed.
Lemma a0_rotxz : forall b a, a0 (mul3 (rotx b) (rotz a)) = V3 (cos a) (cos b * sin a) (sin b * sin a).
Proof. intros. unfold rotx, rotz, axangle2mat_n, mul3, app3. cbn [a0 a1 a2]. apply v3_eq; cbn; ring. Qed.
Lemma rotx_app : forall a v, app3 (rotx a) v = V3 (x3 v) (cos a * y3 v - sin a * z3 v) (sin a * y3 v + cos a * z3 v).
Proof. intros a v. unfold rotx, axangle2mat_n, app3. cbn [a0 a1 a2]. apply v3_eq; cbn; ring. Qed.
Lemma window4_ends : forall b lon bat d1 d2, 0 < l_longeron b -> 0 < l_batten b -> l_diag b = sqrt (l_longeron b * l_longeron b + l_batten b * l_batten b) -> window4 b = [lon; bat; d1; d2] ->
  let prev v := app3 (rotx (- (PI / 2))) v in
  rod_end (-1) bat = rod_end (-1) lon /\ rod_end 1 bat = prev (rod_end (-1) lon) /\
  rod_end (-1) d1 = rod_end (-1) lon /\ rod_end 1 d1 = prev (rod_end 1 lon) /\
  rod_end (-1) d2 = prev (rod_end (-1) lon) /\ rod_end 1 d2 = rod_end 1 lon.
Proof.
  intros b lon bat d1 d2 HL HB HD E prev. unfold window4 in E. injection E as <- <- <- <-. unfold prev. rewrite !rod_end_compose, !rotx_app, !a0_roty. cbn [x3 y3 z3 a0 id3].
  set (L := l_longeron b) in *. set (B := l_batten b) in *. set (D := l_diag b) in *.
  assert (DP : 0 < D) by (rewrite HD; apply sqrt_lt_R0; nra). assert (DD : D * D = L * L + B * B) by (rewrite HD; apply sqrt_sqrt; nra).
  assert (LB : L < D) by nra. assert (BB : B < D) by nra. assert (RB : -1 <= B / D <= 1).
  { assert (0 < B / D) by (apply Rdiv_lt_0_compat; lra). split; [lra|]. apply Rmult_le_reg_r with D; [lra|]. unfold Rdiv. rewrite Rmult_assoc, Rinv_l by lra. lra. }
  assert (SA : sin (asin (B / D)) = B / D) by (apply sin_asin; exact RB). assert (CA : cos (asin (B / D)) = L / D).
  { rewrite cos_asin by exact RB. replace (1 - (B / D)²) with ((L / D) * (L / D)) by (unfold Rsqr; field_simplify_eq; [nra|lra]). apply sqrt_square. apply Rmult_le_pos; [lra|apply Rlt_le, Rinv_0_lt_compat; lra]. }
  rewrite !cos_neg, !sin_neg, CA, SA, cos_PI2, sin_PI2. unfold add3, scale3; cbn [x3 y3 z3].
  repeat split; apply v3_eq; cbn [x3 y3 z3]; field; lra.
Qed.
Lemma bay_prev : forall b n h i v, (0 < n)%nat -> xyz (app4 (bay b n h (S i)) (hom (app3 (rotx (- (2 * PI / INR n))) v) 1)) = xyz (app4 (bay b n h i) (hom v 1)).
Proof.
  intros b n h i v Hn. assert (HN : INR n <> 0) by (apply not_0_INR; lia).
  set (w := app3 (rotx (- (2 * PI / INR n))) v). unfold bay, compose.
  assert (X : forall a u, xyz (app4 (aff (mul3 (rotx a) (diag3 ones3)) (V3 (INR h * l_longeron b) 0 0)) (hom u 1)) = add3 (app3 (rotx a) u) (V3 (INR h * l_longeron b) 0 0)).
  { intros a u. unfold ones3, diag3. generalize (rotx a). intros r. vring. }
  rewrite !X. f_equal. unfold w. rewrite !rotx_app. cbn [x3 y3 z3]. set (t := 2 * PI / INR n). set (s := INR (i * 2) * PI / INR n).
  assert (EQ : INR (S i * 2) * PI / INR n = s + t). { unfold s, t. replace (S i * 2)%nat with (i * 2 + 2)%nat by lia. rewrite plus_INR. change (INR 2) with 2. field. exact HN. }
  rewrite EQ.
  rewrite cos_neg, sin_neg, cos_plus, sin_plus. assert (Q := sin2_cos2 t). unfold Rsqr in Q. apply v3_eq; cbn [x3 y3 z3]; [reflexivity| |].
  - transitivity ((sin t * sin t + cos t * cos t) * (cos s * y3 v - sin s * z3 v)); [ring|rewrite Q; ring].
  - transitivity ((sin t * sin t + cos t * cos t) * (sin s * y3 v + cos s * z3 v)); [ring|rewrite Q; ring].
Qed.
Lemma bay_closed : forall b n h, (0 < n)%nat -> bay b n h n = bay b n h 0.
Proof.
  intros b n h Hn. assert (HN : INR n <> 0) by (apply not_0_INR; lia). unfold bay. f_equal. unfold rotx, axangle2mat_n.
  replace (INR (n * 2) * PI / INR n) with (2 * PI) by (rewrite mult_INR; change (INR 2) with 2; field; exact HN). replace (INR (0 * 2) * PI / INR n) with 0 by (cbn; field; exact HN).
  rewrite cos_2PI, sin_2PI, cos_0, sin_0. reflexivity.
Qed.
Lemma window3_ends : forall b lon bat d1 d2, window3 b = [lon; bat; d1; d2] ->
  rod_end 1 bat = rod_end (-1) lon /\ rod_end (-1) bat = app3 (rotx (2 * (PI / 3))) (rod_end (-1) lon).
Proof.
  intros b lon bat d1 d2 E. unfold window3 in E. injection E as <- <- _ _. rewrite !rod_end_compose, rotx_app, !a0_rotxz. cbn [x3 y3 z3 a0 id3].
  rewrite cos_neg, sin_neg, cos_PI6, sin_PI6, cos_PI2, sin_PI2, cos_2PI3, sin_2PI3. assert (S3 := sqrt3_bounds). assert (Q : sqrt 3 * sqrt 3 = 3) by (apply sqrt_sqrt; lra).
  assert (I : / sqrt 3 = sqrt 3 / 3) by (field_simplify_eq; [|lra]; nra). unfold Rdiv. rewrite I. unfold add3, scale3; cbn [x3 y3 z3]. split; apply v3_eq; cbn [x3 y3 z3]; try field.
  transitivity (l_batten b / 6 * (sqrt 3 * sqrt 3)); [rewrite Q; field|field].
Qed.
Lemma window3_diag : forall b lon bat d1 d2, window3 b = [lon; bat; d1; d2] -> l_longeron b = 1 -> l_batten b = 1 -> l_diag b = sqrt 2 -> x3 (rod_end 1 d1) < x3 (rod_end 1 lon).
Proof.
  intros b lon bat d1 d2 E L B D. unfold window3 in E. injection E as <- _ <- _. rewrite !rod_end_compose, a0_rotxz. unfold add3, scale3. cbn [x3 y3 z3 a0 id3]. rewrite L, D.
  assert (P := PI_RGT_0). assert (C : cos (deg (90 - 3403 / 100)) < cos (PI / 4)). { apply cos_decreasing_1; unfold deg; lra. }
  rewrite cos_PI4 in C. assert (S2 : 0 < sqrt 2) by (apply sqrt_lt_R0; lra). set (c := cos (deg (90 - 3403 / 100))) in *. clearbody c.
  assert (C2 : c * sqrt 2 < 1). { apply Rmult_lt_compat_r with (r := sqrt 2) in C; [|lra]. unfold Rdiv in C. rewrite Rmult_1_l, Rinv_l in C by lra. exact C. } lra.
Qed.
Lemma window3_mirror : forall b lon bat d1 d2, window3 b = [lon; bat; d1; d2] -> forall s,
  x3 (rod_end s d1) - l_longeron b / 2 = - (x3 (rod_end s d2) - l_longeron b / 2) /\ y3 (rod_end s d1) = y3 (rod_end s d2) /\ z3 (rod_end s d1) = z3 (rod_end s d2) /\
  (s <> 0 -> l_diag b <> 0 -> x3 (rod_end s d1) <> x3 (rod_end s d2)).
Proof.
  intros b lon bat d1 d2 E s. unfold window3 in E. injection E as _ _ <- <-. rewrite !rod_end_compose, !a0_rotxz. unfold add3, scale3. cbn [x3 y3 z3].
  assert (A : deg (90 + 3403 / 100) = PI - deg (90 - 3403 / 100)) by (unfold deg; field). rewrite A, sin_PI_x, Rtrigo_facts.cos_pi_minus.
  assert (P := PI_RGT_0). assert (C : 0 < cos (deg (90 - 3403 / 100))) by (apply cos_gt_0; unfold deg; lra). set (c := cos (deg (90 - 3403 / 100))) in *. clearbody c.
  repeat split; try ring. intros S D X. assert (Y : s * (l_diag b * c) = 0) by lra. apply Rmult_integral in Y. destruct Y as [Y|Y]; [contradiction|]. apply Rmult_integral in Y. destruct Y; [contradiction|lra].
Qed.
Lemma boom_count : forall b w s n k, length (pos_spec b w s n k) = ((n - s) * (k * length w))%nat.
Proof.
  intros b w s n k. unfold pos_spec.
  assert (X : forall h, length (flat_map (fun i => map (mul4 (bay b k h i)) w) (seq 0 k)) = (k * length w)%nat).
  { intros h. enough (G : forall m st, length (flat_map (fun i => map (mul4 (bay b k h i)) w) (seq st m)) = (m * length w)%nat) by apply G. induction m as [|m IH]; intros st; [reflexivity|]. cbn [seq flat_map]. rewrite app_length, map_length, IH. lia. }
  enough (G : forall m st, length (flat_map (fun h => flat_map (fun i => map (mul4 (bay b k h i)) w) (seq 0 k)) (seq st m)) = (m * (k * length w))%nat) by apply G.
  induction m as [|m IH]; intros st; [reflexivity|]. cbn [seq flat_map]. rewrite app_length, X, IH. lia.
Qed.
Lemma boom_in : forall b w s n k m, In m (pos_spec b w s n k) <-> exists h i p, (s <= h < n)%nat /\ (i < k)%nat /\ In p w /\ m = mul4 (bay b k h i) p.
Proof.
  intros b w s n k m. unfold pos_spec. rewrite in_flat_map. split.
  - intros (h & Hh & H). apply in_flat_map in H. destruct H as (i & Hi & H). apply in_map_iff in H. destruct H as (p & <- & Hp). apply in_seq in Hh. apply in_seq in Hi. exists h, i, p. repeat split; auto; lia.
  - intros (h & i & p & Hh & Hi & Hp & ->). exists h. split; [apply in_seq; lia|]. apply in_flat_map. exists i. split; [apply in_seq; lia|]. apply in_map. exact Hp.
Qed.

(** ** The axis of the tube *)
Lemma rod_missed : forall m minv l0 l1, (w4 (app4 m (V4 0 0 (-1) 0)) = 0) -> app4 minv (app4 m (V4 0 0 (-1) 0)) = V4 0 0 (-1) 0 ->
  cylinder_intersect m minv l0 l1 true (app4 m (V4 0 0 (-1) 0)) (app4 m (V4 0 0 10 1)) = Ok (false, None, None).
Proof.
  intros m minv l0 l1 W I. unfold cylinder_intersect. rewrite W, (proj2 (Reqb_true 0 0) eq_refl). cbn [negb]. rewrite I. unfold tube_crossing. cbn [xyz x3 y3 z3 x4 y4 z4].
  replace (0 * 0 + 0 * 0) with 0 by ring. rewrite (proj2 (Reqb_true 0 0) eq_refl).
  match goal with |- context [negb ?b] => destruct (negb b) end; reflexivity.
Qed.

(** ** Filters *)
Lemma filter_spec : forall f photons out, global_filter f photons = Ok out ->
  length out = length photons /\ forall j e p, nth_error photons j = Some (e, p) -> exists q, nth_error out j = Some (e, q) /\
    (forall t, f e = Some t -> 0 <= t <= 1 /\ q = Some (p * t)) /\ (f e = None -> q = None).
Proof.
  intros f photons out H. unfold global_filter in H. destruct (existsb (fun ph => bad_p (f (fst ph))) photons) eqn:E; [discriminate|]. injection H as <-.
  split; [apply map_length|]. intros j e p Q. exists (nan_mul p (f e)). split; [rewrite nth_error_map, Q; reflexivity|]. split.
  - intros t T. rewrite T. split; [|reflexivity]. assert (B : bad_p (f e) = false). { destruct (bad_p (f e)) eqn:B; [|reflexivity]. assert (X : existsb (fun ph => bad_p (f (fst ph))) photons = true); [|congruence]. apply existsb_exists. exists (e, p). split; [apply (nth_error_In _ _ Q)|exact B]. }
    rewrite T in B. cbn in B. apply orb_false_elim in B. destruct B as [B1 B2]. apply Rltb_false in B1. apply Rltb_false in B2. lra.
  - intros ->. reflexivity.
Qed.
Lemma filter_refused : forall f photons e p t, In (e, p) photons -> f e = Some t -> t < 0 \/ 1 < t -> global_filter f photons = Err ValueError.
Proof.
  intros f photons e p t I T B. unfold global_filter. assert (X : existsb (fun ph => bad_p (f (fst ph))) photons = true).
  { apply existsb_exists. exists (e, p). split; [exact I|]. cbn. rewrite T. cbn. apply orb_true_iff. destruct B; [left|right]; apply Rltb_true; assumption. }
  rewrite X. reflexivity.
Qed.

(** ** Baffles *)
Lemma baffle_off : forall m r q, perpendicular_axes m -> 0 < r -> In q (baffle_points m r) -> dot3 (sub3 q (tra m)) (xyz (v_x m)) <> 0.
Proof.
  intros m r q (_ & NX & _ & _ & O & _) R H. assert (P : 0 < dot3 (xyz (v_x m)) (xyz (v_x m))). { destruct (Rle_lt_or_eq_dec _ _ (dot3_nonneg (xyz (v_x m)))) as [L|E]; [exact L|]. exfalso. apply NX, dot3_zero. symmetry. exact E. }
  unfold baffle_points, square in H. set (c := tra m) in *. set (a := xyz (v_x m)) in *. set (b := xyz (v_y m)) in *. clearbody a b c. rewrite dot3_comm in O.
  assert (X : forall k s t, dot3 (sub3 (add3 c (scale3 k (add3 (scale3 s a) (scale3 t b)))) c) a = k * s * dot3 a a).
  { intros k s t. transitivity (k * s * dot3 a a + k * t * dot3 b a); [vring|rewrite O; ring]. }
  assert (Y : forall k s t, k <> 0 -> s <> 0 -> dot3 (sub3 (add3 c (scale3 k (add3 (scale3 s a) (scale3 t b)))) c) a <> 0).
  { intros k s t K S. rewrite X. apply Rmult_integral_contrapositive. split; [apply Rmult_integral_contrapositive; auto|lra]. }
  assert (E1 : add3 a b = add3 (scale3 1 a) (scale3 1 b)) by vring. assert (E2 : add3 (neg3 a) b = add3 (scale3 (-1) a) (scale3 1 b)) by vring.
  assert (E3 : sub3 (neg3 a) b = add3 (scale3 (-1) a) (scale3 (-1) b)) by vring. assert (E4 : sub3 a b = add3 (scale3 1 a) (scale3 (-1) b)) by vring.
  rewrite E1, E2, E3, E4 in H. cbn [app In] in H. repeat (destruct H as [<-|H]; [apply Y; lra|]). contradiction.
Qed.

(** ** Tables *)
Lemma distinct_in : forall l x, In x (distinct l) <-> In x l.
Proof.
  induction l as [|y l IH]; intros x; cbn; [tauto|]. destruct (existsb (Reqb y) l) eqn:E; [|cbn; rewrite IH; tauto]. rewrite IH. split; [auto|]. intros [<-|H]; [|exact H].
  apply existsb_exists in E. destruct E as (z & Hz & Q). apply Reqb_true in Q. subst. exact Hz.
Qed.
Lemma distinct_nodup : forall l, NoDup (distinct l).
Proof.
  induction l as [|y l IH]; cbn; [constructor|]. destruct (existsb (Reqb y) l) eqn:E; [exact IH|]. constructor; [|exact IH]. rewrite distinct_in. intros H.
  assert (X : existsb (Reqb y) l = true); [|congruence]. apply existsb_exists. exists y. split; [exact H|apply Reqb_true; reflexivity].
Qed.
Definition close (a b : R) : bool := allclose (1 / 100000) (1 / 100000000) a b.
Lemma table_spec : forall x y data xo yo out, tablerows_to_2d x y data = Ok (xo, yo, out) ->
  let nx := length (distinct x) in let ny := length (distinct y) in
  length x = (nx * ny)%nat /\ length xo = nx /\ length yo = ny /\ (0 < ny)%nat /\
  (forall i j, (i < nx)%nat -> (j < ny)%nat -> close (nth (i * ny + j) x 0) (nth i xo 0) = true /\ close (nth (i * ny + j) y 0) (nth j yo 0) = true) /\
  (forall k c, nth_error data k = Some c -> exists o, nth_error out k = Some o /\ forall i j, (i < nx)%nat -> (j < ny)%nat -> nth j (nth i o []) 0 = nth (i * ny + j) c 0) /\
  xo = map (fun i => nth (i * ny) x 0) (seq 0 nx) /\ yo = map (fun j => nth j y 0) (seq 0 ny).
Proof.
  intros x y data xo yo out H nx ny. unfold tablerows_to_2d in H. fold nx ny in H. destruct (Nat.eqb (length x) (nx * ny)) eqn:E; [|discriminate]. cbn [negb] in H. apply Nat.eqb_eq in E.
  destruct (Nat.eqb (length x) 0) eqn:Z; [discriminate|]. apply Nat.eqb_neq in Z. destruct (forallb _ (seq 0 nx)) eqn:F; [|discriminate]. injection H as <- <- <-.
  assert (NY : (0 < ny)%nat) by (destruct ny; [nia|lia]).
  assert (XO : map (fun i => nth (i * ny + 0) x 0) (seq 0 nx) = map (fun i => nth (i * ny) x 0) (seq 0 nx)) by (apply map_ext; intros; f_equal; lia).
  assert (MN : forall (g : nat -> R) n i, (i < n)%nat -> nth i (map g (seq 0 n)) 0 = g i). { intros g n i Hi. rewrite (nth_indep _ 0 (g 0%nat)) by (rewrite map_length, seq_length; exact Hi). rewrite map_nth, seq_nth by exact Hi. reflexivity. }
  assert (MNL : forall (g : nat -> list R) n i, (i < n)%nat -> nth i (map g (seq 0 n)) [] = g i). { intros g n i Hi. rewrite (nth_indep _ [] (g 0%nat)) by (rewrite map_length, seq_length; exact Hi). rewrite map_nth, seq_nth by exact Hi. reflexivity. }
  split; [exact E|]. split; [rewrite map_length, seq_length; reflexivity|]. split; [rewrite map_length, seq_length; reflexivity|]. split; [exact NY|]. split; [|split; [|split; [exact XO|reflexivity]]].
  - intros i j Hi Hj. rewrite forallb_forall in F. assert (G := F i ltac:(apply in_seq; lia)). rewrite forallb_forall in G. specialize (G j ltac:(apply in_seq; lia)). apply andb_prop in G. destruct G as [G1 G2].
    rewrite !MN by assumption. split; [exact G1|]. unfold close. rewrite <- G2. reflexivity.
  - intros k c Hc. eexists. split; [rewrite nth_error_map, Hc; reflexivity|]. intros i j Hi Hj. rewrite MNL by exact Hi. rewrite MN by exact Hj. reflexivity.
Qed.
Lemma table_in : forall x y data xo yo out, tablerows_to_2d x y data = Ok (xo, yo, out) -> length y = length x ->
  let ny := length (distinct y) in
  (forall r, (r < length x)%nat -> (r / ny < length xo)%nat /\ (r mod ny < length yo)%nat /\ (r = r / ny * ny + r mod ny)%nat) /\
  (forall i, (i < length xo)%nat -> In (nth i xo 0) x) /\ (forall j, (j < length yo)%nat -> In (nth j yo 0) y).
Proof.
  intros x y data xo yo out H LY. destruct (table_spec _ _ _ _ _ _ H) as (E & LX & LYO & NY & C & _ & EX & EY). cbv zeta. rewrite LX, LYO. set (nx := length (distinct x)) in *. set (ny := length (distinct y)) in *.
  split; [|split].
  - intros r Hr. assert (M : (r mod ny < ny)%nat) by (apply Nat.mod_upper_bound; lia). assert (Q : (r = ny * (r / ny) + r mod ny)%nat) by (apply Nat.div_mod; lia). split; [nia|]. split; [exact M|lia].
  - intros i Hi. rewrite EX. rewrite (nth_indep _ 0 (nth (0 * ny) x 0)) by (rewrite map_length, seq_length; exact Hi). rewrite (map_nth (fun i => nth (i * ny) x 0)), seq_nth by exact Hi. apply nth_In. nia.
  - intros j Hj. rewrite EY. rewrite (nth_indep _ 0 (nth 0 y 0)) by (rewrite map_length, seq_length; exact Hj). rewrite (map_nth (fun j => nth j y 0)), seq_nth by exact Hj. apply nth_In. assert (0 < nx)%nat by (destruct nx; [|lia]; destruct (distinct y) eqn:Q; [cbn in NY; lia|]; assert (In r y) by (apply distinct_in; rewrite Q; left; reflexivity); destruct y; [contradiction|]; cbn in LY; lia). nia.
Qed.
Lemma table_unique : forall x y data xo yo out, tablerows_to_2d x y data = Ok (xo, yo, out) -> length y = length x ->
  (forall a b, In a x -> In b x -> close a b = true -> a = b) -> (forall a b, In a y -> In b y -> close a b = true -> a = b) -> NoDup xo /\ NoDup yo.
Proof.
  intros x y data xo yo out H LY SX SY. destruct (table_spec _ _ _ _ _ _ H) as (E & LX & LYO & NY & C & _ & EX & EY). destruct (table_in _ _ _ _ _ _ H LY) as (D & INX & INY). rewrite LX, LYO in *. set (nx := length (distinct x)) in *. set (ny := length (distinct y)) in *.
  split.
  - apply (NoDup_incl_NoDup (l := distinct x)); [apply distinct_nodup|fold nx; lia|]. intros a Ha. apply (proj1 (distinct_in _ _)) in Ha. destruct (In_nth _ _ 0 Ha) as (r & Hr & <-). destruct (D r Hr) as (D1 & D2 & D3).
    destruct (C _ _ D1 D2) as [C1 _]. rewrite <- D3 in C1. rewrite (SX (nth r x 0) (nth (r / ny) xo 0)); auto. apply nth_In. lia.
  - apply (NoDup_incl_NoDup (l := distinct y)); [apply distinct_nodup|fold ny; lia|]. intros a Ha. apply (proj1 (distinct_in _ _)) in Ha. destruct (In_nth _ _ 0 Ha) as (r & Hr & <-). destruct (D r ltac:(lia)) as (D1 & D2 & D3).
    destruct (C _ _ D1 D2) as [_ C1]. rewrite <- D3 in C1. rewrite (SY (nth r y 0) (nth (r mod ny) yo 0)); auto. apply nth_In. lia.
Qed.
Lemma table_rows : forall x y data xo yo out, tablerows_to_2d x y data = Ok (xo, yo, out) -> length y = length x ->
  (forall a b, In a x -> In b x -> close a b = true -> a = b) -> (forall a b, In a y -> In b y -> close a b = true -> a = b) ->
  forall r k c, (r < length x)%nat -> nth_error data k = Some c -> exists i j o, (i < length xo)%nat /\ (j < length yo)%nat /\ nth_error out k = Some o /\
    nth i xo 0 = nth r x 0 /\ nth j yo 0 = nth r y 0 /\ nth j (nth i o []) 0 = nth r c 0.
Proof.
  intros x y data xo yo out H LY SX SY r k c Hr Hc. destruct (table_spec _ _ _ _ _ _ H) as (E & LX & LYO & NY & C & O & EX & EY). destruct (table_in _ _ _ _ _ _ H LY) as (D & INX & INY).
  destruct (D r Hr) as (D1 & D2 & D3). destruct (O k c Hc) as (o & O1 & O2). exists (r / length (distinct y))%nat, (r mod length (distinct y))%nat, o. split; [exact D1|]. split; [exact D2|]. split; [exact O1|].
  rewrite LX in D1. rewrite LYO in D2. destruct (C _ _ D1 D2) as [C1 C2]. rewrite <- D3 in C1, C2. split; [|split].
  - symmetry. apply SX; [apply nth_In; lia|apply INX; lia|exact C1].
  - symmetry. apply SY; [apply nth_In; lia|apply INY; lia|exact C2].
  - rewrite (O2 _ _ D1 D2), <- D3. reflexivity.
Qed.
