From Coq Require Import String.
From Verif Require Export Arcus_Model Base_Proofs Vec_Proofs Rot_Proofs Position_Proofs Placement_Proofs Rowland_Proofs Rowland_Proofs2 Grating_Proofs Chandra_Proofs.
From Coq Require Import List Lra Lia Permutation Sorting.Sorted.
Export ListNotations.
Open Scope R_scope.

(** ** budget *)
Lemma mapi_length {A B} (f : nat -> A -> B) l : forall k, List.length (mapi_from k f l) = List.length l.
Proof. induction l as [|a l IH]; intros k; cbn; [reflexivity|now rewrite IH]. Qed.
Lemma mapi_nth {A B} (f : nat -> A -> B) l : forall k i, nth_error (mapi_from k f l) i = option_map (f (k + i)%nat) (nth_error l i).
Proof.
  induction l as [|a l IH]; intros k i; destruct i as [|i]; cbn; try reflexivity.
  - now rewrite Nat.add_0_r.
  - rewrite IH. now rewrite Nat.add_succ_r.
Qed.
Lemma budget_entry_spec i v : budget_entry i v = v * (if Nat.ltb i 3 then micron else arcsec) / 3.
Proof. unfold budget_entry, deg2rad, micron, arcsec. destruct (Nat.ltb i 3); field. Qed.
Lemma budget_tol_nth gf rn row i v : nth_error (b_raw row) i = Some v ->
  nth_error (budget_tol gf rn row) i = Some (v * (if Nat.ltb i 3 then micron else arcsec) / 3 *
    (if String.eqb (b_kind row) "global" then match gf with Some f => f | None => rn i end else 1)).
Proof.
  intros E. unfold budget_tol. destruct (String.eqb (b_kind row) "global").
  - destruct gf as [f|].
    + rewrite nth_error_map, mapi_nth, E. cbn [option_map]. rewrite budget_entry_spec. reflexivity.
    + rewrite !mapi_nth, E. cbn [option_map Nat.add]. rewrite budget_entry_spec. reflexivity.
  - rewrite mapi_nth, E. cbn [option_map Nat.add]. rewrite budget_entry_spec. f_equal. ring.
Qed.
Lemma budget_tol_length gf rn row : List.length (budget_tol gf rn row) = List.length (b_raw row).
Proof. unfold budget_tol. destruct (String.eqb _ _); [destruct gf|]; rewrite ?map_length, ?mapi_length; reflexivity. Qed.
Lemma reformat_ok gf rn l : forall k, (forall row, In row l -> b_slot row <> None) ->
  reformat_budget gf rn k l = (mapi_from k (fun i row => Row (b_class row) (b_kind row) (b_raw row) (Some (Some (budget_tol gf (rn i) row)))) l, None).
Proof.
  induction l as [|row l IH]; intros k H; cbn [reformat_budget mapi_from]; [reflexivity|].
  destruct (b_slot row) eqn:E; [|exfalso; apply (H row); [now left|exact E]].
  rewrite IH; [reflexivity|]. intros r I. apply H. now right.
Qed.
Lemma reformat_twice f rn rn' l : forall k k', (forall row, In row l -> b_slot row <> None) ->
  reformat_budget (Some f) rn' k' (fst (reformat_budget (Some f) rn k l)) = reformat_budget (Some f) rn k l.
Proof.
  intros k k' H. rewrite (reformat_ok _ _ l k H). cbn [fst]. rewrite reformat_ok.
  - f_equal. clear H. revert k k'. induction l as [|row l IH]; intros k k'; cbn [mapi_from]; [reflexivity|]. now rewrite IH.
  - clear H. revert k. induction l as [|row l IH]; intros k r I; cbn [mapi_from] in I; [contradiction|]. destruct I as [<-|I]; [discriminate|]. exact (IH _ _ I).
Qed.
Lemma reformat_short gf rn pre row post k : (forall r, In r pre -> b_slot r <> None) -> b_slot row = None ->
  reformat_budget gf rn k (pre ++ row :: post) = (fst (reformat_budget gf rn k pre) ++ row :: post, Some IndexError).
Proof.
  revert k. induction pre as [|r pre IH]; intros k H E; cbn [app reformat_budget].
  - rewrite E. reflexivity.
  - destruct (b_slot r) eqn:F; [|exfalso; apply (H r); [now left|exact F]].
    rewrite IH by (try exact E; intros q I; apply H; now right). destruct (reformat_budget gf rn (S k) pre) as [q e]. reflexivity.
Qed.

(** ** tilt *)
Lemma euler_y t : euler2mat (V3 0 t 0) = axangle2mat_n (V3 0 1 0) t.
Proof.
  unfold euler2mat. cbn [x3 y3 z3]. assert (Z : forall u, axangle2mat_n u 0 = id3).
  { intros [ux uy uz]. unfold axangle2mat_n, id3. rewrite sin_0, cos_0. f_equal; f_equal; ring. }
  rewrite !Z, mul3_id_l, mul3_id_r. reflexivity.
Qed.
Lemma rot_y_n t b : app3 (axangle2mat_n (V3 0 1 0) t) (V3 (sin b) 0 (cos b)) = V3 (sin (b + t)) 0 (cos (b + t)).
Proof. unfold axangle2mat_n. rewrite sin_plus, cos_plus. vu. f_equal; ring. Qed.
Lemma rot_y_l t : app3 (axangle2mat_n (V3 0 1 0) t) (V3 0 1 0) = V3 0 1 0.
Proof. apply axangle_axis. vu. ring. Qed.
Lemma blaze_on_axis b : - (PI / 2) <= b <= PI / 2 -> blaze_angle (V3 0 0 (-1)) (V3 0 1 0) (V3 (sin b) 0 (cos b)) = Some (Rabs b).
Proof.
  intros B. unfold blaze_angle.
  replace (sub3 (V3 0 0 (-1)) (scale3 (dot3 (V3 0 0 (-1)) (V3 0 1 0)) (V3 0 1 0))) with (V3 0 0 (-1)) by (vu; f_equal; ring).
  rewrite unit3_unit by (vu; ring). f_equal. replace (dot3 (V3 0 0 (-1)) (V3 (sin b) 0 (cos b))) with (- cos b) by (vu; ring).
  rewrite Rabs_Ropp. now apply acos_abs_cos.
Qed.
Lemma set_blaze_all grats : forall tilts, List.length grats = List.length tilts -> (forall g, In g grats -> g <> None) ->
  set_blaze_centers grats tilts = (map Some tilts, None).
Proof.
  induction grats as [|g grats IH]; intros [|t tilts] L H; try discriminate; cbn; [reflexivity|].
  destruct g as [g|]; [|exfalso; apply (H None); [now left|reflexivity]].
  rewrite IH; [reflexivity|now injection L|]. intros g' I. apply H. now right.
Qed.

(** ** camera *)
Lemma ins_theta_perm x l : Permutation (ins_theta x l) (x :: l).
Proof.
  induction l as [|y l IH]; cbn; [reflexivity|]. destruct (Rleb x y); [reflexivity|].
  etransitivity; [apply perm_skip, IH|apply perm_swap].
Qed.
Lemma sort_theta_perm l : Permutation (fold_right ins_theta [] l) l.
Proof. induction l as [|x l IH]; cbn; [reflexivity|]. rewrite ins_theta_perm. now constructor. Qed.
Lemma ins_theta_sorted x l : StronglySorted Rle l -> StronglySorted Rle (ins_theta x l).
Proof.
  induction 1 as [|y l S IH F]; cbn; [repeat constructor|]. destruct (Rleb x y) eqn:E.
  - apply Rleb_true in E. constructor; [now constructor|]. constructor; [exact E|]. eapply Forall_impl; [|exact F]. intros; cbn in *; lra.
  - apply Rleb_false in E. constructor; [exact IH|]. rewrite Forall_forall in *. intros z I. apply (Permutation_in _ (ins_theta_perm x l)) in I. destruct I as [<-|I]; [lra|now apply F].
Qed.
Lemma sort_theta_sorted l : StronglySorted Rle (fold_right ins_theta [] l).
Proof. induction l as [|x l IH]; cbn; [constructor|]. now apply ins_theta_sorted. Qed.
Lemma sorted_unique (l l' : list R) : StronglySorted Rle l -> StronglySorted Rle l' -> Permutation l l' -> l = l'.
Proof.
  intros S. revert l'. induction S as [|x l S IH F]; intros l' S' P.
  - apply Permutation_nil in P. now subst.
  - destruct S' as [|y l' S' F']; [apply Permutation_sym, Permutation_nil in P; discriminate|].
    rewrite Forall_forall in F, F'.
    assert (x = y).
    { apply Rle_antisym.
      - assert (I : In y (x :: l)) by (apply (Permutation_in _ (Permutation_sym P)); now left). destruct I as [<-|I]; [lra|now apply F].
      - assert (I : In x (y :: l')) by (apply (Permutation_in _ P); now left). destruct I as [<-|I]; [lra|now apply F']. }
    subst y. f_equal. apply IH; [exact S'|]. now apply Permutation_cons_inv in P.
Qed.
Lemma strip_eq dc df r ccd p0 : strip dc df r ccd p0 =
  map (fun x => p0 + x / r) [ccd; 3 * ccd + dc; 5 * ccd + dc + df; 7 * ccd + 2 * dc + df; 9 * ccd + 3 * dc + df; 11 * ccd + 3 * dc + 2 * df;
                        13 * ccd + 4 * dc + 2 * df; 15 * ccd + 5 * dc + 2 * df].
Proof.
  unfold strip, camera_gaps, cumsum. cbn [cumsum_from seq map nth]. repeat (apply f_equal2; [cbn [INR]; unfold Rdiv; ring|]). reflexivity.
Qed.
Definition camera_list (dc df o0 o1 m r ccd p0 : R) : list R :=
  map (fun t => m + o1 / r + t) (rev (strip dc df r ccd p0)) ++ map (fun t => m - t - o0 / r) (strip dc df r ccd p0).
Lemma camera_theta_eq dc df o0 o1 d r ccd p0 : 0 < r -> 0 <= ccd -> 0 <= dc -> 0 <= df -> 0 <= 2 * p0 * r + 2 * ccd + o0 + o1 ->
  camera_theta dc df o0 o1 d r ccd p0 = camera_list dc df o0 o1 (phi_middle d r) r ccd p0.
Proof.
  intros R0 C D F P. unfold camera_theta. cbv zeta. set (m := phi_middle d r).
  assert (E : fold_right ins_theta [] (map (fun t => m - t - o0 / r) (strip dc df r ccd p0) ++ map (fun t => m + o1 / r + t) (strip dc df r ccd p0)) = rev (camera_list dc df o0 o1 m r ccd p0)).
  2: { rewrite E. apply rev_involutive. }
  apply sorted_unique; [apply sort_theta_sorted| |].
  - unfold camera_list. rewrite strip_eq. cbn [rev map app].
    assert (H : forall a b, a <= b -> a / r <= b / r) by (intros a b Hab; apply Rmult_le_compat_r; [left; now apply Rinv_0_lt_compat|exact Hab]).
    assert (P' : 0 <= 2 * p0 + 2 * (ccd / r) + o0 / r + o1 / r).
    { replace (2 * p0 + 2 * (ccd / r) + o0 / r + o1 / r) with ((2 * p0 * r + 2 * ccd + o0 + o1) / r) by (field; lra). apply Rmult_le_pos; [exact P|left; now apply Rinv_0_lt_compat]. }
    assert (ccd / r <= (3 * ccd + dc) / r) by (apply H; lra). assert ((3 * ccd + dc) / r <= (5 * ccd + dc + df) / r) by (apply H; lra).
    assert ((5 * ccd + dc + df) / r <= (7 * ccd + 2 * dc + df) / r) by (apply H; lra). assert ((7 * ccd + 2 * dc + df) / r <= (9 * ccd + 3 * dc + df) / r) by (apply H; lra).
    assert ((9 * ccd + 3 * dc + df) / r <= (11 * ccd + 3 * dc + 2 * df) / r) by (apply H; lra). assert ((11 * ccd + 3 * dc + 2 * df) / r <= (13 * ccd + 4 * dc + 2 * df) / r) by (apply H; lra).
    assert ((13 * ccd + 4 * dc + 2 * df) / r <= (15 * ccd + 5 * dc + 2 * df) / r) by (apply H; lra).
    repeat (constructor; [|repeat (constructor; [lra|]); constructor]). constructor.
  - etransitivity; [apply sort_theta_perm|]. unfold camera_list. etransitivity; [apply Permutation_app_comm|]. etransitivity; [|apply Permutation_rev].
    apply Permutation_app_tail. apply Permutation_map, Permutation_rev.
Qed.
Lemma sqrt_quarter f d_BF : 0 < f -> let r := sqrt (f * f + d_BF * d_BF) / 2 in 0 < r /\ r * r = f / 2 * (f / 2) + d_BF / 2 * (d_BF / 2).
Proof.
  intros F r. assert (P : 0 < f * f + d_BF * d_BF) by nra. unfold r. split; [apply Rdiv_lt_0_compat; [now apply sqrt_lt_R0|lra]|].
  replace (sqrt (f * f + d_BF * d_BF) / 2 * (sqrt (f * f + d_BF * d_BF) / 2)) with (sqrt (f * f + d_BF * d_BF) * sqrt (f * f + d_BF * d_BF) / 4) by field.
  rewrite sqrt_sqrt by lra. field.
Qed.
(** the angle of the torus is the one of the middle of the camera *)
Lemma middle_angle f d_BF : 0 < f -> let r := sqrt (f * f + d_BF * d_BF) / 2 in
  sin (asin (d_BF / 2 / r)) = sin (atan2 d_BF f) /\ cos (asin (d_BF / 2 / r)) = cos (atan2 d_BF f) /\ r * cos (atan2 d_BF f) = f / 2 /\ r * sin (atan2 d_BF f) = d_BF / 2.
Proof.
  intros F r. destruct (sqrt_quarter f d_BF F) as [R0 R2]. fold r in R0, R2.
  destruct (atan2_polar d_BF f) as [C S]. assert (Q : sqrt (f * f + d_BF * d_BF) = 2 * r) by (unfold r; field). rewrite Q in C, S.
  assert (C' : r * cos (atan2 d_BF f) = f / 2) by lra. assert (S' : r * sin (atan2 d_BF f) = d_BF / 2) by lra.
  assert (B : -1 <= d_BF / 2 / r <= 1).
  { replace (d_BF / 2 / r) with (sin (atan2 d_BF f)) by (rewrite <- S'; field; lra). apply SIN_bound. }
  assert (E1 : sin (asin (d_BF / 2 / r)) = sin (atan2 d_BF f)) by (rewrite sin_asin by exact B; rewrite <- S'; field; lra).
  split; [exact E1|]. split; [|now split].
  assert (H1 : 0 <= cos (asin (d_BF / 2 / r))) by (apply cos_ge_0; pose proof (asin_bound (d_BF / 2 / r)); lra).
  assert (H2 : 0 < cos (atan2 d_BF f)) by (apply (Rmult_lt_reg_l r); lra).
  apply Rsqr_inj; [exact H1|lra|]. unfold Rsqr. pose proof (sc1 (asin (d_BF / 2 / r))). pose proof (sc1 (atan2 d_BF f)). rewrite E1 in *. lra.
Qed.
Lemma camera_place d_BF R' f th : 0 < f -> let g := double_rowland_from_channel_distance d_BF R' f in
  parametric (arcus_detector g) th 0 = hom (circle_place (tr (arcus_detector g)) (f / 2) (phi_middle (dr_d g) (tr (arcus_detector g)) - th)) 1.
Proof.
  intros F g. destruct (middle_angle f d_BF F) as (E1 & E2 & C & S). destruct (sqrt_quarter f d_BF F) as [R0 _].
  assert (T : tr (arcus_detector g) = sqrt (f * f + d_BF * d_BF) / 2) by reflexivity. rewrite T.
  replace (dr_d g) with (d_BF / 2) by reflexivity.
  unfold parametric, arcus_detector, g, double_rowland_from_channel_distance. cbn [tpos dr_detector tr tR shift_torus channel_torus].
  set (r := sqrt (f * f + d_BF * d_BF) / 2) in *. set (a := atan2 d_BF f) in *.
  rewrite compose_ones, shift_aff, app4_mul, app_aff_pt. unfold torus_point. cbn [tR tr]. rewrite cos_0, sin_0.
  unfold circle_place, phi_middle.
  replace (asin (d_BF / 2 / r) + PI - th) with ((asin (d_BF / 2 / r) - th) + PI) by ring. rewrite neg_sin, neg_cos, sin_minus, cos_minus, E1, E2.
  unfold xyz2zxy, orient. vu. f_equal; try ring.
  - transitivity (r * (sin th * cos a - cos th * sin a) + (r * sin a - d_BF / 2)); [ring|]. rewrite S. ring.
  - transitivity (r * (cos th * cos a + sin th * sin a) + (f - r * cos a)); [ring|]. rewrite C. field.
Qed.

(** ** the circular detector *)
Lemma sqrt_height f d_BF : 0 < f -> let r := sqrt (f * f + d_BF * d_BF) / 2 in sqrt (r * r - d_BF / 2 * (d_BF / 2)) = f / 2.
Proof. intros F r. destruct (sqrt_quarter f d_BF F) as [_ R2]. fold r in R2. rewrite R2. replace (_ - _) with ((f / 2) * (f / 2)) by ring. apply sqrt_square. lra. Qed.
Lemma circ_place r d phi z : app4 (circ_detector r d) (V4 (cos phi) (sin phi) z 1) = V4 (r * sin phi) (-20 * z) (sqrt (r * r - d * d) - r * cos phi) 1.
Proof.
  unfold circ_detector, compose, circ_rot, xyz2zxy, axangle2mat_n. rewrite sin_PI, cos_PI. unfold diag3. vu. f_equal; ring.
Qed.

(** ** alignment *)
Lemma new_windows_nth w k x : nth_error (new_windows w) k = Some x -> fst x = id4 /\ forall j m, nth_error (snd x) j = Some m -> m = id4.
Proof.
  unfold new_windows. rewrite nth_error_map. destruct (nth_error w k) as [y|]; [|discriminate]. cbn. intros E. injection E as <-. cbn. split; [reflexivity|].
  intros j m E. apply nth_error_In, repeat_spec in E. exact E.
Qed.
Section Align.
Variable draws : nat -> nat -> nat -> v3 * v3.
Variable tilt : nat -> brow -> petal -> result petal.
Lemma map_seq_nth' {A} (f : nat -> A) n j m : nth_error (map f (seq 0 n)) j = Some m -> m = f j.
Proof.
  rewrite nth_error_map. destruct (nth_error (seq 0 n) j) as [x|] eqn:E; [|discriminate]. cbn. intros H. injection H as <-.
  assert (L : (j < n)%nat) by (rewrite <- (seq_length n 0); apply nth_error_Some; congruence). rewrite (nth_error_seq n j 0 L) in E. injection E as <-. reflexivity.
Qed.
Lemma row_sets c row p p' tol : align_row draws tilt c row p = Ok p' -> b_slot row = Some (Some tol) -> takes_effect draws c row tol p'.
Proof.
  unfold align_row, row_tol, takes_effect. intros H E. rewrite E in H.
  repeat split; intros K1 K2; rewrite K1, K2 in H; (destruct (6 <? List.length tol)%nat; [cbn in H; discriminate|]); cbn in H; injection H as <-; cbn.
  - reflexivity.
  - intros j m H. apply map_seq_nth' in H. exact H.
  - intros k w. rewrite nth_error_map. destruct (nth_error (pe_windows p) k); [|discriminate]. cbn. intros H. injection H as <-. reflexivity.
  - intros k w j m. rewrite mapi_nth. destruct (nth_error (pe_windows p) k); [|discriminate]. cbn. intros H. injection H as <-. cbn. intros H. apply map_seq_nth' in H. exact H.
Qed.
Lemma row_keeps c c' row row' p p' tol : b_kind row' <> "individual_with_tilt"%string -> align_row draws tilt c' row' p = Ok p' -> ~ replaces row' row ->
  takes_effect draws c row tol p -> takes_effect draws c row tol p'.
Proof.
  intros NT H NR TE. unfold replaces in NR. unfold align_row in H.
  destruct (String.eqb_spec (b_kind row') "global") as [K|K].
  - destruct (row_tol row') as [tol'|]; [|discriminate]. cbn in H. injection H as H.
    destruct (String.eqb_spec (b_class row') "CATfromMechanical") as [C|C]; [|destruct (String.eqb_spec (b_class row') "CATWindow") as [C'|C']]; subst p'.
    + unfold takes_effect in *. cbn. destruct TE as (T1 & T2 & T3 & T4). repeat split; intros K1 K2.
      * exfalso. apply NR. left. split; congruence.
      * now apply T2.
      * exfalso. apply NR. right. now split.
      * exfalso. apply NR. right. now split.
    + unfold takes_effect in *. cbn. destruct TE as (T1 & T2 & T3 & T4). repeat split; intros K1 K2.
      * now apply T1.
      * now apply T2.
      * exfalso. apply NR. left. split; congruence.
      * intros k w j m. rewrite nth_error_map. destruct (nth_error (pe_windows p) k) eqn:E; [|discriminate]. cbn. intros H. injection H as <-. cbn. now apply T4.
    + exact TE.
  - destruct (String.eqb_spec (b_kind row') "individual") as [I|I].
    + destruct (row_tol row') as [tol'|]; [|discriminate]. cbn in H. injection H as H.
      destruct (String.eqb_spec (b_class row') "CATfromMechanical") as [C|C]; [|destruct (String.eqb_spec (b_class row') "CATWindow") as [C'|C']]; subst p'.
      * unfold takes_effect in *. cbn. destruct TE as (T1 & T2 & T3 & T4). repeat split; intros K1 K2.
        -- now apply T1.
        -- exfalso. apply NR. left. split; congruence.
        -- exfalso. apply NR. right. now split.
        -- exfalso. apply NR. right. now split.
      * unfold takes_effect in *. cbn. destruct TE as (T1 & T2 & T3 & T4). repeat split; intros K1 K2.
        -- now apply T1.
        -- now apply T2.
        -- intros k w. rewrite mapi_nth. destruct (nth_error (pe_windows p) k) eqn:E; [|discriminate]. cbn. intros H. injection H as <-. cbn. eapply T3; eassumption.
        -- exfalso. apply NR. left. split; congruence.
      * exact TE.
    + destruct (String.eqb_spec (b_kind row') "individual_with_tilt"); [contradiction|discriminate].
Qed.
Lemma align_keeps c row tol budget : forall c' p p', (forall r, In r budget -> b_kind r <> "individual_with_tilt"%string) -> align draws tilt c' budget p = Ok p' ->
  (forall r, In r budget -> ~ replaces r row) -> takes_effect draws c row tol p -> takes_effect draws c row tol p'.
Proof.
  induction budget as [|r budget IH]; intros c' p p' NT H NR TE; cbn in H; [now injection H as <-|].
  destruct (align_row draws tilt c' r p) as [q|] eqn:E; [|discriminate]. cbn in H.
  eapply IH; [|exact H| |]; [intros; apply NT; now right|intros; apply NR; now right|].
  eapply row_keeps; [|exact E| |exact TE]; [apply NT; now left|apply NR; now left].
Qed.
Lemma align_effect budget : forall c p p' i row tol, (forall r, In r budget -> b_kind r <> "individual_with_tilt"%string) -> align draws tilt c budget p = Ok p' ->
  nth_error budget i = Some row -> b_slot row = Some (Some tol) ->
  (forall i' r, (i < i')%nat -> nth_error budget i' = Some r -> ~ replaces r row) -> takes_effect draws (c + i) row tol p'.
Proof.
  induction budget as [|r budget IH]; intros c p p' i row tol NT H E SL NR; cbn in H; [destruct i; discriminate|].
  destruct (align_row draws tilt c r p) as [q|] eqn:A; [|discriminate]. cbn in H. destruct i as [|i].
  - cbn in E. injection E as ->. rewrite Nat.add_0_r. eapply align_keeps; [|exact H| |].
    + intros; apply NT; now right.
    + intros r I. apply In_nth_error in I. destruct I as [n I]. apply (NR (S n) r); [lia|exact I].
    + eapply row_sets; [exact A|exact SL].
  - rewrite Nat.add_succ_r. apply (IH (S c) q p' i row tol); [intros; apply NT; now right|exact H|exact E|exact SL|].
    intros i' r' L I. apply (NR (S i') r'); [lia|exact I].
Qed.
(** windows that are made again have no misalignment *)
Lemma align_row_petal c row p p' : align_row draws tilt c row p = Ok p' -> b_class row = "CATfromMechanical"%string -> b_kind row <> "individual_with_tilt"%string ->
  pe_windows p' = new_windows (pe_windows p).
Proof.
  unfold align_row. intros H C N. rewrite C in H. destruct (String.eqb (b_kind row) "global").
  - destruct (row_tol row); [|discriminate]. cbn in H. now injection H as <-.
  - destruct (String.eqb (b_kind row) "individual"); [destruct (row_tol row); [|discriminate]; cbn in H; now injection H as <-|].
    destruct (String.eqb_spec (b_kind row) "individual_with_tilt"); [contradiction|discriminate].
Qed.
End Align.

Lemma set_blaze_stop before : forall tl after, (List.length before < List.length tl)%nat ->
  exists l, List.length l = List.length before /\ set_blaze_centers (map Some before ++ None :: after) tl = ((map Some l ++ None :: after)%list, Some ValueError).
Proof.
  induction before as [|b before IH]; intros [|t tl] after L; cbn in L; try lia; [exists []; split; reflexivity|].
  destruct (IH tl after) as (l & A & B); [lia|]. exists (t :: l). split; [cbn; now f_equal|]. cbn. now rewrite B.
Qed.
