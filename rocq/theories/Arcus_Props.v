(** Properties C131-C135: Arcus error budget, bar tilt, camera, circular detector and alignment. *)
From Coq Require Import String.
From Verif Require Import Arcus_Proofs.
From Coq Require Import List Lra Lia.
Import ListNotations.
Open Scope R_scope.

(** *** C131: error budget *)
(** Positions are converted from micron to mm and angles from arcsec to radian, 3 sigma to 1 sigma; global terms are scaled by the given
    factor or by the numbers drawn; everything else in the budget stays. *)
Theorem C131_reformat : forall gf randn k budget, (forall row, In row budget -> b_slot row <> None) ->
  exists out, reformat_budget gf randn k budget = (out, None) /\ List.length out = List.length budget /\
  forall i row, nth_error budget i = Some row -> exists tol, nth_error out i = Some (Row (b_class row) (b_kind row) (b_raw row) (Some (Some tol))) /\
    List.length tol = List.length (b_raw row) /\
    forall j v, nth_error (b_raw row) j = Some v -> exists sigma, nth_error tol j = Some sigma /\
      3 * sigma = v * (if Nat.ltb j 3 then 1 / 1000 else PI / 180 / 3600) *
        (if String.eqb (b_kind row) "global" then match gf with Some f => f | None => randn (k + i)%nat j end else 1).
Proof.
  intros gf randn k budget H. rewrite (reformat_ok gf randn budget k H). eexists. split; [reflexivity|]. split; [apply mapi_length|].
  intros i row E. rewrite mapi_nth, E. cbn [option_map]. exists (budget_tol gf (randn (k + i)%nat) row). split; [reflexivity|]. split; [apply budget_tol_length|].
  intros j v V. eexists. split; [apply budget_tol_nth, V|]. unfold micron, arcsec. destruct (Nat.ltb j 3); field.
Qed.
Print Assumptions C131_reformat.
(** With a fixed factor it does not matter how often the function is called. *)
Theorem C131_again : forall f randn randn' k k' budget, (forall row, In row budget -> b_slot row <> None) ->
  reformat_budget (Some f) randn' k' (fst (reformat_budget (Some f) randn k budget)) = reformat_budget (Some f) randn k budget.
Proof. intros. now apply reformat_twice. Qed.
Print Assumptions C131_again.
(** A row without a place for the result is an error; the rows before it have been changed already. *)
Theorem C131_short_row : forall gf randn k pre row post, (forall r, In r pre -> b_slot r <> None) -> b_slot row = None ->
  reformat_budget gf randn k (pre ++ row :: post) = (fst (reformat_budget gf randn k pre) ++ row :: post, Some IndexError).
Proof. intros. now apply reformat_short. Qed.
Print Assumptions C131_short_row.
(** Not only standard deviations are divided by 3: a seventh number, the largest tilt of the bars for [wiggle_and_bar_tilt], is, too. *)
Theorem C131_tilt : forall gf randn row v, nth_error (b_raw row) 6 = Some v -> b_kind row = "individual_with_tilt"%string ->
  nth_error (budget_tol gf randn row) 6 = Some (v * (PI / 180 / 3600) / 3).
Proof. intros gf randn row v V K. rewrite (budget_tol_nth gf randn row 6 v V), K. unfold arcsec. cbn [Nat.ltb Nat.leb String.eqb Ascii.eqb Bool.eqb]. f_equal. field. Qed.
Print Assumptions C131_tilt.
(** The budget in the module: rows of both kinds with six positive numbers, three shifts of not more than 5 mm and three small angles *)
Theorem C131_shipped : forall row, In row align_requirement_smith -> b_slot row = Some None /\ In (b_kind row) ["global"; "individual"]%string /\ List.length (b_raw row) = 6%nat /\
  forall j v, nth_error (b_raw row) j = Some v -> 0 < v /\ ((j < 3)%nat -> v * micron <= 5) /\ ((3 <= j)%nat -> v * arcsec <= 1 / 270).
Proof.
  intros row I. pose proof PI_4 as P4. pose proof PI_RGT_0 as P0. unfold micron, arcsec.
  cbn [In align_requirement_smith] in I. repeat (destruct I as [<-|I]; [split; [reflexivity|]; split; [cbn; auto|]; split; [reflexivity|]; intros j v V;
    do 6 (destruct j as [|j]; [cbn in V; injection V as <-; split; [lra|split; intros L; [first [lia|lra]|first [lia|lra]]]|]); destruct j; discriminate|]). destruct I.
Qed.
Print Assumptions C131_shipped.
(** The petals in the budget of the module are displaced by 0.8 / 3 of 1 mm and the SPOs wiggled with a sigma of 20/3 micron *)
Example C131_example : exists out, reformat_budget (Some (8 / 10)) (fun _ _ => 0) 0 align_requirement_smith = (out, None) /\
  option_map (fun r => option_map (option_map (fun l => nth 0 l 0)) (b_slot r)) (nth_error out 1) = Some (Some (Some (8 / 30))) /\
  option_map (fun r => option_map (option_map (fun l => nth 0 l 0)) (b_slot r)) (nth_error out 0) = Some (Some (Some (2 / 300))).
Proof. eexists. split; [reflexivity|]. cbn. unfold budget_entry. cbn. split; do 3 f_equal; field. Qed.

(** *** C132: tilted grating bars *)
Theorem C132_sets : forall s dxyz rxyz mx u draws grats s' g, wiggle_and_bar_tilt s dxyz rxyz mx u draws grats = Ok (s', g, None) ->
  let n := List.length (ps_elems s) in List.length grats = n ->
  (forall x, In x grats -> x <> None) ->
  List.length g = n /\ List.length (p_elem_unc (ps_par s')) = n /\
  forall i, (i < n)%nat -> exists t, nth_error g i = Some (Some t) /\
    t = mx * (2 * u i - 1) /\ (0 <= mx -> 0 <= u i <= 1 -> Rabs t <= mx) /\
    nth_error (p_elem_unc (ps_par s')) i = Some (move6 (mulv3 dxyz (fst (draws i))) (sub3 (mulv3 rxyz (snd (draws i))) (V3 0 t 0))).
Proof.
  intros s dxyz rxyz mx u draws grats s' g H n L A. unfold wiggle_and_bar_tilt in H. fold n in H. rewrite L, Nat.eqb_refl in H. cbn [negb] in H.
  unfold tol_apply in H. cbv zeta in H. destruct (generate_elements _) as [es|] in H; [|discriminate]. cbn [bind] in H.
  rewrite set_blaze_all in H by (try exact A; rewrite map_length, seq_length; exact L). injection H as <- <-. cbn [ps_par tol_set set_elem_unc p_elem_unc]. fold n.
  rewrite !map_length, seq_length. split; [reflexivity|]. split; [reflexivity|]. intros i I. exists (bar_tilt mx (u i)).
  split; [rewrite !nth_error_map, nth_error_seq by exact I; reflexivity|]. split; [unfold bar_tilt, uniform; ring|]. split.
  - intros M U. unfold bar_tilt, uniform. apply Rabs_le. nra.
  - rewrite nth_error_map, nth_error_seq by exact I. cbn [option_map Nat.add]. do 2 f_equal. unfold tilt_draw. cbn [fst snd].
    erewrite nth_error_nth by (rewrite nth_error_map, nth_error_seq by exact I; reflexivity). cbn [Nat.add]. generalize (bar_tilt mx (u i)). intros t. vring.
Qed.
Print Assumptions C132_sets.
(** A grating without the attribute blaze_center is an error; the gratings before it are changed, the others are not. *)
Theorem C132_attribute : forall s dxyz rxyz mx u draws before after s' g e, wiggle_and_bar_tilt s dxyz rxyz mx u draws (map Some before ++ None :: after) = Ok (s', g, e) ->
  (List.length before + S (List.length after))%nat = List.length (ps_elems s) ->
  e = Some ValueError /\ exists l, List.length l = List.length before /\ g = map Some l ++ None :: after.
Proof.
  intros s dxyz rxyz mx u draws before after s' g e H L. unfold wiggle_and_bar_tilt in H. cbv zeta in H. destruct (tol_apply s _) as [q|] in H; [|discriminate]. cbn [bind] in H.
  rewrite app_length, map_length in H. cbn [List.length] in H. rewrite L, Nat.eqb_refl in H. cbn [negb] in H.
  set (tl := map (fun i => bar_tilt mx (u i)) _) in H. assert (T : (List.length before < List.length tl)%nat) by (unfold tl; rewrite map_length, seq_length; lia). clearbody tl.
  destruct (set_blaze_stop before tl after T) as (l & A & B). rewrite B in H. injection H as _ <- <-. eauto.
Qed.
Print Assumptions C132_attribute.
(** If the number of gratings does not fit it is an error, but the elements are moved already. *)
Theorem C132_mismatch : forall s dxyz rxyz mx u draws grats s' g e, wiggle_and_bar_tilt s dxyz rxyz mx u draws grats = Ok (s', g, e) ->
  List.length grats <> List.length (ps_elems s) -> e = Some SimulationSetupError /\ g = grats /\
  exists d, tol_apply s (Wiggle d) = Ok s'.
Proof.
  intros s dxyz rxyz mx u draws grats s' g e H L. unfold wiggle_and_bar_tilt in H. apply Nat.eqb_neq in L. rewrite L in H. cbn [negb] in H.
  destruct (tol_apply s _) as [q|] eqn:T in H; [|discriminate]. cbn [bind] in H. injection H as <- <- <-. split; [reflexivity|]. split; [reflexivity|]. eexists. exact T.
Qed.
Print Assumptions C132_mismatch.
(** Without further misalignment an element is turned by minus the tilt around the y axis of the container. *)
Theorem C132_rotation : forall d t, let '(tr, a) := tilt_draw zero3 zero3 d t in
  tr = zero3 /\ euler2mat a = axangle2mat_n (V3 0 1 0) (- t).
Proof.
  intros d t. unfold tilt_draw. replace (mulv3 zero3 (fst d)) with zero3 by (destruct (fst d); unfold mulv3; vu; f_equal; ring). split; [reflexivity|].
  replace (add3 (neg3 (V3 0 t 0)) (mulv3 zero3 (snd d))) with (V3 0 (- t) 0) by (destruct (snd d); unfold mulv3; vu; f_equal; ring). apply euler_y.
Qed.
Print Assumptions C132_rotation.
(** Gratings with grooves along the y axis of the container and a blaze angle [b], seen by a photon along -z. Before the bars are tilted the
    blaze angle is |b|, and it should stay so because turning the grating puts the bars back. That is right if 0 <= b and the tilt is not larger than b. *)
Theorem C132_compensated_partial : forall b t, - (PI / 2) <= b - t -> b <= PI / 2 -> 0 <= b -> t <= b ->
  let rot := axangle2mat_n (V3 0 1 0) (- t) in let n := V3 (sin b) 0 (cos b) in
  blaze_angle (V3 0 0 (-1)) (V3 0 1 0) n = Some b /\
  (b - t <= PI / 2 -> nonparallel_blaze t 0 0 (V3 0 0 (-1)) (app3 rot (V3 0 1 0)) (app3 rot n) = Some b).
Proof.
  intros b t B0 B1 B T. cbv zeta. pose proof PI_RGT_0. split.
  - rewrite blaze_on_axis by lra. now rewrite Rabs_pos_eq.
  - intros B2. rewrite rot_y_l, rot_y_n. unfold nonparallel_blaze. rewrite blaze_on_axis by lra. unfold blaze_modifier. rewrite Rabs_pos_eq by lra. f_equal. ring.
Qed.
Print Assumptions C132_compensated_partial.
(** With the opposite sign of the blaze angle (as in the mirrored channels) the tilt counts twice instead. *)
Theorem C132_refuted : forall b t, b < 0 -> b <= t -> t <> 0 -> - (PI / 2) <= b - t -> - (PI / 2) <= b ->
  let rot := axangle2mat_n (V3 0 1 0) (- t) in let n := V3 (sin b) 0 (cos b) in
  blaze_angle (V3 0 0 (-1)) (V3 0 1 0) n = Some (- b) /\
  nonparallel_blaze t 0 0 (V3 0 0 (-1)) (app3 rot (V3 0 1 0)) (app3 rot n) = Some (- b + 2 * t) /\ - b + 2 * t <> - b.
Proof.
  intros b t B T T0 B1 B2. cbv zeta. pose proof PI_RGT_0. split; [|split].
  - rewrite blaze_on_axis by lra. now rewrite Rabs_left.
  - rewrite rot_y_l, rot_y_n. unfold nonparallel_blaze. rewrite blaze_on_axis by lra. unfold blaze_modifier. rewrite Rabs_left1 by lra. f_equal. ring.
  - lra.
Qed.
Print Assumptions C132_refuted.
Example C132_example : let rot := axangle2mat_n (V3 0 1 0) (- (1 / 100)) in
  nonparallel_blaze (1 / 100) 0 0 (V3 0 0 (-1)) (app3 rot (V3 0 1 0)) (app3 rot (V3 (sin (3 / 100)) 0 (cos (3 / 100)))) = Some (3 / 100) /\
  nonparallel_blaze (1 / 100) 0 0 (V3 0 0 (-1)) (app3 rot (V3 0 1 0)) (app3 rot (V3 (sin (- (3 / 100))) 0 (cos (- (3 / 100))))) = Some (- - (3 / 100) + 2 * (1 / 100)).
Proof. pose proof PI2_3_2. split; [apply (C132_compensated_partial (3 / 100) (1 / 100)); lra|apply (C132_refuted (- (3 / 100)) (1 / 100)); lra]. Qed.

(** *** C133: layout of the camera *)
Theorem C133_gaps : forall d r ccd p0, 0 < r -> 0 < ccd -> 0 <= p0 ->
  List.length (camera_theta (215 / 100) 4 (-5) 5 d r ccd p0) = 16%nat /\
  let g := 215 / 100 in
  clearances r ccd (camera_theta (215 / 100) 4 (-5) 5 d r ccd p0) = [g; g; 4; g; g; 4; g; 2 * p0 * r; g; 4; g; g; 4; g; g].
Proof.
  intros d r ccd p0 R0 C P. rewrite camera_theta_eq by (try lra; assert (0 <= p0 * r) by (apply Rmult_le_pos; lra); lra). unfold camera_list. split.
  - rewrite app_length, !map_length, rev_length. unfold strip. rewrite map_length. reflexivity.
  - cbv zeta. rewrite strip_eq. cbn [rev map app]. unfold clearances. cbn [tl combine map fst snd]. repeat (apply f_equal2; [field; lra|]). reflexivity.
Qed.
Print Assumptions C133_gaps.
(** The chips are numbered from negative to positive x, on the circle of the Rowland torus. *)
Theorem C133_order : forall d_BF R' f ccd p0 pos, 0 < f -> 0 < ccd -> 0 < p0 ->
  let g := double_rowland_from_channel_distance d_BF R' f in let r := tr (arcus_detector g) in
  p0 + (15 * ccd + 5 * (215 / 100) + 2 * 4 + 5) / r <= PI / 2 ->
  det_camera g ccd p0 16 = Ok pos ->
  (forall i p, nth_error pos i = Some p -> exists a, p = hom (circle_place r (f / 2) a) 1 /\ - (PI / 2) <= a <= PI / 2) /\
  (forall i j p q, (i < j)%nat -> nth_error pos i = Some p -> nth_error pos j = Some q -> x4 p < x4 q).
Proof.
  intros d_BF R' f ccd p0 pos F C P g r B H.
  assert (R0 : 0 < r) by (exact (proj1 (sqrt_quarter f d_BF F))).
  unfold det_camera in H. cbv zeta in H. fold r in H.
  rewrite camera_theta_eq in H by (try lra; assert (0 <= p0 * r) by (apply Rmult_le_pos; lra); lra).
  set (m := phi_middle (dr_d g) r) in H. set (th := camera_list (215 / 100) 4 (-5) 5 m r ccd p0) in H.
  destruct (Nat.eqb _ _) in H; [|discriminate]. assert (HP : pos = map (fun t => parametric (arcus_detector g) t 0) th) by congruence. clear H.
  assert (I : forall x y, x <= y -> x / r <= y / r) by (intros x y Hxy; apply Rmult_le_compat_r; [left; now apply Rinv_0_lt_compat|exact Hxy]).
  assert (I' : forall x y, x < y -> x / r < y / r) by (intros x y Hxy; apply Rmult_lt_compat_r; [now apply Rinv_0_lt_compat|exact Hxy]).
  assert (M : forall i t, nth_error th i = Some t -> - (PI / 2) <= m - t <= PI / 2).
  { intros i t E. apply nth_error_In in E. unfold th, camera_list in E. rewrite strip_eq in E.
    apply in_app_iff in E. rewrite !in_map_iff in E. destruct E as [(x & <- & E)|(x & <- & E)]; [apply in_rev in E|];
      rewrite in_map_iff in E; destruct E as (y & <- & E);
      assert (Y : 0 < y <= 15 * ccd + 5 * (215 / 100) + 2 * 4) by (cbn [In] in E; decompose [or] E; subst; lra || contradiction);
      assert (p0 + (y + 5) / r <= PI / 2) by (assert ((y + 5) / r <= (15 * ccd + 5 * (215 / 100) + 2 * 4 + 5) / r) by (apply I; lra); lra);
      assert (0 < y / r) by (apply Rdiv_lt_0_compat; lra); assert (0 < 5 / r) by (apply Rdiv_lt_0_compat; lra); replace ((y + 5) / r) with (y / r + 5 / r) in H by (field; lra);
      try replace (-5 / r) with (- (5 / r)) by (field; lra); lra. }
  assert (S : forall i j t u, (i < j)%nat -> nth_error th i = Some t -> nth_error th j = Some u -> u < t).
  { assert (Adj : forall i t u, nth_error th i = Some t -> nth_error th (S i) = Some u -> u < t).
    { intros i t u E1 E2. unfold th, camera_list in E1, E2. rewrite strip_eq in E1, E2. cbn [rev map app] in E1, E2.
      do 16 (destruct i as [|i]; [cbn [nth_error] in E1, E2; injection E1 as <-; try discriminate; injection E2 as <-;
        apply (Rmult_lt_reg_r r); try exact R0; field_simplify; try lra; assert (0 < p0 * r) by (now apply Rmult_lt_0_compat); lra|]). destruct i; discriminate. }
    intros i j t u L. revert t u. induction L as [|j L IH]; intros t u E1 E2; [eapply Adj; eassumption|].
    destruct (nth_error th j) as [v|] eqn:E3.
    - apply Rlt_trans with v; [eapply Adj; eassumption|now apply IH].
    - exfalso. apply nth_error_None in E3. assert (nth_error th (S j) <> None) by congruence. apply nth_error_Some in H. lia. }
  subst pos. split.
  - intros i p E. rewrite nth_error_map in E. destruct (nth_error th i) as [t|] eqn:Et; [|discriminate]. cbn in E. injection E as <-.
    exists (m - t). split; [apply (camera_place d_BF R' f t F)|exact (M i t Et)].
  - intros i j p q L Ei Ej. rewrite nth_error_map in Ei, Ej. destruct (nth_error th i) as [t|] eqn:Et; [|discriminate]. destruct (nth_error th j) as [u|] eqn:Eu; [|discriminate].
    cbn [option_map] in Ei, Ej. assert (Ep : p = hom (circle_place r (f / 2) (m - t)) 1) by (transitivity (parametric (arcus_detector g) t 0); [congruence|exact (camera_place d_BF R' f t F)]).
    assert (Eq : q = hom (circle_place r (f / 2) (m - u)) 1) by (transitivity (parametric (arcus_detector g) u 0); [congruence|exact (camera_place d_BF R' f u F)]). subst p q.
    unfold hom, circle_place. cbn [x4 x3]. apply Rmult_lt_compat_l; [exact R0|]. pose proof (M i t Et). pose proof (M j u Eu). pose proof (S i j t u L Et Eu).
    apply sin_increasing_1; lra.
Qed.
Print Assumptions C133_order.
(** No gap of one strip is at the distance of a gap in the other strip. *)
Theorem C133_gap_positions : forall d r ccd p0 i j, 0 < r -> 5 < ccd -> 0 <= p0 -> (i < 7)%nat -> (j < 7)%nat ->
  let th := camera_theta (215 / 100) 4 (-5) 5 d r ccd p0 in let m := phi_middle d r in
  snd (gap_minus m r ccd th i) < fst (gap_plus m r ccd th j) \/ snd (gap_plus m r ccd th j) < fst (gap_minus m r ccd th i).
Proof.
  intros d r ccd p0 i j R0 C P I J. cbv zeta. rewrite camera_theta_eq by (try lra; assert (0 <= p0 * r) by (apply Rmult_le_pos; lra); lra). unfold camera_list. rewrite strip_eq. cbn [rev map app].
  set (m := phi_middle d r). unfold gap_plus, gap_minus. cbn [fst snd].
  assert (E : forall k q x, (m + 5 / r + (p0 + x / r) - m) * r + k = p0 * r + 5 + x + k /\ (m + 5 / r + (p0 + x / r) - m) * r - q = p0 * r + 5 + x - q /\
     (m - (m - (p0 + x / r) - -5 / r)) * r + k = p0 * r - 5 + x + k /\ (m - (m - (p0 + x / r) - -5 / r)) * r - q = p0 * r - 5 + x - q).
  { intros k q x. repeat split; field; lra. }
  do 7 (destruct i as [|i]; [do 7 (destruct j as [|j]; [cbn [nth Nat.sub Nat.add];
    rewrite !(fun k x => proj1 (E k 0 x)), !(fun k x => proj1 (proj2 (E 0 k x))), !(fun k x => proj1 (proj2 (proj2 (E k 0 x)))), !(fun k x => proj2 (proj2 (proj2 (E 0 k x)))); (left; lra) || (right; lra)|]); lia|]). lia.
Qed.
Print Assumptions C133_gap_positions.
(** The documentation has the chips of a strip in groups of 3, 2 and 3 between the filter supports. From the middle out they are in groups
    of 2, 3 and 3, so neither strip is as documented. *)
Theorem C133_groups_refuted : forall d r ccd p0, 0 < r -> 0 < ccd -> 0 <= p0 ->
  let c := clearances r ccd (camera_theta (215 / 100) 4 (-5) 5 d r ccd p0) in
  groups 4 (skipn 8 c) 1 = [2; 3; 3]%nat /\ groups 4 (rev (firstn 7 c)) 1 = [2; 3; 3]%nat /\ [2; 3; 3]%nat <> [3; 2; 3]%nat.
Proof.
  intros d r ccd p0 R0 C P c. unfold c. rewrite (proj2 (C133_gaps d r ccd p0 R0 C P)). cbn [skipn firstn rev app groups].
  assert (E1 : Reqb (215 / 100) 4 = false) by (apply Reqb_false; lra). assert (E2 : Reqb 4 4 = true) by now apply Reqb_true.
  repeat rewrite ?E1, ?E2; cbn [groups]. repeat split. discriminate.
Qed.
Print Assumptions C133_groups_refuted.
(** Both strips are displaced, by 5 mm in the same direction. *)
Theorem C133_offsets : forall d r ccd p0, 0 < r -> 0 < ccd -> 0 <= p0 ->
  let th := camera_theta (215 / 100) 4 (-5) 5 d r ccd p0 in let m := phi_middle d r in
  (nth 7 th 0 - m) * r - ccd = p0 * r + 5 /\ (m - nth 8 th 0) * r - ccd = p0 * r - 5.
Proof.
  intros d r ccd p0 R0 C P. cbv zeta. rewrite camera_theta_eq by (try lra; assert (0 <= p0 * r) by (apply Rmult_le_pos; lra); lra). unfold camera_list. rewrite strip_eq. cbn [rev map app nth].
  split; field; lra.
Qed.
Print Assumptions C133_offsets.
Theorem C133_number : forall g ccd p0 n, n <> 16%nat -> det_camera g ccd p0 n = Err AssertionError.
Proof.
  intros g ccd p0 n N. unfold det_camera, camera_theta. cbv zeta. rewrite map_length, rev_length.
  rewrite (Permutation.Permutation_length (sort_theta_perm _)), app_length, !map_length. unfold strip. rewrite map_length. cbn [List.length seq Nat.add].
  destruct (Nat.eqb_spec 16 n); [congruence|reflexivity].
Qed.
Print Assumptions C133_number.
Example C133_example : exists pos, det_camera (double_rowland_from_channel_distance 6 5 8) (1 / 100) (1 / 10) 16 = Ok pos.
Proof.
  unfold det_camera. cbv zeta. match goal with |- context [Nat.eqb ?a 16] => replace a with 16%nat end; [eexists; reflexivity|].
  rewrite map_length. symmetry. apply C133_gaps; try lra. apply (proj1 (sqrt_quarter 8 6 ltac:(lra))).
Qed.

(** *** C134: circular detector behind the camera *)
(** Its center is on the axis and phi = 0 is the lowest point. *)
Theorem C134_surface : forall r d p phi, on_circ (circ_detector r d) p phi <-> x3 p = r * sin phi /\ z3 p = sqrt (r * r - d * d) - r * cos phi.
Proof.
  intros r d [px py pz] phi. unfold on_circ. split.
  - intros [z E]. rewrite circ_place in E. unfold hom in E. cbn in E. injection E as <- <- <-. cbn. split; reflexivity.
  - intros [E1 E2]. cbn in E1, E2. exists (- py / 20). rewrite circ_place. unfold hom. cbn. f_equal; lra.
Qed.
Print Assumptions C134_surface.
(** With the default configuration all CCDs are centered on the surface; its angle is the place of a CCD in the camera. *)
Theorem C134_default_partial : forall d_BF R' f th, 0 < f -> let g := double_rowland_from_channel_distance d_BF R' f in let r := tr (arcus_detector g) in
  exists p, parametric (arcus_detector g) th 0 = hom p 1 /\ on_circ (circ_detector r (dr_d g)) p (phi_middle (dr_d g) r - th).
Proof.
  intros d_BF R' f th F g r. eexists. split; [apply (camera_place d_BF R' f th F)|]. apply C134_surface. unfold circle_place. cbn [x3 z3]. split; [reflexivity|].
  f_equal. symmetry. exact (sqrt_height f d_BF F).
Qed.
Print Assumptions C134_default_partial.
(** With any other configuration of a different radius, the radius still comes from the default configuration; even the lowest points differ, unless the height of the center changes to match. *)
Theorem C134_refuted : exists r0 g phi p, 0 < tr (arcus_detector g) /\ r0 <> tr (arcus_detector g) /\
  parametric (arcus_detector g) (phi_middle (dr_d g) (tr (arcus_detector g)) - phi) 0 = hom p 1 /\ forall phi', ~ on_circ (circ_detector r0 (dr_d g)) p phi'.
Proof.
  exists 2, (double_rowland_from_channel_distance 0 1 2), (PI / 2), (V3 1 0 1).
  assert (T : tr (arcus_detector (double_rowland_from_channel_distance 0 1 2)) = 1).
  { cbn. replace (2 * 2 + 0 * 0) with (2 * 2) by ring. rewrite sqrt_square; lra. }
  rewrite T. split; [lra|]. split; [lra|]. split.
  - pose proof (camera_place 0 1 2 (phi_middle (dr_d (double_rowland_from_channel_distance 0 1 2)) 1 - PI / 2) ltac:(lra)) as E. cbv zeta in E. rewrite T in E. rewrite E.
    unfold circle_place. replace (phi_middle _ 1 - (phi_middle _ 1 - PI / 2)) with (PI / 2) by ring. rewrite sin_PI2, cos_PI2. unfold hom. cbn. f_equal; lra.
  - intros phi' H. apply C134_surface in H. cbn in H. replace (2 * 2 - 0 / 2 * (0 / 2)) with (2 * 2) in H by field. rewrite sqrt_square in H by lra. pose proof (sc1 phi'). destruct H. nra.
Qed.
Print Assumptions C134_refuted.
Example C134_example : on_circ (circ_detector 5 3) (V3 0 7 (-1)) 0.
Proof. apply C134_surface. cbn. replace (5 * 5 - 3 * 3) with (4 * 4) by ring. rewrite sqrt_square, sin_0, cos_0 by lra. lra. Qed.

(** *** C135: every row of the alignment budget takes effect *)
Theorem C135_effect_partial : forall draws tilt budget c p p' i row tol, (forall r, In r budget -> b_kind r <> "individual_with_tilt"%string) ->
  align draws tilt c budget p = Ok p' -> nth_error budget i = Some row -> b_slot row = Some (Some tol) ->
  (forall i' r, (i < i')%nat -> nth_error budget i' = Some r -> ~ replaces r row) -> takes_effect draws (c + i) row tol p'.
Proof. exact align_effect. Qed.
Print Assumptions C135_effect_partial.
(** A row about the windows before a row about the petals is lost: all gratings are perfectly aligned in their windows. *)
Theorem C135_refuted : forall draws tilt c row row' p p', b_class row = "CATWindow"%string -> b_class row' = "CATfromMechanical"%string -> b_kind row' <> "individual_with_tilt"%string ->
  align draws tilt c [row; row'] p = Ok p' ->
  forall k w, nth_error (pe_windows p') k = Some w -> fst w = id4 /\ forall j m, nth_error (snd w) j = Some m -> m = id4.
Proof.
  intros draws tilt c row row' p p' C C' N H k w. cbn [align] in H. destruct (align_row draws tilt c row p) as [q|]; [|discriminate]. cbn [bind] in H.
  destruct (align_row draws tilt (S c) row' q) as [q'|] eqn:E; [|discriminate]. cbn in H. injection H as <-.
  rewrite (align_row_petal draws tilt _ _ _ _ E C' N). apply new_windows_nth.
Qed.
Print Assumptions C135_refuted.
(** The budget of the module is in the right order: all its rows take effect. *)
Theorem C135_default : forall draws tilt f randn p p' i row tol, let budget := fst (reformat_budget (Some f) randn 0 align_requirement_smith) in
  align draws tilt 0 budget p = Ok p' -> nth_error budget i = Some row -> b_slot row = Some (Some tol) -> takes_effect draws i row tol p'.
Proof.
  intros draws tilt f randn p p' i row tol budget H E SL. change i with (0 + i)%nat.
  eapply C135_effect_partial; [|exact H|exact E|exact SL|].
  - intros r I. cbn in I. decompose [or] I; subst; cbn; try discriminate; contradiction.
  - intros i' r L E' RP. unfold replaces in RP.
    do 5 (destruct i as [|i]; [cbn in E; injection E as <-; do 5 (destruct i' as [|i']; [try lia; cbn in E'; injection E' as <-; cbn in RP; destruct RP as [[? ?]|[? ?]]; discriminate|]); destruct i'; discriminate|]).
    destruct i; discriminate.
Qed.
Print Assumptions C135_default.
(** Unknown kinds are refused, and so are rows that were not reformatted or have too many numbers. *)
Theorem C135_unknown : forall draws tilt c row rest p, ~ In (b_kind row) ["global"; "individual"; "individual_with_tilt"]%string ->
  align draws tilt c (row :: rest) p = Err NotImplementedError.
Proof.
  intros draws tilt c row rest p N. cbn [align]. unfold align_row.
  destruct (String.eqb_spec (b_kind row) "global") as [E|_]; [exfalso; apply N; rewrite E; now left|].
  destruct (String.eqb_spec (b_kind row) "individual") as [E|_]; [exfalso; apply N; rewrite E; right; now left|].
  destruct (String.eqb_spec (b_kind row) "individual_with_tilt") as [E|_]; [exfalso; apply N; rewrite E; right; right; now left|]. reflexivity.
Qed.
Print Assumptions C135_unknown.
Theorem C135_not_reformatted : forall draws tilt c row rest p, In (b_kind row) ["global"; "individual"]%string -> b_slot row = Some None ->
  align draws tilt c (row :: rest) p = Err TypeError.
Proof.
  intros draws tilt c row rest p I E. cbn [align]. unfold align_row, row_tol. rewrite E. destruct I as [<-|[<-|[]]]; reflexivity.
Qed.
Print Assumptions C135_not_reformatted.
Example C135_example : exists p', align (fun _ _ _ => (zero3, zero3)) (fun _ _ => Ok) 0 (fst (reformat_budget (Some 1) (fun _ _ => 0) 0 align_requirement_smith))
  (Petal id4 [id4; id4] [(id4, [id4]); (id4, [id4; id4])]) = Ok p' /\ List.length (pe_windows p') = 2%nat.
Proof. eexists. split; reflexivity. Qed.
