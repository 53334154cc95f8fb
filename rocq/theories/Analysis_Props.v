(** Properties C59-C61, C95-C101: analysis of photon lists. *)
From Coq Require Import Permutation.
From Verif Require Import Analysis_Proofs2.
From Verif Require Grating_Proofs.
Open Scope R_scope.

(** C59: the average is between the smallest and the largest value. *)
Theorem C59_bounds : forall r aeff lo hi, weights_ok (valid r aeff) -> between lo hi (valid r aeff) -> exists a, fst (average_R_Aeff r aeff) = Some a /\ lo <= a <= hi.
Proof. intros r aeff. exact (wavg_bounds (valid r aeff)). Qed.
Print Assumptions C59_bounds.
Theorem C59_equal_values : forall r aeff v, weights_ok (valid r aeff) -> Forall (fun p => fst p = v) (valid r aeff) -> fst (average_R_Aeff r aeff) = Some v.
Proof. intros r aeff. exact (wavg_const (valid r aeff)). Qed.
Print Assumptions C59_equal_values.
(** orders without resolving power are not part of the average, but of the sum of areas *)
Theorem C59_nan_excluded : forall r1 a1 r2 a2 a, length r1 = length a1 ->
  fst (average_R_Aeff (r1 ++ None :: r2) (a1 ++ a :: a2)) = fst (average_R_Aeff (r1 ++ r2) (a1 ++ a2)) /\
  snd (average_R_Aeff (r1 ++ None :: r2) (a1 ++ a :: a2)) = a + snd (average_R_Aeff (r1 ++ r2) (a1 ++ a2)).
Proof.
  intros. split; [unfold average_R_Aeff; cbn [fst]; now rewrite valid_nan|]. unfold average_R_Aeff. cbn [snd]. rewrite <- Rsum_cons. apply Rsum_perm, Permutation_sym, Permutation_middle.
Qed.
Print Assumptions C59_nan_excluded.
Theorem C59_zero_weight : forall a b v, wavg (a ++ (v, 0) :: b) = wavg (a ++ b).
Proof. exact wavg_zero_weight. Qed.
Print Assumptions C59_zero_weight.
Theorem C59_weighted_per_order : forall data orders energy eo eff res, weighted_per_order data orders energy eo eff = Ok res ->
  Forall (fun row => Forall (fun x => 0 <= x) (snd row)) eff ->
  length res = length energy /\
  forall k lo hi, (k < length energy)%nat -> Forall (fun row => lo <= nth k row 0 <= hi) data -> match nth k res None with Some a => lo <= a <= hi | None => True end.
Proof. exact weighted_bounds. Qed.
Print Assumptions C59_weighted_per_order.
(** the order of the energies in the efficiency file does not matter *)
Theorem C59_file_order : forall data orders energy eo eff eff', NoDup (map fst eff) -> Permutation eff eff' ->
  weighted_per_order data orders energy eo eff = weighted_per_order data orders energy eo eff'.
Proof. exact weighted_row_order. Qed.
Print Assumptions C59_file_order.
(** at the energies in the file the weights are those in the file *)
Theorem C59_weight_at_node : forall eff j e probs, NoDup (map fst eff) -> In (e, probs) eff -> interp (eff_points eff j) e = Ok (nth j probs 0).
Proof.
  intros eff j e probs N I. apply interp_node; [apply sortP_asc; rewrite map_map; exact N|]. eapply Permutation_in; [symmetry; apply sortP_perm|]. apply in_map_iff. exists (e, probs). split; [reflexivity|exact I].
Qed.
Print Assumptions C59_weight_at_node.
Example C59_ex : average_R_Aeff [Some 100; None; Some 200] [1; 5; 3] = (Some 175, 9).
Proof. unfold average_R_Aeff, wavg. cbn [valid map fst snd]. rewrite num_div_some by (cbn; lra). f_equal; [f_equal; cbn; lra|cbn; lra]. Qed.
Example C59_ex2 : interp (eff_points [(2, [1]); (1, [0])] 0) (3 / 2) = Ok (/ 2).
Proof.
  unfold eff_points, sortP, interp. cbn [map fold_right insP fst snd nth]. rewrite (proj2 (Rltb_false 2 1)) by lra. cbn [insP].
  rewrite (proj2 (Rltb_false (3 / 2) 1)) by lra. cbn [interp_seg]. rewrite (proj2 (Rltb_true (3 / 2) 2)) by lra. f_equal. lra.
Qed.

(** C60: photons in the sector or in the mirrored sector are marked ... *)
Theorem C60_complete_partial : forall angle t c, 0 <= c <= twopi -> within angle c t \/ within angle (- c) t -> in_subaperture angle t c = true.
Proof. exact sub_complete. Qed.
Print Assumptions C60_complete_partial.
(** ... and no others, up to the relative tolerance of isclose *)
Theorem C60_sound_partial : forall angle t c, in_subaperture angle t c = true -> within angle c (t + / 100000 * Rabs c) \/ within angle (- c) (t + / 100000 * Rabs (twopi - c)).
Proof. exact sub_sound. Qed.
Print Assumptions C60_sound_partial.
(** C60, false: the relative tolerance makes the sectors wider than max_ang *)
Theorem C60_too_wide_refuted : exists angle t c, 0 <= c <= twopi /\ in_subaperture angle t c = true /\ ~ within angle c t /\ ~ within angle (- c) t.
Proof. exact sub_too_wide. Qed.
Print Assumptions C60_too_wide_refuted.
(** C60, false: with a negative central angle the photons at the very center are not found *)
Theorem C60_negative_center_refuted : exists t c, within c c t /\ 0 < t /\ in_subaperture c t c = false.
Proof. exact sub_negative_center. Qed.
Print Assumptions C60_negative_center_refuted.
Example C60_ex : in_subaperture (- (1 / 10)) (3 / 10) (1 / 10) = true /\ in_subaperture 1 (3 / 10) (1 / 10) = false.
Proof.
  assert (P := PI2_3_2). unfold PI2 in P. assert (P4 := PI_4). split; [apply sub_complete; [unfold twopi; lra|left; exists 0%Z; rewrite Rmult_0_r, Rplus_0_r; rewrite Rabs_left; lra]|].
  unfold in_subaperture, isclose_atol. rewrite Rmod_small by (unfold twopi; lra). apply orb_false_iff. split; apply Rleb_false.
  - rewrite (Rabs_right (1 / 10)), Rabs_right by lra. lra.
  - rewrite (Rabs_right (twopi - 1 / 10)) by (unfold twopi; lra). rewrite Rabs_left by (unfold twopi; lra). unfold twopi. lra.
Qed.

(** C61: the areas of all orders add up to the area of all photons in these orders. *)
Theorem C61_total : forall ph orders n A, n <> 0%nat -> NoDup orders -> exists l, effectivearea ph orders n A = map Some l /\ length l = length orders /\
  Rsum l = A / INR n * Rsum (map a_prob (filter (fun p => existsb (Z.eqb (a_order p)) orders) ph)).
Proof. exact area_total. Qed.
Print Assumptions C61_total.
Theorem C61_per_order : forall ph orders n A, n <> 0%nat -> effectivearea ph orders n A = map Some (map (fun o => A / INR n * Rsum (map a_prob (filter (fun p => Z.eqb (a_order p) o) ph))) orders).
Proof. exact effectivearea_some. Qed.
Print Assumptions C61_per_order.
Example C61_ex : effectivearea [AP 1 (1 / 2) None 0; AP 0 1 None 0; AP 1 1 None 0] [1; 2]%Z 3 6 = [Some 3; Some 0].
Proof. rewrite effectivearea_some by discriminate. cbn [map]. repeat f_equal; cbn; lra. Qed.

(** C95: nan resolving power with fewer than 20 photons in an order ... *)
Theorem C95_few_partial : forall stats ph orders z l, resolvingpower stats ph orders z = Ok l ->
  forall k, (k < length orders)%nat -> (length (coords_of ph (nth k orders 0%Z)) <= 20)%nat -> nth k l dflt = (None, None, None).
Proof.
  intros stats ph orders z l H k K F. unfold resolvingpower in H. destruct (match z with Some _ => _ | None => _ end) as [zero|]; [|discriminate]. cbn [bind] in H. injection H as <-.
  set (g := fun o => let '(pos, std) := line_stats stats ph o in (num_div (num_sub_abs pos zero) (num_mul std (Some (23548 / 10000))), pos, std)).
  rewrite nth_indep with (d' := g 0%Z) by (now rewrite map_length). change (nth k (map g orders) (g 0%Z) = (None, None, None)). rewrite map_nth. unfold g, line_stats. rewrite (proj2 (Nat.ltb_ge 20 _)) by exact F. reflexivity.
Qed.
Print Assumptions C95_few_partial.
(** ... and the clipped statistics of the photons in this order with more *)
Theorem C95_many_partial : forall stats ph orders z l, resolvingpower stats ph orders (Some z) = Ok l ->
  forall k m s, (k < length orders)%nat -> (20 < length (coords_of ph (nth k orders 0%Z)))%nat -> stats (coords_of ph (nth k orders 0%Z)) = (Some m, Some s) -> 0 < s ->
  nth k l dflt = (Some (Rabs (m - z) / (s * (23548 / 10000))), Some m, Some s).
Proof.
  intros stats ph orders z l H k m s K F S P. unfold resolvingpower in H. cbn [bind] in H. injection H as <-.
  set (g := fun o => let '(pos, std) := line_stats stats ph o in (num_div (num_sub_abs pos (Some z)) (num_mul std (Some (23548 / 10000))), pos, std)).
  rewrite nth_indep with (d' := g 0%Z) by (now rewrite map_length). change (nth k (map g orders) (g 0%Z) = (Some (Rabs (m - z) / (s * (23548 / 10000))), Some m, Some s)). rewrite map_nth. unfold g, line_stats.
  rewrite (proj2 (Nat.ltb_lt 20 _)) by exact F. rewrite S. cbn [num_sub_abs num_mul]. rewrite num_div_some; [reflexivity|]. nra.
Qed.
Print Assumptions C95_many_partial.
(** C95, false: 20 photons are not fewer than 20, yet the result is nan; the same 20 photons are enough to find order zero. *)
Theorem C95_twenty_refuted : exists ph, length (coords_of ph 0) = 20%nat /\ forall m s, 0 < s -> resolvingpower (fun _ => (Some m, Some s)) ph [0%Z] None = Ok [(None, None, None)].
Proof. exists (repeat (AP 0 1 (Some 0) 0) 20). split; [reflexivity|]. intros. reflexivity. Qed.
Print Assumptions C95_twenty_refuted.
Theorem C95_order_zero : forall stats ph orders, resolvingpower stats ph orders None = Err AnalysisError <-> (length (coords_of ph 0) < 20)%nat.
Proof.
  intros. unfold resolvingpower. destruct (Nat.ltb_spec (length (coords_of ph 0)) 20); cbn [bind]; split; intros; try reflexivity; try assumption; try discriminate. lia.
Qed.
Print Assumptions C95_order_zero.
Example C95_example : let ph := repeat (AP 2 1 (Some 5) 0) 21 in let stats := fun _ : list num => (Some 5, Some 2) in
  resolvingpower stats ph [2; 3]%Z (Some 1) = Ok [(Some (Rabs (5 - 1) / (2 * (23548 / 10000))), Some 5, Some 2); (None, None, None)] /\ resolvingpower stats ph [2; 3]%Z None = Err AnalysisError.
Proof.
  cbv zeta. split; [|reflexivity]. destruct (resolvingpower (fun _ : list num => (Some 5, Some 2)) (repeat (AP 2 1 (Some 5) 0) 21) [2; 3]%Z (Some 1)) as [l|e] eqn:E; [|discriminate].
  pose proof (C95_many_partial _ _ _ _ _ E 0%nat 5 2 ltac:(cbn; lia) ltac:(cbn; lia) eq_refl ltac:(lra)) as A. pose proof (C95_few_partial _ _ _ _ _ E 1%nat ltac:(cbn; lia) ltac:(cbn; lia)) as B.
  unfold resolvingpower in E. cbn [bind map] in E. injection E as <-. cbn [nth] in A, B. f_equal. apply f_equal2; [exact A|]. apply f_equal2; [exact B|reflexivity].
Qed.

(** C96: for every order the result is that of one of the columns, and none of them is worse. *)
Theorem C96_worst_case : forall stats lp zs orders out results, lp <> [] -> length lp = length zs ->
  sequence (map (fun pz => resolvingpower stats (fst pz) orders (snd pz)) (combine lp zs)) = Ok results ->
  robust stats lp zs orders = Ok out ->
  length out = length orders /\ forall k, (k < length orders)%nat ->
    In (nth k out dflt) (map (fun row => nth k row dflt) results) /\
    match rp (nth k out dflt) with None => True | Some b => Forall (fun row => exists r, rp (nth k row dflt) = Some r /\ b <= r) results end.
Proof. exact robust_spec. Qed.
Print Assumptions C96_worst_case.
(* photons at 10 (21 photons), standard deviation 1 and 2 in the two lists *)
Example C96_ex : exists out, robust (fun l => (Some 10, Some (INR (length l) - 20))) [repeat (AP 1 1 (Some 10) 0) 21; repeat (AP 1 1 (Some 10) 0) 22] [Some 0; Some 0] [1%Z] = Ok out.
Proof. eexists. unfold robust. cbn [length Nat.eqb negb combine map resolvingpower bind sequence seq np_argmin fst snd]. reflexivity. Qed.

(** C97: the areas that CaptureResAeff reports add up ... *)
Theorem C97_sum : forall stats flt A orders z photons n c, capture stats flt A orders z photons n = Ok c -> Aeff0 c + Aeffgrat c = Rsum (Aeff c) /\ length (Aeff c) = length orders /\ length (Rper c) = length orders.
Proof. exact capture_areas. Qed.
Print Assumptions C97_sum.
Theorem C97_total : forall stats flt A orders z photons n, counted n photons <> 0%nat -> NoDup orders -> exists c, capture stats flt A orders z photons n = Ok c /\
  Rsum (Aeff c) = A / INR (counted n photons) * Rsum (map a_prob (filter (fun p => existsb (Z.eqb (a_order p)) orders) (filter flt photons))).
Proof. exact capture_ok. Qed.
Print Assumptions C97_total.
(** ... and photons without coordinate or with probability 0 do not change the resolving power *)
Theorem C97_resolving_power : forall stats flt A orders z photons n c photons' n' c', capture stats flt A orders z photons n = Ok c -> capture stats flt A orders z photons' n' = Ok c' ->
  filter res_filter photons = filter res_filter photons' -> Rper c = Rper c'.
Proof. exact capture_res_ignores. Qed.
Print Assumptions C97_resolving_power.
Theorem C97_no_order_zero : forall stats flt A orders photons n c, capture stats flt A orders None photons n = Ok c -> (length (coords_of (filter res_filter photons) 0) < 20)%nat -> Rper c = repeat None (length orders).
Proof.
  intros stats flt A orders photons n c H L. apply (proj2 (C95_order_zero stats (filter res_filter photons) orders)) in L. unfold capture in H. rewrite L in H. destruct (nums _); [|discriminate]. cbn [bind] in H. injection H as <-. reflexivity.
Qed.
Print Assumptions C97_no_order_zero.
Example C97_ex : exists c, capture (fun _ => (None, None)) on_ccd 6 [0; 1]%Z None [AP 1 (1 / 2) None 3; AP 0 1 None (-1); AP 1 1 None 1] None = Ok c /\ Aeff0 c = 0 /\ Aeffgrat c = 3.
Proof. unfold capture. cbn [filter on_ccd a_ccd Z.leb Z.compare length]. rewrite effectivearea_some by discriminate. rewrite nums_some. cbn [bind]. eexists. split; [reflexivity|]. cbn. split; lra. Qed.

(** C98: the facet table has one row per facet, with projected position, polar coordinates and id. *)
Theorem C98_rows_partial : forall elems plane rows plane', facet_table elems plane = Ok (rows, plane') ->
  Forall2 (fun e r => f_id r = fst e /\ f_pos r = xyz (center (snd e)) /\ project (proj_pos4d plane) (center (snd e)) = Ok (Some (f_x r, f_y r)) /\
     f_rad r * f_rad r = f_x r * f_x r + f_y r * f_y r /\ 0 <= f_rad r /\
     f_x r = f_rad r * cos (f_ang r) /\ f_y r = f_rad r * sin (f_ang r)) elems rows /\
  plane' = Proj ("facet_projx", "facet_projy")%string (proj_pos4d plane).
Proof. exact facet_rows. Qed.
Print Assumptions C98_rows_partial.
(** C98, false: the plane that is passed in writes to other columns afterwards *)
Theorem C98_plane_changed_refuted : exists plane rows plane', facet_table [] plane = Ok (rows, plane') /\ loc_coos_name plane = ("proj_x", "proj_y")%string /\ plane' <> plane.
Proof. exists (Proj ("proj_x", "proj_y")%string id4). eexists. eexists. split; [reflexivity|]. split; [reflexivity|]. discriminate. Qed.
Print Assumptions C98_plane_changed_refuted.

(** C99: the columns are the coordinates of the foot point of the perpendicular on the plane. *)
Theorem C99_project : forall m p, perpendicular_axes m -> w4 p = 1 -> exists ex ey ez x y h, plane_bases m = Some (ey, ez, ex) /\ orthonormal (M3 (xyz ex) (xyz ey) (xyz ez)) /\
  project m p = Ok (Some (x, y)) /\ xyz p = add3 (xyz (center m)) (add3 (add3 (scale3 h (xyz ex)) (scale3 x (xyz ey))) (scale3 y (xyz ez))).
Proof. exact project_spec. Qed.
Print Assumptions C99_project.
Example C98_example : exists rows plane', facet_table [(7%Z, translation2aff (V3 2 3 4)); (8%Z, id4)] (Proj ("proj_x", "proj_y")%string id4) = Ok (rows, plane') /\
  map f_id rows = [7; 8]%Z /\ map f_pos rows = [V3 2 3 4; V3 0 0 0].
Proof.
  assert (AX : perpendicular_axes id4) by exact Grating_Proofs.id4_axes.
  destruct (C99_project id4 (center (translation2aff (V3 2 3 4))) AX eq_refl) as (_ & _ & _ & x & y & _ & _ & _ & P & _).
  destruct (C99_project id4 (center id4) AX eq_refl) as (_ & _ & _ & x' & y' & _ & _ & _ & P' & _).
  eexists _, _. split; [unfold facet_table; cbn [map sequence proj_pos4d snd fst]; rewrite P, P'; reflexivity|]. split; [reflexivity|]. cbn [map f_pos]. reflexivity.
Qed.
(* the example of the docstring *)
Example C99_ex : perpendicular_axes id4 /\ exists rows plane', facet_table [(7%Z, aff id3 (V3 3 4 3))] (Proj ("proj_x", "proj_y")%string id4) = Ok (rows, plane').
Proof.
  assert (P : perpendicular_axes id4). { unfold perpendicular_axes, affine. cbn. repeat split; try (intros H; first [apply (f_equal x3) in H; cbn in H; lra | apply (f_equal y3) in H; cbn in H; lra | apply (f_equal z3) in H; cbn in H; lra]); vu; ring. }
  split; [exact P|]. destruct (project_spec id4 (center (aff id3 (V3 3 4 3))) P eq_refl) as (ex & ey & ez & x & y & h & _ & _ & E & _). unfold facet_table. cbn [map sequence snd proj_pos4d fst]. rewrite E. cbn [bind]. eauto.
Qed.

(** C100: the mean width does not depend on the position and is 0 only for photons in one point. *)
Theorem C100_shift : forall l sx sy, mean_width_2d (map (fun p => (fst p + sx, snd p + sy)) l) = mean_width_2d l.
Proof. exact width_shift. Qed.
Print Assumptions C100_shift.
Theorem C100_zero : forall l w, mean_width_2d l = Some w -> 0 <= w /\ (w = 0 <-> exists q, Forall (fun p => p = q) l).
Proof. exact width_zero. Qed.
Print Assumptions C100_zero.
(** C100: turning all photons around a point does not change the width, a larger image has a width that is larger by the same factor, and the order of photons does not matter. *)
Theorem C100_similar : forall l a b sx sy w, mean_width_2d l = Some w -> mean_width_2d (map (fun p => (a * fst p - b * snd p + sx, b * fst p + a * snd p + sy)) l) = Some (sqrt (a * a + b * b) * w).
Proof. exact width_similar. Qed.
Print Assumptions C100_similar.
Theorem C100_order : forall l l', Permutation l l' -> mean_width_2d l = mean_width_2d l'.
Proof. exact width_perm. Qed.
Print Assumptions C100_order.
Example C100_ex : mean_width_2d [(0, 3); (4, 3)] = Some 2.
Proof.
  rewrite width_some by discriminate. f_equal. unfold width_of. set (mx := mean (map fst [(0, 3); (4, 3)])). set (my := mean (map snd [(0, 3); (4, 3)])).
  replace mx with 2 by (unfold mx, mean; cbn; lra). replace my with 3 by (unfold my, mean; cbn; lra). cbn [map fst snd length INR].
  replace ((0 - 2) * (0 - 2) + (3 - 3) * (3 - 3)) with (2 * 2) by lra. replace ((4 - 2) * (4 - 2) + (3 - 3) * (3 - 3)) with (2 * 2) by lra. rewrite sqrt_square by lra. cbn. lra.
Qed.

(** C101: detected fractions *)
Theorem C101_fraction : forall ph labels, ph <> [] -> NoDup labels -> Forall (fun p => 0 <= a_prob p <= 1) ph ->
  exists l, detected_fraction ph labels = map Some l /\ Forall (fun x => 0 <= x <= 1) l /\ 0 <= Rsum l <= 1.
Proof. exact fraction_total. Qed.
Print Assumptions C101_fraction.
(** C101: the fraction of a label: the probability of all photons with this label, divided by the number of all photons *)
Theorem C101_value : forall ph labels k o, ph <> [] -> nth_error labels k = Some o ->
  nth_error (detected_fraction ph labels) k = Some (Some (Rsum (map (fun p => if Z.eq_dec (a_order p) o then a_prob p else 0) ph) / INR (length ph))).
Proof. exact fraction_value. Qed.
Print Assumptions C101_value.
Example C101_ex : detected_fraction [AP 1 (1 / 2) None 0; AP 0 1 None 0] [1; 0]%Z = [Some (1 / 4); Some (1 / 2)].
Proof. rewrite fraction_some by discriminate. cbn [map]. apply f_equal2; [f_equal; cbn; lra|]. apply f_equal2; [f_equal; cbn; lra|reflexivity]. Qed.

(** C59: the weights of an order are those of the column with this order *)
Theorem C59_order_column : forall eo eff energy o j, NoDup eo -> nth_error eo j = Some o -> order_weights eo eff energy o = sequence (map (interp (eff_points eff j)) energy).
Proof.
  intros eo eff energy o j N E. unfold order_weights. assert (P : forall l s j, NoDup l -> nth_error l j = Some o -> positions o l s = [(s + j)%nat]).
  { clear. induction l as [|x l IH]; intros s j N E; [destruct j; discriminate|]. inversion N as [|a b NI ND]; subst. cbn [positions]. destruct j as [|j]; cbn [nth_error] in E.
    - injection E as ->. rewrite Z.eqb_refl, Nat.add_0_r. f_equal. clear - NI. revert s. induction l as [|y l IH]; intros s; [reflexivity|]. cbn [positions]. destruct (Z.eqb_spec y o) as [->|_]; [exfalso; apply NI; now left|]. apply IH. intros I. apply NI. now right.
    - destruct (Z.eqb_spec x o) as [->|_]; [exfalso; apply NI; eapply nth_error_In; exact E|]. rewrite (IH (Datatypes.S s) j ND E). f_equal. lia. }
  rewrite (P eo 0%nat j N E). reflexivity.
Qed.
Print Assumptions C59_order_column.
Theorem C59_unknown_order : forall eo eff energy o, ~ In o eo -> order_weights eo eff energy o = Err KeyError.
Proof.
  intros eo eff energy o N. unfold order_weights. replace (positions o eo 0) with (@nil nat); [reflexivity|]. symmetry. generalize 0%nat. induction eo as [|x l IH]; intros s; [reflexivity|]. cbn [positions]. destruct (Z.eqb_spec x o) as [->|_]; [exfalso; apply N; now left|]. apply IH. intros I. apply N. now right.
Qed.
Print Assumptions C59_unknown_order.
Example C59_order_ex : NoDup [1; -1]%Z /\ nth_error [1; -1]%Z 1 = Some (-1)%Z.
Proof. split; [repeat constructor; cbn; intuition discriminate|reflexivity]. Qed.
(** C97: the resolving power only depends on photons that have a coordinate and a probability *)
Theorem C97_detected_only : forall stats flt A orders z photons n c photons' n' c', capture stats flt A orders z photons n = Ok c -> capture stats flt A orders z photons' n' = Ok c' ->
  photons' = filter (fun p => match a_coord p with Some _ => Rltb 0 (a_prob p) | None => false end) photons -> Rper c = Rper c'.
Proof.
  intros stats flt A orders z photons n c photons' n' c' H H' E. eapply capture_res_ignores; [exact H|exact H'|]. rewrite E. clear. induction photons as [|p l IH]; [reflexivity|]. cbn [filter]. unfold res_filter at 1. destruct (a_coord p) as [x|] eqn:EC; cbn [andb]; [|exact IH].
  destruct (Rltb 0 (a_prob p)) eqn:EP; [|exact IH]. cbn [filter]. unfold res_filter at 2. rewrite EC, EP. cbn [andb]. now f_equal.
Qed.
Print Assumptions C97_detected_only.
(** the variant for CCDs counts photons on any CCD, also the one with number 0 *)
Theorem C97_ccd : forall stats A orders z photons n, counted n photons <> 0%nat -> NoDup orders -> exists c, capture stats on_ccd A orders z photons n = Ok c /\
  Rsum (Aeff c) = A / INR (counted n photons) * Rsum (map a_prob (filter (fun p => existsb (Z.eqb (a_order p)) orders) (filter (fun p => Z.leb 0 (a_ccd p)) photons))).
Proof. intros stats A orders z photons n C N. exact (capture_ok stats on_ccd A orders z photons n C N). Qed.
Print Assumptions C97_ccd.
(** the general variant counts all photons, so no order has a smaller area than with the variant for CCDs *)
Theorem C97_all : forall stats A orders z photons n, counted n photons <> 0%nat -> NoDup orders -> 0 <= A -> (forall p, In p photons -> 0 <= a_prob p) ->
  exists c c', capture stats all_photons A orders z photons n = Ok c /\ capture stats on_ccd A orders z photons n = Ok c' /\
  Rsum (Aeff c) = A / INR (counted n photons) * Rsum (map a_prob (filter (fun p => existsb (Z.eqb (a_order p)) orders) photons)) /\ Rsum (Aeff c') <= Rsum (Aeff c).
Proof.
  intros stats A orders z photons n C N PA PP. destruct (capture_ok stats all_photons A orders z photons n C N) as (c & H & S). destruct (capture_ok stats on_ccd A orders z photons n C N) as (c' & H' & S').
  assert (F : filter all_photons photons = photons) by (clear; induction photons as [|p l IH]; [reflexivity|]; cbn; now rewrite IH). rewrite F in S. exists c, c'. split; [exact H|]. split; [exact H'|]. split; [exact S|]. rewrite S, S'.
  apply Rmult_le_compat_l. { assert (0 < INR (counted n photons)) by (apply lt_0_INR; lia). apply Rmult_le_pos; [exact PA|]. apply Rlt_le, Rinv_0_lt_compat. assumption. }
  clear - PP. induction photons as [|p l IH]; [cbn; lra|]. assert (PL : forall q, In q l -> 0 <= a_prob q) by (intros q I; apply PP; now right). specialize (IH PL). pose proof (PP p (or_introl eq_refl)).
  cbn [filter]. destruct (on_ccd p); cbn [filter]; destruct (existsb (Z.eqb (a_order p)) orders); cbn [map Rsum]; try lra; unfold Rsum in *; cbn [fold_right]; lra.
Qed.
Print Assumptions C97_all.
Example C97_ex_all : let ph := [AP 1 (1 / 2) None 3; AP 0 1 None (-1); AP 1 1 None 1] in counted None ph = 3%nat /\ NoDup [0; 1]%Z /\ (forall p, In p ph -> 0 <= a_prob p) /\
  exists c, capture (fun _ => (None, None)) all_photons 6 [0; 1]%Z None ph None = Ok c /\ Rsum (Aeff c) = 5.
Proof.
  cbv zeta. assert (N : NoDup [0; 1]%Z) by (constructor; [intros [H|[]]; discriminate|constructor; [intros []|constructor]]). assert (P : forall p, In p [AP 1 (1 / 2) None 3; AP 0 1 None (-1); AP 1 1 None 1] -> 0 <= a_prob p) by (intros p [<-|[<-|[<-|[]]]]; cbn; lra).
  split; [reflexivity|]. split; [exact N|]. split; [exact P|]. assert (C0 : counted None [AP 1 (1 / 2) None 3; AP 0 1 None (-1); AP 1 1 None 1] <> 0%nat) by (cbn; lia). destruct (C97_all (fun _ => (None, None)) 6 [0; 1]%Z None _ None C0 N ltac:(lra) P) as (c & _ & C & _ & S & _). exists c. split; [exact C|]. rewrite S. cbn. lra.
Qed.
