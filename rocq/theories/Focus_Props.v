(** Properties C166-C169: best focus, resolving power per order, radius of a shell, colors of orders. *)
From Verif Require Import Base_Proofs Vec_Proofs Osip_Proofs Plane_Proofs Focus_Proofs.
Open Scope R_scope.

(** C166: the detector is moved perpendicular to its plane: at the try x the columns are the coordinates in the axes of the detector of the point where the ray meets the plane at distance x from the origin *)
Theorem C166_perpendicular : forall o ph old cols x i p q, orthonormal o -> det_columns (try_position o x) ph old = Ok cols ->
  match old with Some l => List.length l = List.length ph | None => True end -> nth_error ph i = Some p -> meets (a0 o) x p q ->
  Rabs (dot3 (a1 o) q) <= 100000 -> Rabs (dot3 (a2 o) q) <= 100000 -> nth_error cols i = Some (Some (dot3 (a1 o) q), Some (dot3 (a2 o) q)).
Proof. intros o ph old cols x i p q O H L E M A B. exact (columns_spec o ph old cols x i p q O H L E M (conj A B)). Qed.
Print Assumptions C166_perpendicular.
(** rays that go through one point: the width is 0 there and at no other place negative, so a minimizer that finds a minimum finds a place of width 0 *)
Theorem C166_focus_partial : forall o F ph old, orthonormal o -> Rabs (dot3 (a1 o) F) <= 100000 -> Rabs (dot3 (a2 o) F) <= 100000 -> ph <> [] ->
  match old with Some l => List.length l = List.length ph | None => True end -> Forall (through F) ph -> Forall (fun p => dot3 (a0 o) (xyz (f_dir p)) <> 0) ph ->
  width obj_mean o ph old (dot3 (a0 o) F) = Ok (Some 0) /\ (forall x w, width obj_mean o ph old x = Ok (Some w) -> 0 <= w) /\
  forall minimize x0,
    (forall f x, minimize f = Ok x -> forall y, match f x, f y with Ok (Some a), Ok (Some b) => a <= b | Ok (Some _), _ => True | _, Ok (Some _) => False | _, _ => True end) ->
    find_best minimize obj_mean o ph old = Ok (x0, ph) -> width obj_mean o ph old x0 = Ok (Some 0).
Proof.
  intros o F ph old O A B N L T D. split; [exact (focus_zero o F ph old O (conj A B) N L T D)|]. split; [intros x w; apply width_nonneg|]. intros m x0 M. exact (best_focus m o F ph old x0 O (conj A B) N L T D M).
Qed.
Print Assumptions C166_focus_partial.
(** the same for the standard deviation of one column *)
Theorem C166_focus_std_partial : forall std o F ph old, (forall c n, n <> 0%nat -> std (repeat (Some c) n) = Some 0) -> orthonormal o -> Rabs (dot3 (a1 o) F) <= 100000 -> Rabs (dot3 (a2 o) F) <= 100000 -> ph <> [] ->
  match old with Some l => List.length l = List.length ph | None => True end -> Forall (through F) ph -> Forall (fun p => dot3 (a0 o) (xyz (f_dir p)) <> 0) ph -> width (obj_std std) o ph old (dot3 (a0 o) F) = Ok (Some 0).
Proof. intros std o F ph old S O A B N L T D. exact (focus_std std o F ph old S O (conj A B) N L T D). Qed.
Print Assumptions C166_focus_std_partial.
(** C166, false: a try behind all photons has no width, it fails if there was no detector before *)
Theorem C166_behind_refuted : forall o ph objective x, orthonormal o ->
  Forall (fun p => exists d s, f_dir p = hom d 0 /\ f_ppos p = hom s 1 /\ x < dot3 (a0 o) s /\ 0 <= dot3 (a0 o) d) ph -> width objective o ph None x = Err KeyError.
Proof. exact behind. Qed.
Print Assumptions C166_behind_refuted.
(** C166, false: if there was a detector before, photons that miss keep the coordinates of that detector in the width of this try *)
Theorem C166_old_refuted : forall o p c objective x, orthonormal o -> (exists d s, f_dir p = hom d 0 /\ f_ppos p = hom s 1 /\ x < dot3 (a0 o) s /\ 0 <= dot3 (a0 o) d) ->
  width objective o [p] (Some [c]) x = objective [c].
Proof.
  intros o p c objective x O H. pose proof (behind o [p] objective x O (Forall_cons _ H (Forall_nil _))) as B. unfold width, det_columns in *. destruct (existsb (hits (try_position o x)) [p]) eqn:E; [|reflexivity].
  exfalso. cbn [existsb] in E. rewrite orb_false_r in E. unfold hits in E. destruct H as (d & s & E1 & E2 & X & D). rewrite E1, E2, try_is in E. rewrite (tile_miss o x big O) in E; [discriminate|unfold big; lra|].
  intros k K Y _. rewrite dot3_add_r, dot3_scale_r in Y. nra.
Qed.
Print Assumptions C166_old_refuted.
(** C166, false: the photon list is not set to the intersection with the last try *)
Theorem C166_side_effect_refuted : forall minimize objective o ph old x ph', find_best minimize objective o ph old = Ok (x, ph') -> ph' = ph.
Proof. intros minimize objective o ph old x ph' H. unfold find_best in H. destruct (minimize _); [|discriminate]. cbn [bind] in H. congruence. Qed.
Print Assumptions C166_side_effect_refuted.
(** ... so that after the call no photon is where it would meet the detector, if it was not there before *)
Theorem C166_place_refuted : forall minimize objective o ph old x ph' i p q, orthonormal o -> find_best minimize objective o ph old = Ok (x, ph') -> nth_error ph i = Some p -> meets (a0 o) x p q ->
  Rabs (dot3 (a1 o) q) <= 100000 -> Rabs (dot3 (a2 o) q) <= 100000 -> on_detector (try_position o x) p = FP (f_dir p) (hom q 1) (f_prob p) (f_shell p) /\ (f_ppos p <> hom q 1 -> nth_error ph' i <> Some (on_detector (try_position o x) p)).
Proof.
  intros minimize objective o ph old x ph' i p q O H E (d & s & k & E1 & E2 & K & -> & X & N) A B. rewrite (C166_side_effect_refuted _ _ _ _ _ _ _ H), E.
  assert (T : on_detector (try_position o x) p = FP (f_dir p) (hom (add3 s (scale3 k d)) 1) (f_prob p) (f_shell p)).
  { unfold on_detector. rewrite try_is, E1, E2. now rewrite (tile_hit o x big O ltac:(unfold big; lra) d s k K N X (conj A B)). }
  split; [exact T|]. intros NE Q. rewrite T in Q. apply NE. assert (Q' : p = FP (f_dir p) (hom (add3 s (scale3 k d)) 1) (f_prob p) (f_shell p)) by congruence. rewrite Q'. reflexivity.
Qed.
Print Assumptions C166_place_refuted.
Definition ex_ray (s d : v3) : fphot := FP (hom d 0) (hom s 1) 1 0.
Example C166_ex : orthonormal id3 /\ Forall (through (V3 1 2 3)) [ex_ray (V3 5 2 3) (V3 (-1) 0 0); ex_ray (V3 5 6 3) (V3 (-2) (-2) 0)] /\
  Forall (fun p => dot3 (a0 id3) (xyz (f_dir p)) <> 0) [ex_ray (V3 5 2 3) (V3 (-1) 0 0); ex_ray (V3 5 6 3) (V3 (-2) (-2) 0)] /\ dot3 (a0 id3) (V3 1 2 3) = 1 /\
  meets (a0 id3) 3 (ex_ray (V3 5 6 3) (V3 (-2) (-2) 0)) (V3 3 4 3).
Proof.
  split; [exact ortho_id|]. split; [|split; [|split]].
  - repeat constructor; [exists (V3 (-1) 0 0), (V3 5 2 3), 4|exists (V3 (-2) (-2) 0), (V3 5 6 3), 2]; (split; [reflexivity|split; [reflexivity|split; [lra|]]]); cbv [add3 scale3 x3 y3 z3]; f_equal; ring.
  - repeat constructor; cbv [ex_ray f_dir hom xyz dot3 a0 id3 x3 y3 z3 x4 y4 z4]; lra.
  - cbv [dot3 a0 id3 x3 y3 z3]; ring.
  - exists (V3 (-2) (-2) 0), (V3 5 6 3), 1. split; [reflexivity|]. split; [reflexivity|]. split; [lra|]. split; [cbv [add3 scale3 x3 y3 z3]; f_equal; ring|]. cbv [dot3 a0 id3 x3 y3 z3]; split; lra.
Qed.

(** C167: the result for an order comes from the photons that went to this order with a probability, after all gratings were set to this order, whatever was computed before; all gratings are left at the last order *)
Theorem C167_orders : forall Ph order_of prob_of trace torus_col user_col best flat_col stats det photons orders g res g',
  resolvingpower_per_order Ph order_of prob_of trace torus_col user_col best flat_col stats det photons orders g = Ok (res, g') ->
  exists zero, zero_order Ph prob_of torus_col user_col stats det photons = Ok zero /\
    Forall2 (fun o r => exists c, r = line_result stats zero c /\
      let pg := filter (fun p => Z.eqb (order_of p) o && Rltb 0 (prob_of p))%bool (trace (map (fun _ => [o]) (g_sel g)) photons) in
      match det with DTorus => torus_col pg = Ok c | DUser => user_col pg = Ok c | DNone => exists x, best pg = Ok x /\ flat_col x pg = Ok c end) orders res /\
    (forall o l, rev orders = o :: l -> g_sel g' = map (fun _ => [o]) (g_sel g) /\ g_args g' = Some [o]).
Proof.
  intros Ph order_of prob_of trace torus_col user_col best flat_col stats det photons orders g res g' H. destruct (power_spec _ _ _ _ _ _ _ _ _ _ _ _ _ _ _ H) as (zero & Z0 & F & G). exists zero. split; [exact Z0|]. split.
  - eapply RayGrid_Proofs2.Forall2_imp; [|exact F]. intros o r (c & C & ->). exists c. split; [reflexivity|]. cbn zeta. unfold order_column in C. destruct det; try exact C. destruct (best _) as [x|]; [|discriminate]. exists x. split; [reflexivity|exact C].
  - intros o l E. rewrite E in G. subst g'. split; reflexivity.
Qed.
Print Assumptions C167_orders.
(** the resolving power is the distance to the zeroth order over the full width at half maximum of a Gaussian with this standard deviation *)
Theorem C167_power : forall stats zero c m s, stats c = (Some m, Some s) -> 0 < s -> line_result stats (Some zero) c = (Some (Rabs (m - zero) / (23548 / 10000 * s)), Some (23548 / 10000 * s)).
Proof. exact line_spec. Qed.
Print Assumptions C167_power.
(** C167, false: FWHM / position, as the documentation of the result says *)
Theorem C167_inverse_refuted : exists stats zero c m s res fwhm, stats c = (Some m, Some s) /\ line_result stats (Some zero) c = (Some res, Some fwhm) /\ res <> fwhm / Rabs (m - zero).
Proof.
  exists (fun _ => (Some (23548 / 1000), Some 1)), 0, [], (23548 / 1000), 1, 10, (23548 / 10000). split; [reflexivity|]. split.
  - rewrite (line_spec _ 0 [] (23548 / 1000) 1 eq_refl) by lra. rewrite Rabs_right by lra. f_equal; f_equal; field.
  - rewrite Rabs_right by lra. intros E. assert (X : 10 * (23548 / 1000 - 0) = 23548 / 10000) by (rewrite E; field; lra). lra.
Qed.
Print Assumptions C167_inverse_refuted.
(** C167: for the torus the zeroth order is found from photons with a probability only; for a detector that is passed in from all photons *)
Theorem C167_zero : forall Ph prob_of torus_col user_col stats photons,
  zero_order Ph prob_of torus_col user_col stats DNone photons = Ok (Some 0) /\
  (forall c, torus_col photons = Ok c -> zero_order Ph prob_of torus_col user_col stats DTorus photons = Ok (fst (stats (map snd (filter (fun pc => Rltb 0 (prob_of (fst pc))) (combine photons c)))))) /\
  (forall c, user_col photons = Ok c -> zero_order Ph prob_of torus_col user_col stats DUser photons = Ok (fst (stats c))).
Proof. intros Ph prob_of torus_col user_col stats photons. cbn [zero_order]. split; [reflexivity|]. split; intros c ->; reflexivity. Qed.
Print Assumptions C167_zero.
Theorem C167_zero_refuted : exists (col : list (R * R) -> result (list num)) stats photons,
  (forall l c, stats (l ++ [c]) = (c, Some 1)) /\ Exists (fun p : R * R => fst p <= 0) photons /\
  zero_order (R * R) fst col col stats DTorus photons = Ok (Some 1) /\ zero_order (R * R) fst col col stats DUser photons = Ok (Some 2).
Proof.
  exists (fun l => Ok (map (fun p => Some (snd p)) l)), (fun l => (last l None, Some 1)), [(1, 1); (0, 2)]. split; [intros l c; now rewrite last_last|]. split; [right; left; cbn; lra|]. split; [|reflexivity].
  cbn [zero_order bind map snd combine filter fst]. unfold Rltb. destruct (Rlt_dec 0 1); [|lra]. destruct (Rlt_dec 0 0); [lra|]. reflexivity.
Qed.
Print Assumptions C167_zero_refuted.
Example C167_ex : exists res, resolvingpower_per_order (Z * R) fst snd (fun sel ph => map (fun p => (nth 0 (concat sel) 0%Z, snd p)) ph) (fun l => Ok []) (fun l => Ok (map (fun p => Some (IZR (fst p))) l)) (fun _ => Ok 0) (fun _ _ => Ok [])
    (fun l => (nth 0 l (Some 0), Some 1)) DUser [(0%Z, 1)] [1%Z; 2%Z] (Gas [[7%Z]; [8%Z]] None) = Ok (res, Gas [[2%Z]; [2%Z]] (Some [2%Z])) /\ List.length res = 2%nat.
Proof. eexists. split; [reflexivity|reflexivity]. Qed.

(** C168: rays on straight lines to the focal point (a cone with its tip in the origin): the radius of each photon of the shell shrinks with the distance to the focal point *)
Theorem C168_cone_partial : forall pct shell x percentile ph old, match old with Some l => List.length l = List.length ph | None => True end -> ph <> [] ->
  Forall (fun p => exists s t, 0 < t /\ f_dir p = hom (scale3 (- t) s) 0 /\ f_ppos p = hom s 1 /\ 0 <= x <= x3 s /\ 0 < x3 s /\ Rabs (y3 s) <= 100000000 /\ Rabs (z3 s) <= 100000000) ph ->
  find_radius_of_photon_shell pct shell x percentile ph old =
  Ok (map (pct (map (fun p => Some (x / x4 (f_ppos p) * sqrt (y4 (f_ppos p) * y4 (f_ppos p) + z4 (f_ppos p) * z4 (f_ppos p)))) (filter (fun p => Rltb 0 (f_prob p) && Z.eqb (f_shell p) shell)%bool ph))) percentile).
Proof.
  intros pct shell x percentile ph old L N F. unfold find_radius_of_photon_shell. rewrite (cone_radii shell x ph old L N); [reflexivity|]. eapply Forall_impl; [|exact F]. intros p (s & t & T & E1 & E2 & X & P & Y & Z). exists s.
  split; [exists t; auto|auto].
Qed.
Print Assumptions C168_cone_partial.
(** C168, false: further out than the photons there is no radius, the function fails (or gives nan, if some photons are hit) *)
Theorem C168_outside_refuted : forall pct shell x percentile ph, Forall (fun p => exists s t, 0 < t /\ f_dir p = hom (scale3 (- t) s) 0 /\ f_ppos p = hom s 1 /\ 0 < x3 s < x) ph ->
  find_radius_of_photon_shell pct shell x percentile ph None = Err KeyError.
Proof.
  intros pct shell x percentile ph F. unfold find_radius_of_photon_shell, shell_radii. rewrite det_none; [reflexivity|]. eapply Forall_impl; [|exact F]. intros p (s & t & T & E1 & E2 & X). rewrite E1, E2.
  change (compose (V3 x 0 0) id3 (V3 100000000 100000000 100000000)) with (compose (V3 x 0 0) id3 (V3 100000000 100000000 100000000)).
  replace (V3 x 0 0) with (app3 id3 (V3 x 0 0)) by apply app3_id. apply (tile_miss id3 x 100000000 ortho_id); [lra|]. intros k K E _. rewrite dot3_add_r, !dot3_scale_r in E. assert (D : dot3 (a0 id3) s = x3 s) by (destruct s; vring). rewrite D in E.
  assert (0 <= k * (t * x3 s)) by (apply Rmult_le_pos; [exact K|apply Rmult_le_pos; lra]). lra.
Qed.
Print Assumptions C168_outside_refuted.
Example C168_ex : exists s t, 0 < t /\ hom (V3 (-1) (-2) (-2)) 0 = hom (scale3 (- t) s) 0 /\ 0 <= 5 <= x3 s /\ s = V3 10 20 20.
Proof. exists (V3 10 20 20), (1 / 10). split; [lra|]. split; [cbv [hom scale3 x3 y3 z3]; f_equal; field|]. cbn [x3]. split; [lra|reflexivity]. Qed.

(** C169: every order up to the maximum has a style, others fail *)
Theorem C169_range_partial : forall C (colors : list C) n o, List.length colors = n_colors n -> (0 <= n)%Z ->
  ((Z.abs o <= n)%Z -> exists st, order_color colors o = Ok st) /\ ((n < Z.abs o)%Z -> order_color colors o = Err IndexError).
Proof. intros C colors n o L N. split; intros B; [eapply color_in; eauto|eapply color_out; eauto]. Qed.
Print Assumptions C169_range_partial.
(** styles tell orders apart if the colors are different, and opposite orders have the same color in different line styles *)
Theorem C169_different : forall C (colors : list C) o o' s, NoDup colors -> order_color colors o = Ok s -> order_color colors o' = Ok s -> o = o'.
Proof. exact @color_inj. Qed.
Print Assumptions C169_different.
Theorem C169_opposite : forall C (colors : list C) o s s', order_color colors o = Ok s -> order_color colors (- o) = Ok s' -> o <> 0%Z -> st_color s = st_color s' /\ st_solid s = negb (st_solid s') /\ st_lw s = st_lw s'.
Proof. exact @color_opposite. Qed.
Print Assumptions C169_opposite.
Theorem C169_zero : forall C (colors : list C), order_color colors 0 = Ok (Style C None true 4 (Some (7 / 10))).
Proof. reflexivity. Qed.
Print Assumptions C169_zero.
(** C169, false: a maximum given as negative order (the code takes an absolute value, after adding one) *)
Theorem C169_negative_refuted : exists n (colors : list nat), List.length colors = n_colors n /\ order_color colors n = Err IndexError.
Proof. exists (-3)%Z, [0; 1]%nat. split; reflexivity. Qed.
Print Assumptions C169_negative_refuted.
Example C169_ex : order_color [10; 11; 12]%nat (-2) = Ok (Style nat (Some 12%nat) true 2 None) /\ n_colors 2 = 3%nat.
Proof. split; reflexivity. Qed.
