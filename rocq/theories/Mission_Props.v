(** Properties C70, C71, C108-C112: CAT gratings, booms, filters, baffles and tables. *)
From Verif Require Import Mission_Proofs.
Open Scope R_scope.

(** C70: quality factor between 0 and 1, 1 in order 0, the same for both signs, smaller for higher orders. *)
Theorem C70_quality : forall sigma d order, let f := qf_factor sigma d in
  0 < qf_probability f order <= 1 /\ qf_probability f 0 = 1 /\ qf_probability f (- order) = qf_probability f order /\
  (forall order', (Z.abs order <= Z.abs order')%Z -> qf_probability f order' <= qf_probability f order).
Proof.
  intros sigma d order f. assert (F := qf_range sigma d). fold f in F. split; [apply pow_range; exact F|]. split; [reflexivity|]. split; [unfold qf_probability; do 2 f_equal; lia|].
  intros order' H. apply pow_decr; [exact F|]. apply Z2Nat.inj_le; nia.
Qed.
Print Assumptions C70_quality.
(** L1: photons with a draw above the open fraction keep direction and polarization, are in order 0 and get the transmission; all others are diffracted. The photon is the
    one that belongs to the row: the j-th photon that hits. *)
Theorem C70_l1 : forall open trans photons mask cat draws out, length cat = length (filter (fun b : bool => b) mask) -> length draws = length cat ->
  l1_process open trans photons mask cat draws = Ok out ->
  length out = length cat /\ forall j c i r, nth_error cat j = Some c -> nth_error (nonzero_from 0 mask) j = Some i -> nth_error draws j = Some r ->
    nth_error mask i = Some true /\ exists p c', nth_error photons i = Some p /\ nth_error out j = Some c' /\
      (r <= open -> c' = c) /\
      (open < r -> c_dir c' = l_dir p /\ c_pol c' = l_pol p /\ c_order c' = 0%Z /\ c_blaze c' = c_blaze c /\ trans (l_energy p) = Ok (c_prob c')).
Proof.
  intros open trans photons mask cat draws out L1 L2 H. unfold l1_process in H. destruct (l1_rows_spec _ _ _ _ _ _ _ ltac:(rewrite nonzero_length; symmetry; exact L1) L2 H) as [A B]. split; [exact A|].
  intros j c i r Q1 Q2 Q3. destruct (B j c i r Q1 Q2 Q3) as (p & P & c' & O & E). split; [destruct (nonzero_spec _ _ _ _ Q2) as [_ M]; rewrite Nat.sub_0_r in M; exact M|].
  exists p, c'. split; [exact P|]. split; [exact O|]. unfold l1_photon in E. destruct (Rltb open r) eqn:X.
  - apply Rltb_true in X. split; [lra|]. intros _. destruct (trans (l_energy p)) as [t|]; [|discriminate]. cbn in E. injection E as <-. repeat split.
  - apply Rltb_false in X. split; [|lra]. intros _. congruence.
Qed.
Print Assumptions C70_l1.
(** It does not fail if the transmission is known for all energies. *)
Theorem C70_l1_ok : forall open trans photons mask cat draws, length mask = length photons -> (forall p, In p photons -> exists t, trans (l_energy p) = Ok t) ->
  exists out, l1_process open trans photons mask cat draws = Ok out.
Proof.
  intros open trans photons mask cat draws L T. apply l1_rows_ok; [|exact T]. intros i Hi. apply In_nth_error in Hi. destruct Hi as [j Hi]. destruct (nonzero_spec _ _ _ _ Hi) as [_ M].
  rewrite Nat.sub_0_r in M. rewrite <- L. apply nth_error_Some. congruence.
Qed.
Print Assumptions C70_l1_ok.
Theorem C70_open_fraction : forall w p, 0 <= w -> check_lx_dims w p = Ok tt -> 0 < l1_open w p <= 1.
Proof.
  intros w p W H. unfold check_lx_dims in H. destruct (Rltb w p) eqn:E; [|discriminate]. apply Rltb_true in E. unfold l1_open. assert (P : 0 < / p) by (apply Rinv_0_lt_compat; lra). unfold Rdiv.
  assert (w * / p < p * / p) by (apply Rmult_lt_compat_r; lra). rewrite Rinv_r in H0 by lra. nra.
Qed.
Print Assumptions C70_open_fraction.
Theorem C70_dims_refused : forall w p, p <= w -> check_lx_dims w p = Err ValueError.
Proof. intros w p H. unfold check_lx_dims. rewrite (proj2 (Rltb_false w p)) by lra. reflexivity. Qed.
Print Assumptions C70_dims_refused.
(** L2: never more than the open area, and exactly that at normal incidence *)
Theorem C70_l2_upper : forall depth p w c, 0 <= w < p -> 0 <= depth -> Rabs c <= 1 -> l2_probability depth p w c <= ((p - w) / p) ^ 2 /\ ((p - w) / p) ^ 2 <= 1.
Proof. exact l2_upper. Qed.
Print Assumptions C70_l2_upper.
Theorem C70_l2_normal : forall depth p w c, Rabs c = 1 -> l2_probability depth p w c = ((p - w) / p) ^ 2.
Proof.
  intros depth p w c C. unfold l2_probability. rewrite C, acos_1, sin_0. unfold Rdiv. ring.
Qed.
Print Assumptions C70_l2_normal.
(** L2: not negative if and only if the shadow is not longer than the opening; true for the default dimensions. *)
Theorem C70_l2_lower_partial : forall depth p w c, w < p -> 0 < p -> (0 <= l2_probability depth p w c <-> 2 * depth * sin (acos (Rabs c)) <= (p - w) * sqrt 3).
Proof. exact l2_sign. Qed.
Print Assumptions C70_l2_lower_partial.
Theorem C70_l2_default : forall c, Rabs c <= 1 -> 0 <= l2_probability (1 / 2) (9622504 / 10000000) (962250 / 10000000) c.
Proof. exact l2_default. Qed.
Print Assumptions C70_l2_default.
(** L2, false: a negative probability for deep bars although the dimensions are accepted. *)
Theorem C70_l2_negative_refuted : check_lx_dims (1 / 10) 1 = Ok tt /\ l2_probability 2 1 (1 / 10) 0 < 0.
Proof.
  split; [unfold check_lx_dims; rewrite (proj2 (Rltb_true (1 / 10) 1)) by lra; reflexivity|].
  destruct (Rlt_le_dec (l2_probability 2 1 (1 / 10) 0) 0) as [L|L]; [exact L|]. apply l2_sign in L; [|lra|lra]. assert (S := sqrt3_bounds).
  rewrite Rabs_R0, acos_0, sin_PI2 in L. lra.
Qed.
Print Assumptions C70_l2_negative_refuted.
(** Support bars *)
Theorem C70_support : forall facet prob, length facet = length prob -> length (catsupportbars (Some facet) prob) = length prob /\
  (forall j f p, nth_error facet j = Some f -> nth_error prob j = Some p -> nth_error (catsupportbars (Some facet) prob) j = Some (if (f <? 0)%Z then 0 else p)) /\
  (forall x, In x (catsupportbars None prob) -> x = 0).
Proof.
  intros facet prob L. split; [unfold catsupportbars; rewrite map_length, combine_length; lia|]. split.
  - intros j f p A B. unfold catsupportbars. rewrite (combine_map_nth _ _ _ _ _ _ A B). reflexivity.
  - intros x H. apply in_map_iff in H. destruct H as (y & <- & _). reflexivity.
Qed.
Print Assumptions C70_support.
Example C70_ex : let p := L1P (V4 0 0 1 0) (V4 1 0 0 0) 1 in let c := Cat (V4 0 1 0 0) (V4 0 0 1 0) 3 7 1 in
  l1_process (1 / 2) (fun _ => Ok (1 / 10)) [p; p; p] [true; false; true] [c; c] [1 / 4; 3 / 4] = Ok [c; Cat (V4 0 0 1 0) (V4 1 0 0 0) 0 7 (1 / 10)].
Proof.
  unfold l1_process, l1_rows, nonzero_from. cbn [nth_error]. unfold l1_photon. rewrite (proj2 (Rltb_false (1 / 2) (1 / 4))), (proj2 (Rltb_true (1 / 2) (3 / 4))) by lra. reflexivity.
Qed.

(** C71: any number of rods *)
Theorem C71_boom : forall masks h p, (forall m, In m masks -> length m = length p) -> length h = length p ->
  exists h' p', boom masks (Some h, p) = (Some h', p') /\ length h' = length p /\ length p' = length p /\
  (forall j hb pb, nth_error h j = Some hb -> nth_error p j = Some pb ->
     nth_error h' j = Some (orb (existsb (fun m => nth j m false) masks) hb) /\ nth_error p' j = Some (if existsb (fun m => nth j m false) masks then 0 else pb)).
Proof. exact boom_spec. Qed.
Print Assumptions C71_boom.
(** without the column: as if it were there with False everywhere *)
Theorem C71_new_column : forall m masks p, length m = length p -> boom (m :: masks) (None, p) = boom (m :: masks) (Some (map (fun _ => false) p), p).
Proof. reflexivity. Qed.
Print Assumptions C71_new_column.
Example C71_ex : boom [[false; true; false]; [false; true; true]] (None, [1; 1; 1]) = (Some [false; true; true], [1; 0; 0]).
Proof. reflexivity. Qed.

(** C108, false: the axis of the surface is z, not x. A ray through the middle of the rod along z passes between the walls, although it goes through the rod that is described. *)
Theorem C108_rod_refuted : forall L r l0 l1, 0 < L -> 0 < r ->
  let m := compose zero3 id3 (V3 L r r) in let minv := compose zero3 id3 (V3 (/ L) (/ r) (/ r)) in
  mul4 minv m = id4 /\ cylinder_intersect m minv l0 l1 true (app4 m (V4 0 0 (-1) 0)) (app4 m (V4 0 0 10 1)) = Ok (false, None, None) /\
  on_rod (add3 (V3 0 0 10) (scale3 9 (V3 0 0 (-1)))).
Proof.
  intros L r l0 l1 HL Hr m minv. assert (I : mul4 minv m = id4).
  { unfold m, minv, compose. rewrite !mul3_id_l, aff_mul. rewrite <- aff_id. f_equal; [|vring]. unfold mul3, app3, diag3, id3. cbn [a0 a1 a2]. apply m3_eq; cbn [a0 a1 a2]; apply v3_eq; cbn; field; lra. }
  split; [exact I|]. split.
  - apply rod_missed.
    + unfold m, compose. generalize (mul3 id3 (diag3 (V3 L r r))). intros q. vring.
    + rewrite <- app4_mul, I. apply app4_id.
  - unfold on_rod. vu. split; [ring|lra].
Qed.
Print Assumptions C108_rod_refuted.

(** C109: number of rods, and what they are *)
Theorem C109_count : forall b w s n k, length (pos_spec b w s n k) = ((n - s) * (k * length w))%nat.
Proof. exact boom_count. Qed.
Print Assumptions C109_count.
Theorem C109_positions : forall b w s n k m, In m (pos_spec b w s n k) <-> exists h i p, (s <= h < n)%nat /\ (i < k)%nat /\ In p w /\ m = mul4 (bay b k h i) p.
Proof. exact boom_in. Qed.
Print Assumptions C109_positions.
(** The sides are connected: turning back by one side gives the side before, and side n is side 0. *)
Theorem C109_sides : forall b n h, (0 < n)%nat ->
  (forall i v, xyz (app4 (bay b n h (S i)) (hom (app3 (rotx (- (2 * PI / INR n))) v) 1)) = xyz (app4 (bay b n h i) (hom v 1))) /\ bay b n h n = bay b n h 0.
Proof. intros b n h H. split; [intros; apply bay_prev; exact H|apply bay_closed; exact H]. Qed.
Print Assumptions C109_sides.
(** Four sides: battens and diagonals end where the longerons of this and of the previous side end. *)
Theorem C109_four_partial : forall b lon bat d1 d2, 0 < l_longeron b -> 0 < l_batten b -> l_diag b = sqrt (l_longeron b * l_longeron b + l_batten b * l_batten b) -> window4 b = [lon; bat; d1; d2] ->
  let prev v := app3 (rotx (- (PI / 2))) v in
  rod_end (-1) bat = rod_end (-1) lon /\ rod_end 1 bat = prev (rod_end (-1) lon) /\
  rod_end (-1) d1 = rod_end (-1) lon /\ rod_end 1 d1 = prev (rod_end 1 lon) /\
  rod_end (-1) d2 = prev (rod_end (-1) lon) /\ rod_end 1 d2 = rod_end 1 lon.
Proof. exact window4_ends. Qed.
Print Assumptions C109_four_partial.
(** Three sides: battens *)
Theorem C109_three_battens : forall b lon bat d1 d2, window3 b = [lon; bat; d1; d2] ->
  rod_end 1 bat = rod_end (-1) lon /\ rod_end (-1) bat = app3 (rotx (2 * (PI / 3))) (rod_end (-1) lon).
Proof. exact window3_ends. Qed.
Print Assumptions C109_three_battens.
(** Three sides, false: the angle of the diagonals is fixed, so they do not end at the longerons for other dimensions. *)
Theorem C109_three_diagonals_refuted : forall b lon bat d1 d2, window3 b = [lon; bat; d1; d2] -> l_longeron b = 1 -> l_batten b = 1 -> l_diag b = sqrt 2 ->
  x3 (rod_end 1 d1) < x3 (rod_end 1 lon).
Proof. exact window3_diag. Qed.
Print Assumptions C109_three_diagonals_refuted.
(** Four sides, false: a different length of the battens alone (it is an allowed parameter) leaves the length of the diagonals as it was. *)
Theorem C109_four_dims_refuted : exists b lon bat d1 d2, window4 b = [lon; bat; d1; d2] /\ 0 < l_longeron b /\ 0 < l_batten b /\ rod_end 1 d2 <> rod_end 1 lon.
Proof.
  exists (BD 1 1 2 1 1 1). do 4 eexists. split; [reflexivity|]. split; [cbn; lra|]. split; [cbn; lra|]. rewrite !rod_end_compose, a0_roty. cbn [l_longeron l_batten l_diag d_diag d_longeron x3 y3 z3 a0 id3].
  intros H. assert (X := f_equal x3 H). unfold add3, scale3 in X. cbn [x3] in X. rewrite cos_neg, cos_asin in X by lra. assert (S : sqrt (1 - (1 / 2)²) * sqrt (1 - (1 / 2)²) = 1 - (1 / 2)²) by (apply sqrt_sqrt; unfold Rsqr; lra). unfold Rsqr in *. nra.
Qed.
Print Assumptions C109_four_dims_refuted.
Example C109_ex : length (pos_spec (BD 1 1 1 1 1 1) (window4 (BD 1 1 1 1 1 1)) 0 8 4) = 128%nat.
Proof. rewrite boom_count. reflexivity. Qed.

(** C110: filters multiply the probability with a number between 0 and 1. *)
Theorem C110_filter : forall f photons out, global_filter f photons = Ok out ->
  length out = length photons /\ forall j e p, nth_error photons j = Some (e, p) -> exists q, nth_error out j = Some (e, q) /\
    (forall t, f e = Some t -> 0 <= t <= 1 /\ q = Some (p * t)) /\ (f e = None -> q = None).
Proof. exact filter_spec. Qed.
Print Assumptions C110_filter.
Theorem C110_refused : forall f photons e p t, In (e, p) photons -> f e = Some t -> t < 0 \/ 1 < t -> global_filter f photons = Err ValueError.
Proof. exact filter_refused. Qed.
Print Assumptions C110_refused.
(** C110, false: nan is not in the interval from 0 to 1, but it is accepted. *)
Theorem C110_nan_refuted : forall e p, global_filter (fun _ => None) [(e, p)] = Ok [(e, None)].
Proof. reflexivity. Qed.
Print Assumptions C110_nan_refuted.
Example C110_ex : global_filter (fun _ => Some (1 / 2)) [(1, 1 / 2)] = Ok [(1, Some (1 / 2 * (1 / 2)))].
Proof. unfold global_filter. cbn. rewrite (proj2 (Rltb_false (1 / 2) 0)), (proj2 (Rltb_false 1 (1 / 2))) by lra. reflexivity. Qed.

(** C111, false: no corner of the triangulation is in the plane of the baffle. *)
Theorem C111_baffle_refuted : forall m r q, perpendicular_axes m -> 0 < r -> In q (baffle_points m r) -> dot3 (sub3 q (tra m)) (xyz (v_x m)) <> 0.
Proof. exact baffle_off. Qed.
Print Assumptions C111_baffle_refuted.
Example C111_ex : perpendicular_axes id4 /\ In (V3 3 3 0) (baffle_points id4 3).
Proof.
  split; [unfold perpendicular_axes, affine; cbn; repeat split; try (intros H; first [apply (f_equal x3) in H; cbn in H; lra | apply (f_equal y3) in H; cbn in H; lra | apply (f_equal z3) in H; cbn in H; lra]); vu; ring|].
  left. apply v3_eq; cbn; ring.
Qed.

(** C112: tables *)
Theorem C112_cells : forall x y data xo yo out, tablerows_to_2d x y data = Ok (xo, yo, out) ->
  let nx := length (distinct x) in let ny := length (distinct y) in
  length x = (nx * ny)%nat /\ length xo = nx /\ length yo = ny /\ (0 < ny)%nat /\
  (forall i j, (i < nx)%nat -> (j < ny)%nat -> close (nth (i * ny + j) x 0) (nth i xo 0) = true /\ close (nth (i * ny + j) y 0) (nth j yo 0) = true) /\
  (forall k c, nth_error data k = Some c -> exists o, nth_error out k = Some o /\ forall i j, (i < nx)%nat -> (j < ny)%nat -> nth j (nth i o []) 0 = nth (i * ny + j) c 0) /\
  xo = map (fun i => nth (i * ny) x 0) (seq 0 nx) /\ yo = map (fun j => nth j y 0) (seq 0 ny).
Proof. exact table_spec. Qed.
Print Assumptions C112_cells.
(** If no two different values in the table are within the tolerance, no value of x or y is there twice. *)
Theorem C112_unique : forall x y data xo yo out, tablerows_to_2d x y data = Ok (xo, yo, out) -> length y = length x ->
  (forall a b, In a x -> In b x -> close a b = true -> a = b) -> (forall a b, In a y -> In b y -> close a b = true -> a = b) -> NoDup xo /\ NoDup yo.
Proof. exact table_unique. Qed.
Print Assumptions C112_unique.
(** So every row of the table is found at the values of its x and y. *)
Theorem C112_rows : forall x y data xo yo out, tablerows_to_2d x y data = Ok (xo, yo, out) -> length y = length x ->
  (forall a b, In a x -> In b x -> close a b = true -> a = b) -> (forall a b, In a y -> In b y -> close a b = true -> a = b) ->
  forall r k c, (r < length x)%nat -> nth_error data k = Some c -> exists i j o, (i < length xo)%nat /\ (j < length yo)%nat /\ nth_error out k = Some o /\
    nth i xo 0 = nth r x 0 /\ nth j yo 0 = nth r y 0 /\ nth j (nth i o []) 0 = nth r c 0.
Proof. exact table_rows. Qed.
Print Assumptions C112_rows.
Example C112_case : tablerows_to_2d [1; 1; 2; 2] [3; 4; 3; 4] [[5; 6; 7; 8]] = Ok ([1; 2], [3; 4], [[[5; 6]; [7; 8]]]) /\ tablerows_to_2d [1; 2; 1; 2] [3; 3; 4; 4] [[5; 6; 7; 8]] = Err Exception.
Proof.
  assert (T : forall a, Reqb a a = true) by (intros a; apply Reqb_true; reflexivity).
  assert (F : forall a b, a <> b -> Reqb a b = false) by (intros a b; apply Reqb_false).
  assert (D : forall a b, a <> b -> distinct [a; a; b; b] = [a; b] /\ distinct [a; b; a; b] = [a; b]).
  { intros a b N. cbn. rewrite !T, (F a b N), (F b a) by congruence. cbn. split; reflexivity. }
  assert (C : forall a, allclose (1 / 100000) (1 / 100000000) a a = true) by (intros a; apply Rleb_true; replace (a - a) with 0 by ring; rewrite Rabs_R0; assert (0 <= Rabs a) by apply Rabs_pos; lra).
  assert (O : allclose (1 / 100000) (1 / 100000000) 2 1 = false) by (apply Rleb_false; rewrite !Rabs_right by lra; lra).
  unfold tablerows_to_2d. rewrite (proj1 (D 1 2 ltac:(lra))), (proj2 (D 3 4 ltac:(lra))), (proj2 (D 1 2 ltac:(lra))), (proj1 (D 3 4 ltac:(lra))).
  cbn [length Nat.mul Nat.add Nat.eqb negb seq map nth forallb]. rewrite !C, O. split; reflexivity.
Qed.

(** C109: the two diagonals of a side are mirror images of each other along the boom *)
Theorem C109_three_mirror : forall b lon bat d1 d2, window3 b = [lon; bat; d1; d2] -> forall s, 
  x3 (rod_end s d1) - l_longeron b / 2 = - (x3 (rod_end s d2) - l_longeron b / 2) /\ y3 (rod_end s d1) = y3 (rod_end s d2) /\ z3 (rod_end s d1) = z3 (rod_end s d2) /\
  (s <> 0 -> l_diag b <> 0 -> x3 (rod_end s d1) <> x3 (rod_end s d2)).
Proof. exact window3_mirror. Qed.
Print Assumptions C109_three_mirror.
(** C111: going around the outer edge of the baffle, and around the inner edge, each step follows one axis; the edges have the sizes asked for and the center of the baffle *)
Theorem C111_edges : forall m r, exists o0 o1 o2 o3 i0 i1 i2 i3, baffle_points m r = [o0; o1; o2; o3; i0; i1; i2; i3] /\
  let a := xyz (v_x m) in let b := xyz (v_y m) in
  sub3 o0 o1 = scale3 (2 * r) a /\ sub3 o1 o2 = scale3 (2 * r) b /\ sub3 o3 o2 = scale3 (2 * r) a /\ sub3 o0 o3 = scale3 (2 * r) b /\ add3 o0 o2 = scale3 2 (tra m) /\
  sub3 i0 i1 = scale3 2 a /\ sub3 i1 i2 = scale3 2 b /\ sub3 i3 i2 = scale3 2 a /\ sub3 i0 i3 = scale3 2 b /\ add3 i0 i2 = scale3 2 (tra m).
Proof.
  intros m r. unfold baffle_points, square. generalize (tra m) (xyz (v_x m)) (xyz (v_y m)). intros c a b. do 8 eexists. split; [reflexivity|]. cbn zeta. repeat split; destruct a, b, c; vring.
Qed.
Print Assumptions C111_edges.
