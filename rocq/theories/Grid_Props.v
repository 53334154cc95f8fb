(** Properties C45, C46 and C86-C88. *)
From Verif Require Import Vec_Proofs Angles_Proofs Grid_Proofs Rowland_Props.
Open Scope R_scope.

(** *** C45 *)
Theorem C45_range_covered_partial : forall lo hi d, 0 < d -> lo < hi -> let n := Z.to_nat (Rceil ((hi - lo) / d)) in
  (1 <= n)%nat /\ symmetric_comb (grid_axis lo hi d) n d ((lo + hi) / 2) /\ covers (grid_axis lo hi d) (d / 2) lo hi.
Proof. exact grid_axis_ok. Qed.
Print Assumptions C45_range_covered_partial.
Theorem C45_product_of_axes : forall y0 y1 z0 z1 dy dz, length (grid_yz y0 y1 z0 z1 dy dz) = (length (grid_axis z0 z1 dz) * length (grid_axis y0 y1 dy))%nat /\
  forall y z, In (y, z) (grid_yz y0 y1 z0 z1 dy dz) <-> In y (grid_axis y0 y1 dy) /\ In z (grid_axis z0 z1 dz).
Proof. exact grid_yz_spec. Qed.
Print Assumptions C45_product_of_axes.
(** Equal limits, which the documentation gives as the way to place one element, place none. *)
Theorem C45_equal_limits_empty : forall y0 y1 p dy dz, 0 < dy -> 0 < dz -> grid_yz y0 y1 p p dy dz = [] /\ grid_yz p p y0 y1 dy dz = [].
Proof.
  intros. unfold grid_yz. rewrite (grid_axis_point p dz), (grid_axis_point p dy) by assumption. split; [reflexivity|]. clear. induction (grid_axis y0 y1 dz); auto.
Qed.
Print Assumptions C45_equal_limits_empty.
Theorem C45_one_element_refuted : ~ (forall lo hi d, 0 < d -> lo <= hi -> (1 <= length (grid_axis lo hi d))%nat).
Proof. intros H. specialize (H 5 5 1 ltac:(lra) ltac:(lra)). rewrite grid_axis_point in H by lra. cbn in H. lia. Qed.
Print Assumptions C45_one_element_refuted.
Example C45_example : grid_axis 0 3 2 = [1 / 2; 5 / 2].
Proof.
  destruct (grid_axis_ok 0 3 2 ltac:(lra) ltac:(lra)) as (_ & S & _). rewrite S. rewrite (Rceil_unique ((3 - 0) / 2) 2) by lra. change (Z.to_nat 2) with 2%nat. cbn [seq map].
  apply f_equal2; [cbn; lra|]. apply f_equal2; [cbn; lra|reflexivity].
Qed.

(** *** C46 *)
(** number of elements on a ring, and their angles *)
Theorem C46_ring_angles : forall d0 d1 p0 p1 rest radius l, distribute_arc d0 d1 (PhiList (p0 :: p1 :: rest)) radius = Ok l ->
  length l = Z.to_nat (max_elements_on_arc d1 (anglediff p0 p1) (radius - d0 / 2)) /\
  forall i a, nth_error l i = Some a -> a = Rmod (p0 + arc_center d1 (anglediff p0 p1) radius (max_elements_on_arc d1 (anglediff p0 p1) (radius - d0 / 2)) i) twopi /\
    same_angle a (p0 + arc_center d1 (anglediff p0 p1) radius (max_elements_on_arc d1 (anglediff p0 p1) (radius - d0 / 2)) i).
Proof. exact distribute_arc_count. Qed.
Print Assumptions C46_ring_angles.
(** The elements are symmetric in the segment: as much room before the first as after the last. *)
Theorem C46_symmetric : forall d1 dphi radius n i j, 0 < radius -> (0 <= n)%Z -> (Z.of_nat i + Z.of_nat j + 1 = n)%Z ->
  arc_center d1 dphi radius n i + arc_center d1 dphi radius n j = dphi.
Proof.
  intros d1 dphi radius n i j R N E. assert (0 <= IZR n) by (apply IZR_le; lia). pose proof PI_RGT_0. unfold arc_center, arc_between. cbv zeta.
  assert (S : INR j = IZR n - 1 - INR i) by (rewrite <- E, !plus_IZR, <- !INR_IZR_INZ; ring). rewrite S. field. repeat split; lra.
Qed.
Print Assumptions C46_symmetric.
(** Angles are counted from the z axis (the local system of the torus) towards y. *)
Theorem C46_points : forall d0 d1 phi radius l y z, gas_yz d0 d1 phi radius = Ok l -> In (y, z) l ->
  exists r a angles, In r (distribute_radius d0 radius) /\ distribute_arc d0 d1 phi r = Ok angles /\ In a angles /\ y = r * sin a /\ z = r * cos a.
Proof. exact gas_points. Qed.
Print Assumptions C46_points.
(** Neighbours are an element apart (along the arc) if the segment is wide enough, e.g. square elements on more than 1.7 rad ... *)
Theorem C46_no_overlap_partial : forall d0 d1 dphi radius i, 0 < d0 -> 0 < d1 -> 0 <= dphi -> 0 < radius ->
  let n := max_elements_on_arc d1 dphi (radius - d0 / 2) in (0 <= n)%Z -> d1 * (1 - / (2 * PI)) <= d0 * dphi / 2 ->
  d1 <= radius * (arc_center d1 dphi radius n (S i) - arc_center d1 dphi radius n i).
Proof. exact arc_no_overlap. Qed.
Print Assumptions C46_no_overlap_partial.
(** ... in general only n / (n + 1) of an element. *)
Theorem C46_overlap_bound : forall d0 d1 dphi radius i, 0 < d0 -> 0 < d1 -> 0 <= dphi -> 0 < radius ->
  let n := max_elements_on_arc d1 dphi (radius - d0 / 2) in (0 <= n)%Z ->
  d1 * IZR n / (IZR n + 1) < radius * (arc_center d1 dphi radius n (S i) - arc_center d1 dphi radius n i).
Proof. exact arc_weak. Qed.
Print Assumptions C46_overlap_bound.
Theorem C46_no_overlap_refuted :
  ~ (forall d0 d1 dphi radius i, 0 < d0 -> 0 < d1 -> 0 <= dphi <= twopi -> d0 / 2 < radius ->
     let n := max_elements_on_arc d1 dphi (radius - d0 / 2) in (Z.of_nat (S i) < n)%Z ->
     d1 <= radius * (arc_center d1 dphi radius n (S i) - arc_center d1 dphi radius n i)).
Proof.
  intros H. pose proof PI2_3_2. destruct arc_overlap as [E L]. specialize (H (/ 100) 1 (21 / 10) 1 0%nat ltac:(lra) ltac:(lra)).
  cbv zeta in *. rewrite E in *. specialize (H ltac:(unfold twopi; lra) ltac:(lra) ltac:(cbn; lia)). lra.
Qed.
Print Assumptions C46_no_overlap_refuted.
(** A single number for phi is a TypeError although the documentation allows it. *)
Theorem C46_single_number_fails : forall d0 d1 p radius, 0 < d0 -> (exists r0 r1 rest, radius = r0 :: r1 :: rest /\ r0 < r1) ->
  gas_yz d0 d1 (PhiNum p) radius = Err TypeError.
Proof.
  intros d0 d1 p radius D (r0 & r1 & rest & -> & L). unfold gas_yz. cbn [distribute_radius].
  destruct (radii_ok d0 r0 r1 D L) as (N & S & _). unfold symmetric_comb in S. rewrite S. destruct (Z.to_nat (Rceil ((r1 - r0) / d0))) as [|n]; [lia|]. reflexivity.
Qed.
Print Assumptions C46_single_number_fails.
Example C46_example : 0 < 1 /\ 1 * (1 - / (2 * PI)) <= 1 * PI / 2 /\ (0 <= max_elements_on_arc 1 PI (10 - 1 / 2))%Z.
Proof.
  pose proof PI2_3_2. assert (0 < / (2 * PI)) by (apply Rinv_0_lt_compat; lra). split; [lra|]. split; [lra|].
  unfold max_elements_on_arc. pose proof (Rfloor_spec ((10 - 1 / 2) * PI / 1)) as [_ B]. assert (-1 < Rfloor ((10 - 1 / 2) * PI / 1))%Z by (apply lt_IZR; lra). lia.
Qed.

(** *** C86 *)
Theorem C86_elements_on_torus : forall t minv root guess axis yz ps, affine (tpos t) -> mul4 minv (tpos t) = id4 -> root_contract root -> w4 axis = 0 ->
  elempos t minv root guess axis yz = Ok ps ->
  Forall2 (fun yz p => quartic t minv true (xyz p) = Ok 0 /\ exists k, p = add4 (app4 (tpos t) (V4 0 (fst yz) (snd yz) 1)) (scale4 k axis)) yz ps.
Proof. exact elempos_ok. Qed.
Print Assumptions C86_elements_on_torus.
Theorem C86_default_axis_keeps_yz : forall t minv root guess yz ps, affine (tpos t) -> mul4 minv (tpos t) = id4 -> root_contract root ->
  elempos t minv root guess (default_axis t) yz = Ok ps ->
  Forall2 (fun yz p => quartic t minv true (xyz p) = Ok 0 /\ exists x, app4 minv p = V4 x (fst yz) (snd yz) 1) yz ps.
Proof.
  intros t minv root guess yz ps A I C E. pose proof (elempos_ok t minv root guess (default_axis t) yz ps A I C (default_axis_w t A) E) as F. clear E. induction F as [|a p ? ? H F IH]; constructor; [|auto]. revert H.
  cbn. intros [Q [k ->]]. split; [exact Q|]. exists k. now rewrite default_axis_pt, <- app4_mul, I, app4_id.
Qed.
Print Assumptions C86_default_axis_keeps_yz.
Theorem C86_radius_angle : forall t minv root radius angle start p, affine (tpos t) -> mul4 minv (tpos t) = id4 -> root_contract root ->
  xyz_from_radiusangle t minv root radius angle start = Ok p ->
  quartic t minv true p = Ok 0 /\ exists x, hom p 1 = app4 (tpos t) (V4 x (radius * cos angle) (radius * sin angle) 1).
Proof. exact xyz_from_ok. Qed.
Print Assumptions C86_radius_angle.
(** The contract of the root finder can be met, on a case with a root. *)
Definition some_root (f : R -> result R) (x0 : R) : option R :=
  match f 3 with Ok y => if Req_EM_T y 0 then Some 3 else None | Err _ => None end.
Example C86_example : root_contract some_root /\ solve_quartic torus21 id4 some_root false (V4 0 0 0 1) (V4 1 0 0 0) = Ok (V4 3 0 0 1).
Proof.
  split.
  - intros f x0 k H. unfold some_root in H. destruct (f 3) as [y|] eqn:E; [|discriminate]. destruct (Req_EM_T y 0) as [->|]; [|discriminate]. now injection H as <-.
  - unfold solve_quartic. rewrite Placement_Proofs.h2e1_w1, Placement_Proofs.h2e1_w0 by reflexivity. cbn [bind]. unfold some_root, quartic.
    assert (Z : quartic_local torus21 (add3 (xyz (V4 0 0 0 1)) (scale3 3 (xyz (V4 1 0 0 0)))) = 0) by (unfold quartic_local, torus21, dot3; cbn; ring). rewrite Z.
    destruct (Req_EM_T 0 0); [|lra]. unfold hom, add3, scale3, xyz. cbn. do 2 f_equal; ring.
Qed.

(** *** C87 *)
Theorem C87_radii_cover : forall d0 r0 r1, 0 < d0 -> r0 < r1 -> let n := Z.to_nat (Rceil ((r1 - r0) / d0)) in
  (1 <= n)%nat /\ symmetric_comb (radii_bracket d0 r0 r1) n d0 ((r0 + r1) / 2) /\ covers (radii_bracket d0 r0 r1) (d0 / 2) r0 r1.
Proof. exact radii_ok. Qed.
Print Assumptions C87_radii_cover.
Theorem C87_brackets_separate : forall d0 r0 r1 rest, distribute_radius d0 (r0 :: r1 :: rest) = radii_bracket d0 r0 r1 ++ distribute_radius d0 rest.
Proof. reflexivity. Qed.
Print Assumptions C87_brackets_separate.
Example C87_example : radii_bracket 2 1 4 = [3 / 2; 7 / 2].
Proof.
  destruct (radii_ok 2 1 4 ltac:(lra) ltac:(lra)) as (_ & S & _). rewrite S. rewrite (Rceil_unique ((4 - 1) / 2) 2) by lra. change (Z.to_nat 2) with 2%nat. cbn [seq map].
  apply f_equal2; [cbn; lra|]. apply f_equal2; [cbn; lra|reflexivity].
Qed.

(** *** C88 *)
Theorem C88_rows_partial : forall rout dy, 0 < dy -> 0 < rout -> let n := Rceil (2 * rout / dy) in
  let k := Z.to_nat (Rceil ((rout + IZR n * dy / 2) / dy)) in
  mesh_y rout dy = map (fun i => - (IZR n * dy) / 2 + INR i * dy) (seq 0 k) /\ (Z.to_nat n <= k <= S (Z.to_nat n))%nat.
Proof. exact mesh_y_spec. Qed.
Print Assumptions C88_rows_partial.
Theorem C88_inside_outer_radius_partial : forall rin rout dz y z, 0 < dz -> 0 <= rin -> 0 <= rout -> In z (mesh_z rin rout dz y) ->
  rout < Rabs y \/ Rabs z <= sqrt (rout * rout - y * y) + dz / 2.
Proof. exact mesh_z_limit. Qed.
Print Assumptions C88_inside_outer_radius_partial.
(** There are exactly n rows, n the smallest number of pitches that span the diameter; the mesh never reaches the upper edge (the last row ends below [rout]),
    its first row has no mirror image, and all but the last pitch below the upper edge is covered: for every radius and every pitch. *)
Theorem C88_rows_exact : forall rout dy, 0 < dy -> 0 < rout -> exists n, (1 <= n)%nat /\ 2 * rout <= INR n * dy < 2 * rout + dy /\
  mesh_y rout dy = map (fun i => - (INR n * dy) / 2 + INR i * dy) (seq 0 n).
Proof. exact mesh_y_exact. Qed.
Print Assumptions C88_rows_exact.
Theorem C88_never_refuted : forall rout dy, 0 < dy -> 0 < rout ->
  (forall c, In c (mesh_y rout dy) -> c < rout - dy / 2) /\ (exists y, In y (mesh_y rout dy) /\ y <= - rout /\ ~ In (- y) (mesh_y rout dy)) /\
  forall x, - rout <= x <= rout - dy -> exists c, In c (mesh_y rout dy) /\ Rabs (x - c) <= dy / 2.
Proof. exact mesh_y_never. Qed.
Print Assumptions C88_never_refuted.
(** The rows do not cover the circle and are not symmetric: for radius 1 and pitch 1 there are rows at -1 and 0 only. *)
Theorem C88_covers_refuted : ~ (forall rout dy, 0 < dy -> 0 < rout -> covers (mesh_y rout dy) (dy / 2) (- rout) rout).
Proof.
  intros H. destruct (H 1 1 ltac:(lra) ltac:(lra) 1 ltac:(lra)) as (c & I & L). rewrite mesh_y_1 in I. cbn in I. destruct I as [<-|[<-|[]]]; lra.
Qed.
Print Assumptions C88_covers_refuted.
Theorem C88_symmetric_refuted : ~ (forall rout dy y, 0 < dy -> 0 < rout -> In y (mesh_y rout dy) -> In (- y) (mesh_y rout dy)).
Proof.
  intros H. specialize (H 1 1 (-1) ltac:(lra) ltac:(lra)). rewrite mesh_y_1 in H. cbn in H. destruct H as [E|[E|[]]]; [auto|lra|lra].
Qed.
Print Assumptions C88_symmetric_refuted.
(** The mesh consists of all places in all rows. Rows are at least [dy] apart; in a row that does not cross the hole, or crosses it at least [dz] away from the axis, places are at least [dz] apart. *)
Lemma arange_apart a b d x x' : 0 < d -> In x (arange a b d) -> In x' (arange a b d) -> x <> x' -> d <= Rabs (x - x').
Proof.
  intros D I I' N. unfold arange in *. apply in_map_iff in I. apply in_map_iff in I'. destruct I as (i & <- & _). destruct I' as (j & <- & _). assert (IJ : i <> j) by (intros ->; now apply N).
  replace (a + INR i * d - (a + INR j * d)) with ((INR i - INR j) * d) by ring. rewrite Rabs_mult, (Rabs_right d) by lra. assert (1 <= Rabs (INR i - INR j)); [|nra]. rewrite !INR_IZR_INZ, <- minus_IZR, <- abs_IZR. apply IZR_le. lia.
Qed.
Lemma arange_from a b d x : 0 < d -> In x (arange a b d) -> a <= x.
Proof. intros D I. unfold arange in I. apply in_map_iff in I. destruct I as (i & <- & _). pose proof (pos_INR i). nra. Qed.
Theorem C88_no_overlap_partial : forall rin rout dy dz, 0 < dy -> 0 < dz -> (forall y z, In (y, z) (mesh_yz rin rout dy dz) <-> In y (mesh_y rout dy) /\ In z (mesh_z rin rout dz y)) /\
  (forall y y', In y (mesh_y rout dy) -> In y' (mesh_y rout dy) -> y <> y' -> dy <= Rabs (y - y')) /\
  (forall y z z', rin < Rabs y \/ dz <= sqrt (rin * rin - y * y) -> In z (mesh_z rin rout dz y) -> In z' (mesh_z rin rout dz y) -> z <> z' -> dz <= Rabs (z - z')).
Proof.
  intros rin rout dy dz DY DZ. split; [|split].
  - intros y z. unfold mesh_yz. rewrite in_flat_map. split; [intros (y' & I & J); apply in_map_iff in J; destruct J as (z' & E & J); injection E as -> ->; now split|intros [I J]; exists y; split; [exact I|]; apply in_map_iff; now exists z].
  - intros y y' I I' N. unfold mesh_y in *. now apply (arange_apart _ _ _ _ _ DY I I').
  - intros y z z' H I I' N. unfold mesh_z in *. destruct (Rltb rout (Rabs y)); [destruct I as [<-|[]]; destruct I' as [<-|[]]; now destruct N|]. destruct (Rltb rin (Rabs y)) eqn:L; [now apply (arange_apart _ _ _ _ _ DZ I I')|].
    destruct H as [H|H]; [apply Rltb_false in L; lra|]. cbv zeta in I, I'. set (zi := sqrt (rin * rin - y * y)) in *. set (zo := sqrt (rout * rout - y * y)) in *. set (a := / 2 * (zi + zo) - IZR (Rceil ((zo - zi) / dz)) * dz / 2) in *.
    assert (A : dz / 2 <= a). { destruct (Rceil_spec ((zo - zi) / dz)) as [C _]. assert (IZR (Rceil ((zo - zi) / dz)) * dz < zo - zi + dz). { replace (zo - zi + dz) with (((zo - zi) / dz + 1) * dz) by (field; lra). apply Rmult_lt_compat_r; lra. } unfold a. lra. }
    assert (P : forall x, In x (arange a zo dz) -> dz / 2 <= x) by (intros x X; pose proof (arange_from _ _ _ _ DZ X); lra).
    apply in_app_or in I. apply in_app_or in I'. destruct I as [I|I]; destruct I' as [I'|I'].
    + apply in_map_iff in I. destruct I as (x & <- & I). apply in_map_iff in I'. destruct I' as (x' & <- & I'). replace (- x - - x') with (- (x - x')) by ring. rewrite Rabs_Ropp. apply (arange_apart _ _ _ _ _ DZ I I'). intros ->. now apply N.
    + apply in_map_iff in I. destruct I as (x & <- & I). pose proof (P _ I). pose proof (P _ I'). rewrite Rabs_left1; lra.
    + apply in_map_iff in I'. destruct I' as (x' & <- & I'). pose proof (P _ I). pose proof (P _ I'). rewrite Rabs_right; lra.
    + now apply (arange_apart _ _ _ _ _ DZ I I').
Qed.
Print Assumptions C88_no_overlap_partial.
Example C88_ex_apart : 2 <= sqrt (3 * 3 - 0 * 0) /\ mesh_z 3 5 2 0 = [- (3); 3].
Proof.
  assert (S3 : sqrt (3 * 3 - 0 * 0) = 3) by (replace (3 * 3 - 0 * 0) with (3 * 3) by ring; apply sqrt_square; lra). assert (S5 : sqrt (5 * 5 - 0 * 0) = 5) by (replace (5 * 5 - 0 * 0) with (5 * 5) by ring; apply sqrt_square; lra).
  split; [rewrite S3; lra|]. unfold mesh_z. rewrite Rabs_R0, (proj2 (Rltb_false 5 0)), (proj2 (Rltb_false 3 0)) by lra. rewrite S3, S5. replace (Rceil ((5 - 3) / 2)) with 1%Z by (symmetry; apply Rceil_unique; lra).
  assert (E : arange (/ 2 * (3 + 5) - 1 * 2 / 2) 5 2 = [3]); [|now rewrite E]. rewrite (arange_len _ _ _ 1) by lra. change (Z.to_nat 1) with 1%nat. cbn [seq map INR]. apply f_equal2; [lra|reflexivity].
Qed.
(** Without this condition the two halves of a row overlap: with no hole, radius 1 and pitch 3/4 there are places at 1/4 and -1/4. *)
Theorem C88_no_overlap_refuted : ~ (forall rin rout dy dz y z z', 0 < dy -> 0 < dz -> 0 <= rin < rout -> In (y, z) (mesh_yz rin rout dy dz) -> In (y, z') (mesh_yz rin rout dy dz) -> z <> z' -> dz <= Rabs (z - z')).
Proof.
  intros H. assert (S0 : sqrt (0 * 0 - 0 * 0) = 0) by (replace (0 * 0 - 0 * 0) with 0 by ring; apply sqrt_0). assert (S1 : sqrt (1 * 1 - 0 * 0) = 1) by (replace (1 * 1 - 0 * 0) with 1 by ring; apply sqrt_1).
  assert (M : mesh_z 0 1 (3 / 4) 0 = map Ropp [- (1 / 4); 1 / 2] ++ [- (1 / 4); 1 / 2]).
  { unfold mesh_z. rewrite Rabs_R0, (proj2 (Rltb_false 1 0)), (proj2 (Rltb_false 0 0)) by lra. rewrite S0, S1. replace (Rceil ((1 - 0) / (3 / 4))) with 2%Z by (symmetry; apply Rceil_unique; lra).
    assert (E : arange (/ 2 * (0 + 1) - 2 * (3 / 4) / 2) 1 (3 / 4) = [- (1 / 4); 1 / 2]); [|now rewrite E]. rewrite (arange_len _ _ _ 2) by lra. change (Z.to_nat 2) with 2%nat. cbn [seq map INR]. apply f_equal2; [lra|]. apply f_equal2; [lra|reflexivity]. }
  assert (I : forall z, In z (mesh_z 0 1 (3 / 4) 0) -> In (0, z) (mesh_yz 0 1 1 (3 / 4))) by (intros z Z; apply (C88_no_overlap_partial 0 1 1 (3 / 4)); [lra|lra|]; split; [rewrite mesh_y_1; cbn; auto|exact Z]).
  specialize (H 0 1 1 (3 / 4) 0 (- - (1 / 4)) (- (1 / 4)) ltac:(lra) ltac:(lra) ltac:(lra)). assert (X : 3 / 4 <= Rabs (- - (1 / 4) - - (1 / 4))) by (apply H; [apply I; rewrite M; cbn; auto|apply I; rewrite M; cbn; auto|lra]). rewrite Rabs_right in X; lra.
Qed.
Print Assumptions C88_no_overlap_refuted.
Example C88_example : mesh_y 1 1 = [-1; 0].
Proof. exact mesh_y_1. Qed.
