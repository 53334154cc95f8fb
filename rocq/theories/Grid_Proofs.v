(** Lemmas about [Grid_Model]. *)
From Verif Require Import Vec_Proofs Angles_Proofs Coords_Proofs Position_Proofs Placement_Proofs.
From Verif Require Export Grid_Model Rowland_Proofs2.
Open Scope R_scope.

Lemma Rceil_unique a n : IZR n - 1 < a <= IZR n -> Rceil a = n.
Proof. intros H. unfold Rceil. rewrite (Rfloor_unique (- a) (- n)); [lia|]. rewrite opp_IZR. lra. Qed.
Lemma arange_len a b d n : 0 < d -> (IZR n - 1) * d < b - a <= IZR n * d -> arange a b d = map (fun i => a + INR i * d) (seq 0 (Z.to_nat n)).
Proof.
  intros P H. unfold arange. rewrite (Rceil_unique _ n); [reflexivity|]. split.
  - apply Rmult_lt_reg_r with d; [exact P|]. unfold Rdiv. rewrite Rmult_assoc, Rinv_l by lra. lra.
  - apply Rmult_le_reg_r with d; [exact P|]. unfold Rdiv. rewrite Rmult_assoc, Rinv_l by lra. lra.
Qed.
Lemma comb_covers n d m : 0 <= d -> (0 < n)%nat -> covers (map (fun i => m + (INR i - (INR n - 1) / 2) * d) (seq 0 n)) (d / 2) (m - INR n * d / 2) (m + INR n * d / 2).
Proof.
  intros D. induction n as [|n IH]; intros N y [L U]; [lia|].
  destruct (Req_dec d 0) as [Z|Z].
  { subst d. exists (m + (INR 0 - (INR (S n) - 1) / 2) * 0). split; [|lra]. apply in_map_iff. exists 0%nat. split; [reflexivity|]. apply in_seq. lia. }
  assert (P : 0 < d) by lra. clear IH.
  set (u := (y - (m - INR (S n) * d / 2)) / d). assert (Hu : 0 <= u <= INR (S n)).
  { unfold u. split; [apply Rmult_le_pos; [lra|left; now apply Rinv_0_lt_compat]|]. apply Rmult_le_reg_r with d; [exact P|]. unfold Rdiv. rewrite Rmult_assoc, Rinv_l by lra. lra. }
  assert (Y : y = m - INR (S n) * d / 2 + u * d) by (unfold u; field; lra).
  destruct (Rlt_le_dec u (INR (S n))) as [Lt|Ge].
  - pose proof (Rfloor_spec u) as [F1 F2]. assert (G : (0 <= Rfloor u < Z.of_nat (S n))%Z).
    { split; [assert (-1 < Rfloor u)%Z by (apply lt_IZR; lra); lia|]. apply lt_IZR. rewrite <- INR_IZR_INZ. lra. }
    exists (m + (INR (Z.to_nat (Rfloor u)) - (INR (S n) - 1) / 2) * d). split.
    + apply in_map_iff. exists (Z.to_nat (Rfloor u)). split; [reflexivity|]. apply in_seq. lia.
    + rewrite INR_IZR_INZ, Z2Nat.id by lia. rewrite Y. set (k := IZR (Rfloor u)) in *. nra.
  - exists (m + (INR n - (INR (S n) - 1) / 2) * d). split; [apply in_map_iff; exists n; split; [reflexivity|apply in_seq; lia]|].
    assert (u = INR (S n)) by lra. rewrite Y, H. rewrite S_INR. split; nra.
Qed.
Lemma covers_sub l w lo hi lo' hi' : covers l w lo hi -> lo <= lo' -> hi' <= hi -> covers l w lo' hi'.
Proof. intros H A B y Y. apply H. lra. Qed.
Lemma grid_axis_ok lo hi d : 0 < d -> lo < hi -> let n := Z.to_nat (Rceil ((hi - lo) / d)) in
  (1 <= n)%nat /\ symmetric_comb (grid_axis lo hi d) n d ((lo + hi) / 2) /\ covers (grid_axis lo hi d) (d / 2) lo hi.
Proof.
  intros D L n. pose proof (Rceil_spec ((hi - lo) / d)) as [C1 C2]. set (z := Rceil ((hi - lo) / d)) in *.
  assert (Q : 0 < (hi - lo) / d) by (apply Rdiv_lt_0_compat; lra). assert (Z1 : (1 <= z)%Z) by (assert (0 < z)%Z by (apply lt_IZR; lra); lia).
  assert (E : hi - lo = (hi - lo) / d * d) by (field; lra). set (q := (hi - lo) / d) in *.
  assert (N : INR n = IZR z) by (unfold n; rewrite INR_IZR_INZ, Z2Nat.id by lia; reflexivity).
  assert (S : symmetric_comb (grid_axis lo hi d) n d ((lo + hi) / 2)).
  { unfold symmetric_comb, grid_axis. cbv zeta. fold q z. rewrite Z.max_r by lia. rewrite (arange_len _ _ _ z D).
    - fold n. apply map_ext. intros i. rewrite N. field.
    - rewrite <- N. assert (hi = lo + q * d) by lra. rewrite N. split; nra. }
  split; [unfold n; lia|]. split; [exact S|]. rewrite S. eapply covers_sub; [apply comb_covers; [lra|unfold n; lia]| |]; rewrite N; nra.
Qed.
Lemma grid_axis_point p d : 0 < d -> grid_axis p p d = [].
Proof.
  intros D. unfold grid_axis. cbv zeta. rewrite (Rceil_unique ((p - p) / d) 0) by (replace ((p - p) / d) with 0 by (field; lra); lra).
  change (Z.max 1 0) with 1%Z. rewrite (arange_len _ _ d 0 D) by lra. reflexivity.
Qed.
Lemma grid_axis_reversed lo hi d : 0 < d -> hi <= lo -> grid_axis lo hi d = [].
Proof.
  intros D L. unfold grid_axis. cbv zeta. pose proof (Rceil_spec ((hi - lo) / d)) as [C1 C2]. set (z := Rceil ((hi - lo) / d)) in *.
  assert (Q : (hi - lo) / d <= 0). { apply Rmult_le_reg_r with d; [exact D|]. unfold Rdiv. rewrite Rmult_assoc, Rinv_l by lra. lra. }
  assert (Z1 : (z <= 0)%Z). { assert (z < 1)%Z by (apply lt_IZR; lra). lia. } rewrite Z.max_l by lia.
  unfold arange. set (a := (lo - 1 * d + hi + d) / 2). pose proof (Rceil_spec ((hi - a) / d)) as [B1 B2]. set (y := Rceil ((hi - a) / d)) in *.
  assert (Q2 : (hi - a) / d <= 0). { apply Rmult_le_reg_r with d; [exact D|]. unfold Rdiv, a. rewrite Rmult_assoc, Rinv_l by lra. lra. }
  assert (y < 1)%Z by (apply lt_IZR; lra). replace (Z.to_nat y) with 0%nat by lia. reflexivity.
Qed.
Lemma flat_map_length_const {A B} (f : A -> list B) k l : (forall a, length (f a) = k) -> length (flat_map f l) = (length l * k)%nat.
Proof. intros H. induction l; cbn; [reflexivity|]. rewrite app_length, IHl, H. lia. Qed.
Lemma grid_yz_spec y0 y1 z0 z1 dy dz : length (grid_yz y0 y1 z0 z1 dy dz) = (length (grid_axis z0 z1 dz) * length (grid_axis y0 y1 dy))%nat /\
  forall y z, In (y, z) (grid_yz y0 y1 z0 z1 dy dz) <-> In y (grid_axis y0 y1 dy) /\ In z (grid_axis z0 z1 dz).
Proof.
  split; [apply flat_map_length_const; intros; apply map_length|]. intros y z. unfold grid_yz. rewrite in_flat_map. split.
  - intros (z' & I & J). apply in_map_iff in J as (y' & E & J). injection E as -> ->. auto.
  - intros [I J]. exists z. split; [exact J|]. apply in_map_iff. eauto.
Qed.

(** *** radii *)
Lemma radii_ok d0 r0 r1 : 0 < d0 -> r0 < r1 -> let n := Z.to_nat (Rceil ((r1 - r0) / d0)) in
  (1 <= n)%nat /\ symmetric_comb (radii_bracket d0 r0 r1) n d0 ((r0 + r1) / 2) /\ covers (radii_bracket d0 r0 r1) (d0 / 2) r0 r1.
Proof.
  intros D L n. pose proof (Rceil_spec ((r1 - r0) / d0)) as [C1 C2]. set (z := Rceil ((r1 - r0) / d0)) in *.
  assert (Q : 0 < (r1 - r0) / d0) by (apply Rdiv_lt_0_compat; lra). assert (Z1 : (1 <= z)%Z) by (assert (0 < z)%Z by (apply lt_IZR; lra); lia).
  assert (E : r1 - r0 = (r1 - r0) / d0 * d0) by (field; lra). set (q := (r1 - r0) / d0) in *.
  assert (N : INR n = IZR z) by (unfold n; rewrite INR_IZR_INZ, Z2Nat.id by lia; reflexivity).
  assert (S : symmetric_comb (radii_bracket d0 r0 r1) n d0 ((r0 + r1) / 2)).
  { unfold symmetric_comb, radii_bracket, max_elements_on_radius. cbv zeta. fold q z. rewrite (arange_len _ _ 1 z) by lra.
    fold n. rewrite map_map. apply map_ext. intros i. rewrite N. field. }
  split; [unfold n; lia|]. split; [exact S|]. rewrite S. eapply covers_sub; [apply comb_covers; [lra|unfold n; lia]| |]; rewrite N; nra.
Qed.

(** *** arcs *)
Lemma arc_spacing d1 dphi radius n i : 0 < radius -> (0 <= n)%Z ->
  arc_center d1 dphi radius n (S i) - arc_center d1 dphi radius n i = (dphi + d1 / (2 * PI * radius)) / (IZR n + 1).
Proof.
  intros P N. assert (0 <= IZR n) by (apply IZR_le; lia). pose proof PI_RGT_0. unfold arc_center, arc_between. cbv zeta. rewrite S_INR. field. repeat split; lra.
Qed.
Lemma arc_max d1 dphi radius : 0 < d1 -> IZR (max_elements_on_arc d1 dphi radius) * d1 <= radius * dphi.
Proof.
  intros D. unfold max_elements_on_arc. pose proof (Rfloor_spec (radius * dphi / d1)) as [H _].
  apply Rmult_le_compat_r with (r := d1) in H; [|lra]. replace (radius * dphi / d1 * d1) with (radius * dphi) in H by (field; lra). exact H.
Qed.
Lemma arc_no_overlap d0 d1 dphi radius i : 0 < d0 -> 0 < d1 -> 0 <= dphi -> 0 < radius -> let n := max_elements_on_arc d1 dphi (radius - d0 / 2) in (0 <= n)%Z ->
  d1 * (1 - / (2 * PI)) <= d0 * dphi / 2 ->
  d1 <= radius * (arc_center d1 dphi radius n (S i) - arc_center d1 dphi radius n i).
Proof.
  intros D0 D1 Dp P n N H. rewrite arc_spacing by auto. pose proof (arc_max d1 dphi (radius - d0 / 2) D1) as M. fold n in M.
  assert (0 <= IZR n) by (apply IZR_le; lia). pose proof PI_RGT_0 as PP.
  apply Rmult_le_reg_r with (IZR n + 1); [lra|]. replace (radius * ((dphi + d1 / (2 * PI * radius)) / (IZR n + 1)) * (IZR n + 1)) with (radius * dphi + d1 * / (2 * PI)) by (field; repeat split; lra).
  nra.
Qed.
Lemma arc_weak d0 d1 dphi radius i : 0 < d0 -> 0 < d1 -> 0 <= dphi -> 0 < radius -> let n := max_elements_on_arc d1 dphi (radius - d0 / 2) in (0 <= n)%Z ->
  d1 * IZR n / (IZR n + 1) < radius * (arc_center d1 dphi radius n (S i) - arc_center d1 dphi radius n i).
Proof.
  intros D0 D1 Dp P n N. rewrite arc_spacing by auto. pose proof (arc_max d1 dphi (radius - d0 / 2) D1) as M. fold n in M.
  assert (0 <= IZR n) by (apply IZR_le; lia). pose proof PI_RGT_0 as PP. assert (0 < / (2 * PI)) by (apply Rinv_0_lt_compat; lra).
  apply Rmult_lt_reg_r with (IZR n + 1); [lra|]. replace (radius * ((dphi + d1 / (2 * PI * radius)) / (IZR n + 1)) * (IZR n + 1)) with (radius * dphi + d1 * / (2 * PI)) by (field; repeat split; lra).
  replace (d1 * IZR n / (IZR n + 1) * (IZR n + 1)) with (d1 * IZR n) by (field; lra). nra.
Qed.
(** two elements of width 1 on an arc of length 21/10 *)
Lemma arc_overlap : let n := max_elements_on_arc 1 (21 / 10) (1 - / 100 / 2) in n = 2%Z /\
  1 * (arc_center 1 (21 / 10) 1 n 1 - arc_center 1 (21 / 10) 1 n 0) < 1.
Proof.
  assert (E : max_elements_on_arc 1 (21 / 10) (1 - / 100 / 2) = 2%Z) by (unfold max_elements_on_arc; apply Rfloor_unique; lra).
  cbv zeta. split; [exact E|]. rewrite E, arc_spacing by (lra || lia). pose proof PI2_3_2.
  assert (1 / (2 * PI * 1) < 1 / 5). { unfold Rdiv. rewrite !Rmult_1_l. apply Rinv_lt_contravar; lra. } lra.
Qed.
Lemma distribute_arc_count d0 d1 p0 p1 rest radius l : distribute_arc d0 d1 (PhiList (p0 :: p1 :: rest)) radius = Ok l ->
  length l = Z.to_nat (max_elements_on_arc d1 (anglediff p0 p1) (radius - d0 / 2)) /\
  forall i a, nth_error l i = Some a -> a = Rmod (p0 + arc_center d1 (anglediff p0 p1) radius (max_elements_on_arc d1 (anglediff p0 p1) (radius - d0 / 2)) i) twopi /\
    same_angle a (p0 + arc_center d1 (anglediff p0 p1) radius (max_elements_on_arc d1 (anglediff p0 p1) (radius - d0 / 2)) i).
Proof.
  intros E. cbn in E. injection E as <-. split; [now rewrite map_length, seq_length|]. intros i a H. rewrite nth_error_map in H.
  destruct (nth_error (seq 0 _) i) as [j|] eqn:J; [|discriminate]. cbn in H. injection H as <-.
  assert (j = i). { assert (i < length (seq 0 (Z.to_nat (max_elements_on_arc d1 (anglediff p0 p1) (radius - d0 / 2)))))%nat by (apply nth_error_Some; congruence).
    rewrite seq_length in H. apply nth_error_nth with (d := 0%nat) in J. rewrite seq_nth in J by exact H. lia. }
  subst j. split; [reflexivity|]. destruct (Rmod_eq (p0 + arc_center d1 (anglediff p0 p1) radius (max_elements_on_arc d1 (anglediff p0 p1) (radius - d0 / 2)) i) twopi) as [n ->].
  exists n. ring.
Qed.

(** *** mesh *)
Lemma mesh_y_spec rout dy : 0 < dy -> 0 < rout -> let n := Rceil (2 * rout / dy) in
  let k := Z.to_nat (Rceil ((rout + IZR n * dy / 2) / dy)) in
  mesh_y rout dy = map (fun i => - (IZR n * dy) / 2 + INR i * dy) (seq 0 k) /\ (Z.to_nat n <= k <= S (Z.to_nat n))%nat.
Proof.
  intros D P n k. pose proof (Rceil_spec (2 * rout / dy)) as [C1 C2]. fold n in C1, C2.
  assert (Q : 2 * rout = 2 * rout / dy * dy) by (field; lra). set (q := 2 * rout / dy) in *.
  assert (Z1 : (1 <= n)%Z). { assert (0 < q) by (apply Rdiv_lt_0_compat; lra). assert (0 < n)%Z by (apply lt_IZR; lra). lia. }
  unfold mesh_y. cbv zeta. fold q n. split.
  - unfold arange. replace (rout - - (IZR n * dy) / 2) with (rout + IZR n * dy / 2) by field. reflexivity.
  - assert (E : (rout + IZR n * dy / 2) / dy = q / 2 + IZR n / 2). { replace rout with (q * dy / 2) by lra. field. lra. }
    pose proof (Rceil_spec ((rout + IZR n * dy / 2) / dy)) as [B1 B2]. rewrite E in B1, B2. unfold k. rewrite E. set (m := Rceil (q / 2 + IZR n / 2)) in *.
    assert (n - 1 < m)%Z by (apply lt_IZR; rewrite minus_IZR; lra). assert (m < n + 1)%Z by (apply lt_IZR; rewrite plus_IZR; lra). lia.
Qed.
(** exactly [n] rows: the last one is one pitch below the mirror image of the first one *)
Lemma mesh_y_exact rout dy : 0 < dy -> 0 < rout -> exists n, (1 <= n)%nat /\ 2 * rout <= INR n * dy < 2 * rout + dy /\
  mesh_y rout dy = map (fun i => - (INR n * dy) / 2 + INR i * dy) (seq 0 n).
Proof.
  intros D P. destruct (mesh_y_spec rout dy D P) as [-> _]. pose proof (Rceil_spec (2 * rout / dy)) as [C1 C2]. set (n := Rceil (2 * rout / dy)) in *.
  assert (Q : 2 * rout = 2 * rout / dy * dy) by (field; lra). set (q := 2 * rout / dy) in *.
  assert (Z1 : (1 <= n)%Z). { assert (0 < q) by (apply Rdiv_lt_0_compat; lra). assert (0 < n)%Z by (apply lt_IZR; lra). lia. }
  assert (E : (rout + IZR n * dy / 2) / dy = q / 2 + IZR n / 2). { replace rout with (q * dy / 2) by lra. field. lra. }
  pose proof (Rceil_spec ((rout + IZR n * dy / 2) / dy)) as [B1 B2]. rewrite E in *. set (m := Rceil (q / 2 + IZR n / 2)) in *.
  assert (n - 1 < m)%Z by (apply lt_IZR; rewrite minus_IZR; lra). assert (m < n + 1)%Z by (apply lt_IZR; rewrite plus_IZR; lra).
  assert (M : m = n) by lia. rewrite M. exists (Z.to_nat n). assert (I : INR (Z.to_nat n) = IZR n) by (rewrite INR_IZR_INZ, Z2Nat.id by lia; reflexivity).
  rewrite I. split; [lia|]. split; [|reflexivity]. split; [rewrite Q; apply Rmult_le_compat_r; lra|].
  rewrite Q. assert ((IZR n - 1) * dy < q * dy) by (apply Rmult_lt_compat_r; lra). lra.
Qed.
Lemma mesh_y_never rout dy : 0 < dy -> 0 < rout ->
  (forall c, In c (mesh_y rout dy) -> c < rout - dy / 2) /\ (exists y, In y (mesh_y rout dy) /\ y <= - rout /\ ~ In (- y) (mesh_y rout dy)) /\
  forall x, - rout <= x <= rout - dy -> exists c, In c (mesh_y rout dy) /\ Rabs (x - c) <= dy / 2.
Proof.
  intros D P. destruct (mesh_y_exact rout dy D P) as (n & N & (L & U) & E). rewrite E.
  assert (T : forall c, In c (map (fun i => - (INR n * dy) / 2 + INR i * dy) (seq 0 n)) -> c < rout - dy / 2).
  { intros c I. apply in_map_iff in I as (i & <- & I). apply in_seq in I. assert (K : INR i + 1 <= INR n) by (rewrite <- S_INR; apply le_INR; lia).
    apply (Rmult_le_compat_r dy) in K; [|lra]. lra. }
  split; [exact T|split].
  - exists (- (INR n * dy) / 2). split; [|split; [lra|]].
    + apply in_map_iff. exists 0%nat. split; [cbn; lra|apply in_seq; lia].
    + intros I. apply T in I. lra.
  - intros x [X1 X2]. set (t := (x + INR n * dy / 2) / dy + / 2). assert (TE : x = (t - / 2) * dy - INR n * dy / 2) by (unfold t; field; lra).
    assert (T0 : 0 < t). { apply Rmult_lt_reg_r with dy; [lra|]. nra. }
    pose proof (Rfloor_spec t) as [F1 F2]. set (k := Rfloor t) in *. assert (K0 : (0 <= k)%Z). { assert (- 1 < k)%Z by (apply lt_IZR; lra). lia. }
    assert (I : INR (Z.to_nat k) = IZR k) by (rewrite INR_IZR_INZ, Z2Nat.id by lia; reflexivity).
    assert (TN : t <= INR n - / 2). { apply Rmult_le_reg_r with dy; [lra|]. nra. }
    exists (- (INR n * dy) / 2 + INR (Z.to_nat k) * dy). split.
    + apply in_map_iff. exists (Z.to_nat k). split; [reflexivity|]. apply in_seq. split; [lia|]. cbn. apply INR_lt. rewrite I. lra.
    + rewrite I. replace (x - (- (INR n * dy) / 2 + IZR k * dy)) with ((t - / 2 - IZR k) * dy) by (rewrite TE; field).
      rewrite Rabs_mult, (Rabs_right dy) by lra. replace (dy / 2) with (/ 2 * dy) by field. apply Rmult_le_compat_r; [lra|]. apply Rabs_le. lra.
Qed.
(** the mesh of radius 1 and pitch 1: rows at -1 and 0 only *)
Lemma mesh_y_1 : mesh_y 1 1 = [-1; 0].
Proof.
  unfold mesh_y. cbv zeta. rewrite (Rceil_unique (2 * 1 / 1) 2) by lra. rewrite (arange_len _ _ 1 2) by lra. change (Z.to_nat 2) with 2%nat. cbn [seq map]. apply f_equal2; [cbn; lra|apply f_equal2; [cbn; lra|reflexivity]].
Qed.
Lemma mesh_z_limit rin rout dz y z : 0 < dz -> 0 <= rin -> 0 <= rout -> In z (mesh_z rin rout dz y) -> rout < Rabs y \/ Rabs z <= sqrt (rout * rout - y * y) + dz / 2.
Proof.
  intros D Ri Ro I. unfold mesh_z in I. destruct (Rltb rout (Rabs y)) eqn:L; [left; now apply Rltb_true|right].
  apply Rltb_false in L. set (zo := sqrt (rout * rout - y * y)) in *. cbv zeta in I.
  assert (Zo : 0 <= zo) by apply sqrt_pos.
  assert (Ar : forall a b d x, 0 < d -> In x (arange a b d) -> a <= x < b).
  { intros a b d x Dd J. unfold arange in J. apply in_map_iff in J as (i & <- & J). apply in_seq in J. pose proof (Rceil_spec ((b - a) / d)) as [B1 B2].
    pose proof (pos_INR i). split; [nra|]. assert (INR i <= IZR (Rceil ((b - a) / d)) - 1).
    { rewrite INR_IZR_INZ. rewrite <- minus_IZR. apply IZR_le. lia. }
    assert (INR i < (b - a) / d) by lra. apply Rmult_lt_compat_r with (r := d) in H1; [|exact Dd]. replace ((b - a) / d * d) with (b - a) in H1 by (field; lra). lra. }
  assert (Hz : forall w, 0 <= w -> IZR (Rceil (w / dz)) * dz < w + dz).
  { intros w W. pose proof (Rceil_spec (w / dz)) as [B1 _]. apply Rmult_lt_compat_r with (r := dz) in B1; [|exact D]. replace (w / dz * dz) with w in B1 by (field; lra). lra. }
  destruct (Rltb rin (Rabs y)).
  - apply Ar in I; [|exact D]. pose proof (Hz (2 * zo) ltac:(lra)). unfold Rabs. destruct (Rcase_abs z); lra.
  - set (zi := sqrt (rin * rin - y * y)) in *. assert (Zi : 0 <= zi) by apply sqrt_pos.
    assert (K : forall x, In x (arange (/ 2 * (zi + zo) - IZR (Rceil ((zo - zi) / dz)) * dz / 2) zo dz) -> Rabs x <= zo + dz / 2).
    { intros x J. apply Ar in J; [|exact D].
      assert (IZR (Rceil ((zo - zi) / dz)) * dz < zo - zi + dz).
      { pose proof (Rceil_spec ((zo - zi) / dz)) as [B1 _]. apply Rmult_lt_compat_r with (r := dz) in B1; [|exact D]. replace ((zo - zi) / dz * dz) with (zo - zi) in B1 by (field; lra). lra. }
      unfold Rabs. destruct (Rcase_abs x); lra. }
    apply in_app_or in I as [I|I]; [|now apply K]. apply in_map_iff in I as (x & <- & I). rewrite Rabs_Ropp. now apply K.
Qed.

(** *** positions in space *)
Lemma elempos_ok t minv root guess axis yz ps : affine (tpos t) -> mul4 minv (tpos t) = id4 -> root_contract root -> w4 axis = 0 ->
  elempos t minv root guess axis yz = Ok ps ->
  Forall2 (fun yz p => quartic t minv true (xyz p) = Ok 0 /\ exists k, p = add4 (app4 (tpos t) (V4 0 (fst yz) (snd yz) 1)) (scale4 k axis)) yz ps.
Proof.
  intros A I C W. revert ps. induction yz as [|[y z] yz IH]; intros ps E; cbn in E; [injection E as <-; constructor|].
  destruct (solve_quartic _ _ _ _ _ _) as [p|] eqn:S; [|discriminate]. cbn in E. destruct (elempos _ _ _ _ _ _) as [ps'|]; [|discriminate]. cbn in E.
  injection E as <-. constructor; [|now apply IH]. apply solve_on in S; [|exact C]. destruct S as (q & d & k & Hq & Hd & -> & Qu). split; [exact Qu|].
  set (o := app4 (tpos t) (V4 0 y z 1)) in *. assert (Wo : w4 o = 1) by (unfold o; now rewrite app4_w).
  assert (Wq : w4 (add4 o (scale4 guess axis)) = 1) by (change (w4 o + guess * w4 axis = 1); rewrite Wo, W; ring).
  rewrite h2e1_w1 in Hq by exact Wq. rewrite h2e1_w0 in Hd by exact W. injection Hq as <-. injection Hd as <-. exists (guess + k). cbn [fst snd]. fold o. clearbody o.
  destruct o as [ox oy oz ow], axis as [ax ay az aw]. cbn in Wo, W. subst. unfold add4, scale4, hom, add3, scale3, xyz. cbn. f_equal; ring.
Qed.
Lemma default_axis_w t : affine (tpos t) -> w4 (default_axis t) = 0.
Proof. intros A. unfold default_axis. now rewrite app4_w. Qed.
Lemma default_axis_pt t k y z : add4 (app4 (tpos t) (V4 0 y z 1)) (scale4 k (default_axis t)) = app4 (tpos t) (V4 k y z 1).
Proof. unfold default_axis. rewrite <- app4_scale, <- app4_add. f_equal. unfold add4, scale4. cbn. f_equal; ring. Qed.

Lemma gas_ring_points d0 d1 phi radii : forall l r a, gas_rings d0 d1 phi radii = Ok l -> In (r, a) l ->
  exists angles, In r radii /\ distribute_arc d0 d1 phi r = Ok angles /\ In a angles.
Proof.
  induction radii as [|r0 radii IH]; intros l r a H I; [injection H as <-; destruct I|]. cbn in H.
  destruct (distribute_arc d0 d1 phi r0) as [an|] eqn:D; [|discriminate]. cbn in H. destruct (gas_rings d0 d1 phi radii) as [rest|] eqn:G; [|discriminate]. cbn in H.
  injection H as <-. apply in_app_iff in I. destruct I as [I|I].
  - apply in_map_iff in I. destruct I as (b & E & I). assert (r0 = r /\ b = a) as [<- <-] by (split; congruence). exists an. cbn. auto.
  - destruct (IH rest r a eq_refl I) as (an' & A & B & C). exists an'. cbn. auto.
Qed.
Lemma gas_points d0 d1 phi radius l y z : gas_yz d0 d1 phi radius = Ok l -> In (y, z) l ->
  exists r a angles, In r (distribute_radius d0 radius) /\ distribute_arc d0 d1 phi r = Ok angles /\ In a angles /\ y = r * sin a /\ z = r * cos a.
Proof.
  unfold gas_yz. intros H I. destruct (distribute_radius d0 radius) as [|r0 rs] eqn:D; [discriminate|].
  destruct (gas_rings d0 d1 phi (r0 :: rs)) as [ra|] eqn:G; [|discriminate]. cbn [bind] in H. injection H as <-.
  apply in_map_iff in I. destruct I as ([r a] & E & I). destruct (gas_ring_points _ _ _ _ _ _ _ G I) as (an & A & B & C).
  exists r, a, an. cbn [fst snd] in E. assert (y = r * sin a /\ z = r * cos a) as [-> ->] by (split; congruence). auto.
Qed.
