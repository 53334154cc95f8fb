(** Lemmas on tilted transmission gratings *)
From Verif Require Import Base_Proofs Vec_Proofs Coords_Proofs Rot_Proofs Plane_Proofs Placement_Proofs Lens_Proofs Grating_Proofs Instrument_Proofs Instrument_Proofs2 Layers_Proofs Whole_Proofs Whole_Proofs2 Align_Proofs Stretch_Proofs.
From Verif Require Import Tilt_Model.
Open Scope R_scope.
Open Scope list_scope.

(** ** angles *)
Lemma sin_half u th S : sin u = sin th + S -> 2 * sin ((u - th) / 2) * cos (th + (u - th) / 2) = S.
Proof. intros H. replace S with (sin u - sin th) by lra. rewrite form4. replace (th + (u - th) / 2) with ((u + th) / 2) by field. ring. Qed.
Lemma cos_one x : - (PI / 2) <= x <= PI / 2 -> cos x = 1 -> x = 0.
Proof.
  intros B C. pose proof (sin2_cos2 x) as E. unfold Rsqr in E. rewrite C in E. assert (S : sin x = 0) by nra.
  assert (P : 0 < PI) by apply PI_RGT_0. destruct (Rtotal_order x 0) as [L|[Q|L]]; [|exact Q|].
  - assert (0 < sin (- x)) by (apply sin_gt_0; lra). rewrite sin_neg in *. lra.
  - assert (0 < sin x) by (apply sin_gt_0; lra). lra.
Qed.
Lemma minimum u th S : - (PI / 2) <= u <= PI / 2 -> - (PI / 2) <= th <= PI / 2 -> sin u = sin th + S -> 0 < S ->
  2 * asin (S / 2) <= u - th /\ (u - th = 2 * asin (S / 2) <-> th = - ((u - th) / 2)).
Proof.
  intros U T E P. assert (PP : 0 < PI) by apply PI_RGT_0. pose proof (SIN_bound u) as BU. pose proof (SIN_bound th) as BT.
  assert (L : th < u). { apply Rnot_le_lt. intros Q. assert (sin u <= sin th) by (apply sin_incr_1; lra). lra. }
  set (h := (u - th) / 2). assert (H : 0 < h <= PI / 2) by (unfold h; lra). pose proof (sin_half u th S E) as F. fold h in F.
  assert (SH : 0 < sin h) by (apply sin_gt_0; lra). pose proof (COS_bound (th + h)) as C.
  assert (G : S / 2 <= sin h) by nra. assert (A : sin (asin (S / 2)) = S / 2) by (apply sin_asin; lra). pose proof (asin_bound (S / 2)) as AB.
  assert (M : asin (S / 2) <= h). { apply Rnot_lt_le. intros Q. assert (sin h < sin (asin (S / 2))) by (apply sin_increasing_1; lra). lra. }
  assert (D : u - th = 2 * h) by (unfold h; field). split; [lra|]. split; intros Q.
  - assert (h = asin (S / 2)) by lra. assert (Z : sin h = S / 2) by congruence. rewrite Z in F. assert (C1 : cos (th + h) = 1) by (apply (Rmult_eq_reg_l S); lra).
    assert (B : - (PI / 2) <= th + h <= PI / 2) by (unfold h; lra). pose proof (cos_one _ B C1). lra.
  - assert (Z : th + h = 0) by lra. rewrite Z, cos_0 in F. assert (W : sin h = S / 2) by lra. assert (h = asin (S / 2)) by (rewrite <- W; symmetry; apply asin_sin; lra). lra.
Qed.
Lemma maximum u th S : - (PI / 2) <= u <= PI / 2 -> - (PI / 2) <= th <= PI / 2 -> sin u = sin th + S -> S < 0 ->
  u - th <= 2 * asin (S / 2) /\ (u - th = 2 * asin (S / 2) <-> th = - ((u - th) / 2)).
Proof.
  intros U T E P. destruct (minimum (- u) (- th) (- S)) as [A B]; [lra|lra|rewrite !sin_neg; lra|lra|]. replace (- S / 2) with (- (S / 2)) in A, B by field. rewrite asin_opp in A, B. split; [lra|]. split; intros Q.
  - assert (Q' : - u - - th = 2 * - asin (S / 2)) by lra. apply B in Q'. lra.
  - assert (Q' : - th = - ((- u - - th) / 2)) by lra. apply B in Q'. lra.
Qed.
(** ** directions *)
Lemma unit_angle a b : a * a + b * b = 1 -> 0 <= a -> - (PI / 2) <= asin b <= PI / 2 /\ sin (asin b) = b /\ cos (asin b) = a.
Proof.
  intros E P. split; [apply asin_bound|]. assert (B : -1 <= b <= 1) by nra. split; [apply sin_asin; exact B|]. rewrite (cos_asin b B). rewrite <- (sqrt_square a P). f_equal. unfold Rsqr. lra.
Qed.
Lemma facing_frame p n D l v : orthonormal (M3 (neg3 D) l n) -> dot3 v l = 0 -> v = add3 (scale3 (dot3 v (facing p n)) (facing p n)) (scale3 (dot3 v D) D).
Proof.
  intros O Z. rewrite (frame_decompose _ _ _ v O) at 1. rewrite Z. unfold facing. destruct (Rleb 0 (dot3 p n)); clear; destruct v, n, D, l; vu; f_equal; ring.
Qed.
Lemma facing_unit p n D l v : orthonormal (M3 (neg3 D) l n) -> dot3 v l = 0 -> dot3 v v = 1 -> dot3 v (facing p n) * dot3 v (facing p n) + dot3 v D * dot3 v D = 1.
Proof.
  intros O Z U. pose proof (facing_frame p n D l v O Z) as F. assert (FF : dot3 (facing p n) (facing p n) = 1 /\ dot3 D D = 1 /\ dot3 (facing p n) D = 0).
  { destruct O as (A & _ & B & _ & C & _). cbn [a0 a1 a2] in *. unfold facing. clear F. destruct (Rleb 0 (dot3 p n)); clear - A B C; destruct n, D; vu; repeat split; lra. }
  destruct FF as (F1 & F2 & F3). rewrite <- U. rewrite F at 5 6. generalize dependent (facing p n). clear - F2. intros n F F1 F3. generalize (dot3 v n) (dot3 v D). intros a b. transitivity (a * a * dot3 n n + 2 * a * b * dot3 n D + b * b * dot3 D D); [rewrite F1, F2, F3; ring|]. clear. destruct n, D. vu. ring.
Qed.
Lemma deflected c mat g dir m wave per out bl ey ez en p : perpendicular_axes mat -> dir <> zero3 -> plane_bases mat = Some (ey, ez, en) -> p = scale3 (/ norm3 dir) dir -> dot3 p (xyz en) <> 0 ->
  grating c true mat g dir m wave per = Some (out, bl) ->
  let l := e_groove (xyz ey) (xyz ez) g in let disp := e_perp_groove (xyz ey) (xyz ez) g in let n := facing p (xyz en) in
  let S := sine_step c p disp m wave per in
  dot3 p l = 0 -> exists th de, - (PI / 2) < th < PI / 2 /\ - (PI / 2) <= th + de <= PI / 2 /\
    p = add3 (scale3 (cos th) n) (scale3 (sin th) disp) /\ out = add3 (scale3 (cos (th + de)) n) (scale3 (sin (th + de)) disp) /\
    sin (th + de) = sin th + S /\ dot3 out p = cos de /\ 2 * sin (de / 2) * cos (th + de / 2) = S /\
    (0 < S -> 2 * asin (S / 2) <= de) /\ (S < 0 -> de <= 2 * asin (S / 2)) /\ (S <> 0 -> (de = 2 * asin (S / 2) <-> th = - (de / 2))).
Proof.
  intros A D B U N G l disp n S Z. destruct (grating_main c true mat g dir m wave per out bl ey ez en p A D B U N G) as (NO & L & E & T). fold l in L. fold disp in E. fold (sine_step c p disp m wave per) in E. fold S in E. cbn match in T.
  assert (O : orthonormal (M3 (neg3 disp) l (xyz en))).
  { destruct (plane_bases_spec mat A) as (ey' & ez' & ex' & B' & O' & _). assert (E3 : (ey', ez', ex') = (ey, ez, en)) by congruence. injection E3 as -> -> ->. apply groove_frame. destruct O' as (a & b & cc & ab & ac & bc). cbn [a0 a1 a2] in *. repeat split; cbn [a0 a1 a2]; try assumption; rewrite dot3_comm; assumption. }
  assert (PP : dot3 p p = 1). { apply norm3_1. rewrite U, norm3_scale. pose proof (norm3_pos dir D). rewrite Rabs_pos_eq by (left; now apply Rinv_0_lt_compat). field. lra. }
  apply norm3_1 in NO. rewrite Z in L.
  assert (PN : 0 < dot3 p n). { unfold n, facing. destruct (Rleb 0 (dot3 p (xyz en))) eqn:Q; [apply Rleb_true in Q; lra|apply Rleb_false in Q]. generalize dependent (xyz en). clear. intros v. intros. destruct p, v. vu. lra. }
  assert (ON : 0 <= dot3 out n). { unfold n, facing. destruct (Rleb 0 (dot3 p (xyz en))) eqn:Q; [apply Rleb_true in Q; nra|apply Rleb_false in Q].
    assert (R : dot3 out (xyz en) <= 0) by nra. revert R. generalize (xyz en). clear. intros v R. destruct out, v. vu. lra. }
  pose proof (facing_frame p (xyz en) disp l p O Z) as FP. pose proof (facing_frame p (xyz en) disp l out O L) as FO. fold n in FP, FO.
  pose proof (facing_unit p (xyz en) disp l p O Z PP) as UP. pose proof (facing_unit p (xyz en) disp l out O L NO) as UO. fold n in UP, UO.
  destruct (unit_angle _ _ UP (Rlt_le _ _ PN)) as (B1 & S1 & C1). destruct (unit_angle _ _ UO ON) as (B2 & S2 & C2).
  set (th := asin (dot3 p disp)) in *. set (u := asin (dot3 out disp)) in *. exists th, (u - th). replace (th + (u - th)) with u by ring.
  assert (SE : sin u = sin th + S) by (rewrite S1, S2; exact E).
  assert (TH : - (PI / 2) < th < PI / 2). { rewrite <- C1 in PN. destruct B1 as [[B1|B1] [B3|B3]]; [now split| | |]; exfalso; [rewrite B3, cos_PI2 in PN|rewrite <- B1, cos_neg, cos_PI2 in PN|rewrite B3, cos_PI2 in PN]; lra. }
  split; [exact TH|]. split; [exact B2|]. split; [rewrite C1, S1; exact FP|]. split; [rewrite C2, S2; exact FO|]. split; [exact SE|]. split.
  { rewrite cos_minus, C1, C2, S1, S2. rewrite FP at 1. transitivity (dot3 p n * dot3 out n + dot3 p disp * dot3 out disp); [|ring]. generalize (dot3 p n) (dot3 p disp) n disp. clear. intros a b n D. destruct n, D, out. vu. ring. }
  split; [exact (sin_half u th S SE)|]. assert (B1' : - (PI / 2) <= th <= PI / 2) by lra. split; [intros P; exact (proj1 (minimum u th S B2 B1' SE P))|]. split; [intros P; exact (proj1 (maximum u th S B2 B1' SE P))|].
  intros P. destruct (Rdichotomy _ _ P) as [Q|Q]; [exact (proj2 (maximum u th S B2 B1' SE Q))|exact (proj2 (minimum u th S B2 B1' SE Q))].
Qed.
(** ** order 0 *)
Lemma order_0_direction c mat g dir wave per : perpendicular_axes mat -> dir <> zero3 -> dot3 dir (xyz (v_x mat)) <> 0 -> option_map fst (grating c true mat g dir 0 wave per) = Some (scale3 (/ norm3 dir) dir).
Proof.
  intros A D N. destruct (grating_unfold c true mat g dir 0 wave per A D) as (ex & ey & en & p & B & _ & PP & E & O & G). rewrite G.
  assert (NP : dot3 p (xyz en) <> 0). { destruct (plane_bases_spec mat A) as (ey' & ez' & ex' & B' & _ & _ & _ & _ & X & _). assert (E3 : (ey', ez', ex') = (ex, ey, en)) by congruence. injection E3 as -> -> ->.
    intros Q. apply N. rewrite X, dot3_scale_r. rewrite E in Q. rewrite dot3_scale_l in Q. apply Rmult_integral in Q. destruct Q as [Q|Q]; [|rewrite Q; ring]. exfalso. pose proof (norm3_pos dir D) as H. apply Rinv_0_lt_compat in H. lra. }
  rewrite (diffract_order0 _ _ _ p O PP c wave per NP). cbn. now rewrite E.
Qed.
Lemma same_line c n x k k' d1 y y' s s' r : dot3 d1 n <> 0 -> y = add3 (add3 x (scale3 k (scale3 r d1))) (scale3 s d1) -> y' = add3 (add3 x (scale3 k' (scale3 r d1))) (scale3 s' d1) -> dot3 (sub3 y c) n = 0 -> dot3 (sub3 y' c) n = 0 -> y' = y.
Proof.
  intros N -> -> H H'. assert (E : (k * r + s - (k' * r + s')) * dot3 d1 n = 0) by (rewrite <- (Rminus_diag_eq _ _ (eq_trans H (eq_sym H'))); clear; destruct c, n, x, d1; vu; ring).
  apply Rmult_integral in E. destruct E as [E|E]; [|contradiction]. assert (K : k' * r + s' = k * r + s) by lra. assert (F : forall k s, add3 (add3 x (scale3 k (scale3 r d1))) (scale3 s d1) = add3 x (scale3 (k * r + s) d1)) by (clear; intros; destruct x, d1; vu; f_equal; ring).
  now rewrite !F, K.
Qed.
Lemma zero_moved t a c m g per dr ph d q loc q' loc' ph1 ph1' md d1 y loc1 d1' y' loc1' : perpendicular_axes m -> dr_order dr = 0%Z ->
  meets m ph = Some (d, q, loc) -> meets (mul4 (move6 t a) m) ph = Some (d, q', loc') ->
  one (PGrating c true m g per) dr ph = Ok ph1 -> one (moved t a (PGrating c true m g per)) dr ph = Ok ph1' ->
  l_dir ph1 = Some (scale3 (/ norm3 d) d) /\ ph1' = at_point q' ph1 /\
  (perpendicular_axes md -> meets md ph1 = Some (d1, y, loc1) -> meets md ph1' = Some (d1', y', loc1') -> y' = y).
Proof.
  intros P Z M M' O O'. pose proof (move6_rigid t a) as G. pose proof (m_axes _ G m P) as P'.
  pose proof (proj1 (meets_iff _ _ _ _ _ P) M) as (DI & N & x & k & _ & _ & X & _ & Q & _). pose proof (proj1 (meets_iff _ _ _ _ _ P') M') as (_ & N' & x' & k' & _ & _ & X' & _ & Q' & _). assert (x' = x) as -> by congruence.
  assert (D0 : d <> zero3) by (intros ->; apply N; destruct (xyz (v_x m)); unfold zero3; vu; ring).
  unfold moved in O'. cbn [displace_part] in O'. cbn [one surface] in O, O'. rewrite M in O. rewrite M' in O'. cbn [effect] in O, O'. rewrite Z in O, O'.
  rewrite (order_0_direction c m g d _ _ P D0 N) in O. rewrite (order_0_direction c _ g d _ _ P' D0 N') in O'. cbn [bent bind fst snd] in O, O'. destruct (bad_factor (Some (dr_p dr))); [discriminate|].
  assert (E : ph1 = LPhoton (Some (scale3 (/ norm3 d) d)) (Some q) (transported d (scale3 (/ norm3 d) d) (l_pol ph)) (l_energy ph) (times (l_prob ph) (Some (dr_p dr)))) by congruence.
  assert (E' : ph1' = at_point q' ph1) by (rewrite E; unfold at_point; cbn; congruence). split; [rewrite E; reflexivity|]. split; [exact E'|]. intros PD H H'.
  destruct (meets_line md ph1 d1 y loc1 PD H) as (D1 & N1 & PL & x1 & s & X1 & _ & Y). destruct (meets_line md ph1' d1' y' loc1' PD H') as (D1' & _ & PL' & x1' & s' & X1' & _ & Y').
  rewrite E' in D1', X1'. rewrite E in D1, X1, D1', X1'. unfold at_point in D1', X1'. cbn in D1, X1, D1', X1'. assert (d1' = d1) as -> by congruence. assert (x1 = q) as -> by congruence. assert (x1' = q') as -> by congruence.
  pose proof (norm3_pos d D0) as NP. assert (DE : d = scale3 (norm3 d) d1) by (assert (d1 = scale3 (/ norm3 d) d) as -> by congruence; clear - NP; destruct d; vu; f_equal; field; lra).
  apply (same_line (xyz (center md)) (xyz (v_x md)) x k k' d1 y y' s s' (norm3 d) N1); [|  |exact PL|exact PL']; rewrite <- DE; congruence.
Qed.
