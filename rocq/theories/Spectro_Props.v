(** Spectrographs in the Rowland geometry: C204-C205 *)
From Verif Require Import Base_Proofs Vec_Proofs Coords_Proofs Angles_Proofs Plane_Proofs Position_Proofs Rot_Proofs Grating_Proofs Cylinder_Proofs Rowland_Proofs Placement_Proofs Lynx_Proofs.
From Verif Require Export Spectro_Proofs.
From Verif Require Import Placement_Props.
From Coq Require Import Lra Lia.
Open Scope R_scope.

(** ** C204 one wavelength, one point *)
(** The focus is at angle [a] of a circle of the torus, the grating at angle [b]; the photon flies from the grating to the focus and meets the grating at the angle
    [i] to the normal.  The angle [o] of the diffracted ray does not depend on the place of the grating, and the ray meets the circle at the angle a + 2 (o - i). *)
Theorem C204_ray : forall t ph a b i o eps mat g c m wave per, rigid (tpos t) -> 0 < tr t -> 0 < a - b < 2 * PI -> - (PI / 2) < i < PI / 2 -> - (PI / 2) <= o <= PI / 2 ->
  ruled_in_plane t ph ((a + b) / 2 + PI / 2 - i) eps mat g -> sin o = sin i + eps * order_direction c (eps * sin i) * (IZR m * wave / per) -> 0 < (a - b) / 2 + (o - i) < PI ->
  exists out bl k, grating c true mat g (sub3 (xyz (parametric t a ph)) (xyz (parametric t b ph))) m wave per = Some (out, bl) /\ norm3 out = 1 /\ 0 < k /\
    hom (add3 (xyz (parametric t b ph)) (scale3 k out)) 1 = parametric t (a + 2 * (o - i)) ph.
Proof.
  intros t ph a b i o eps mat g c m wave per G Tr AB I O Ru SO Fw. destruct (rowland_focus t ph a b i o eps mat g c m wave per G Tr AB I O Ru SO) as (bl & E).
  exists (in_plane t ph ((a + b) / 2 + PI / 2 + (o - i))), bl, (2 * tr t * sin ((a - b) / 2 + (o - i))). split; [exact E|]. split; [apply norm3_1; rewrite (in_plane_dot t G), Rminus_eq_0; apply cos_0|].
  split; [assert (0 < sin ((a - b) / 2 + (o - i))) by (apply sin_gt_0; lra); nra|]. rewrite (turned_chord t ph a b (o - i) G). symmetry. apply (parametric_hom t G).
Qed.
Print Assumptions C204_ray.
(** If the focus is on the axis of the torus, it is the focus of all circles, and all rays arrive at the same coordinate along the axis, the direction of dispersion. *)
Theorem C204_axis : forall t a ph, rigid (tpos t) -> tR t + tr t * cos a = 0 -> parametric t a ph = parametric t a 0 /\
  forall d, dot3 (sub3 (xyz (parametric t (a + 2 * d) ph)) (tra (tpos t))) (app3 (lin (tpos t)) (V3 0 1 0)) = tr t * sin (a + 2 * d).
Proof. intros t a ph G H. split; [now apply axis_point|]. intros d. now apply axis_component. Qed.
Print Assumptions C204_axis.
(** The positions calculated for elements on the torus (simulator.py:494-541) with the focus as [normal_spec] and the axis of the torus as [parallel_spec] fulfill the
    assumptions, with i = 0 and the same sense of the direction of dispersion for all gratings on one side. *)
Theorem C204_placed : forall t ph a b l es j m, rigid (tpos t) -> 0 < tr t -> 0 < a - b < 2 * PI -> (forall v, In v l -> w4 v = 1) ->
  calculate_elempos (parametric t a ph) (hom (app3 (lin (tpos t)) (V3 0 1 0)) 0) l = Ok es -> nth_error l j = Some (parametric t b ph) -> nth_error es j = Some (Some m) ->
  ruled_in_plane t ph ((a + b) / 2 + PI / 2) (if Rltb 0 (sin ((a + b) / 2)) then -1 else 1) m 0.
Proof. exact placed_ruled. Qed.
Print Assumptions C204_placed.
(** All together: any number of gratings anywhere on the torus *)
Lemma array_point t a l es c mm wave per o : rigid (tpos t) -> 0 < tr t -> tR t + tr t * cos a = 0 -> (forall v, In v l -> w4 v = 1) ->
  calculate_elempos (parametric t a 0) (hom (app3 (lin (tpos t)) (V3 0 1 0)) 0) l = Ok es -> - (PI / 2) <= o <= PI / 2 ->
  sin o = - (match c with FlatSign => 1 | CATSign => -1 end) * (IZR mm * wave / per) ->
  forall j m b ph, nth_error es j = Some (Some m) -> nth_error l j = Some (parametric t b ph) -> 0 < a - b < 2 * PI -> 0 < sin ((a + b) / 2) -> 0 < (a - b) / 2 + o < PI ->
  exists out bl k, grating c true m 0 (sub3 (xyz (parametric t a 0)) (xyz (parametric t b ph))) mm wave per = Some (out, bl) /\ 0 < k /\
    hom (add3 (xyz (parametric t b ph)) (scale3 k out)) 1 = parametric t (a + 2 * o) ph.
Proof.
  intros G Tr Ax HL CE O SO j m b ph NE NL AB Sb Fw. rewrite <- (axis_point t a ph Ax) in CE |- *.
  pose proof (placed_ruled t ph a b l es j m G Tr AB HL CE NL NE) as Ru. rewrite (proj2 (Rltb_true _ _) Sb) in Ru. pose proof PI_RGT_0.
  destruct (C204_ray t ph a b 0 o (-1) m 0 c mm wave per G Tr AB ltac:(lra) O) as (out & bl & k & E & _ & K & P).
  - now rewrite Rminus_0_r.
  - rewrite SO, sin_0. unfold order_direction. destruct c; [ring|]. rewrite Rmult_0_r, (proj2 (Rleb_true 0 0)) by lra. ring.
  - now rewrite Rminus_0_r.
  - exists out, bl, k. split; [exact E|]. split; [exact K|]. rewrite P. f_equal. ring.
Qed.
Theorem C204_array : forall t a l es c mm wave per o, rigid (tpos t) -> 0 < tr t -> tR t + tr t * cos a = 0 -> (forall v, In v l -> w4 v = 1) ->
  calculate_elempos (parametric t a 0) (hom (app3 (lin (tpos t)) (V3 0 1 0)) 0) l = Ok es -> - (PI / 2) <= o <= PI / 2 ->
  sin o = - (match c with FlatSign => 1 | CATSign => -1 end) * (IZR mm * wave / per) ->
  forall j m b ph, nth_error es j = Some (Some m) -> nth_error l j = Some (parametric t b ph) -> 0 < a - b < 2 * PI -> 0 < sin ((a + b) / 2) -> 0 < (a - b) / 2 + o < PI ->
  exists out bl k, grating c true m 0 (sub3 (xyz (parametric t a 0)) (xyz (parametric t b ph))) mm wave per = Some (out, bl) /\ 0 < k /\
    dot3 (sub3 (add3 (xyz (parametric t b ph)) (scale3 k out)) (tra (tpos t))) (app3 (lin (tpos t)) (V3 0 1 0)) = tr t * sin (a + 2 * o).
Proof.
  intros t a l es c mm wave per o G Tr Ax HL CE O SO j m b ph NE NL AB Sb Fw.
  destruct (array_point t a l es c mm wave per o G Tr Ax HL CE O SO j m b ph NE NL AB Sb Fw) as (out & bl & k & E & K & P). exists out, bl, k. split; [exact E|]. split; [exact K|].
  apply (f_equal xyz) in P. rewrite xyz_hom in P. rewrite P. now apply axis_component.
Qed.
Print Assumptions C204_array.
(** Rowland circle of radius 1 about (1, 0, 0) with the focus in the origin and a grating at (2, 0, 0); order 1 with wavelength / period = 3/5 *)
Definition torus1 : torus := Torus 1 1 id4.
Lemma torus1_rigid : rigid (tpos torus1).
Proof. split; [unfold affine, id4; cbn; auto|]. unfold orthonormal, lin, id4; vu; cbn; repeat split; ring. Qed.
Lemma torus1_focus : parametric torus1 PI 0 = V4 0 0 0 1.
Proof. unfold parametric, torus_point, torus1. cbn [tR tr tpos]. rewrite app4_id, cos_PI, sin_PI, cos_0, sin_0. unfold hom. cbn. f_equal; ring. Qed.
Lemma torus1_grating : parametric torus1 0 0 = V4 2 0 0 1.
Proof. unfold parametric, torus_point, torus1. cbn [tR tr tpos]. rewrite app4_id, cos_0, sin_0. unfold hom. cbn. f_equal; ring. Qed.
Lemma torus1_placed : calculate_elempos (parametric torus1 PI 0) (hom (app3 (lin (tpos torus1)) (V3 0 1 0)) 0) [parametric torus1 0 0] = Ok [Some (translation2aff (V3 2 0 0))].
Proof.
  rewrite torus1_focus, torus1_grating. assert (E : hom (app3 (lin (tpos torus1)) (V3 0 1 0)) 0 = V4 0 1 0 0) by (unfold lin, hom; cbn; f_equal; ring). rewrite E. exact C16_example.
Qed.
Lemma asin_35 : - (PI / 2) <= asin (- (3 / 5)) <= PI / 2 /\ sin (asin (- (3 / 5))) = - (3 / 5).
Proof. pose proof (asin_bound (- (3 / 5))). split; [exact H|]. apply sin_asin. lra. Qed.
Lemma asin_35_open : - (PI / 2) < asin (- (3 / 5)) < PI / 2.
Proof.
  destruct asin_35 as [[A B] E]. split; [destruct A as [A|A]|destruct B as [B|B]]; try assumption; exfalso.
  - rewrite <- A, sin_neg, sin_PI2 in E. lra.
  - rewrite B, sin_PI2 in E. lra.
Qed.
Example C204_ex : exists out bl k, grating FlatSign true (translation2aff (V3 2 0 0)) 0 (sub3 (xyz (parametric torus1 PI 0)) (xyz (parametric torus1 0 0))) 1 (3 / 5) 1 = Some (out, bl) /\ 0 < k /\
  dot3 (sub3 (add3 (xyz (parametric torus1 0 0)) (scale3 k out)) (tra id4)) (app3 (lin id4) (V3 0 1 0)) = 1 * sin (PI + 2 * asin (- (3 / 5))).
Proof.
  destruct asin_35 as [A E]. pose proof asin_35_open. pose proof PI_RGT_0. apply (C204_array torus1 PI [parametric torus1 0 0] [Some (translation2aff (V3 2 0 0))] FlatSign 1 (3 / 5) 1 (asin (- (3 / 5))) torus1_rigid) with (j := O).
  - cbn. lra.
  - cbn [tR tr torus1]. rewrite cos_PI. ring.
  - intros v [<-|[]]. rewrite torus1_grating. reflexivity.
  - exact torus1_placed.
  - exact A.
  - rewrite E. lra.
  - reflexivity.
  - reflexivity.
  - lra.
  - replace ((PI + 0) / 2) with (PI / 2) by field. rewrite sin_PI2. lra.
  - lra.
Qed.

(** ** C205 the circular detector *)
(** For gratings in the plane of the Rowland circle: the detector made by [from_rowland] reports the same angle for all gratings, at height 0.  The grating itself is outside of
    the angles that the detector covers. *)
Theorem C205_detected : forall t w rot det detinv lim0 lim1 a b i o eps mat g c m wave per, rigid (tpos t) -> 0 < tr t -> 0 < w -> from_rowland t w rot = Some det -> mul4 det detinv = id4 -> mul4 detinv det = id4 -> affine detinv ->
  0 < a - b < 2 * PI -> - (PI / 2) < i < PI / 2 -> - (PI / 2) <= o <= PI / 2 -> ruled_in_plane t 0 ((a + b) / 2 + PI / 2 - i) eps mat g ->
  sin o = sin i + eps * order_direction c (eps * sin i) * (IZR m * wave / per) -> 0 < (a - b) / 2 + (o - i) < PI ->
  angle_between (b - rot) lim0 lim1 = false -> angle_between (a + 2 * (o - i) - rot) lim0 lim1 = true ->
  exists phi, same_angle phi (a + 2 * (o - i) - rot) /\ - PI < phi <= PI /\
    grating_then_tube c mat g m wave per det detinv lim0 lim1 (sub3 (xyz (parametric t a 0)) (xyz (parametric t b 0))) (xyz (parametric t b 0)) = Ok (true, Some (parametric t (a + 2 * (o - i)) 0), Some (phi, 0)).
Proof. exact detected. Qed.
Print Assumptions C205_detected.
(** An order that can not be emitted is not detected anywhere. *)
Theorem C205_evanescent : forall t det detinv lim0 lim1 a b i eps mat g c m wave per, rigid (tpos t) -> 0 < tr t -> 0 < a - b < 2 * PI -> - (PI / 2) < i < PI / 2 ->
  ruled_in_plane t 0 ((a + b) / 2 + PI / 2 - i) eps mat g -> 1 < Rabs (sin i + eps * order_direction c (eps * sin i) * (IZR m * wave / per)) ->
  grating_then_tube c mat g m wave per det detinv lim0 lim1 (sub3 (xyz (parametric t a 0)) (xyz (parametric t b 0))) (xyz (parametric t b 0)) = Ok (false, None, None).
Proof. exact evanescent_not_detected. Qed.
Print Assumptions C205_evanescent.
(** The detector measures the wavelength: two photons with the same order are seen at the same angle only if their wavelengths are the same. *)
Theorem C205_resolves : forall a i o o' s m wave wave' per, - (PI / 2) < o < PI / 2 -> - (PI / 2) < o' < PI / 2 -> s <> 0 -> (m <> 0)%Z -> per <> 0 ->
  sin o = sin i + s * (IZR m * wave / per) -> sin o' = sin i + s * (IZR m * wave' / per) -> same_angle (a + 2 * (o - i)) (a + 2 * (o' - i)) -> wave = wave'.
Proof.
  intros a i o o' s m wave wave' per O O' Hs Hm Hp E E' [n H]. unfold twopi in H. assert (D : o' - o = PI * IZR n) by lra. pose proof PI_RGT_0 as Pi.
  assert (-1 < IZR n < 1) as [B1 B2] by (split; nra). apply (lt_IZR (-1)) in B1. apply (lt_IZR n 1) in B2. assert (n = 0%Z) by lia. subst n.
  assert (o' = o) by lra. subst o'. rewrite E' in E. apply not_0_IZR in Hm.
  assert (X : s * (IZR m * / per) * wave = s * (IZR m * / per) * wave') by (unfold Rdiv in E; lra). apply Rmult_eq_reg_l in X; [exact X|]. apply Rmult_integral_contrapositive_currified; [exact Hs|].
  apply Rmult_integral_contrapositive_currified; [exact Hm|now apply Rinv_neq_0_compat].
Qed.
Print Assumptions C205_resolves.
Definition tube1 : m4 := M4 (V4 (-1) 0 0 0) (V4 0 (-1) 0 0) (V4 0 0 1 0) (V4 1 0 0 1).
Lemma tube1_made : from_rowland torus1 1 PI = Some tube1.
Proof.
  unfold from_rowland. rewrite axangle_pz. f_equal. unfold torus1. cbn [tR tr tpos]. rewrite mul4_id_l. unfold compose, orient, diag3, tube1. rewrite cos_neg, sin_neg, cos_PI, sin_PI. vring.
Qed.
Lemma tube1_inv : mul4 tube1 tube1 = id4 /\ affine tube1.
Proof. split; [unfold tube1, id4; vring|unfold affine, tube1; cbn; auto]. Qed.
(** order 0 and order 1 are detected on the half of the circle away from the grating *)
Example C205_ex : exists phi, same_angle phi (PI + 2 * (asin (- (3 / 5)) - 0) - PI) /\ - PI < phi <= PI /\
  grating_then_tube FlatSign (translation2aff (V3 2 0 0)) 0 1 (3 / 5) 1 tube1 tube1 (- (PI / 2)) (PI / 2) (sub3 (xyz (parametric torus1 PI 0)) (xyz (parametric torus1 0 0))) (xyz (parametric torus1 0 0)) = Ok (true, Some (parametric torus1 (PI + 2 * (asin (- (3 / 5)) - 0)) 0), Some (phi, 0)).
Proof.
  destruct asin_35 as [A E]. pose proof asin_35_open. pose proof PI_RGT_0. destruct tube1_inv as [I1 I2].
  assert (P3 : - (PI / 4) < asin (- (3 / 5))).
  { apply Rnot_le_lt. intros Q. apply sin_incr_1 in Q; try lra. rewrite E, sin_neg, sin_PI4 in Q. assert (Sq : sqrt 2 * sqrt 2 = 2) by (apply sqrt_sqrt; lra). pose proof (sqrt_lt_R0 2 ltac:(lra)) as Sp.
    assert (V : 1 / sqrt 2 = sqrt 2 / 2) by (apply (Rmult_eq_reg_r (sqrt 2)); [field_simplify; lra|lra]). rewrite V in Q. nra. }
  assert (P4 : asin (- (3 / 5)) < 0) by (apply Rnot_le_lt; intros Q; assert (0 <= sin (asin (- (3 / 5)))) by (apply sin_ge_0; lra); lra).
  apply (C205_detected torus1 1 PI tube1 tube1 (- (PI / 2)) (PI / 2) PI 0 0 (asin (- (3 / 5))) (-1) (translation2aff (V3 2 0 0)) 0 FlatSign 1 (3 / 5) 1 torus1_rigid); try assumption; try lra.
  - cbn. lra.
  - exact tube1_made.
  - pose proof (C204_placed torus1 0 PI 0 [parametric torus1 0 0] [Some (translation2aff (V3 2 0 0))] 0 (translation2aff (V3 2 0 0)) torus1_rigid) as C. cbn [tr torus1] in C. specialize (C ltac:(lra) ltac:(lra)).
    rewrite Rminus_0_r. replace (-1) with (if Rltb 0 (sin ((PI + 0) / 2)) then -1 else 1) by (replace ((PI + 0) / 2) with (PI / 2) by field; rewrite sin_PI2, (proj2 (Rltb_true 0 1)) by lra; reflexivity).
    apply C; [intros v [<-|[]]; rewrite torus1_grating; reflexivity|exact torus1_placed|reflexivity|reflexivity].
  - rewrite E, sin_0. unfold order_direction. lra.
  - apply Bool.not_true_iff_false. intros Q. apply angle_between_interval in Q; [|unfold twopi; lra]. destruct Q as [n Q]. unfold twopi in Q. 
    assert (0 < IZR n < 1) as [K1 K2] by (split; nra). apply lt_IZR in K1. apply (lt_IZR n 1) in K2. lia.
  - apply angle_between_interval; [unfold twopi; lra|]. exists 0%Z. lra.
Qed.
