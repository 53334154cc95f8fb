(** Lemmas about [Rowland_Model]. *)
From Verif Require Import Vec_Proofs Angles_Proofs Coords_Proofs Position_Proofs Rot_Proofs Plane_Proofs Placement_Proofs Grating_Proofs Lens_Proofs.
From Verif Require Export Rowland_Model Cylinder_Proofs.
Open Scope R_scope.

(** *** the quartic *)
Lemma sc_l a : cos a * cos a = 1 - sin a * sin a.
Proof. pose proof (sc1 a). lra. Qed.
Lemma torus_xz t th ph : let p := torus_point t th ph in x3 p * x3 p + z3 p * z3 p = (tR t + tr t * cos th) * (tR t + tr t * cos th).
Proof. cbn. pose proof (sc_l ph) as E. set (X := tR t + tr t * cos th). replace (X * cos ph * (X * cos ph)) with (X * X * (cos ph * cos ph)) by ring. rewrite E. ring. Qed.
Lemma torus_point_quartic t th ph : quartic_local t (torus_point t th ph) = 0.
Proof.
  pose proof (torus_xz t th ph) as E. cbv zeta in E. unfold quartic_local. cbv zeta. rewrite E.
  replace (dot3 (torus_point t th ph) (torus_point t th ph)) with
    ((x3 (torus_point t th ph) * x3 (torus_point t th ph) + z3 (torus_point t th ph) * z3 (torus_point t th ph)) + tr t * sin th * (tr t * sin th)) by (unfold dot3; cbn; ring).
  rewrite E. pose proof (sc_l th) as S. set (c := cos th) in *. set (s := sin th) in *.
  replace (tr t * s * (tr t * s)) with (tr t * tr t * (1 - c * c)) by (rewrite S; ring). ring.
Qed.
Lemma quartic_factor t p : let rho := sqrt (x3 p * x3 p + z3 p * z3 p) in
  quartic_local t p = ((rho - tR t) * (rho - tR t) + y3 p * y3 p - tr t * tr t) * ((rho + tR t) * (rho + tR t) + y3 p * y3 p - tr t * tr t).
Proof.
  intros rho. assert (E : rho * rho = x3 p * x3 p + z3 p * z3 p) by (apply sqrt_sqrt; nra).
  unfold quartic_local, dot3. cbv zeta. rewrite <- E. replace (x3 p * x3 p + y3 p * y3 p + z3 p * z3 p) with (rho * rho + y3 p * y3 p) by (rewrite E; ring). ring.
Qed.
Lemma cs_exists c s : c * c + s * s = 1 -> exists a, cos a = c /\ sin a = s.
Proof. intros H. destruct (atan2_unit c s H) as (C & S & _). eauto. Qed.
Lemma torus_branch t p sg : 0 < tr t -> sg * sg = 1 ->
  let rho := sqrt (x3 p * x3 p + z3 p * z3 p) in
  (sg * rho - tR t) * (sg * rho - tR t) + y3 p * y3 p = tr t * tr t -> exists th ph, p = torus_point t th ph.
Proof.
  intros P Sg rho H. assert (E : rho * rho = x3 p * x3 p + z3 p * z3 p) by (apply sqrt_sqrt; nra).
  destruct (cs_exists ((sg * rho - tR t) / tr t) (y3 p / tr t)) as (th & C & S).
  { transitivity (((sg * rho - tR t) * (sg * rho - tR t) + y3 p * y3 p) / (tr t * tr t)); [field; lra|]. rewrite H. field. lra. }
  exists th. assert (F : tR t + tr t * cos th = sg * rho) by (rewrite C; field; lra).
  assert (Y : y3 p = tr t * sin th) by (rewrite S; field; lra).
  destruct (Req_dec rho 0) as [Z|Z].
  - exists 0. unfold torus_point. rewrite F, Z. apply v3_eq; cbn; [rewrite Z in E; nra|exact Y|rewrite Z in E; nra].
  - assert (Sn : sg <> 0) by nra. destruct (cs_exists (x3 p / (sg * rho)) (z3 p / (sg * rho))) as (ph & C2 & S2).
    { replace (x3 p / (sg * rho) * (x3 p / (sg * rho)) + z3 p / (sg * rho) * (z3 p / (sg * rho))) with ((x3 p * x3 p + z3 p * z3 p) / ((sg * sg) * (rho * rho))) by (field; auto).
      rewrite <- E, Sg. field. exact Z. }
    exists ph. unfold torus_point. rewrite F, C2, S2. apply v3_eq; cbn; [field; auto|exact Y|field; auto].
Qed.
Lemma quartic_complete t p : 0 < tr t -> (quartic_local t p = 0 <-> exists th ph, p = torus_point t th ph).
Proof.
  intros P. split; [|intros (th & ph & ->); apply torus_point_quartic].
  intros H. pose proof (quartic_factor t p) as F. cbv zeta in F. rewrite H in F. symmetry in F. apply Rmult_integral in F. destruct F as [F|F].
  - apply (torus_branch t p 1); auto; lra.
  - apply (torus_branch t p (-1)); auto; lra.
Qed.

(** *** global coordinates *)
Lemma app4_w m v : affine m -> w4 (app4 m v) = w4 v.
Proof. intros. apply app4_aff_w. assumption. Qed.
Lemma hom_eta v : w4 v = 1 -> hom (xyz v) 1 = v.
Proof. destruct v. cbn. now intros ->. Qed.
Lemma quartic_global t minv p : affine (tpos t) -> mul4 minv (tpos t) = id4 ->
  quartic t minv true (xyz (app4 (tpos t) (hom p 1))) = Ok (quartic_local t p).
Proof.
  intros A I. unfold quartic. rewrite hom_eta by (now rewrite app4_w). rewrite <- app4_mul, I, app4_id, h2e1_w1 by reflexivity. cbn. now rewrite xyz_hom.
Qed.
Lemma parametric_on t minv th ph : affine (tpos t) -> mul4 minv (tpos t) = id4 ->
  w4 (parametric t th ph) = 1 /\ quartic t minv true (xyz (parametric t th ph)) = Ok 0.
Proof.
  intros A I. split; [unfold parametric; now rewrite app4_w|]. unfold parametric. rewrite quartic_global by auto. now rewrite torus_point_quartic.
Qed.
Lemma mul4_inv_unique (m a b : m4) : mul4 a m = id4 -> mul4 m b = id4 -> a = b.
Proof. intros H1 H2. rewrite <- (mul4_id_r a), <- H2, <- mul4_assoc, H1. apply mul4_id_l. Qed.
Definition rinv (m : m4) : m4 := aff (trans3 (lin m)) (neg3 (app3 (trans3 (lin m)) (tra m))).
Lemma neg_alg m t : add3 (app3 m (neg3 (app3 (trans3 m) t))) t = sub3 t (app3 (mul3 m (trans3 m)) t). Proof. vring. Qed.
Lemma sub_self3 t : sub3 t t = zero3. Proof. vring. Qed.
Lemma rinv_r m : rigid m -> mul4 m (rinv m) = id4.
Proof.
  intros [A O]. rewrite (affine_aff m A) at 1. unfold rinv. rewrite aff_mul, neg_alg, orthonormal_rows by exact O. rewrite app3_id, sub_self3. reflexivity.
Qed.
Lemma add_neg3 v : add3 v (neg3 v) = zero3. Proof. vring. Qed.
Lemma rinv_l m : rigid m -> mul4 (rinv m) m = id4.
Proof.
  intros [A O]. rewrite (affine_aff m A) at 2. unfold rinv. rewrite aff_mul. apply orthonormal_iff in O. rewrite O, add_neg3. reflexivity.
Qed.
Lemma rigid_inv m minv : rigid m -> mul4 minv m = id4 -> minv = rinv m.
Proof. intros H I. apply (mul4_inv_unique m); [exact I|now apply rinv_r]. Qed.
Lemma app_aff_pt m t p : app4 (aff m t) (hom p 1) = hom (add3 (app3 m p) t) 1. Proof. vring. Qed.
Lemma app_aff_dir m t p : app4 (aff m t) (hom p 0) = hom (app3 m p) 0. Proof. vring. Qed.
Lemma rinv_line m q v k : rigid m -> app4 (rinv m) (hom (add3 (xyz (app4 m (hom q 1))) (scale3 k v)) 1) = hom (add3 q (scale3 k (app3 (trans3 (lin m)) v))) 1.
Proof.
  intros H. pose proof (rinv_l m H) as L. assert (E : hom (add3 (xyz (app4 m (hom q 1))) (scale3 k v)) 1 = add4 (app4 m (hom q 1)) (scale4 k (hom v 0))).
  { destruct H as [A _]. assert (W : w4 (app4 m (hom q 1)) = 1) by (now rewrite app4_w). destruct (app4 m (hom q 1)) as [x y z w]. cbn in W. subst w. destruct v. unfold add4, scale4, hom, add3, scale3. cbn. f_equal; ring. }
  rewrite E, app4_add, <- app4_mul, L, app4_id, app4_scale. unfold rinv. rewrite app_aff_dir. unfold add4, scale4, hom, add3, scale3. cbn. f_equal; ring.
Qed.

(** *** derivatives *)
Lemma dlim_ext f g x l : (forall y, f y = g y) -> derivable_pt_lim f x l -> derivable_pt_lim g x l.
Proof. intros E H eps He. destruct (H eps He) as [d Hd]. exists d. intros h H0 H1. rewrite <- !E. auto. Qed.
Lemma dlim_poly2 a b c : derivable_pt_lim (fun k => a + b * k + c * (k * k)) 0 b.
Proof.
  intros eps He. assert (P : 0 < eps / (Rabs c + 1)) by (apply Rdiv_lt_0_compat; [lra|pose proof (Rabs_pos c); lra]).
  exists (mkposreal _ P). cbn. intros h H0 H1. replace ((a + b * (0 + h) + c * ((0 + h) * (0 + h)) - (a + b * 0 + c * (0 * 0))) / h - b) with (c * h) by (field; auto).
  rewrite Rabs_mult. pose proof (Rabs_pos c). pose proof (Rabs_pos h).
  apply Rle_lt_trans with ((Rabs c) * (eps / (Rabs c + 1))); [apply Rmult_le_compat_l; lra|].
  apply Rmult_lt_reg_r with (Rabs c + 1); [lra|]. replace (Rabs c * (eps / (Rabs c + 1)) * (Rabs c + 1)) with (Rabs c * eps) by (field; lra). lra.
Qed.
Lemma dlim_quartic a b c g h i : derivable_pt_lim (fun k => (a + b * k + c * (k * k)) * (a + b * k + c * (k * k)) - (g + h * k + i * (k * k))) 0 (2 * a * b - h).
Proof.
  pose proof (derivable_pt_lim_minus _ _ 0 _ _ (derivable_pt_lim_mult _ _ 0 _ _ (dlim_poly2 a b c) (dlim_poly2 a b c)) (dlim_poly2 g h i)) as D.
  replace (2 * a * b - h) with (b * (a + b * 0 + c * (0 * 0)) + (a + b * 0 + c * (0 * 0)) * b - h) by ring. exact D.
Qed.
Lemma quartic_along t p v : derivable_pt_lim (fun k => quartic_local t (add3 p (scale3 k v))) 0
  (4 * (dot3 p p + tR t * tR t - tr t * tr t) * dot3 p v - 8 * (tR t * tR t) * (x3 p * x3 v + z3 p * z3 v)).
Proof.
  pose proof (dlim_quartic (dot3 p p + tR t * tR t - tr t * tr t) (2 * dot3 p v) (dot3 v v)
    (4 * (tR t * tR t) * (x3 p * x3 p + z3 p * z3 p)) (8 * (tR t * tR t) * (x3 p * x3 v + z3 p * z3 v)) (4 * (tR t * tR t) * (x3 v * x3 v + z3 v * z3 v))) as D.
  apply (dlim_ext _ (fun k => quartic_local t (add3 p (scale3 k v)))) in D.
  - replace (2 * (dot3 p p + tR t * tR t - tr t * tr t) * (2 * dot3 p v)) with (4 * (dot3 p p + tR t * tR t - tr t * tr t) * dot3 p v) in D by ring. exact D.
  - intros k. unfold quartic_local. destruct p, v. vu. ring.
Qed.
Lemma torus_gradient t th ph v : derivable_pt_lim (fun k => quartic_local t (add3 (torus_point t th ph) (scale3 k v))) 0
  (8 * tR t * tr t * (tR t + tr t * cos th) * dot3 (torus_normal th ph) v).
Proof.
  pose proof (quartic_along t (torus_point t th ph) v) as D.
  match type of D with derivable_pt_lim _ _ ?l => replace l with (8 * tR t * tr t * (tR t + tr t * cos th) * dot3 (torus_normal th ph) v) in D; [exact D|] end.
  pose proof (torus_xz t th ph) as E. cbv zeta in E.
  replace (dot3 (torus_point t th ph) (torus_point t th ph)) with
    ((x3 (torus_point t th ph) * x3 (torus_point t th ph) + z3 (torus_point t th ph) * z3 (torus_point t th ph)) + tr t * sin th * (tr t * sin th)) by (unfold dot3; cbn; ring).
  rewrite E. pose proof (sc_l th) as S. unfold dot3, torus_point, torus_normal. cbn [x3 y3 z3]. set (c := cos th) in *. set (s := sin th) in *.
  replace (tr t * s * (tr t * s)) with (tr t * tr t * (1 - c * c)) by (rewrite S; ring).
  destruct v as [a b d]. cbn [x3 y3 z3]. ring.
Qed.
Lemma torus_normal_unit th ph : dot3 (torus_normal th ph) (torus_normal th ph) = 1.
Proof.
  unfold dot3, torus_normal. cbn. replace (cos th * cos ph * (cos th * cos ph) + sin th * sin th + cos th * sin ph * (cos th * sin ph))
    with (cos th * cos th * (cos ph * cos ph + sin ph * sin ph) + sin th * sin th) by ring. rewrite (sc_l ph), (sc_l th). ring.
Qed.
Lemma global_gradient t minv th ph v : rigid (tpos t) -> mul4 minv (tpos t) = id4 ->
  w4 (normal_parametric t th ph) = 0 /\ norm3 (xyz (normal_parametric t th ph)) = 1 /\
  exists g, (forall k, quartic t minv true (add3 (xyz (parametric t th ph)) (scale3 k v)) = Ok (g k)) /\
    derivable_pt_lim g 0 (8 * tR t * tr t * (tR t + tr t * cos th) * dot3 (xyz (normal_parametric t th ph)) v).
Proof.
  intros H I. pose proof (rigid_inv _ _ H I) as ->. pose proof H as [A O].
  assert (N : normal_parametric t th ph = hom (app3 (lin (tpos t)) (torus_normal th ph)) 0).
  { unfold normal_parametric. rewrite (affine_aff _ A) at 1. apply app_aff_dir. }
  rewrite N, xyz_hom. split; [reflexivity|]. split; [rewrite orthonormal_norm by exact O; apply norm3_1, torus_normal_unit|].
  exists (fun k => quartic_local t (add3 (torus_point t th ph) (scale3 k (app3 (trans3 (lin (tpos t))) v)))). split.
  - intros k. unfold quartic, parametric. rewrite rinv_line by exact H. rewrite h2e1_w1 by reflexivity. cbn [bind]. now rewrite xyz_hom.
  - rewrite dot3_app. apply torus_gradient.
Qed.
Lemma outwards_alg t th ph : torus_point t th ph = add3 (V3 (tR t * cos ph) 0 (tR t * sin ph)) (scale3 (tr t) (torus_normal th ph)).
Proof. unfold torus_point, torus_normal, add3, scale3. cbn. f_equal; ring. Qed.
Lemma normal_outwards t th ph :
  parametric t th ph = add4 (app4 (tpos t) (V4 (tR t * cos ph) 0 (tR t * sin ph) 1)) (scale4 (tr t) (normal_parametric t th ph)).
Proof.
  unfold parametric, normal_parametric. rewrite <- app4_scale, <- app4_add. f_equal. rewrite outwards_alg. unfold add4, scale4, hom, add3, scale3. cbn. f_equal; ring.
Qed.

(** *** back to the parameters *)
Lemma sqrt_rho t th ph : let p := torus_point t th ph in sqrt (x3 p * x3 p + z3 p * z3 p) = Rabs (tR t + tr t * cos th).
Proof. cbv zeta. rewrite (torus_xz t th ph). apply sqrt_Rsqr_abs. Qed.
Lemma sin_bound1 a : -1 <= sin a <= 1. Proof. apply SIN_bound. Qed.
Lemma local_parametric_ok t th ph : 0 < tR t -> 0 < tr t -> cos th <> 0 -> - 2 * tR t < tr t * cos th ->
  exists th' ph', local_parametric t (torus_point t th ph) = Some (th', ph') /\ same_angle th th' /\ torus_point t th' ph' = torus_point t th ph /\
    (tR t + tr t * cos th <> 0 -> same_angle ph ph').
Proof.
  intros HR Hr C L. unfold local_parametric. rewrite (sqrt_rho t th ph). cbv zeta.
  change (y3 (torus_point t th ph)) with (tr t * sin th).
  assert (K : exists th', (let s := Rsign (Rabs (tR t + tr t * cos th) - tR t) in asin (s * (tr t * sin th) / tr t) + (if Rltb s 0 then PI else 0)) = th'
     /\ cos th' = cos th /\ sin th' = sin th /\ Rltb 1 (Rabs (Rsign (Rabs (tR t + tr t * cos th) - tR t) * (tr t * sin th) / tr t)) = false).
  { eexists. split; [reflexivity|]. pose proof (sin_bound1 th) as B. pose proof (sc1 th) as SC.
    destruct (Rtotal_order (cos th) 0) as [N|[N|N]]; [|contradiction|].
    - assert (S : Rabs (tR t + tr t * cos th) - tR t < 0).
      { assert (tr t * cos th < 0) by nra. unfold Rabs. destruct (Rcase_abs _); lra. }
      rewrite (Rsign_neg _ S). cbv zeta. rewrite (proj2 (Rltb_true _ _)) by lra. replace (-1 * (tr t * sin th) / tr t) with (- sin th) by (field; lra).
      rewrite neg_cos, neg_sin, cos_asin, sin_asin by lra. split; [|split].
      + assert (Q : 1 - Rsqr (- sin th) = (- cos th) * (- cos th)) by (unfold Rsqr; lra). unfold Rsqr in *. rewrite Q, sqrt_square by lra. ring.
      + ring.
      + apply Rltb_false. rewrite Rabs_Ropp. apply Rabs_le. lra.
    - assert (S : 0 < Rabs (tR t + tr t * cos th) - tR t).
      { assert (0 < tr t * cos th) by nra. unfold Rabs. destruct (Rcase_abs _); lra. }
      rewrite (Rsign_pos _ S). cbv zeta. rewrite (proj2 (Rltb_false _ _)) by lra. replace (1 * (tr t * sin th) / tr t) with (sin th) by (field; lra).
      rewrite Rplus_0_r, cos_asin, sin_asin by lra. split; [|split].
      + assert (Q : 1 - Rsqr (sin th) = cos th * cos th) by (unfold Rsqr; lra). unfold Rsqr in *. rewrite Q, sqrt_square by lra. ring.
      + ring.
      + apply Rltb_false. apply Rabs_le. lra. }
  destruct K as (th' & E & C' & S' & B). cbv zeta in E. rewrite B, E, C'.
  destruct (Reqb (tR t + tr t * cos th) 0) eqn:F.
  - apply Reqb_true in F. exists th', 0. split; [reflexivity|]. split; [now apply same_cs|]. split; [|intros; contradiction].
    unfold torus_point. rewrite C', S', F. apply v3_eq; cbn; ring.
  - apply Reqb_false in F. cbn [x3 z3 torus_point]. eexists th', _. split; [reflexivity|]. split; [now apply same_cs|].
    replace ((tR t + tr t * cos th) * sin ph / (tR t + tr t * cos th)) with (sin ph) by (field; auto).
    replace ((tR t + tr t * cos th) * cos ph / (tR t + tr t * cos th)) with (cos ph) by (field; auto).
    destruct (atan2_unit (cos ph) (sin ph)) as (C2 & S2 & _); [pose proof (sc1 ph); lra|]. split; [|intros; now apply same_cs].
    unfold torus_point. rewrite C', S', C2, S2. reflexivity.
Qed.
Lemma allclose_0 x : isclose (0 / x) 0 = true.
Proof. unfold Rdiv. rewrite Rmult_0_l. apply isclose_refl. Qed.
Lemma xyzw_global t minv b th ph : affine (tpos t) -> mul4 minv (tpos t) = id4 ->
  xyzw2parametric t minv true b (parametric t th ph) = if b then Ok (local_parametric t (torus_point t th ph)) else Err TypeError.
Proof.
  intros A I. unfold xyzw2parametric, parametric. cbv zeta. rewrite <- app4_mul, I, app4_id, h2e1_w1 by reflexivity. cbn [bind].
  rewrite xyz_hom, torus_point_quartic, allclose_0. now destruct b.
Qed.
Lemma local_parametric_top t ph : 0 < tR t -> 0 < tr t -> exists ph', local_parametric t (torus_point t (PI / 2) ph) = Some (0, ph') /\
  torus_point t 0 ph' <> torus_point t (PI / 2) ph.
Proof.
  intros HR Hr. unfold local_parametric. rewrite (sqrt_rho t (PI / 2) ph), cos_PI2, Rmult_0_r, Rplus_0_r, (Rabs_pos_eq (tR t)) by lra. cbv zeta.
  replace (tR t - tR t) with 0 by ring. rewrite Rsign_0. unfold Rdiv. rewrite !Rmult_0_l, asin_0, Rabs_R0.
  rewrite (proj2 (Rltb_false 1 0)) by lra. rewrite (proj2 (Rltb_false 0 0)) by lra. rewrite Rplus_0_r. eexists. split; [reflexivity|].
  intros E. apply (f_equal y3) in E. cbn in E. change (PI * / 2) with (PI / 2) in E. rewrite sin_0, sin_PI2 in E. lra.
Qed.
Lemma normal_at t minv th ph : affine (tpos t) -> mul4 minv (tpos t) = id4 -> 0 < tR t -> 0 < tr t -> cos th <> 0 -> - 2 * tR t < tr t * cos th ->
  tR t + tr t * cos th <> 0 -> torus_normal_at t minv (parametric t th ph) = Ok (Some (normal_parametric t th ph)).
Proof.
  intros A I HR Hr C L F. unfold torus_normal_at. rewrite xyzw_global by auto. cbn [bind].
  destruct (local_parametric_ok t th ph HR Hr C L) as (th' & ph' & E & [n ->] & _ & S). destruct (S F) as [k ->]. rewrite E. do 2 f_equal.
  unfold normal_parametric, torus_normal, twopi.
  assert (X : forall a z, cos (a + 2 * PI * IZR z) = cos a /\ sin (a + 2 * PI * IZR z) = sin a).
  { intros a z. assert (Y : forall a m, cos (a + 2 * PI * IZR (Z.of_nat m)) = cos a /\ sin (a + 2 * PI * IZR (Z.of_nat m)) = sin a).
    { intros b m. rewrite <- INR_IZR_INZ. replace (2 * PI * INR m) with (2 * INR m * PI) by ring. split; [apply cos_period|apply sin_period]. }
    destruct (Z_le_gt_dec 0 z) as [G|G]; [rewrite <- (Z2Nat.id z G); apply Y|].
    destruct (Y (a + 2 * PI * IZR z) (Z.to_nat (- z))) as [Y1 Y2]. rewrite Z2Nat.id in * by lia. rewrite opp_IZR in *.
    replace (a + 2 * PI * IZR z + 2 * PI * - IZR z) with a in * by ring. auto. }
  destruct (X th n) as [-> ->]. destruct (X ph k) as [-> ->]. reflexivity.
Qed.

(** *** designs *)
Lemma axangle_mz a : axangle2mat (V3 0 0 (-1)) a = Some (orient a).
Proof.
  unfold axangle2mat. rewrite unit3_of_unit by (unfold dot3; cbn; ring). f_equal. unfold axangle2mat_n, orient. f_equal; f_equal; ring.
Qed.
Lemma compose_ones t m : compose t m ones3 = aff m t. Proof. unfold compose, ones3, diag3. vring. Qed.
Lemma orient_rotation a : rotation (orient a).
Proof. unfold rotation, orthonormal, orient, det3, dot3, cross3. cbn. pose proof (sc1 a). repeat split; nra. Qed.
Lemma rowland_circle_iff R' r a c p : z3 p = 0 -> z3 c = 0 ->
  (x3 p - x3 c) * (x3 p - x3 c) + (y3 p - y3 c) * (y3 p - y3 c) = r * r ->
  on_rowland_circle (Torus R' r (aff (orient a) (V3 (x3 c - R' * cos a) (y3 c + R' * sin a) 0))) p.
Proof.
  intros Zp Zc H. pose proof (sc1 a) as S. unfold on_rowland_circle. cbn [tpos tR tr].
  exists (V3 (cos a * (x3 p - x3 c) - sin a * (y3 p - y3 c) + R') (sin a * (x3 p - x3 c) + cos a * (y3 p - y3 c)) 0).
  split; [|split; [reflexivity|]].
  - rewrite app_aff_pt. f_equal. destruct p as [px py pz], c as [cx cy cz]. unfold orient, app3, add3, scale3. cbn in *. subst. f_equal; [| |ring].
    + transitivity ((px - cx) * (sin a * sin a + cos a * cos a) + cx); [ring|rewrite S; ring].
    + transitivity ((py - cy) * (sin a * sin a + cos a * cos a) + cy); [ring|rewrite S; ring].
  - cbn [x3 y3]. rewrite <- H. set (u := x3 p - x3 c). set (v := y3 p - y3 c).
    replace ((cos a * u - sin a * v + R' - R') * (cos a * u - sin a * v + R' - R') + (sin a * u + cos a * v) * (sin a * u + cos a * v)) with ((cos a * cos a + sin a * sin a) * (u * u + v * v)) by ring.
    replace (cos a * cos a + sin a * sin a) with 1 by lra. ring.
Qed.
