(** Proofs about spectrographs in the Rowland geometry *)
From Verif Require Import Base_Proofs Vec_Proofs Coords_Proofs Angles_Proofs Plane_Proofs Position_Proofs Rot_Proofs Grating_Proofs Cylinder_Proofs Rowland_Proofs Placement_Proofs Lynx_Proofs.
From Verif Require Export Spectro_Model.
From Coq Require Import Lra Lia.
Open Scope R_scope.

Section Torus.
Variable t : torus.
Hypothesis G : rigid (tpos t).
Lemma parametric_xyz th ph : xyz (parametric t th ph) = add3 (app3 (lin (tpos t)) (torus_point t th ph)) (tra (tpos t)).
Proof. destruct G as [A _]. unfold parametric. rewrite (rigid_aff _ A) at 1. now rewrite app_aff_pt, xyz_hom. Qed.
Lemma parametric_hom th ph : parametric t th ph = hom (xyz (parametric t th ph)) 1.
Proof. destruct G as [A _]. unfold parametric. rewrite (rigid_aff _ A) at 1 2. now rewrite app_aff_pt, xyz_hom. Qed.
Lemma in_plane_dot ph x y : dot3 (in_plane t ph x) (in_plane t ph y) = cos (x - y).
Proof.
  destruct G as [_ O]. unfold in_plane. rewrite (orthonormal_dot _ _ _ O). vu. rewrite cos_minus. pose proof (sc1 ph).
  transitivity (cos x * cos y * (sin ph * sin ph + cos ph * cos ph) + sin x * sin y); [ring|]. rewrite H. ring.
Qed.
Lemma in_plane_turn ph x d : in_plane t ph (x + d) = add3 (scale3 (cos d) (in_plane t ph x)) (scale3 (sin d) (in_plane t ph (x + PI / 2))).
Proof.
  unfold in_plane. rewrite <- !app3_scale, <- app3_add. f_equal. unfold add3, scale3. cbn [x3 y3 z3]. rewrite cos_plus, sin_plus, (cos_plus x (PI / 2)), (sin_plus x (PI / 2)), cos_PI2, sin_PI2.
  f_equal; ring.
Qed.
Lemma sub_common u v w : sub3 (add3 u w) (add3 v w) = sub3 u v. Proof. vring. Qed.
Lemma chord ph a b : sub3 (xyz (parametric t a ph)) (xyz (parametric t b ph)) = scale3 (2 * tr t * sin ((a - b) / 2)) (in_plane t ph ((a + b) / 2 + PI / 2)).
Proof.
  rewrite !parametric_xyz, sub_common. unfold in_plane. rewrite <- app3_scale, <- app3_sub. f_equal.
  unfold torus_point, sub3, scale3. cbn [x3 y3 z3]. rewrite cos_plus, sin_plus, cos_PI2, sin_PI2. pose proof (form2 a b) as C. pose proof (form4 a b) as D.
  f_equal; [transitivity (tr t * (cos a - cos b) * cos ph); [ring|rewrite C; ring]|transitivity (tr t * (sin a - sin b)); [ring|rewrite D; ring]|transitivity (tr t * (cos a - cos b) * sin ph); [ring|rewrite C; ring]].
Qed.
End Torus.
Lemma scale_ne k v : k <> 0 -> dot3 v v = 1 -> scale3 k v <> zero3.
Proof. intros K V H. assert (E : dot3 (scale3 k v) (scale3 k v) = 0) by (rewrite H; vring). rewrite dot3_scale_l, dot3_scale_r, V in E. nra. Qed.
Lemma scale_unit k v : 0 < k -> dot3 v v = 1 -> v = scale3 (/ norm3 (scale3 k v)) (scale3 k v).
Proof.
  intros K V. rewrite norm3_scale, Rabs_pos_eq, (proj2 (norm3_1 v) V) by lra. rewrite scale3_scale3. replace (/ (k * 1) * k) with 1 by (field; lra). now rewrite scale3_1.
Qed.
Lemma cos_ge_0_half x : - (PI / 2) <= x <= PI / 2 -> 0 <= cos x. Proof. intros H. apply cos_ge_0; lra. Qed.
Lemma sign_unique s n x c : 0 <= c -> 0 < s -> n * n = 1 -> x * x = c * c -> 0 <= x * (n * s) -> x = n * c.
Proof.
  intros C S N X H. assert (D : (x - n * c) * (x + n * c) = 0) by (transitivity (x * x - n * n * (c * c)); [ring|rewrite N, X; ring]).
  apply Rmult_integral in D. destruct D as [D|D]; [lra|]. assert (E : x = - n * c) by lra. rewrite E in H |- *.
  assert (K : - n * c * (n * s) = - (c * s)) by (transitivity (- (n * n) * (c * s)); [ring|rewrite N; ring]). rewrite K in H. assert (c = 0) by nra. subst c. ring.
Qed.
Lemma expand_alg a nu cO sO eps D N : nu * nu = 1 -> eps * eps = 1 -> a = eps * sO ->
  add3 (add3 (scale3 (- a) (neg3 (scale3 eps D))) (scale3 0 (neg3 D))) (scale3 (nu * cO) (scale3 nu N)) = add3 (scale3 cO N) (scale3 sO D).
Proof.
  intros N1 E1 ->. destruct D as [d1 d2 d3], N as [n1 n2 n3]. unfold add3, scale3, neg3. cbn [x3 y3 z3].
  f_equal; [transitivity (eps * eps * (sO * d1) + nu * nu * (cO * n1))|transitivity (eps * eps * (sO * d2) + nu * nu * (cO * n2))|transitivity (eps * eps * (sO * d3) + nu * nu * (cO * n3))]; try ring; rewrite N1, E1; ring.
Qed.
Lemma ruled_evanescent t ph psi eps mat g c m wave per i k : rigid (tpos t) -> ruled_in_plane t ph psi eps mat g -> 0 < k -> - (PI / 2) < i < PI / 2 ->
  1 < Rabs (sin i + eps * order_direction c (eps * sin i) * (IZR m * wave / per)) ->
  grating c true mat g (scale3 k (in_plane t ph (psi + i))) m wave per = None.
Proof.
  intros G (A & ey & ez & en & nu & B & N1 & EN & EP) K I SO. set (p := in_plane t ph (psi + i)). set (Nn := in_plane t ph psi) in *. set (D := in_plane t ph (psi + PI / 2)) in *.
  assert (PP : dot3 p p = 1) by (unfold p; rewrite in_plane_dot by exact G; rewrite Rminus_eq_0; apply cos_0).
  assert (ND : scale3 k p <> zero3) by (apply scale_ne; [lra|exact PP]). pose proof (scale_unit k p K PP) as U.
  assert (PN : dot3 p Nn = cos i) by (unfold p, Nn; rewrite in_plane_dot by exact G; f_equal; ring).
  assert (PD : dot3 p D = sin i) by (unfold p, D; rewrite in_plane_dot by exact G; replace (psi + i - (psi + PI / 2)) with (- (PI / 2 - i)) by ring; rewrite cos_neg; apply cos_shift).
  assert (DD : dot3 D D = 1) by (unfold D; rewrite in_plane_dot by exact G; rewrite Rminus_eq_0; apply cos_0).
  assert (CI : 0 < cos i) by (apply cos_gt_0; lra).
  destruct (full_facts c true mat g (scale3 k p) m wave per ey ez en p A ND B U) as (_ & _ & Or & _).
  pose proof (frame_expand _ _ _ p Or) as FP. pose proof (frame_norm _ _ _ p Or PP) as FN.
  assert (E1 : eps * eps = 1). { destruct Or as (X & _). cbn [a0] in X. rewrite EP in X. assert (H : dot3 (neg3 (scale3 eps D)) (neg3 (scale3 eps D)) = eps * eps * dot3 D D) by (clear; vring). rewrite H, DD in X. lra. }
  rewrite EP, EN in FN. assert (Qn : forall u v s, dot3 u (neg3 (scale3 s v)) = - s * dot3 u v) by (clear; vring). rewrite Qn, dot3_scale_r, PD, PN in FN.
  set (l := e_groove (xyz ey) (xyz ez) g) in *.
  assert (PL : dot3 p l = 0).
  { assert (H : - eps * sin i * (- eps * sin i) + nu * cos i * (nu * cos i) = 1). { transitivity (eps * eps * (sin i * sin i) + nu * nu * (cos i * cos i)); [ring|]. rewrite E1, N1. pose proof (sc1 i). lra. }
    assert (dot3 p l * dot3 p l = 0) by lra. nra. }
  assert (PE : dot3 p (e_perp_groove (xyz ey) (xyz ez) g) = eps * sin i) by (rewrite EP, dot3_scale_r, PD; reflexivity).
  assert (SG : eps * sin i + match c with FlatSign => 1 | CATSign => if Rleb (eps * sin i) 0 then -1 else 1 end * (IZR m * wave / per) = eps * (sin i + eps * order_direction c (eps * sin i) * (IZR m * wave / per))).
  { unfold order_direction. set (s := match c with FlatSign => 1 | CATSign => _ end). transitivity (eps * sin i + eps * eps * s * (IZR m * wave / per)); [rewrite E1; ring|ring]. }
  pose proof (grating_exists c true mat g (scale3 k p) m wave per ey ez en p A ND B U) as X. cbv zeta in X. fold l in X. rewrite PE, PL, SG in X. set (so := sin i + _) in *.
  destruct (grating c true mat g (scale3 k p) m wave per) as [r|]; [|reflexivity]. exfalso. assert (Y : eps * so * (eps * so) + 0 * 0 <= 1) by (apply (proj1 X); eauto).
  replace (eps * so * (eps * so) + 0 * 0) with (eps * eps * (so * so)) in Y by ring. rewrite E1 in Y. assert (Z : so * so = Rabs so * Rabs so) by (rewrite <- Rabs_mult, Rabs_pos_eq; [reflexivity|apply Rle_0_sqr]). nra.
Qed.
Lemma ruled_diffracts t ph psi eps mat g c m wave per i o k : rigid (tpos t) -> ruled_in_plane t ph psi eps mat g -> 0 < k -> - (PI / 2) < i < PI / 2 ->
  - (PI / 2) <= o <= PI / 2 -> sin o = sin i + eps * order_direction c (eps * sin i) * (IZR m * wave / per) ->
  exists bl, grating c true mat g (scale3 k (in_plane t ph (psi + i))) m wave per = Some (in_plane t ph (psi + o), bl).
Proof.
  intros G (A & ey & ez & en & nu & B & N1 & EN & EP) K I O SO. set (p := in_plane t ph (psi + i)). set (Nn := in_plane t ph psi) in *. set (D := in_plane t ph (psi + PI / 2)) in *.
  assert (PP : dot3 p p = 1) by (unfold p; rewrite in_plane_dot by exact G; rewrite Rminus_eq_0; apply cos_0).
  assert (ND : scale3 k p <> zero3) by (apply scale_ne; [lra|exact PP]). pose proof (scale_unit k p K PP) as U.
  assert (PN : dot3 p Nn = cos i) by (unfold p, Nn; rewrite in_plane_dot by exact G; f_equal; ring).
  assert (PD : dot3 p D = sin i) by (unfold p, D; rewrite in_plane_dot by exact G; replace (psi + i - (psi + PI / 2)) with (- (PI / 2 - i)) by ring; rewrite cos_neg; apply cos_shift).
  assert (DD : dot3 D D = 1) by (unfold D; rewrite in_plane_dot by exact G; rewrite Rminus_eq_0; apply cos_0).
  assert (CI : 0 < cos i) by (apply cos_gt_0; lra).
  destruct (full_facts c true mat g (scale3 k p) m wave per ey ez en p A ND B U) as (_ & _ & Or & _).
  pose proof (frame_expand _ _ _ p Or) as FP. pose proof (frame_norm _ _ _ p Or PP) as FN.
  assert (E1 : eps * eps = 1). { destruct Or as (X & _). cbn [a0] in X. rewrite EP in X. assert (H : dot3 (neg3 (scale3 eps D)) (neg3 (scale3 eps D)) = eps * eps * dot3 D D) by (clear; vring). rewrite H, DD in X. lra. }
  rewrite EP, EN in FN. assert (Qn : forall u v s, dot3 u (neg3 (scale3 s v)) = - s * dot3 u v) by (clear; vring). rewrite Qn, dot3_scale_r, PD, PN in FN.
  set (l := e_groove (xyz ey) (xyz ez) g) in *.
  assert (PL : dot3 p l = 0).
  { assert (H : - eps * sin i * (- eps * sin i) + nu * cos i * (nu * cos i) = 1). { transitivity (eps * eps * (sin i * sin i) + nu * nu * (cos i * cos i)); [ring|]. rewrite E1, N1. pose proof (sc1 i). lra. }
    assert (dot3 p l * dot3 p l = 0) by lra. nra. }
  assert (PE : dot3 p (e_perp_groove (xyz ey) (xyz ez) g) = eps * sin i) by (rewrite EP, dot3_scale_r, PD; reflexivity).
  assert (SG : eps * sin o = eps * sin i + match c with FlatSign => 1 | CATSign => if Rleb (eps * sin i) 0 then -1 else 1 end * (IZR m * wave / per)).
  { rewrite SO. unfold order_direction. set (s := match c with FlatSign => 1 | CATSign => _ end). transitivity (eps * sin i + eps * eps * s * (IZR m * wave / per)); [ring|]. rewrite E1. ring. }
  pose proof (grating_exists c true mat g (scale3 k p) m wave per ey ez en p A ND B U) as X. cbv zeta in X. fold l in X. rewrite PE, PL, <- SG in X.
  destruct (proj2 X) as [[out bl] Gr]. { replace (eps * sin o * (eps * sin o) + 0 * 0) with (eps * eps * (sin o * sin o)) by ring. rewrite E1. pose proof (sc1 o). pose proof (Rle_0_sqr (cos o)) as Y. unfold Rsqr in Y. lra. }
  exists bl. rewrite Gr. do 2 f_equal. assert (NE : dot3 p (xyz en) <> 0). { rewrite EN, dot3_scale_r, PN. intros H. assert (nu <> 0) by (intros ->; lra). apply Rmult_integral in H. lra. }
  pose proof (grating_main c true mat g (scale3 k p) m wave per out bl ey ez en p A ND B U NE Gr) as M. cbv zeta in M. fold l in M. destruct M as (M1 & M2 & M3 & M4). rewrite PE, <- SG in M3. rewrite PL in M2.
  apply norm3_1 in M1. pose proof (frame_norm _ _ _ out Or M1) as FO.
  assert (Qs : forall u v, dot3 u (neg3 v) = - dot3 u v) by (clear; vring). rewrite Qs, M3, M2 in FO.
  assert (ON : dot3 out (xyz en) = nu * cos o).
  { apply (sign_unique (cos i)); [now apply cos_ge_0_half|exact CI|exact N1| |].
    - replace (- (eps * sin o) * - (eps * sin o)) with (eps * eps * (sin o * sin o)) in FO by ring. rewrite E1 in FO. pose proof (sc1 o). lra.
    - rewrite EN, !dot3_scale_r, PN in M4. rewrite EN, dot3_scale_r. rewrite Rmult_1_l in M4. exact M4. }
  rewrite (frame_expand _ _ _ out Or), Qs, M3, M2, ON, EP, EN, (in_plane_turn t ph psi o). fold Nn D.
  generalize l. intros l'. rewrite <- (expand_alg (eps * sin o) nu (cos o) (sin o) eps D Nn N1 E1 eq_refl). clear. vring.
Qed.
(** the path from [b] on the circle in the direction of the chord to [a], turned by [d] *)
Lemma turned_chord t ph a b d : rigid (tpos t) -> 
  add3 (xyz (parametric t b ph)) (scale3 (2 * tr t * sin ((a - b) / 2 + d)) (in_plane t ph ((a + b) / 2 + PI / 2 + d))) = xyz (parametric t (a + 2 * d) ph).
Proof.
  intros G. pose proof (chord t G ph (a + 2 * d) b) as C. replace ((a + 2 * d - b) / 2) with ((a - b) / 2 + d) in C by field. replace ((a + 2 * d + b) / 2 + PI / 2) with ((a + b) / 2 + PI / 2 + d) in C by field.
  rewrite <- C. clear. generalize (xyz (parametric t b ph)) (xyz (parametric t (a + 2 * d) ph)). vring.
Qed.
Lemma rowland_focus t ph a b i o eps mat g c m wave per : rigid (tpos t) -> 0 < tr t -> 0 < a - b < 2 * PI -> - (PI / 2) < i < PI / 2 -> - (PI / 2) <= o <= PI / 2 ->
  ruled_in_plane t ph ((a + b) / 2 + PI / 2 - i) eps mat g -> sin o = sin i + eps * order_direction c (eps * sin i) * (IZR m * wave / per) ->
  exists bl, grating c true mat g (sub3 (xyz (parametric t a ph)) (xyz (parametric t b ph))) m wave per = Some (in_plane t ph ((a + b) / 2 + PI / 2 + (o - i)), bl).
Proof.
  intros G Tr AB I O Ru SO. rewrite (chord t G). set (k := 2 * tr t * sin ((a - b) / 2)). assert (K : 0 < k) by (unfold k; assert (0 < sin ((a - b) / 2)) by (apply sin_gt_0; lra); nra).
  destruct (ruled_diffracts t ph _ eps mat g c m wave per i o k G Ru K I O SO) as (bl & E). exists bl.
  replace ((a + b) / 2 + PI / 2 - i + i) with ((a + b) / 2 + PI / 2) in E by ring. rewrite E. do 3 f_equal. ring.
Qed.
Lemma axis_point t a ph : tR t + tr t * cos a = 0 -> parametric t a ph = parametric t a 0.
Proof. intros H. unfold parametric. do 2 f_equal. unfold torus_point. rewrite H. f_equal; ring. Qed.
Lemma axis_component t a ph : rigid (tpos t) -> dot3 (sub3 (xyz (parametric t a ph)) (tra (tpos t))) (app3 (lin (tpos t)) (V3 0 1 0)) = tr t * sin a.
Proof.
  intros G. rewrite (parametric_xyz t G). assert (E : forall u v : v3, sub3 (add3 u v) v = u) by (clear; vring). rewrite E. destruct G as [_ O]. rewrite (orthonormal_dot _ _ _ O). unfold torus_point. vu. ring.
Qed.

(** the tube *)
Lemma tube_points t w rot det phi z : rigid (tpos t) -> 0 < tr t -> 0 < w -> from_rowland t w rot = Some det ->
  perpendicular_axes det /\ app4 det (hom (V3 (cos phi) (sin phi) z) 1) = hom (add3 (xyz (parametric t (phi + rot) 0)) (scale3 (z * w) (app3 (lin (tpos t)) (V3 0 0 1)))) 1.
Proof.
  intros G Tr W F. destruct (from_rowland_surface t w rot phi (z * w) G Tr W) as (m & F' & P & N & C). rewrite F in F'. injection F' as <-. split; [exact P|].
  destruct (decompose44_perp_zoom _ P) as (r & zx & zy & E). unfold cylinder_surface in C. rewrite E in C. cbn [z3] in C. change (b2 det) with (v_z det) in C. rewrite N in C. assert (SI : forall x y : v4, Some x = Some y -> x = y) by congruence. apply SI in C.
  replace (z * w / w) with z in C by (field; lra). unfold hom at 1. cbn [x3 y3 z3]. rewrite C. rewrite (parametric_hom t G). rewrite xyz_hom. generalize (xyz (parametric t (phi + rot) 0)). clear. intros p. unfold add4, hom, add3. cbn. f_equal. ring.
Qed.
Definition circle_center (t : torus) : v3 := add3 (app3 (lin (tpos t)) (V3 (tR t) 0 0)) (tra (tpos t)).
Lemma parametric_center t th : rigid (tpos t) -> xyz (parametric t th 0) = add3 (circle_center t) (scale3 (tr t) (in_plane t 0 th)).
Proof.
  intros G. rewrite (parametric_xyz t G). unfold circle_center, in_plane. set (A := lin (tpos t)). set (v := tra (tpos t)).
  assert (E : torus_point t th 0 = add3 (V3 (tR t) 0 0) (scale3 (tr t) (V3 (cos th * cos 0) (sin th) (cos th * sin 0)))) by (unfold torus_point, add3, scale3; rewrite cos_0, sin_0; cbn; f_equal; ring).
  rewrite E, app3_add, app3_scale. generalize (app3 A (V3 (tR t) 0 0)) (app3 A (V3 (cos th * cos 0) (sin th) (cos th * sin 0))). clear. vring.
Qed.
Lemma in_plane_z t th : rigid (tpos t) -> dot3 (in_plane t 0 th) (app3 (lin (tpos t)) (V3 0 0 1)) = 0.
Proof. intros [_ O]. unfold in_plane. rewrite (orthonormal_dot _ _ _ O), sin_0. vu. ring. Qed.
Lemma ez_unit t : rigid (tpos t) -> dot3 (app3 (lin (tpos t)) (V3 0 0 1)) (app3 (lin (tpos t)) (V3 0 0 1)) = 1.
Proof. intros [_ O]. rewrite (orthonormal_dot _ _ _ O). vu. ring. Qed.
Lemma in_plane_same t x y : rigid (tpos t) -> in_plane t 0 x = in_plane t 0 y -> same_angle x y.
Proof.
  intros [_ O] H. assert (E : V3 (cos x * cos 0) (sin x) (cos x * sin 0) = V3 (cos y * cos 0) (sin y) (cos y * sin 0)).
  { unfold in_plane in H. apply (f_equal (app3 (trans3 (lin (tpos t))))) in H. rewrite <- !app3_mul in H. rewrite (proj1 (orthonormal_iff _) O), !app3_id in H. exact H. }
  rewrite cos_0 in E. apply same_cs; [apply (f_equal x3) in E; cbn in E; lra|apply (f_equal y3) in E; exact E].
Qed.
Lemma add_cancel u v w : add3 u v = add3 u w -> v = w.
Proof. intros H. apply (f_equal (fun x => sub3 x u)) in H. assert (E : forall a b : v3, sub3 (add3 a b) a = b) by (clear; vring). now rewrite !E in H. Qed.
Lemma scale_cancel k u v : k <> 0 -> scale3 k u = scale3 k v -> u = v.
Proof. intros K H. apply (f_equal (scale3 (/ k))) in H. rewrite !scale3_scale3, (Rinv_l k K), !scale3_1 in H. exact H. Qed.
(** where a ray in the plane of the circle that starts on the circle meets the tube *)
Lemma tube_meets t w rot det b psi l phi z : rigid (tpos t) -> 0 < tr t -> 0 < w -> from_rowland t w rot = Some det ->
  app4 det (hom (V3 (cos phi) (sin phi) z) 1) = hom (add3 (xyz (parametric t b 0)) (scale3 l (in_plane t 0 psi))) 1 ->
  z = 0 /\ (l = 0 /\ same_angle (phi + rot) b \/ l = - 2 * tr t * cos (b - psi)).
Proof.
  intros G Tr W F E. destruct (tube_points t w rot det phi z G Tr W F) as [_ E']. rewrite E' in E. apply (f_equal xyz) in E. rewrite !xyz_hom in E. rewrite !(parametric_center t _ G) in E.
  set (C := circle_center t) in *. set (ez := app3 (lin (tpos t)) (V3 0 0 1)) in *. set (q := in_plane t 0 (phi + rot)) in *. set (p := in_plane t 0 b) in *. set (o := in_plane t 0 psi) in *.
  assert (EE : add3 (scale3 (tr t) q) (scale3 (z * w) ez) = add3 (scale3 (tr t) p) (scale3 l o)).
  { apply (add_cancel C). transitivity (add3 (add3 C (scale3 (tr t) q)) (scale3 (z * w) ez)); [generalize C q ez; clear; vring|]. rewrite E. generalize C p o; clear; vring. }
  assert (Z : z = 0).
  { pose proof (f_equal (fun v => dot3 v ez) EE) as H. cbv beta in H. rewrite !dot3_add_l, !dot3_scale_l in H. unfold q, p, o in H. rewrite !(in_plane_z t _ G) in H. unfold ez in H. rewrite (ez_unit t G) in H. assert (K : z * w = 0) by lra. apply Rmult_integral in K. lra. }
  split; [exact Z|]. subst z. assert (E2 : scale3 (tr t) q = add3 (scale3 (tr t) p) (scale3 l o)) by (rewrite <- EE; generalize q ez; clear; vring). clear EE E E'.
  pose proof (f_equal (fun v => dot3 v v) E2) as H. cbv beta in H. rewrite !dot3_add_l, !dot3_add_r, !dot3_scale_l, !dot3_scale_r in H. rewrite (dot3_comm o p) in H. unfold q, p, o in H. rewrite !(in_plane_dot t G), !Rminus_eq_0, cos_0 in H.
  assert (K : l * (l - - 2 * tr t * cos (b - psi)) = 0) by lra. apply Rmult_integral in K. destruct K as [K|K]; [left|right; lra]. split; [exact K|]. subst l.
  apply (in_plane_same t _ _ G). fold q p. apply (scale_cancel (tr t)); [lra|]. rewrite E2. generalize p o. clear. vring.
Qed.
Lemma same_angle_sym a b : same_angle a b -> same_angle b a.
Proof. intros H. apply same_angle_Rmod. symmetry. now apply same_angle_Rmod. Qed.
Lemma same_angle_minus a b r : same_angle (a + r) b -> same_angle a (b - r).
Proof. intros [n H]. exists n. rewrite H. ring. Qed.
Lemma period_nat a n : cos (a + twopi * INR n) = cos a /\ sin (a + twopi * INR n) = sin a.
Proof. replace (a + twopi * INR n) with (a + 2 * INR n * PI) by (unfold twopi; ring). split; [apply cos_period|apply sin_period]. Qed.
Lemma same_angle_cos a b : same_angle a b -> cos a = cos b /\ sin a = sin b.
Proof.
  intros [n ->]. destruct (Z_le_gt_dec 0 n) as [H|H].
  - rewrite <- (Z2Nat.id n H), <- INR_IZR_INZ. destruct (period_nat a (Z.to_nat n)) as [-> ->]. auto.
  - assert (E : IZR n = - INR (Z.to_nat (- n))) by (rewrite INR_IZR_INZ, Z2Nat.id by lia; rewrite opp_IZR; ring). rewrite E.
    destruct (period_nat (a + twopi * - INR (Z.to_nat (- n))) (Z.to_nat (- n))) as [C D]. rewrite <- C, <- D. split; f_equal; ring.
Qed.
Lemma tube_axis t w rot det : rigid (tpos t) -> 0 < tr t -> 0 < w -> from_rowland t w rot = Some det -> xyz (b2 det) = scale3 w (app3 (lin (tpos t)) (V3 0 0 1)).
Proof.
  intros G Tr W F. destruct (tube_points t w rot det 0 1 G Tr W F) as [_ E1]. destruct (tube_points t w rot det 0 0 G Tr W F) as [_ E0].
  assert (H : xyz (b2 det) = sub3 (xyz (app4 det (hom (V3 (cos 0) (sin 0) 1) 1))) (xyz (app4 det (hom (V3 (cos 0) (sin 0) 0) 1)))) by (clear; destruct det as [[? ? ? ?] [? ? ? ?] [? ? ? ?] [? ? ? ?]]; vu; cbn; f_equal; ring).
  rewrite H, E1, E0, !xyz_hom. generalize (xyz (parametric t (0 + rot) 0)) (app3 (lin (tpos t)) (V3 0 0 1)). clear. vring.
Qed.
Lemma detected t w rot det detinv lim0 lim1 a b i o eps mat g c m wave per : rigid (tpos t) -> 0 < tr t -> 0 < w -> from_rowland t w rot = Some det -> mul4 det detinv = id4 -> mul4 detinv det = id4 -> affine detinv ->
  0 < a - b < 2 * PI -> - (PI / 2) < i < PI / 2 -> - (PI / 2) <= o <= PI / 2 -> ruled_in_plane t 0 ((a + b) / 2 + PI / 2 - i) eps mat g ->
  sin o = sin i + eps * order_direction c (eps * sin i) * (IZR m * wave / per) -> 0 < (a - b) / 2 + (o - i) < PI ->
  angle_between (b - rot) lim0 lim1 = false -> angle_between (a + 2 * (o - i) - rot) lim0 lim1 = true ->
  exists phi, same_angle phi (a + 2 * (o - i) - rot) /\ - PI < phi <= PI /\
    grating_then_tube c mat g m wave per det detinv lim0 lim1 (sub3 (xyz (parametric t a 0)) (xyz (parametric t b 0))) (xyz (parametric t b 0)) = Ok (true, Some (parametric t (a + 2 * (o - i)) 0), Some (phi, 0)).
Proof.
  intros G Tr W F I1 I2 Ai AB I O Ru SO Fw B0 B1. destruct (rowland_focus t 0 a b i o eps mat g c m wave per G Tr AB I O Ru SO) as (bl & E).
  unfold grating_then_tube. rewrite E. set (d := o - i) in *. set (psi := (a + b) / 2 + PI / 2 + d). set (P := xyz (parametric t b 0)).
  destruct (tube_points t w rot det 0 0 G Tr W F) as [PA _]. assert (Ad : affine det) by apply PA.
  pose proof (turned_chord t 0 a b d G) as TC. fold P psi in TC. set (k := 2 * tr t * sin ((a - b) / 2 + d)) in *.
  assert (K : 0 < k) by (unfold k; assert (0 < sin ((a - b) / 2 + d)) by (apply sin_gt_0; lra); nra).
  assert (KC : - 2 * tr t * cos (b - psi) = k). { unfold k, psi. replace (b - ((a + b) / 2 + PI / 2 + d)) with (- (PI / 2 + ((a - b) / 2 + d))) by field. rewrite cos_neg, cos_plus, cos_PI2, sin_PI2. ring. }
  assert (Pt : app4 det (hom (V3 (cos (a + 2 * d - rot)) (sin (a + 2 * d - rot)) 0) 1) = hom (add3 P (scale3 k (in_plane t 0 psi))) 1).
  { destruct (tube_points t w rot det (a + 2 * d - rot) 0 G Tr W F) as [_ ->]. rewrite TC. replace (a + 2 * d - rot + rot) with (a + 2 * d) by ring. f_equal. generalize (xyz (parametric t (a + 2 * d) 0)) (app3 (lin (tpos t)) (V3 0 0 1)). clear. vring. }
  assert (Tu : on_tube lim0 lim1 (V3 (cos (a + 2 * d - rot)) (sin (a + 2 * d - rot)) 0)).
  { unfold on_tube. cbn [x3 y3 z3]. pose proof (sc1 (a + 2 * d - rot)). split; [lra|]. split; [lra|]. exists (a + 2 * d - rot). auto. }
  destruct (cylinder_hit_iff det detinv lim0 lim1 (in_plane t 0 psi) P I1 I2 Ad Ai) as (h & ip & il & Ci & Hh).
  assert (T : h = true).
  { apply Hh. split; [|exists k; eexists; split; [lra|]; split; [exact Tu|exact Pt]]. intros (s & Hs). rewrite (tube_axis t w rot det G Tr W F) in Hs.
    assert (X : dot3 (in_plane t 0 psi) (in_plane t 0 psi) = 1) by (rewrite (in_plane_dot t G), Rminus_eq_0; apply cos_0). rewrite Hs in X at 1. rewrite !dot3_scale_l, dot3_comm, (in_plane_z t _ G) in X. lra. }
  destruct (cylinder_values det detinv lim0 lim1 (in_plane t 0 psi) P h ip il I1 I2 Ad Ai Ci) as [_ V]. destruct (V T) as (k' & u & K' & Tu' & Pt' & Ip & First & Lo). destruct (Lo PA) as (phi & Ph & Cx & Sx & Il).
  assert (Eu : u = V3 (cos phi) (sin phi) (z3 u)) by (destruct u as [x y z]; cbn in Cx, Sx |- *; now rewrite Cx, Sx). rewrite Eu in Pt'.
  destruct (tube_meets t w rot det b psi k' phi (z3 u) G Tr W F Pt') as [Z [[L Sa]|L]].
  - exfalso. destruct Tu' as (_ & _ & q & Q1 & Q2 & Q3). rewrite Cx in Q1. rewrite Sx in Q2. assert (Sq : same_angle q (b - rot)).
    { apply same_angle_minus. destruct Sa as [n Sa]. destruct (same_cs _ _ Q1 Q2) as [n' Sn]. exists (n - n')%Z. rewrite minus_IZR, Sa, Sn. ring. }
    rewrite (angle_between_same _ _ _ _ Sq) in Q3. congruence.
  - rewrite KC in L. subst k'. exists phi. split; [|split; [exact Ph|]].
    + destruct (tube_points t w rot det phi (z3 u) G Tr W F) as [_ E2]. rewrite Pt', Z in E2. apply (f_equal xyz) in E2. rewrite !xyz_hom in E2. rewrite TC in E2.
      assert (E3 : xyz (parametric t (a + 2 * d) 0) = xyz (parametric t (phi + rot) 0)) by (rewrite E2; generalize (xyz (parametric t (phi + rot) 0)) (app3 (lin (tpos t)) (V3 0 0 1)); clear; vring).
      rewrite !(parametric_center t _ G) in E3. apply add_cancel, scale_cancel in E3; [|lra]. apply (in_plane_same t _ _ G) in E3. apply same_angle_minus, same_angle_sym, E3.
    + unfold psi in *. rewrite Ci. rewrite T, Ip, Il, Z, TC. rewrite <- (parametric_hom t G). do 4 f_equal. ring.
Qed.
(** positions made by ParallelCalculated *)
Lemma elempos_axes s d l es i m : w4 s = 1 -> w4 d = 0 -> (forall v, In v l -> w4 v = 1) ->
  calculate_elempos s d l = Ok es -> nth_error es i = Some (Some m) ->
  exists v, nth_error l i = Some v /\ xyz v <> xyz s /\ affine m /\ rotation (lin m) /\ unit3 (sub3 (xyz v) (xyz s)) = Some (xyz (b0 m)) /\
    exists p q, 0 < q /\ xyz (b1 m) = add3 (scale3 p (sub3 (xyz v) (xyz s))) (scale3 q (xyz d)).
Proof.
  intros Hs Hd HL H N. destruct (elempos_normal s d l es i m Hs Hd HL H N) as (v & Ev & _ & Ne & Ro & U). exists v. split; [exact Ev|]. split; [exact Ne|].
  unfold calculate_elempos in H. rewrite get_spec_point, get_spec_dir in H by assumption. cbn [bind] in H. rewrite combine_map2, map_map in H. apply collect_Forall2 in H.
  destruct (Forall2_nth _ _ _ H i _ N) as (r & X & ->). rewrite nth_error_map, Ev in X. cbn in X. injection X as X. pose proof (HL v (nth_error_In _ _ Ev)) as Wv.
  unfold elempos1 in X. rewrite h2e1_w1 in X by reflexivity. rewrite (h2e1_w0 d Hd) in X. cbn [bind] in X.
  destruct (ex2vec_fix _ _) as [[rot|]|] eqn:Ef; cbn [bind] in X; try discriminate; rewrite (h2e1_w1 v Wv) in X; cbn [bind] in X; [|discriminate].
  injection X as <-. rewrite xyz_hom in Ef. destruct (ex2vec_fix_spec _ _ _ Ef) as (_ & _ & p & q & Q & E).
  split; [unfold compose; apply aff_affine|]. split; [exact Ro|]. split; [exact U|]. exists p, q. split; [exact Q|]. rewrite <- E.
  assert (E1 : mul3 rot (diag3 Placement_Model.ones3) = rot) by (unfold diag3, Placement_Model.ones3; clear; vring). unfold compose. rewrite E1. unfold aff. cbn [b1]. apply xyz_hom.
Qed.
Lemma rotation_plane m : affine m -> orthonormal (lin m) -> perpendicular_axes m /\ plane_bases m = Some (b1 m, b2 m, b0 m).
Proof.
  intros A O. assert (N : forall v, dot3 v v = 1 -> v <> zero3) by (intros v H E; rewrite E in H; assert (Z : dot3 zero3 zero3 = 0) by (vu; ring); lra).
  destruct O as (X & Y & Z & XY & XZ & YZ). unfold lin in *. cbn [a0 a1 a2] in *. split.
  - unfold perpendicular_axes, v_x, v_y, v_z. split; [exact A|]. repeat split; auto.
  - unfold plane_bases, e_x, e_y, e_z, v_x, v_y, v_z. destruct A as (W0 & W1 & W2 & _).
    assert (U : forall v, w4 v = 0 -> dot3 (xyz v) (xyz v) = 1 -> unit4 v = Some v).
    { clear. intros [x y z w] W D. cbn in W. subst w. unfold unit4. assert (E : norm4 (V4 x y z 0) = 1) by (change (V4 x y z 0) with (hom (V3 x y z) 0); rewrite norm4_hom0; apply norm3_1; exact D). rewrite E. destruct (Req_EM_T 1 0) as [Q|Q]; [lra|]. rewrite Rinv_1. now rewrite scale4_1. }
    rewrite !U by assumption. reflexivity.
Qed.
Lemma unit_scale k v u : 0 < k -> dot3 u u = 1 -> v = scale3 k u -> unit3 v = Some u.
Proof. intros K U ->. rewrite unit3_some by (apply scale_ne; [lra|exact U]). f_equal. symmetry. now apply scale_unit. Qed.
Lemma eps_square q c : q * c * (q * c) = 1 -> 0 < q -> q * c = if Rltb 0 (- c) then -1 else 1.
Proof.
  intros E Q. assert (H : (q * c - 1) * (q * c + 1) = 0) by lra. apply Rmult_integral in H. destruct (Rltb 0 (- c)) eqn:D; [apply Rltb_true in D|apply Rltb_false in D].
  - assert (q * c < 0) by nra. lra.
  - assert (0 <= q * c) by nra. lra.
Qed.
Lemma placed_ruled t ph a b l es j m : rigid (tpos t) -> 0 < tr t -> 0 < a - b < 2 * PI -> (forall v, In v l -> w4 v = 1) ->
  calculate_elempos (parametric t a ph) (hom (app3 (lin (tpos t)) (V3 0 1 0)) 0) l = Ok es -> nth_error l j = Some (parametric t b ph) -> nth_error es j = Some (Some m) ->
  ruled_in_plane t ph ((a + b) / 2 + PI / 2) (if Rltb 0 (sin ((a + b) / 2)) then -1 else 1) m 0.
Proof.
  intros G Tr AB HL CE NL NE. assert (W : w4 (parametric t a ph) = 1) by (rewrite (parametric_hom t G); reflexivity).
  destruct (elempos_axes (parametric t a ph) (hom (app3 (lin (tpos t)) (V3 0 1 0)) 0) l es j m W eq_refl HL CE NE) as (v & Nv & _ & A & (O & _) & U & p & q & Q & E). rewrite NL in Nv. injection Nv as <-.
  destruct (rotation_plane m A O) as [PA PB]. split; [exact PA|]. exists (b1 m), (b2 m), (b0 m), (-1). split; [exact PB|]. split; [lra|].
  set (psi := (a + b) / 2 + PI / 2) in *. set (k := 2 * tr t * sin ((a - b) / 2)). assert (K : 0 < k) by (unfold k; assert (0 < sin ((a - b) / 2)) by (apply sin_gt_0; lra); nra).
  assert (Ch : sub3 (xyz (parametric t b ph)) (xyz (parametric t a ph)) = scale3 k (scale3 (-1) (in_plane t ph psi))).
  { pose proof (chord t G ph a b) as C. fold psi k in C. rewrite scale3_scale3, Rmult_comm, <- scale3_scale3, <- C. generalize (xyz (parametric t b ph)) (xyz (parametric t a ph)). clear. vring. }
  assert (D1 : dot3 (in_plane t ph psi) (in_plane t ph psi) = 1) by (rewrite (in_plane_dot t G), Rminus_eq_0; apply cos_0).
  assert (D2 : dot3 (in_plane t ph (psi + PI / 2)) (in_plane t ph (psi + PI / 2)) = 1) by (rewrite (in_plane_dot t G), Rminus_eq_0; apply cos_0).
  assert (D3 : dot3 (in_plane t ph (psi + PI / 2)) (in_plane t ph psi) = 0) by (rewrite (in_plane_dot t G); replace (psi + PI / 2 - psi) with (PI / 2) by ring; apply cos_PI2).
  assert (E0 : xyz (b0 m) = scale3 (-1) (in_plane t ph psi)).
  { rewrite (unit_scale k _ (scale3 (-1) (in_plane t ph psi)) K) in U; [congruence| |exact Ch]. rewrite dot3_scale_l, dot3_scale_r, D1. ring. }
  split; [exact E0|]. rewrite xyz_hom, Ch in E.
  assert (Ax : app3 (lin (tpos t)) (V3 0 1 0) = in_plane t ph (psi + (PI / 2 - psi))) by (unfold in_plane; replace (psi + (PI / 2 - psi)) with (PI / 2) by ring; rewrite cos_PI2, sin_PI2; f_equal; f_equal; ring).
  rewrite Ax, in_plane_turn, cos_shift, sin_shift in E. set (N := in_plane t ph psi) in *. set (D := in_plane t ph (psi + PI / 2)) in *.
  assert (E2 : xyz (b1 m) = add3 (scale3 (- (p * k) + q * sin psi) N) (scale3 (q * cos psi) D)) by (rewrite E; generalize N D; clear; vring).
  destruct O as (_ & Y & _ & XY & _). unfold lin in Y, XY. cbn [a0 a1] in Y, XY. rewrite E0, E2, dot3_scale_l, dot3_add_r, !dot3_scale_r, (dot3_comm N D), D1, D3 in XY.
  assert (X0 : - (p * k) + q * sin psi = 0) by lra. rewrite X0 in E2.
  assert (E3 : xyz (b1 m) = scale3 (q * cos psi) D) by (rewrite E2; generalize N D; clear; vring). rewrite E3, dot3_scale_l, dot3_scale_r, D2 in Y.
  assert (CP : cos psi = - sin ((a + b) / 2)) by (unfold psi; rewrite cos_plus, cos_PI2, sin_PI2; ring).
  rewrite Rmult_1_r in Y. rewrite (eps_square q (cos psi) Y Q) in E3. rewrite CP, Ropp_involutive in E3.
  unfold e_perp_groove. rewrite Ropp_0, cos_0, sin_0, E3. generalize (if Rltb 0 (sin ((a + b) / 2)) then -1 else 1) D (xyz (b2 m)). clear. vring.
Qed.
Lemma evanescent_not_detected t det detinv lim0 lim1 a b i eps mat g c m wave per : rigid (tpos t) -> 0 < tr t -> 0 < a - b < 2 * PI -> - (PI / 2) < i < PI / 2 ->
  ruled_in_plane t 0 ((a + b) / 2 + PI / 2 - i) eps mat g -> 1 < Rabs (sin i + eps * order_direction c (eps * sin i) * (IZR m * wave / per)) ->
  grating_then_tube c mat g m wave per det detinv lim0 lim1 (sub3 (xyz (parametric t a 0)) (xyz (parametric t b 0))) (xyz (parametric t b 0)) = Ok (false, None, None).
Proof.
  intros G Tr AB I Ru S. unfold grating_then_tube. rewrite (chord t G). set (k := 2 * tr t * sin ((a - b) / 2)). assert (K : 0 < k) by (unfold k; assert (0 < sin ((a - b) / 2)) by (apply sin_gt_0; lra); nra).
  pose proof (ruled_evanescent t 0 _ eps mat g c m wave per i k G Ru K I S) as E. replace ((a + b) / 2 + PI / 2 - i + i) with ((a + b) / 2 + PI / 2) in E by ring. now rewrite E.
Qed.
