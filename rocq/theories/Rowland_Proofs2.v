(** Lemmas about the designs of [Rowland_Model]. *)
From Verif Require Import Vec_Proofs Angles_Proofs Coords_Proofs Position_Proofs Rot_Proofs Plane_Proofs Placement_Proofs Base_Proofs.
From Verif Require Export Rowland_Proofs.
Open Scope R_scope.

Lemma hom_inj p q w v : hom p w = hom q v -> p = q.
Proof. intros H. apply (f_equal xyz) in H. now rewrite !xyz_hom in H. Qed.
Lemma orient_dist a u v : let x := cos a * u + sin a * v in let y := - sin a * u + cos a * v in x * x + y * y = u * u + v * v.
Proof. intros x y. unfold x, y. pose proof (sc1 a) as S. transitivity ((sin a * sin a + cos a * cos a) * (u * u + v * v)); [ring|rewrite S; ring]. Qed.
Lemma circle_iff R' r a c p : z3 c = 0 ->
  on_rowland_circle (Torus R' r (aff (orient a) (V3 (x3 c - R' * cos a) (y3 c + R' * sin a) 0))) p <->
  z3 p = 0 /\ (x3 p - x3 c) * (x3 p - x3 c) + (y3 p - y3 c) * (y3 p - y3 c) = r * r.
Proof.
  intros Zc. split; [|intros [Zp H]; now apply rowland_circle_iff].
  intros (q & E & Zq & H). cbn [tpos tR tr] in *. rewrite app_aff_pt in E. apply hom_inj in E. subst p.
  destruct q as [qx qy qz]. cbn in Zq. subst qz. unfold orient, app3, add3, scale3. cbn. split; [ring|]. cbn in H. rewrite <- H.
  pose proof (orient_dist a (qx - R') qy) as O. cbv zeta in O. rewrite <- O. ring.
Qed.
(** *** tilted torus *)
Lemma tilted_unfold f alpha beta : cos alpha <> 0 ->
  exists t, design_tilted_torus f alpha beta = Some t /\ tr t = f / (2 * cos alpha) /\ tR t = tr t * cos beta /\
    tpos t = aff (orient (beta - alpha)) (V3 (f / 2 - tR t * cos (beta - alpha)) (f / 2 * tan alpha + tR t * sin (beta - alpha)) 0).
Proof.
  intros C. unfold design_tilted_torus. cbv zeta. rewrite axangle_mz. eexists. split; [reflexivity|]. cbn [tr tR tpos]. rewrite compose_ones.
  rewrite sin_shift. auto.
Qed.
Lemma tilted_radius f alpha : cos alpha <> 0 -> f / 2 * (f / 2) + f / 2 * tan alpha * (f / 2 * tan alpha) = f / (2 * cos alpha) * (f / (2 * cos alpha)).
Proof.
  intros C. unfold tan. transitivity (f * f * (sin alpha * sin alpha + cos alpha * cos alpha) / (4 * (cos alpha * cos alpha))); [field; auto|]. rewrite sc1. field. auto.
Qed.
Lemma tilted_circle f alpha beta t : cos alpha <> 0 -> design_tilted_torus f alpha beta = Some t ->
  rigid (tpos t) /\ on_rowland_circle t zero3 /\ on_rowland_circle t (V3 f 0 0).
Proof.
  intros C D. destruct (tilted_unfold f alpha beta C) as (t' & E & Er & ER & Ep). rewrite E in D. injection D as ->.
  destruct t as [R' r m]. cbn [tR tr tpos] in *. subst m. split; [|split].
  - split; [apply aff_affine|]. rewrite lin_aff || idtac. destruct (orient_rotation (beta - alpha)) as [O _]. exact O.
  - apply (circle_iff R' r (beta - alpha) (V3 (f / 2) (f / 2 * tan alpha) 0) zero3); [reflexivity|]. split; [reflexivity|]. cbn. rewrite Er, <- (tilted_radius f alpha C). ring.
  - apply (circle_iff R' r (beta - alpha) (V3 (f / 2) (f / 2 * tan alpha) 0) (V3 f 0 0)); [reflexivity|]. split; [reflexivity|]. cbn. rewrite Er, <- (tilted_radius f alpha C). field.
Qed.
Lemma tilted_axis_eq f alpha beta : cos alpha <> 0 ->
  cos (beta - alpha) * (f / 2) - sin (beta - alpha) * (f / 2 * tan alpha) = f / (2 * cos alpha) * cos beta.
Proof.
  intros C. replace (cos beta) with (cos (beta - alpha + alpha)) by (f_equal; ring). rewrite (cos_plus (beta - alpha) alpha). unfold tan. field. exact C.
Qed.
Lemma tilted_axis f alpha beta t : cos alpha <> 0 -> design_tilted_torus f alpha beta = Some t -> on_torus_axis t zero3.
Proof.
  intros C D. destruct (tilted_unfold f alpha beta C) as (t' & E & Er & ER & Ep). rewrite E in D. injection D as ->.
  set (d := beta - alpha) in *. pose proof (tilted_axis_eq f alpha beta C) as Q. fold d in Q. rewrite <- Er, <- ER in Q. pose proof (sc1 d) as S.
  unfold on_torus_axis. rewrite Ep. set (R' := tR t) in *. set (ta := tan alpha) in *.
  set (tx := f / 2 - R' * cos d). set (ty := f / 2 * ta + R' * sin d).
  assert (Q2 : cos d * tx - sin d * ty = 0).
  { unfold tx, ty. transitivity (cos d * (f / 2) - sin d * (f / 2 * ta) - R' * (sin d * sin d + cos d * cos d)); [ring|]. rewrite Q, S. ring. }
  exists (V3 0 (- sin d * tx - cos d * ty) 0). split; [|cbn; auto]. rewrite app_aff_pt. f_equal. unfold orient, app3, add3, scale3, zero3. cbn. f_equal; [| |ring].
  - transitivity (tx - tx * (sin d * sin d) - sin d * cos d * ty); [ring|]. replace (sin d * sin d) with (1 - cos d * cos d) by lra. transitivity (cos d * (cos d * tx - sin d * ty)); [ring|]. rewrite Q2. ring.
  - transitivity (ty - ty * (cos d * cos d) - sin d * cos d * tx); [ring|]. replace (cos d * cos d) with (1 - sin d * sin d) by lra. transitivity (- sin d * (cos d * tx - sin d * ty)); [ring|]. rewrite Q2. ring.
Qed.
(** the center of the torus is on the line through the on-axis grating and the center of the Rowland circle only for beta = 2 alpha *)
Lemma tilted_center f alpha beta t : cos alpha <> 0 -> design_tilted_torus f alpha beta = Some t ->
  let cat := V3 f 0 0 in let cc := V3 (f / 2) (f / 2 * tan alpha) 0 in
  cross3 (sub3 cc cat) (sub3 (tra (tpos t)) cc) = V3 0 0 (tR t * tr t * sin (2 * alpha - beta)).
Proof.
  intros C D. destruct (tilted_unfold f alpha beta C) as (t' & E & Er & ER & Ep). rewrite E in D. injection D as ->. cbv zeta. rewrite Ep.
  unfold tra, aff, sub3, cross3, xyz, hom. cbn. f_equal; [ring|ring|]. rewrite Er.
  replace (2 * alpha - beta) with (alpha - (beta - alpha)) by ring. rewrite (sin_minus alpha (beta - alpha)). unfold tan. field. exact C.
Qed.

(** *** double torus *)
Lemma atan2_gen x y : 0 < x * x + y * y -> let r := sqrt (x * x + y * y) in cos (atan2 y x) = x / r /\ sin (atan2 y x) = y / r.
Proof.
  intros P r. assert (Pr : 0 < r) by (apply sqrt_lt_R0; exact P). assert (S : r * r = x * x + y * y) by (apply sqrt_sqrt; lra).
  assert (U : x / r * (x / r) + y / r * (y / r) = 1) by (transitivity ((x * x + y * y) / (r * r)); [field; lra|rewrite <- S; field; lra]).
  destruct (atan2_unit _ _ U) as (C & Sn & _). replace (atan2 y x) with (atan2 (y / r) (x / r)); [auto|].
  unfold atan2. rewrite U, sqrt_1. fold r. rewrite (proj2 (Reqb_false 1 0)) by lra. rewrite (proj2 (Reqb_false r 0)) by lra.
  replace (x / r / 1) with (x / r) by (field; lra). replace (Rleb 0 (y / r)) with (Rleb 0 y); [reflexivity|].
  destruct (Rle_dec 0 y) as [L|L].
  - rewrite (proj2 (Rleb_true 0 y) L). symmetry. apply Rleb_true. apply Rmult_le_pos; [exact L|left; now apply Rinv_0_lt_compat].
  - rewrite (proj2 (Rleb_false 0 y)) by lra. symmetry. apply Rleb_false. apply Rmult_lt_reg_r with r; [exact Pr|]. unfold Rdiv. rewrite Rmult_assoc, Rinv_l by lra. lra.
Qed.
Definition circle_center (f d_BF : R) : v3 := V3 (f / 2) (d_BF / 2) 0.
Lemma channel_circle R' f d_BF sg p : 0 < f -> sg = 1 \/ sg = -1 ->
  let r := sqrt (f * f + d_BF * d_BF) / 2 in let a := sg * atan2 d_BF f in
  channel_torus R' f r a = Torus R' r (aff (orient a) (V3 (f / 2 - R' * cos a) (sg * (d_BF / 2) + R' * sin a) 0)) /\
  (on_rowland_circle (channel_torus R' f r a) p <->
   z3 p = 0 /\ (x3 p - f / 2) * (x3 p - f / 2) + (y3 p - sg * (d_BF / 2)) * (y3 p - sg * (d_BF / 2)) = f / 2 * (f / 2) + d_BF / 2 * (d_BF / 2)).
Proof.
  intros F Sg r a. assert (P : 0 < f * f + d_BF * d_BF) by nra. destruct (atan2_gen f d_BF P) as [C S].
  assert (Pr : 0 < sqrt (f * f + d_BF * d_BF)) by (now apply sqrt_lt_R0). assert (Q : sqrt (f * f + d_BF * d_BF) * sqrt (f * f + d_BF * d_BF) = f * f + d_BF * d_BF) by (apply sqrt_sqrt; lra).
  assert (C2 : r * cos a = f / 2). { unfold r, a. destruct Sg as [-> | ->]; [rewrite Rmult_1_l|replace (-1 * atan2 d_BF f) with (- atan2 d_BF f) by ring; rewrite cos_neg]; rewrite C; field; lra. }
  assert (S2 : r * sin a = sg * (d_BF / 2)). { unfold r, a. destruct Sg as [-> | ->]; [rewrite Rmult_1_l|replace (-1 * atan2 d_BF f) with (- atan2 d_BF f) by ring; rewrite sin_neg]; rewrite S; field; lra. }
  assert (E : channel_torus R' f r a = Torus R' r (aff (orient a) (V3 (f / 2 - R' * cos a) (sg * (d_BF / 2) + R' * sin a) 0))).
  { unfold channel_torus. rewrite compose_ones. do 2 f_equal. rewrite <- S2. f_equal; [|ring]. transitivity (f - r * cos a - R' * cos a); [ring|]. rewrite C2. field. }
  split; [exact E|]. rewrite E. pose proof (circle_iff R' r a (V3 (f / 2) (sg * (d_BF / 2)) 0) p eq_refl) as I. cbn [x3 y3] in I. rewrite I.
  replace (r * r) with (f / 2 * (f / 2) + d_BF / 2 * (d_BF / 2)); [tauto|]. unfold r. set (s := sqrt _) in *. transitivity ((f * f + d_BF * d_BF) / 4); [field|]. rewrite <- Q. field.
Qed.
Lemma shift_aff x y z m t : mul4 (shift_matrix (V4 x y z 1)) (aff m t) = aff m (add3 t (V3 x y z)).
Proof. unfold shift_matrix. vring. Qed.
Lemma shift_circle s t p : affine (tpos t) -> on_rowland_circle (shift_torus (hom s 1) t) p <-> on_rowland_circle t (sub3 p s).
Proof.
  intros A. unfold on_rowland_circle, shift_torus. cbn [tpos tR tr]. rewrite (affine_aff _ A). destruct s as [x y z]. unfold hom at 1. cbn [x3 y3 z3]. rewrite shift_aff.
  split; intros (q & E & H); exists q; (split; [|exact H]); rewrite app_aff_pt in *; f_equal; apply hom_inj in E.
  - rewrite <- E. generalize (app3 (lin (tpos t)) q) (tra (tpos t)). clear. vring.
  - transitivity (add3 (add3 (app3 (lin (tpos t)) q) (tra (tpos t))) (V3 x y z)).
    + generalize (app3 (lin (tpos t)) q) (tra (tpos t)). clear. vring.
    + rewrite E. clear. vring.
Qed.
Lemma channel_affine R' f r a : affine (tpos (channel_torus R' f r a)).
Proof. unfold channel_torus. cbn [tpos]. apply aff_affine. Qed.
Lemma circle_cond (t : torus) p cx cy k : (forall q, on_rowland_circle t q <-> z3 q = 0 /\ (x3 q - cx) * (x3 q - cx) + (y3 q - cy) * (y3 q - cy) = k) -> affine (tpos t) ->
  forall s, on_rowland_circle (shift_torus (hom s 1) t) p <-> z3 p = z3 s /\ (x3 p - (cx + x3 s)) * (x3 p - (cx + x3 s)) + (y3 p - (cy + y3 s)) * (y3 p - (cy + y3 s)) = k.
Proof.
  intros H A s. rewrite shift_circle, H by exact A. unfold sub3. cbn. replace (x3 p - x3 s - cx) with (x3 p - (cx + x3 s)) by ring. replace (y3 p - y3 s - cy) with (y3 p - (cy + y3 s)) by ring.
  split; intros [Z E]; (split; [lra|exact E]).
Qed.
Lemma double_circles d_BF R' f p : 0 < f -> let g := double_rowland_from_channel_distance d_BF R' f in
  let k := f / 2 * (f / 2) + d_BF / 2 * (d_BF / 2) in
  (on_rowland_circle (dr_central g) p <-> z3 p = 0 /\ (x3 p - f / 2) * (x3 p - f / 2) + (y3 p - d_BF / 2) * (y3 p - d_BF / 2) = k) /\
  (on_rowland_circle (dr_central_m g) p <-> z3 p = 0 /\ (x3 p - f / 2) * (x3 p - f / 2) + (y3 p + d_BF / 2) * (y3 p + d_BF / 2) = k) /\
  (on_rowland_circle (dr_detector g) p <-> z3 p = 0 /\ (x3 p - f / 2) * (x3 p - f / 2) + y3 p * y3 p = k).
Proof.
  intros F g k. cbn [g double_rowland_from_channel_distance dr_central dr_central_m dr_detector]. cbv zeta.
  set (r := sqrt (f * f + d_BF * d_BF) / 2).
  assert (E1 : forall q, on_rowland_circle (channel_torus R' f r (atan2 d_BF f)) q <-> z3 q = 0 /\ (x3 q - f / 2) * (x3 q - f / 2) + (y3 q - d_BF / 2) * (y3 q - d_BF / 2) = k).
  { intros q. pose proof (proj2 (channel_circle R' f d_BF 1 q F (or_introl eq_refl))) as H. rewrite !Rmult_1_l in H. exact H. }
  split; [apply E1|]. split.
  - pose proof (proj2 (channel_circle R' f d_BF (-1) p F (or_intror eq_refl))) as H. replace (-1 * atan2 d_BF f) with (- atan2 d_BF f) in H by ring.
    replace (y3 p - -1 * (d_BF / 2)) with (y3 p + d_BF / 2) in H by ring. exact H.
  - pose proof (circle_cond _ p _ _ k E1 (channel_affine _ _ _ _) (V3 0 (- (d_BF / 2)) 0)) as H. cbn [x3 y3 z3 hom] in H. unfold hom in H. cbn [x3 y3 z3] in H.
    replace (f / 2 + 0) with (f / 2) in H by ring. replace (y3 p - (d_BF / 2 + - (d_BF / 2))) with (y3 p) in H by ring. exact H.
Qed.
Lemma double_shared d_BF R' f p : 0 < f -> let g := double_rowland_from_channel_distance d_BF R' f in
  (on_rowland_circle (shift_torus (V4 0 (- dr_d g) 0 1) (dr_central g)) p <-> on_rowland_circle (dr_detector g) p) /\
  (on_rowland_circle (shift_torus (V4 0 (dr_d g) 0 1) (dr_central_m g)) p <-> on_rowland_circle (dr_detector g) p).
Proof.
  intros F g. split; [reflexivity|]. destruct (double_circles d_BF R' f p F) as (_ & _ & D). cbv zeta in D. fold g in D. rewrite D.
  assert (E : forall q, on_rowland_circle (dr_central_m g) q <-> z3 q = 0 /\ (x3 q - f / 2) * (x3 q - f / 2) + (y3 q - - (d_BF / 2)) * (y3 q - - (d_BF / 2)) = f / 2 * (f / 2) + d_BF / 2 * (d_BF / 2)).
  { intros q. destruct (double_circles d_BF R' f q F) as (_ & H & _). cbv zeta in H. fold g in H. rewrite H. replace (y3 q - - (d_BF / 2)) with (y3 q + d_BF / 2) by ring. tauto. }
  pose proof (circle_cond _ p _ _ _ E (channel_affine _ _ _ _) (V3 0 (d_BF / 2) 0)) as H. cbn [x3 y3 z3 hom] in H. unfold hom in H. cbn [x3 y3 z3] in H.
  replace (f / 2 + 0) with (f / 2) in H by ring. replace (y3 p - (- (d_BF / 2) + d_BF / 2)) with (y3 p) in H by ring. exact H.
Qed.

(** *** channels *)
Definition known_channel (k : string) : Prop := In k ["1"; "2"; "1m"; "2m"]%string.
Lemma pick_known g k last : known_channel k -> pick_base g k last = Some (channel_base g k).
Proof. unfold known_channel. cbn. intros [<-|[<-|[<-|[<-|[]]]]]; reflexivity. Qed.
Lemma add_channels_known g axes : (forall k p, In (k, p) axes -> known_channel k) -> NoDup (map fst axes) -> forall last out,
  exists ch, add_channels g axes last out = Ok ch /\
    (forall k p, In (k, p) axes -> dget ("rowland_" ++ k)%string ch = Some (shift_torus p (channel_base g k))) /\
    (forall n, (forall k, In k (map fst axes) -> n <> ("rowland_" ++ k)%string) -> dget n ch = dget n out).
Proof.
  induction axes as [|[k p] axes IH]; intros K N last out; cbn [add_channels].
  - exists out. split; [reflexivity|]. split; [intros ? ? []|auto].
  - rewrite (pick_known g k last) by (eapply K; left; reflexivity). inversion N; subst.
    destruct (IH ltac:(intros; eapply K; right; eauto) H2 (Some (channel_base g k)) (dset ("rowland_" ++ k)%string (shift_torus p (channel_base g k)) out)) as (ch & E & A & B).
    exists ch. split; [exact E|]. split.
    + intros k' p' [Q|I].
      * injection Q as <- <-. rewrite B. { apply dget_dset_eq. }
        intros k2 I Q. cbn in Q. injection Q as Q. apply H1. subst. exact I.
      * apply A. exact I.
    + intros n Hn. rewrite B by (intros; apply Hn; right; auto). apply dget_dset_neq. intros Q. apply (Hn k); [left; reflexivity|auto].
Qed.
Lemma channels_known g offsets : (forall k o, In (k, o) offsets -> known_channel k) -> NoDup (map fst offsets) ->
  exists g', add_offset_double_rowland_channels g offsets = Ok g' /\
    forall k o, In (k, o) offsets -> dget ("rowland_" ++ k)%string (dr_channels g') = Some (shift_torus (offset_axis (dr_d g) k o) (channel_base g k)).
Proof.
  intros K N. unfold add_offset_double_rowland_channels. cbv zeta.
  set (axes := map _ offsets).
  assert (K' : forall k p, In (k, p) axes -> known_channel k). { intros k p I. apply in_map_iff in I as ([k' o] & E & I). injection E as <- _. eapply K; eauto. }
  assert (N' : NoDup (map fst axes)). { unfold axes. rewrite map_map. exact N. }
  destruct (add_channels_known g axes K' N' None (dr_channels g)) as (ch & E & A & _). rewrite E. eexists. split; [reflexivity|]. cbn [dr_channels].
  intros k o I. apply A. unfold axes. apply in_map_iff. exists (k, o). auto.
Qed.

(** *** elements *)
Lemma solve_on t minv root tf o v p : root_contract root -> solve_quartic t minv root tf o v = Ok p ->
  exists q d k, h2e1 o = Ok q /\ h2e1 v = Ok d /\ p = hom (add3 q (scale3 k d)) 1 /\ quartic t minv tf (xyz p) = Ok 0.
Proof.
  intros C E. unfold solve_quartic in E. destruct (h2e1 o) as [q|]; [|discriminate]. cbn in E. destruct (h2e1 v) as [d|]; [|discriminate]. cbn in E.
  destruct (root _ _) as [k|] eqn:Rt; [|discriminate]. apply C in Rt. injection E as <-. exists q, d, k. rewrite xyz_hom. auto.
Qed.
Lemma xyz_from_ok t minv root radius angle start p : affine (tpos t) -> mul4 minv (tpos t) = id4 -> root_contract root ->
  xyz_from_radiusangle t minv root radius angle start = Ok p ->
  quartic t minv true p = Ok 0 /\ exists x, hom p 1 = app4 (tpos t) (V4 x (radius * cos angle) (radius * sin angle) 1).
Proof.
  intros A I C E. unfold xyz_from_radiusangle in E. destruct (solve_quartic _ _ _ _ _ _) as [out|] eqn:S; [|discriminate]. cbn in E.
  apply solve_on in S; [|exact C]. destruct S as (q & d & k & Hq & Hd & -> & Qu). rewrite h2e1_w1 in Hq by reflexivity. rewrite h2e1_w0 in Hd by reflexivity.
  injection Hq as <-. injection Hd as <-.
  set (L := add3 (xyz (V4 start (radius * cos angle) (radius * sin angle) 1)) (scale3 k (xyz (V4 1 0 0 0)))) in *.
  assert (W : w4 (app4 (tpos t) (hom L 1)) = 1) by (now rewrite app4_w). rewrite h2e1_w1 in E by exact W. injection E as <-. split.
  - rewrite quartic_global by auto. cbn [quartic] in Qu. rewrite xyz_hom in Qu. exact Qu.
  - exists (start + k). rewrite hom_eta by exact W. f_equal. unfold L, hom, add3, scale3, xyz. cbn. f_equal; ring.
Qed.
