(** Lemmas about [Grating_Model]. *)
From Verif Require Import Vec_Proofs Coords_Proofs Plane_Proofs Rot_Proofs Aperture_Proofs.
From Verif Require Export Grating_Model.
Open Scope R_scope.

Lemma Rsign_pos x : 0 < x -> Rsign x = 1. Proof. intros H. unfold Rsign. now rewrite (proj2 (Rltb_true _ _) H). Qed.
Lemma Rsign_neg x : x < 0 -> Rsign x = -1.
Proof. intros H. unfold Rsign. rewrite (proj2 (Rltb_false 0 x)) by lra. now rewrite (proj2 (Rltb_true _ _) H). Qed.
Lemma Rsign_0 : Rsign 0 = 0.
Proof. unfold Rsign. now rewrite (proj2 (Rltb_false 0 0)) by lra. Qed.
Lemma Rsign_sq x : x <> 0 -> Rsign x * Rsign x = 1.
Proof. intros H. destruct (Rtotal_order x 0) as [L|[L|L]]; [rewrite Rsign_neg by lra; ring|contradiction|rewrite Rsign_pos by lra; ring]. Qed.
Lemma Rsign_abs x : Rsign x * Rabs x = x.
Proof.
  destruct (Rtotal_order x 0) as [L|[->|L]].
  - rewrite Rsign_neg, Rabs_left by lra. ring.
  - rewrite Rsign_0. ring.
  - rewrite Rsign_pos, Rabs_pos_eq by lra. ring.
Qed.
Lemma Rsign_opp x : Rsign (- x) = - Rsign x.
Proof.
  destruct (Rtotal_order x 0) as [L|[->|L]].
  - rewrite (Rsign_neg x), Rsign_pos by lra. ring.
  - rewrite Ropp_0, Rsign_0. ring.
  - rewrite (Rsign_pos x), Rsign_neg by lra. ring.
Qed.

(** the groove system is orthonormal *)
Lemma groove_frame ex ey en g : orthonormal (M3 ex ey en) ->
  orthonormal (M3 (neg3 (e_perp_groove ex ey g)) (e_groove ex ey g) en).
Proof.
  intros (X & Y & N & XY & XN & YN). cbn [a0 a1 a2] in *. unfold e_perp_groove, e_groove. rewrite cos_neg, sin_neg. pose proof (sc1 g) as S.
  assert (E : neg3 (sub3 (scale3 (cos g) ex) (scale3 (- sin g) ey)) = add3 (scale3 (- cos g) ex) (scale3 (- sin g) ey)) by (generalize (cos g) (sin g); clear; vring).
  rewrite E. unfold orthonormal. cbn [a0 a1 a2].
  rewrite !dot3_add_l, !dot3_add_r, !dot3_scale_l, !dot3_scale_r, (dot3_comm ey ex), X, Y, N, XY, XN, YN.
  repeat split; try ring; transitivity (sin g * sin g + cos g * cos g); [ring|exact S|ring|exact S].
Qed.
Lemma comb_mirror d l n p a b c : p = add3 (add3 (scale3 a d) (scale3 b l)) (scale3 c n) ->
  add3 (add3 (scale3 a d) (scale3 b l)) (scale3 (-1 * c) n) = sub3 p (scale3 (2 * c) n).
Proof. intros ->. vring. Qed.
Lemma comb_bars d l n p a b c : p = add3 (add3 (scale3 a d) (scale3 b l)) (scale3 c n) ->
  add3 (add3 (scale3 (- a) d) (scale3 b l)) (scale3 (1 * c) n) = sub3 p (scale3 (2 * a) d).
Proof. intros ->. vring. Qed.
Lemma comb_perp d l n p a b c : p = add3 (add3 (scale3 a d) (scale3 b l)) (scale3 c n) ->
  sub3 p (scale3 b l) = add3 (add3 (scale3 a d) (scale3 0 l)) (scale3 c n).
Proof. intros ->. vring. Qed.
Section Frame.
Variables d l n p : v3.
Hypothesis F : orthonormal (M3 d l n).
Lemma comb_dots a b c : let v := add3 (add3 (scale3 a d) (scale3 b l)) (scale3 c n) in
  dot3 v d = a /\ dot3 v l = b /\ dot3 v n = c /\ dot3 v v = a * a + b * b + c * c.
Proof.
  destruct F as (D & L & N & DL & DN & LN). cbn [a0 a1 a2] in *. cbv zeta.
  rewrite !dot3_add_l, !dot3_add_r, !dot3_scale_l, !dot3_scale_r, (dot3_comm l d), (dot3_comm n d), (dot3_comm n l), D, L, N, DL, DN, LN.
  repeat split; ring.
Qed.
Lemma frame_expand : p = add3 (add3 (scale3 (dot3 p d) d) (scale3 (dot3 p l) l)) (scale3 (dot3 p n) n).
Proof. rewrite <- (frame_decompose d l n p F) at 1. reflexivity. Qed.
Hypothesis P : dot3 p p = 1.
Lemma frame_norm : dot3 p d * dot3 p d + dot3 p l * dot3 p l + dot3 p n * dot3 p n = 1.
Proof.
  destruct (comb_dots (dot3 p d) (dot3 p l) (dot3 p n)) as (_ & _ & _ & E). rewrite <- frame_expand in E. rewrite <- E. exact P.
Qed.
(** components of the outgoing direction *)
Lemma diffract_components c tr m wave per out : diffract_dln c tr d l n p m wave per = Some out -> dot3 p n <> 0 ->
  dot3 out l = dot3 p l /\
  dot3 out d = dot3 p d + order_sign c p d * IZR m * wave / per /\
  dot3 out out = 1 /\
  dot3 out n = (if tr then 1 else -1) * Rsign (dot3 p n) * sqrt (1 - dot3 out d * dot3 out d - dot3 p l * dot3 p l).
Proof.
  intros H N. unfold diffract_dln in H. cbv zeta in H.
  set (pd := dot3 p d + order_sign c p d * IZR m * wave / per) in *. set (q := 1 - pd * pd - dot3 p l * dot3 p l) in *.
  destruct (Rltb q 0) eqn:Q; [discriminate|]. apply Rltb_false in Q. injection H as <-.
  set (dn := Rsign (dot3 p n) * (if tr then 1 else -1) * sqrt q).
  destruct (comb_dots pd (dot3 p l) dn) as (D & L & Nn & U). cbv zeta in *.
  split; [exact L|]. split; [exact D|]. split.
  - rewrite U. assert (E : dn * dn = q).
    { unfold dn. transitivity ((Rsign (dot3 p n) * Rsign (dot3 p n)) * ((if tr then 1 else -1) * (if tr then 1 else -1)) * (sqrt q * sqrt q)); [ring|].
      rewrite Rsign_sq, sqrt_sqrt by lra. destruct tr; ring. }
    rewrite E. unfold q. ring.
  - rewrite Nn, D. unfold dn, q. ring.
Qed.
Lemma diffract_exists c tr m wave per :
  (exists out, diffract_dln c tr d l n p m wave per = Some out) <->
  (let t := dot3 p d + order_sign c p d * IZR m * wave / per in t * t + dot3 p l * dot3 p l <= 1).
Proof.
  unfold diffract_dln. cbv zeta. set (pd := dot3 p d + _). destruct (Rltb _ 0) eqn:Q.
  - apply Rltb_true in Q. split; [intros [? ?]; discriminate|lra].
  - apply Rltb_false in Q. split; [lra|intros; eauto].
Qed.
Lemma diffract_specular c tr m wave per : dot3 p n <> 0 ->
  (dot3 p d + order_sign c p d * IZR m * wave / per) * (dot3 p d + order_sign c p d * IZR m * wave / per) = dot3 p d * dot3 p d ->
  diffract_dln c tr d l n p m wave per =
  Some (add3 (add3 (scale3 (dot3 p d + order_sign c p d * IZR m * wave / per) d) (scale3 (dot3 p l) l)) (scale3 ((if tr then 1 else -1) * dot3 p n) n)).
Proof.
  intros N E. unfold diffract_dln. cbv zeta. rewrite E.
  assert (Q : 1 - dot3 p d * dot3 p d - dot3 p l * dot3 p l = dot3 p n * dot3 p n) by (pose proof frame_norm; lra). rewrite Q.
  rewrite (proj2 (Rltb_false _ 0)) by nra. do 3 f_equal.
  replace (sqrt (dot3 p n * dot3 p n)) with (Rabs (dot3 p n)) by (symmetry; apply sqrt_Rsqr_abs).
  transitivity ((if tr then 1 else -1) * (Rsign (dot3 p n) * Rabs (dot3 p n))); [ring|]. now rewrite Rsign_abs.
Qed.
Lemma diffract_order0 c wave per : dot3 p n <> 0 -> diffract_dln c true d l n p 0 wave per = Some p.
Proof.
  intros N. rewrite diffract_specular; [|exact N|unfold Rdiv; ring]. f_equal. symmetry. etransitivity; [apply frame_expand|].
  f_equal; f_equal; [f_equal; unfold Rdiv; ring|ring].
Qed.
Lemma diffract_mirror c wave per : dot3 p n <> 0 -> diffract_dln c false d l n p 0 wave per = Some (sub3 p (scale3 (2 * dot3 p n) n)).
Proof.
  intros N. rewrite diffract_specular; [|exact N|unfold Rdiv; ring]. f_equal.
  replace (dot3 p d + order_sign c p d * 0 * wave / per) with (dot3 p d) by (unfold Rdiv; ring).
  apply comb_mirror, frame_expand.
Qed.
(** the blaze angle *)
Lemma blaze_spec : dot3 p n <> 0 \/ dot3 p d <> 0 ->
  exists b, blaze_angle p l n = Some b /\ 0 <= b <= PI / 2 /\ cos b = Rabs (dot3 p n) / sqrt (dot3 p n * dot3 p n + dot3 p d * dot3 p d) /\
            sin b = Rabs (dot3 p d) / sqrt (dot3 p n * dot3 p n + dot3 p d * dot3 p d).
Proof.
  intros N. set (w := sub3 p (scale3 (dot3 p l) l)).
  assert (W : w = add3 (add3 (scale3 (dot3 p d) d) (scale3 0 l)) (scale3 (dot3 p n) n)).
  { unfold w. apply comb_perp, frame_expand. }
  destruct (comb_dots (dot3 p d) 0 (dot3 p n)) as (_ & _ & WN & WW). cbv zeta in *. rewrite <- W in WN, WW.
  set (a := dot3 p n) in *. set (e := dot3 p d) in *. set (s := sqrt (a * a + e * e)).
  assert (S2 : 0 < a * a + e * e) by (destruct N; [pose proof (Rsqr_pos_lt a H)|pose proof (Rsqr_pos_lt e H)]; unfold Rsqr in *; nra).
  assert (S : 0 < s) by (now apply sqrt_lt_R0).
  assert (SS : s * s = a * a + e * e) by (apply sqrt_sqrt; lra).
  assert (NW : norm3 w = s) by (unfold norm3; rewrite WW; unfold s; f_equal; ring).
  assert (W0 : w <> zero3) by (intros Z; apply norm3_zero in Z; lra).
  assert (A : Rabs (dot3 (scale3 (/ norm3 w) w) n) = Rabs a / s).
  { rewrite dot3_scale_l, WN, NW, Rabs_mult, Rabs_inv, (Rabs_pos_eq s) by lra. unfold Rdiv. ring. }
  assert (Q : Rabs a <= s).
  { unfold s. rewrite <- sqrt_Rsqr_abs. apply sqrt_le_1_alt. unfold Rsqr. nra. }
  assert (R0 : 0 <= Rabs a / s <= 1).
  { split. { apply Rmult_le_pos; [apply Rabs_pos|]. left. now apply Rinv_0_lt_compat. }
    apply (Rmult_le_reg_r s); [exact S|]. unfold Rdiv. rewrite Rmult_assoc, Rinv_l by lra. lra. }
  exists (acos (Rabs a / s)). split.
  - unfold blaze_angle. fold w. rewrite (unit3_some w W0), A. now rewrite clip_inside by lra.
  - split; [|split].
    + pose proof (acos_bound (Rabs a / s)) as [B1 B2]. split; [exact B1|].
      destruct (Rle_or_lt (acos (Rabs a / s)) (PI / 2)) as [L|L]; [exact L|exfalso].
      pose proof (cos_acos (Rabs a / s) ltac:(lra)) as C.
      pose proof (cos_lt_0 (acos (Rabs a / s)) L ltac:(pose proof PI_RGT_0; lra)). lra.
    + apply cos_acos. lra.
    + rewrite sin_acos by lra. 
      assert (E : 1 - (Rabs a / s)² = (Rabs e / s)²).
      { unfold Rsqr, Rdiv. transitivity ((s * s - Rabs a * Rabs a) * (/ s * / s)); [field; lra|].
        rewrite SS. replace (Rabs a * Rabs a) with (a * a) by (rewrite <- Rabs_mult; symmetry; apply Rabs_pos_eq; nra).
        transitivity ((e * e) * (/ s * / s)); [ring|].
        replace (e * e) with (Rabs e * Rabs e) by (rewrite <- Rabs_mult; apply Rabs_pos_eq; nra). ring. }
      rewrite E. apply sqrt_Rsqr. apply Rmult_le_pos; [apply Rabs_pos|]. left. now apply Rinv_0_lt_compat.
Qed.
End Frame.

(** CAT convention *)
Lemma cat_sign_abs p d : order_sign CATSign p d * dot3 p d = Rabs (dot3 p d).
Proof.
  unfold order_sign. destruct (Rtotal_order (dot3 p d) 0) as [L|[L|L]].
  - rewrite Rsign_neg, Rabs_left by lra. rewrite (proj2 (Reqb_false (-1) 0)) by lra. ring.
  - rewrite L, Rabs_R0. ring.
  - rewrite Rsign_pos, Rabs_pos_eq by lra. rewrite (proj2 (Reqb_false 1 0)) by lra. ring.
Qed.
Lemma cat_sign_neg p d : dot3 p d <> 0 -> order_sign CATSign p (neg3 d) = - order_sign CATSign p d.
Proof.
  intros N. unfold order_sign. replace (dot3 p (neg3 d)) with (- dot3 p d) by (clear; vring). rewrite Rsign_opp.
  pose proof (Rsign_sq _ N) as S. rewrite !(proj2 (Reqb_false _ 0)); [reflexivity| |]; intros E; rewrite ?E in S; nra.
Qed.
Lemma cat_invariant tr d l n p m wave per : dot3 p d <> 0 ->
  diffract_dln CATSign tr (neg3 d) l n p m wave per = diffract_dln CATSign tr d l n p m wave per.
Proof.
  intros N. unfold diffract_dln. cbv zeta. rewrite cat_sign_neg by exact N. replace (dot3 p (neg3 d)) with (- dot3 p d) by (clear; vring).
  set (t := order_sign CATSign p d).
  replace (- dot3 p d + - t * IZR m * wave / per) with (- (dot3 p d + t * IZR m * wave / per)) by (unfold Rdiv; ring).
  set (u := dot3 p d + _). replace (- u * - u) with (u * u) by ring. destruct (Rltb _ 0); [reflexivity|]. f_equal. f_equal. f_equal. clear. vring.
Qed.
Lemma cat_blaze d l n p m wave per : orthonormal (M3 d l n) -> dot3 p p = 1 -> dot3 p n <> 0 ->
  IZR m * wave / per = - (2 * Rabs (dot3 p d)) ->
  diffract_dln CATSign true d l n p m wave per = Some (sub3 p (scale3 (2 * dot3 p d) d)).
Proof.
  intros F P N E.
  assert (G : dot3 p d + order_sign CATSign p d * IZR m * wave / per = - dot3 p d).
  { replace (order_sign CATSign p d * IZR m * wave / per) with (order_sign CATSign p d * (IZR m * wave / per)) by (unfold Rdiv; ring).
    rewrite E, <- cat_sign_abs.
    transitivity (dot3 p d - 2 * (order_sign CATSign p d * order_sign CATSign p d) * dot3 p d); [ring|].
    assert (S : order_sign CATSign p d * order_sign CATSign p d = 1).
    { unfold order_sign. destruct (Rtotal_order (dot3 p d) 0) as [L|[L|L]].
      - rewrite Rsign_neg by lra. rewrite (proj2 (Reqb_false (-1) 0)) by lra. ring.
      - rewrite L, Rsign_0, (proj2 (Reqb_true 0 0)) by lra. ring.
      - rewrite Rsign_pos by lra. rewrite (proj2 (Reqb_false 1 0)) by lra. ring. }
    rewrite S. ring. }
  rewrite (diffract_specular d l n p F P) by (try exact N; rewrite G; ring). f_equal. rewrite G.
  apply comb_bars, frame_expand, F.
Qed.
(** Flat grating: turning the groove angle by pi and the sign of the order gives the same result *)
Lemma e_groove_pi ex ey g : e_groove ex ey (g + PI) = neg3 (e_groove ex ey g).
Proof. unfold e_groove. rewrite !cos_neg, !sin_neg, neg_cos, neg_sin. generalize (cos g) (sin g). clear. vring. Qed.
Lemma e_perp_pi ex ey g : e_perp_groove ex ey (g + PI) = neg3 (e_perp_groove ex ey g).
Proof. unfold e_perp_groove. rewrite !cos_neg, !sin_neg, neg_cos, neg_sin. generalize (cos g) (sin g). clear. vring. Qed.
Lemma flat_turn tr ex ey en g dir m wave per :
  option_map fst (diffract FlatSign tr ex ey en (g + PI) dir (- m) wave per) = option_map fst (diffract FlatSign tr ex ey en g dir m wave per).
Proof.
  unfold diffract. destruct (unit3 dir) as [p|]; [|reflexivity]. rewrite e_groove_pi, e_perp_pi.
  set (l := e_groove ex ey g). set (d := neg3 (e_perp_groove ex ey g)).
  assert (E : diffract_dln FlatSign tr (neg3 d) (neg3 l) en p (- m) wave per = diffract_dln FlatSign tr d l en p m wave per).
  { unfold diffract_dln, order_sign. cbv zeta. rewrite opp_IZR.
    replace (dot3 p (neg3 d)) with (- dot3 p d) by (clear; vring). replace (dot3 p (neg3 l)) with (- dot3 p l) by (clear; vring).
    replace (- dot3 p d + -1 * - IZR m * wave / per) with (- (dot3 p d + -1 * IZR m * wave / per)) by (unfold Rdiv; ring).
    set (u := dot3 p d + _). set (w := dot3 p l). replace (- u * - u) with (u * u) by ring. replace (- w * - w) with (w * w) by ring.
    destruct (Rltb _ 0); [reflexivity|]. f_equal. f_equal. f_equal; clear; vring. }
  rewrite E. destruct (diffract_dln FlatSign tr d l en p m wave per); reflexivity.
Qed.
(** the full grating *)
Lemma grating_unfold c tr mat g dir m wave per : perpendicular_axes mat -> dir <> zero3 ->
  exists ex ey en p, plane_bases mat = Some (ex, ey, en) /\ unit3 dir = Some p /\ dot3 p p = 1 /\ p = scale3 (/ norm3 dir) dir /\
    orthonormal (M3 (neg3 (e_perp_groove (xyz ex) (xyz ey) g)) (e_groove (xyz ex) (xyz ey) g) (xyz en)) /\
    grating c tr mat g dir m wave per =
      match diffract_dln c tr (neg3 (e_perp_groove (xyz ex) (xyz ey) g)) (e_groove (xyz ex) (xyz ey) g) (xyz en) p m wave per with
      | Some out => Some (out, blaze_angle p (e_groove (xyz ex) (xyz ey) g) (xyz en)) | None => None end.
Proof.
  intros P D. destruct (plane_bases_spec mat P) as (ey & ez & ex & B & O & _). exists ey, ez, ex, (scale3 (/ norm3 dir) dir).
  assert (U : unit3 dir = Some (scale3 (/ norm3 dir) dir)) by (now apply unit3_some).
  split; [exact B|]. split; [exact U|]. split; [now apply (unit3_spec dir)|]. split; [reflexivity|]. split.
  - apply groove_frame. destruct O as (X & Y & N & XY & XN & YN). cbn [a0 a1 a2] in *. unfold orthonormal. cbn [a0 a1 a2].
    rewrite (dot3_comm (xyz ey) (xyz ex)), (dot3_comm (xyz ez) (xyz ex)). repeat split; assumption.
  - unfold grating. rewrite B. unfold diffract. rewrite U. reflexivity.
Qed.
(** statements about the full grating *)
Section Full.
Variables (c : convention) (tr : bool) (mat : m4) (g : R) (dir : v3) (m : Z) (wave per : R) (out : v3) (bl : option R) (ex ey en : v4) (p : v3).
Hypothesis A : perpendicular_axes mat.
Hypothesis D : dir <> zero3.
Hypothesis B : plane_bases mat = Some (ex, ey, en).
Hypothesis U : p = scale3 (/ norm3 dir) dir.
Let l := e_groove (xyz ex) (xyz ey) g.
Let d := neg3 (e_perp_groove (xyz ex) (xyz ey) g).
Lemma full_facts : unit3 dir = Some p /\ dot3 p p = 1 /\ orthonormal (M3 d l (xyz en)) /\
  grating c tr mat g dir m wave per = match diffract_dln c tr d l (xyz en) p m wave per with Some o => Some (o, blaze_angle p l (xyz en)) | None => None end.
Proof.
  destruct (grating_unfold c tr mat g dir m wave per A D) as (ex' & ey' & en' & p' & B' & U' & P' & Up & O & G).
  rewrite B in B'. injection B' as <- <- <-. rewrite <- U in Up. subst p'. split; [exact U'|]. split; [exact P'|]. split; [exact O|exact G].
Qed.
End Full.
Lemma grating_main c tr mat g dir m wave per out bl ex ey en p :
  perpendicular_axes mat -> dir <> zero3 -> plane_bases mat = Some (ex, ey, en) -> p = scale3 (/ norm3 dir) dir -> dot3 p (xyz en) <> 0 ->
  grating c tr mat g dir m wave per = Some (out, bl) ->
  let l := e_groove (xyz ex) (xyz ey) g in let disp := e_perp_groove (xyz ex) (xyz ey) g in
  norm3 out = 1 /\ dot3 out l = dot3 p l /\
  dot3 out disp = dot3 p disp + (match c with FlatSign => 1 | CATSign => if Rleb (dot3 p disp) 0 then -1 else 1 end) * (IZR m * wave / per) /\
  0 <= (if tr then 1 else -1) * dot3 out (xyz en) * dot3 p (xyz en).
Proof.
  intros A D B U N G. destruct (full_facts c tr mat g dir m wave per ex ey en p A D B U) as (_ & P & O & G'). rewrite G in G'.
  set (l := e_groove (xyz ex) (xyz ey) g) in *. set (q := e_perp_groove (xyz ex) (xyz ey) g) in *. cbv zeta.
  destruct (diffract_dln c tr (neg3 q) l (xyz en) p m wave per) as [o|] eqn:E; [|discriminate]. injection G' as -> _.
  destruct (diffract_components _ _ _ p O c tr m wave per o E N) as (L & Dd & Nn & S).
  assert (Q : forall v, dot3 v (neg3 q) = - dot3 v q) by (clear; vring). rewrite !Q in Dd.
  split; [now apply norm3_1|]. split; [exact L|]. split.
  - apply Ropp_eq_compat in Dd. rewrite Ropp_involutive in Dd. rewrite Dd. 
    assert (Sg : order_sign c p (neg3 q) = - match c with FlatSign => 1 | CATSign => if Rleb (dot3 p q) 0 then -1 else 1 end).
    { destruct c; cbn [order_sign]; [ring|]. rewrite Q. destruct (Rleb (dot3 p q) 0) eqn:Z.
      - apply Rleb_true in Z. destruct (Req_dec (dot3 p q) 0) as [->|].
        + rewrite Ropp_0, Rsign_0, (proj2 (Reqb_true 0 0)) by lra. lra.
        + rewrite Rsign_pos by lra. rewrite (proj2 (Reqb_false 1 0)) by lra. lra.
      - apply Rleb_false in Z. rewrite Rsign_neg by lra. rewrite (proj2 (Reqb_false (-1) 0)) by lra. lra. }
    rewrite Sg. unfold Rdiv. ring.
  - rewrite S. set (t := sqrt _). assert (T : 0 <= t) by apply sqrt_pos.
    apply Rle_trans with (t * Rabs (dot3 p (xyz en))); [apply Rmult_le_pos; [exact T|apply Rabs_pos]|]. right.
    rewrite <- (Rsign_abs (dot3 p (xyz en))) at 3. pose proof (Rsign_sq _ N) as SQ.
    transitivity (t * Rabs (dot3 p (xyz en)) * (Rsign (dot3 p (xyz en)) * Rsign (dot3 p (xyz en)))); [rewrite SQ; ring|]. destruct tr; ring.
Qed.
(** evanescent orders: no direction (nan) *)
Lemma grating_exists c tr mat g dir m wave per ex ey en p :
  perpendicular_axes mat -> dir <> zero3 -> plane_bases mat = Some (ex, ey, en) -> p = scale3 (/ norm3 dir) dir ->
  let l := e_groove (xyz ex) (xyz ey) g in let disp := e_perp_groove (xyz ex) (xyz ey) g in
  let t := dot3 p disp + (match c with FlatSign => 1 | CATSign => if Rleb (dot3 p disp) 0 then -1 else 1 end) * (IZR m * wave / per) in
  (exists r, grating c tr mat g dir m wave per = Some r) <-> t * t + dot3 p l * dot3 p l <= 1.
Proof.
  intros A D B U. destruct (full_facts c tr mat g dir m wave per ex ey en p A D B U) as (_ & P & O & G). rewrite G.
  set (l := e_groove (xyz ex) (xyz ey) g) in *. set (q := e_perp_groove (xyz ex) (xyz ey) g) in *. cbv zeta.
  assert (Q : forall v, dot3 v (neg3 q) = - dot3 v q) by (clear; vring).
  assert (Sg : order_sign c p (neg3 q) = - match c with FlatSign => 1 | CATSign => if Rleb (dot3 p q) 0 then -1 else 1 end).
  { destruct c; cbn [order_sign]; [ring|]. rewrite Q. destruct (Rleb (dot3 p q) 0) eqn:Z.
    - apply Rleb_true in Z. destruct (Req_dec (dot3 p q) 0) as [->|].
      + rewrite Ropp_0, Rsign_0, (proj2 (Reqb_true 0 0)) by lra. lra.
      + rewrite Rsign_pos by lra. rewrite (proj2 (Reqb_false 1 0)) by lra. lra.
    - apply Rleb_false in Z. rewrite Rsign_neg by lra. rewrite (proj2 (Reqb_false (-1) 0)) by lra. lra. }
  pose proof (diffract_exists (neg3 q) l (xyz en) p c tr m wave per) as X. cbv zeta in X. rewrite Sg, Q in X.
  set (k := match c with FlatSign => 1 | CATSign => if Rleb (dot3 p q) 0 then -1 else 1 end) in *.
  replace (- dot3 p q + - k * IZR m * wave / per) with (- (dot3 p q + k * (IZR m * wave / per))) in X by (unfold Rdiv; ring).
  rewrite Rmult_opp_opp in X. rewrite <- X. split.
  - intros [r H]. destruct (diffract_dln _ _ _ _ _ _ _ _ _) as [o|]; [now exists o|discriminate].
  - intros [o H]. rewrite H. eauto.
Qed.
Lemma grating_zero c mat g dir wave per ex ey en p :
  perpendicular_axes mat -> dir <> zero3 -> plane_bases mat = Some (ex, ey, en) -> p = scale3 (/ norm3 dir) dir -> dot3 p (xyz en) <> 0 ->
  option_map fst (grating c true mat g dir 0 wave per) = Some p /\
  option_map fst (grating c false mat g dir 0 wave per) = Some (sub3 p (scale3 (2 * dot3 p (xyz en)) (xyz en))).
Proof.
  intros A D B U N. destruct (full_facts c true mat g dir 0 wave per ex ey en p A D B U) as (_ & P & O & G). 
  destruct (full_facts c false mat g dir 0 wave per ex ey en p A D B U) as (_ & _ & _ & G'). rewrite G, G'.
  rewrite (diffract_order0 _ _ _ p O P c wave per N), (diffract_mirror _ _ _ p O P c wave per N). split; reflexivity.
Qed.
Lemma grating_turn tr mat g dir m wave per :
  option_map fst (grating FlatSign tr mat (g + PI) dir (- m) wave per) = option_map fst (grating FlatSign tr mat g dir m wave per).
Proof. unfold grating. destruct (plane_bases mat) as [[[ex ey] en]|]; [|reflexivity]. apply flat_turn. Qed.
Lemma grating_cat_turn tr mat g dir m wave per ex ey en p :
  perpendicular_axes mat -> dir <> zero3 -> plane_bases mat = Some (ex, ey, en) -> p = scale3 (/ norm3 dir) dir ->
  dot3 p (e_perp_groove (xyz ex) (xyz ey) g) <> 0 ->
  option_map fst (grating CATSign tr mat (g + PI) dir m wave per) = option_map fst (grating CATSign tr mat g dir m wave per).
Proof.
  intros A D B U N. destruct (full_facts CATSign tr mat g dir m wave per ex ey en p A D B U) as (_ & P & O & G).
  destruct (full_facts CATSign tr mat (g + PI) dir m wave per ex ey en p A D B U) as (_ & _ & _ & G'). rewrite G, G'.
  rewrite e_groove_pi, e_perp_pi. set (l := e_groove (xyz ex) (xyz ey) g) in *. set (q := e_perp_groove (xyz ex) (xyz ey) g) in *.
  rewrite cat_invariant by (replace (dot3 p (neg3 q)) with (- dot3 p q) by (clear; vring); lra).
  assert (E : diffract_dln CATSign tr (neg3 q) (neg3 l) (xyz en) p m wave per = diffract_dln CATSign tr (neg3 q) l (xyz en) p m wave per).
  { unfold diffract_dln. cbv zeta. replace (dot3 p (neg3 l)) with (- dot3 p l) by (clear; vring). rewrite Rmult_opp_opp.
    destruct (Rltb _ 0); [reflexivity|]. f_equal. f_equal. f_equal. generalize (dot3 p l). clear. vring. }
  rewrite E. destruct (diffract_dln CATSign tr (neg3 q) l (xyz en) p m wave per); reflexivity.
Qed.
Lemma grating_cat_bars mat g dir m wave per ex ey en p :
  perpendicular_axes mat -> dir <> zero3 -> plane_bases mat = Some (ex, ey, en) -> p = scale3 (/ norm3 dir) dir -> dot3 p (xyz en) <> 0 ->
  let disp := e_perp_groove (xyz ex) (xyz ey) g in
  IZR m * wave / per = - (2 * Rabs (dot3 p disp)) ->
  option_map fst (grating CATSign true mat g dir m wave per) = Some (sub3 p (scale3 (2 * dot3 p disp) disp)).
Proof.
  intros A D B U N disp E. destruct (full_facts CATSign true mat g dir m wave per ex ey en p A D B U) as (_ & P & O & G). rewrite G. fold disp in O |- *.
  assert (Q : dot3 p (neg3 disp) = - dot3 p disp) by (clear; vring).
  rewrite (cat_blaze _ _ _ _ m wave per O P N) by (rewrite Q, Rabs_Ropp; exact E). cbn [option_map fst]. f_equal. rewrite Q. generalize (dot3 p disp). clear. vring.
Qed.
Lemma grating_blaze c tr mat g dir m wave per out bl ex ey en p :
  perpendicular_axes mat -> dir <> zero3 -> plane_bases mat = Some (ex, ey, en) -> p = scale3 (/ norm3 dir) dir -> dot3 p (xyz en) <> 0 ->
  grating c tr mat g dir m wave per = Some (out, bl) ->
  let a := dot3 p (xyz en) in let e := dot3 p (e_perp_groove (xyz ex) (xyz ey) g) in
  exists b, bl = Some b /\ 0 <= b <= PI / 2 /\ cos b = Rabs a / sqrt (a * a + e * e) /\ sin b = Rabs e / sqrt (a * a + e * e).
Proof.
  intros A D B U N G a e. destruct (full_facts c tr mat g dir m wave per ex ey en p A D B U) as (_ & P & O & G'). rewrite G in G'.
  destruct (diffract_dln _ _ _ _ _ _ _ _ _) as [o|]; [|discriminate]. injection G' as _ ->.
  destruct (blaze_spec _ _ _ p O (or_introl N)) as (b & E & R & C & S). exists b. split; [exact E|]. split; [exact R|].
  assert (Q : dot3 p (neg3 (e_perp_groove (xyz ex) (xyz ey) g)) = - e) by (unfold e; clear; vring).
  rewrite Q, Rmult_opp_opp in C. rewrite Q, Rmult_opp_opp, Rabs_Ropp in S. split; [exact C|exact S].
Qed.
Lemma id4_axes : perpendicular_axes id4.
Proof.
  unfold perpendicular_axes, affine. cbn. repeat split; try (intros H; first [apply (f_equal x3) in H; cbn in H; lra | apply (f_equal y3) in H; cbn in H; lra | apply (f_equal z3) in H; cbn in H; lra]); vu; ring.
Qed.
Lemma id4_bases : plane_bases id4 = Some (V4 0 1 0 0, V4 0 0 1 0, V4 1 0 0 0).
Proof.
  destruct id4_axes as ((W0 & W1 & W2 & _) & X & Y & Z & _). unfold plane_bases, e_x, e_y, e_z.
  rewrite !unit4_hom0 by assumption. cbn [v_x v_y v_z id4 b0 b1 b2 xyz x4 y4 z4].
  assert (E : forall x y z, x * x + y * y + z * z = 1 -> norm3 (V3 x y z) = 1) by (intros x y z H; apply norm3_1; exact H).
  assert (H : forall x y z, x * x + y * y + z * z = 1 -> hom (scale3 (/ norm3 (V3 x y z)) (V3 x y z)) 0 = V4 x y z 0).
  { intros x y z Q. rewrite (E _ _ _ Q). vu. f_equal; field. }
  f_equal. f_equal; [f_equal|]; apply H; ring.
Qed.
(** *** Bars that are not parallel *)
Lemma acos_abs_cos x : - (PI / 2) <= x <= PI / 2 -> acos (clip (Rabs (cos x)) 0 1) = Rabs x.
Proof.
  intros B. pose proof PI_RGT_0. assert (C : 0 <= cos x) by (apply cos_ge_0; lra). pose proof (COS_bound x).
  assert (E : clip (Rabs (cos x)) 0 1 = cos x).
  { rewrite Rabs_pos_eq by exact C. unfold clip. rewrite Rmax_left by lra. apply Rmin_left. lra. }
  rewrite E. destruct (Rle_or_lt 0 x) as [L|L].
  - rewrite Rabs_pos_eq by exact L. apply acos_cos. lra.
  - rewrite Rabs_left by exact L. rewrite <- cos_neg. apply acos_cos. lra.
Qed.
(** the ray [a l + k (cos th n + sin th d)] *)
Lemma ray_wall d l n a k th t : dot3 d d = 1 -> dot3 l l = 1 -> dot3 n n = 1 -> dot3 d l = 0 -> dot3 d n = 0 -> dot3 l n = 0 -> 0 < k ->
  - (PI / 2) <= th - t <= PI / 2 -> blaze_angle (add3 (scale3 a l) (scale3 k (bar_wall n d th))) l (bar_wall n d t) = Some (Rabs (th - t)).
Proof.
  intros D L N DL DN LN K B. unfold blaze_angle.
  set (w := bar_wall n d th). assert (W : dot3 w w = 1).
  { unfold w, bar_wall. transitivity (cos th * cos th * dot3 n n + 2 * (sin th * cos th) * dot3 d n + sin th * sin th * dot3 d d); [clear; vd; vu; ring|].
    rewrite N, D, DN. pose proof (sin2_cos2 th) as S. unfold Rsqr in S. lra. }
  assert (WL : dot3 w l = 0).
  { unfold w, bar_wall. transitivity (cos th * dot3 l n + sin th * dot3 d l); [clear; vd; vu; ring|]. rewrite LN, DL. ring. }
  assert (P : sub3 (add3 (scale3 a l) (scale3 k w)) (scale3 (dot3 (add3 (scale3 a l) (scale3 k w)) l) l) = scale3 k w).
  { assert (E : dot3 (add3 (scale3 a l) (scale3 k w)) l = a * dot3 l l + k * dot3 w l) by (clear; vd; vu; ring). rewrite E, L, WL. clear. vring. }
  rewrite P. assert (U : unit3 (scale3 k w) = Some w).
  { assert (NW : norm3 w = 1) by (apply norm3_1; exact W).
    assert (NZ : scale3 k w <> zero3). { intros E. assert (X : dot3 (scale3 k w) (scale3 k w) = 0) by (rewrite E; vu; ring). rewrite dot3_scale_l, dot3_scale_r, W in X. nra. }
    rewrite (unit3_some _ NZ), norm3_scale, NW, (Rabs_pos_eq k) by lra. f_equal. assert (H : / (k * 1) * k = 1) by (field; lra).
    transitivity (scale3 (/ (k * 1) * k) w); [clear; vring|]. rewrite H. clear. vring. }
  rewrite U. f_equal. assert (E : dot3 w (bar_wall n d t) = cos (th - t)).
  { unfold w, bar_wall. rewrite cos_minus. transitivity (cos th * cos t * dot3 n n + (sin th * cos t + cos th * sin t) * dot3 d n + sin th * sin t * dot3 d d); [clear; vd; vu; ring|].
    rewrite N, D, DN. ring. }
  rewrite E. apply acos_abs_cos, B.
Qed.
Lemma wall_0 n d : bar_wall n d 0 = n.
Proof. unfold bar_wall. rewrite cos_0, sin_0. vring. Qed.
