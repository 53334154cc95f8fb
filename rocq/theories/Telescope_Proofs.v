(** Proofs for Telescope_Model. *)
From Verif Require Export Telescope_Model.
From Verif Require Import Vec_Proofs Plane_Proofs Lens_Proofs Detector_Proofs Source_Proofs Source_Props Aperture_Proofs.
Open Scope R_scope.

(** ** Planes *)
Lemma rect_unique m d p k a b k' a' b' : perpendicular_axes m -> dot3 d (xyz (v_x m)) <> 0 -> in_rectangle m a b (add3 p (scale3 k d)) -> in_rectangle m a' b' (add3 p (scale3 k' d)) -> k = k' /\ a = a' /\ b = b'.
Proof.
  intros ((W0 & W1 & W2 & W3) & NX & NY & NZ & XY & XZ & YZ) D (_ & _ & E) (_ & _ & E').
  set (X := xyz (v_x m)) in *. set (Y := xyz (v_y m)) in *. set (Z := xyz (v_z m)) in *. set (c := xyz (center m)) in *. clearbody X Y Z c.
  assert (PX : forall v w, v = w -> dot3 v X = dot3 w X) by (intros; now subst). assert (PY : forall v w, v = w -> dot3 v Y = dot3 w Y) by (intros; now subst). assert (PZ : forall v w, v = w -> dot3 v Z = dot3 w Z) by (intros; now subst).
  assert (KX : k = k'). { apply PX in E. apply PX in E'. rewrite !dot3_add_l, !dot3_scale_l, (dot3_comm Y X), (dot3_comm Z X), XY, XZ in E, E'. apply Rmult_eq_reg_r with (dot3 d X); [lra|exact D]. }
  subst k'. split; [reflexivity|]. rewrite E in E'. clear E D PX.
  assert (QY : dot3 Y Y <> 0) by (intros H; apply NY, norm3_zero; unfold norm3; rewrite H; apply sqrt_0). assert (QZ : dot3 Z Z <> 0) by (intros H; apply NZ, norm3_zero; unfold norm3; rewrite H; apply sqrt_0).
  split; [apply PY in E'|apply PZ in E']; rewrite !dot3_add_l, !dot3_scale_l, ?(dot3_comm Z Y), ?YZ in E'; [apply Rmult_eq_reg_r with (dot3 Y Y)|apply Rmult_eq_reg_r with (dot3 Z Z)]; lra.
Qed.
Lemma upright_axes x zx zy zz : 0 < zx -> 0 < zy -> 0 < zz -> perpendicular_axes (upright x zx zy zz).
Proof.
  intros A B C. unfold perpendicular_axes, affine, upright, v_x, v_y, v_z. cbn [b0 b1 b2 b3 w4 xyz x4 y4 z4]. 
  assert (NZ : forall v a, (a = x3 v \/ a = y3 v \/ a = z3 v) -> 0 < a -> v <> zero3) by (clear; intros v a [->|[->| ->]] H ->; cbn in H; lra).
  split; [auto|]. split; [apply NZ with zx; cbn; auto|]. split; [apply NZ with zy; cbn; auto|]. split; [apply NZ with zz; cbn; auto|]. clear. vu. repeat split; ring.
Qed.
(** ** Lens and detector *)
Lemma image_focus m f d : perpendicular_axes m -> dot3 d d = 1 -> focuspoint m 0 f d = Some (image m f d).
Proof.
  intros P D. destruct (axis_point m 0 P) as (q & Q & E). rewrite (focus_point m 0 f d q d Q) by now apply unit3_of_unit. f_equal. unfold image. f_equal. rewrite E.
  assert (Z : forall v w, sub3 v (scale3 (0 / norm3 w) w) = v) by (intros v w; unfold Rdiv; rewrite Rmult_0_l; clear; vring). apply Z.
Qed.
Lemma lens_image m f refl r r' : perpendicular_axes m -> dot3 (y_dir r) (y_dir r) = 1 -> fst (fst (plane_intersect m (hom (y_dir r) 0) (hom (y_pos r) 1))) = true -> through_lens m f refl r = Some r' ->
  norm3 (y_dir r') = 1 /\ (exists k a b, 0 <= k /\ in_rectangle m a b (y_pos r') /\ y_pos r' = add3 (y_pos r) (scale3 k (y_dir r))) /\ exists t, 0 < t /\ add3 (y_pos r') (scale3 t (y_dir r')) = image m f (y_dir r).
Proof.
  intros P D H E. unfold through_lens in E. destruct (plane_intersect m (hom (y_dir r) 0) (hom (y_pos r) 1)) as [[h ip] il] eqn:I. cbn in H. subst h.
  destruct (plane_hit_values m _ _ _ ip il P I) as [_ V]. destruct (V eq_refl) as (k & a & b & q & K & R & Q & -> & _). change (xyz (hom q 1)) with (V3 (x3 q) (y3 q) (z3 q)) in E. replace (V3 (x3 q) (y3 q) (z3 q)) with q in E by (destruct q; reflexivity).
  destruct (perfect_lens m 0 f refl (y_dir r) q) as [[out p]|] eqn:L; [|discriminate]. injection E as <-. cbn [y_dir y_pos]. destruct (lens_out _ _ _ _ _ _ _ _ L) as (F & HF & N & NE & A). rewrite image_focus in HF by assumption. injection HF as <-.
  split; [exact N|]. split; [exists k, a, b; auto|]. exists (norm3 (sub3 (image m f (y_dir r)) q)). split; [|exact A]. apply norm3_pos. intros Z. apply NE. assert (S : forall u v, sub3 u v = zero3 -> v = u). { clear. intros [a b c] [d e g] H. unfold sub3, zero3 in H. cbn in H. injection H. intros. f_equal; lra. } now apply S.
Qed.
Lemma detect_at m pix d p k a b : perpendicular_axes m -> dot3 d (xyz (v_x m)) <> 0 -> 0 <= k -> in_rectangle m a b (add3 p (scale3 k d)) ->
  flat_detector m pix (hom d 0) (hom p 1) = Some (detpix (norm3 (xyz (v_y m))) pix (a * norm3 (xyz (v_y m))), detpix (norm3 (xyz (v_z m))) pix (b * norm3 (xyz (v_z m)))).
Proof.
  intros P D K I. assert (H : exists x y, flat_detector m pix (hom d 0) (hom p 1) = Some (x, y)). { apply flat_detector_hit; [exact P|]. apply plane_hit_iff; [exact P|]. split; [exact D|]. exists k, a, b. auto. }
  destruct H as (x & y & E). rewrite E. destruct (flat_detector_spec m pix d p x y P E) as (k' & a' & b' & _ & I' & -> & ->). destruct (rect_unique m d p k a b k' a' b' P D I I') as (_ & <- & <-). reflexivity.
Qed.
(** ** Directions *)
Lemma dir_unit p ra dec : affine (p_ref p) -> orthonormal (lin (p_ref p)) -> exists d, photons_dir p ra dec = Some (hom d 0) /\ dot3 d d = 1 /\ d = app3 (lin (p_ref p)) (neg3 (app3 (p_offset p) (skyvec ra dec))).
Proof.
  intros A O. rewrite photons_dir_eq, app_dir by exact A. eexists. split; [reflexivity|]. split; [|reflexivity]. rewrite orthonormal_dot by exact O. rewrite neg3_dot. destruct (offset_rotation (p_ra p) (p_dec p) (p_roll p)) as [Q _]. fold (p_offset p) in Q. rewrite orthonormal_dot by exact Q. apply skyvec_unit.
Qed.
Lemma dir_dot p ra dec ra' dec' : orthonormal (lin (p_ref p)) -> dot3 (app3 (lin (p_ref p)) (neg3 (app3 (p_offset p) (skyvec ra dec)))) (app3 (lin (p_ref p)) (neg3 (app3 (p_offset p) (skyvec ra' dec')))) = dot3 (skyvec ra dec) (skyvec ra' dec').
Proof.
  intros O. rewrite orthonormal_dot by exact O. destruct (offset_rotation (p_ra p) (p_dec p) (p_roll p)) as [Q _]. fold (p_offset p) in Q. rewrite <- !neg_app, orthonormal_dot by exact Q. clear. vring.
Qed.
Lemma image_scale m f d d' th : dot3 d d = 1 -> dot3 d' d' = 1 -> 0 < f -> 0 <= th <= PI -> dot3 d d' = cos th -> norm3 (sub3 (image m f d) (image m f d')) = 2 * f * sin (th / 2).
Proof.
  intros D D' F T C. unfold image. assert (E : forall c a b, sub3 (add3 c (scale3 f a)) (add3 c (scale3 f b)) = scale3 f (sub3 a b)) by (clear; vring). rewrite E, norm3_scale, Rabs_pos_eq by lra.
  assert (S : 0 <= sin (th / 2)) by (apply sin_ge_0; lra). assert (Q : dot3 (sub3 d d') (sub3 d d') = (2 * sin (th / 2)) * (2 * sin (th / 2))).
  { replace (dot3 (sub3 d d') (sub3 d d')) with (dot3 d d + dot3 d' d' - 2 * dot3 d d') by (clear; vring). rewrite D, D', C. replace th with (2 * (th / 2)) at 1 by field. rewrite cos_2a_sin. lra. }
  unfold norm3. rewrite Q, sqrt_square by lra. lra.
Qed.
(** ** The telescope *)
Definition hits (m : m4) (r : ray) : Prop := fst (fst (plane_intersect m (hom (y_dir r) 0) (hom (y_pos r) 1))) = true.
Lemma enter_spec p aper ra dec u1 u2 : affine (p_ref p) -> orthonormal (lin (p_ref p)) -> perpendicular_axes aper -> exists r d, enter p aper ra dec u1 u2 = Some r /\ photons_dir p ra dec = Some (hom d 0) /\ y_dir r = d /\ dot3 d d = 1 /\
  y_pos r = add3 (xyz (center aper)) (add3 (scale3 (u1 * 2 - 1) (xyz (v_y aper))) (scale3 (u2 * 2 - 1) (xyz (v_z aper)))) /\ 0 <= y_prob r <= 1.
Proof.
  intros A O P. destruct (dir_unit p ra dec A O) as (d & D & U & _). unfold enter. rewrite D. unfold projected. destruct P as ((W0 & W1 & W2 & W3) & NX & _). unfold v_x in *. rewrite (unit4_hom0 (b0 aper)) by assumption.
  eexists. exists d. split; [reflexivity|]. split; [reflexivity|]. cbn [y_dir y_pos y_prob]. split; [destruct d; reflexivity|]. split; [exact U|]. split; [|unfold clip; split; [apply Rmin_glb; [apply Rmax_r|lra]|apply Rmin_r]].
  unfold place, rect_xy. cbn [fst snd]. generalize (center aper) (v_y aper) (v_z aper). clear. intros c y z. vd. vu. f_equal; ring.
Qed.
Lemma observe_focus t ra dec u1 u2 r o : affine (p_ref (t_point t)) -> orthonormal (lin (p_ref (t_point t))) -> perpendicular_axes (t_aper t) -> perpendicular_axes (t_lens t) ->
  (forall r0, enter (t_point t) (t_aper t) ra dec u1 u2 = Some r0 -> hits (t_lens t) r0) -> observe t ra dec u1 u2 = Some (r, o) ->
  exists d, photons_dir (t_point t) ra dec = Some (hom d 0) /\ norm3 (y_dir r) = 1 /\ (exists k, 0 < k /\ add3 (y_pos r) (scale3 k (y_dir r)) = image (t_lens t) (t_f t) d) /\
  forall a b, perpendicular_axes (t_det t) -> in_rectangle (t_det t) a b (image (t_lens t) (t_f t) d) -> dot3 (y_dir r) (xyz (v_x (t_det t))) <> 0 ->
    o = Some (detpix (norm3 (xyz (v_y (t_det t)))) (t_pix t) (a * norm3 (xyz (v_y (t_det t)))), detpix (norm3 (xyz (v_z (t_det t)))) (t_pix t) (b * norm3 (xyz (v_z (t_det t))))).
Proof.
  intros A O PA PL H E. unfold observe in E. destruct (enter_spec (t_point t) (t_aper t) ra dec u1 u2 A O PA) as (r0 & d & E0 & D & RD & U & _). rewrite E0 in E. specialize (H r0 E0).
  destruct (through_lens (t_lens t) (t_f t) (t_refl t) r0) as [r1|] eqn:L; [|discriminate]. injection E as <- <-. exists d. split; [exact D|]. subst d. destruct (lens_image _ _ _ _ _ PL U H L) as (N & _ & k & K & Q). split; [exact N|]. split; [now exists k|].
  intros a b PD I X. apply (detect_at _ _ _ _ k); [exact PD|exact X|lra|]. now rewrite Q.
Qed.
(** Everything upright: lens at [f], larger than the opening; detector at the origin *)
Lemma upright_norms x zx zy zz : 0 < zy -> 0 < zz -> norm3 (xyz (v_y (upright x zx zy zz))) = zy /\ norm3 (xyz (v_z (upright x zx zy zz))) = zz.
Proof. intros A B. unfold upright, v_y, v_z, norm3, dot3. cbn. split; [replace (0 * 0 + zy * zy + 0 * 0) with (zy * zy) by ring|replace (0 * 0 + 0 * 0 + zz * zz) with (zz * zz) by ring]; apply sqrt_square; lra. Qed.
Lemma pos_ne f y z : 0 < f -> sub3 (V3 0 0 0) (V3 f y z) <> zero3. Proof. intros F H. apply (f_equal x3) in H. cbn in H. lra. Qed.
Lemma onaxis_center p x0 ax ay az f lx ly lz refl dx dy dz pix u1 u2 : p_ref p = id4 -> 0 < f -> f <= x0 -> 0 < ax -> 0 < ay <= ly -> 0 < az <= lz -> 0 < lx -> 0 < dx -> 0 < dy -> 0 < dz -> 0 < pix -> 0 <= u1 <= 1 -> 0 <= u2 <= 1 ->
  exists r, observe (Telescope p (upright x0 ax ay az) (upright f lx ly lz) f refl (upright 0 dx dy dz) pix) (p_ra p) (p_dec p) u1 u2 = Some (r, Some ((IZR (npix dy pix) - 1) / 2, (IZR (npix dz pix) - 1) / 2)) /\
  exists s, y_prob r = refl s * refl s.
Proof.
  intros RF F X0 AX [AY1 AY2] [AZ1 AZ2] LX DX DY DZ PX U1 U2.
  assert (DIR : photons_dir p (p_ra p) (p_dec p) = Some (V4 (-1) 0 0 0)). { now rewrite C113_onaxis, RF, app4_id. }
  pose proof (upright_axes x0 ax ay az AX AY1 AZ1) as PA. assert (PL : perpendicular_axes (upright f lx ly lz)) by (apply upright_axes; lra). pose proof (upright_axes 0 dx dy dz DX DY DZ) as PD.
  assert (A : affine (p_ref p)) by (rewrite RF; unfold affine; cbn; auto). assert (O : orthonormal (lin (p_ref p))) by (rewrite RF; unfold orthonormal; vu; cbn; repeat split; lra).
  destruct (enter_spec p (upright x0 ax ay az) (p_ra p) (p_dec p) u1 u2 A O PA) as (r0 & d & E0 & D & RD & U & POS & _). rewrite DIR in D. assert (DD : d = V3 (-1) 0 0). { apply (f_equal (fun o => match o with Some v => xyz v | None => zero3 end)) in D. change (V3 (-1) 0 0 = xyz (hom d 0)) in D. rewrite D. clear. destruct d. reflexivity. }
  rewrite DD in RD, U. clear DD D. set (y := (u1 * 2 - 1) * ay). set (z := (u2 * 2 - 1) * az). assert (P0 : y_pos r0 = V3 x0 y z). { rewrite POS. unfold y, z. clear. unfold upright, center, v_y, v_z. vu. f_equal; ring. }
  assert (PR : y_prob r0 = 1). { unfold enter in E0. rewrite DIR in E0. unfold projected in E0. destruct PA as ((W0 & _) & NX & _). unfold v_x in *. rewrite (unit4_hom0 (b0 (upright x0 ax ay az))) in E0 by assumption. injection E0 as <-. cbn [y_prob upright b0].
    assert (N : norm3 (xyz (V4 ax 0 0 0)) = ax) by (unfold norm3, dot3; cbn; replace (ax * ax + 0 * 0 + 0 * 0) with (ax * ax) by ring; apply sqrt_square; lra). rewrite N. replace (dot4 (V4 (-1) 0 0 0) (scale4 (-1) (hom (scale3 (/ ax) (xyz (V4 ax 0 0 0))) 0))) with 1 by (clear - AX; vu; field; lra). unfold clip. rewrite Rmax_left by lra. apply Rmin_left. lra. }
  assert (YB : Rabs y <= ly) by (unfold y; apply Rabs_le; nra). assert (ZB : Rabs z <= lz) by (unfold z; apply Rabs_le; nra). assert (LY : 0 < ly) by lra. assert (LZ : 0 < lz) by lra.
  assert (H : hits (upright f lx ly lz) r0). { unfold hits. apply plane_hit_iff; [exact PL|]. rewrite RD, P0. split; [unfold upright, v_x; vu; cbn; lra|]. exists (x0 - f), (y / ly), (z / lz). split; [lra|].
    assert (B : forall a l, 0 < l -> Rabs a <= l -> -1 <= a / l <= 1). { clear. intros a l L B. assert (E : a = a / l * l) by (field; lra). set (q := a / l) in *. clearbody q. subst a. rewrite Rabs_mult, (Rabs_pos_eq l) in B by lra. assert (Rabs q <= 1) by nra. apply Rabs_le in H || idtac. unfold Rabs in *. destruct (Rcase_abs q); lra. }
    split; [now apply B|]. split; [now apply B|]. unfold upright, center, v_y, v_z. clear - LY LZ. vu. f_equal; field; lra. }
  unfold observe. cbn [t_point t_aper t_lens t_f t_refl t_det t_pix]. rewrite E0.
  assert (IM : image (upright f lx ly lz) f (V3 (-1) 0 0) = V3 0 0 0) by (unfold image, upright, center; vu; f_equal; ring).
  destruct (plane_intersect (upright f lx ly lz) (hom (y_dir r0) 0) (hom (y_pos r0) 1)) as [[h ip] il] eqn:PI0. assert (h = true) by (unfold hits in H; rewrite PI0 in H; exact H). subst h.
  destruct (plane_hit_values _ _ _ _ ip il PL PI0) as [_ V]. destruct (V eq_refl) as (k & a & b & q & K & (RA & RB & RQ) & Q & -> & _). rewrite RD, P0 in Q.
  assert (QF : q = V3 f y z). { assert (X1 : x3 q = f) by (rewrite RQ; unfold upright, center, v_y, v_z; vu; cbn; ring). assert (X2 : x3 q = x0 - k) by (rewrite Q; vu; cbn; ring). rewrite Q. replace k with (x0 - f) by lra. clear. vu. f_equal; ring. }
  destruct (through_lens (upright f lx ly lz) f refl r0) as [r1|] eqn:TL.
  - destruct (lens_image _ _ _ _ _ PL ltac:(now rewrite RD) H TL) as (N & _ & t & T & FO). rewrite RD, IM in FO. 
    assert (POS1 : y_pos r1 = V3 f y z /\ exists s, y_prob r1 = y_prob r0 * (refl s * refl s)). { unfold through_lens in TL. rewrite PI0 in TL. replace (xyz (hom q 1)) with q in TL by (clear; destruct q; reflexivity). destruct (perfect_lens _ _ _ _ _ q) as [[out pp]|] eqn:L; [|discriminate]. injection TL as <-. cbn [y_pos y_prob]. split; [exact QF|].
      unfold perfect_lens in L. destruct (focuspoint _ _ _ _); [|discriminate]. destruct (unit3 (y_dir r0)); [|discriminate]. destruct (unit3 (sub3 _ q)); [|discriminate]. injection L as _ <-. now eexists. }
    destruct POS1 as [P1 (s & PS)]. exists r1. split; [|exists s; rewrite PS, PR; ring]. f_equal. f_equal.
    rewrite (detect_at (upright 0 dx dy dz) pix (y_dir r1) (y_pos r1) t 0 0 PD).
    + destruct (upright_norms 0 dx dy dz DY DZ) as [-> ->]. rewrite !Rmult_0_l, !detpix_center. reflexivity.
    + intros Z. assert (X : x3 (y_dir r1) = 0). { unfold upright, v_x in Z. clear - Z DX. destruct (y_dir r1) as [a1 a2 a3]. unfold dot3 in Z. cbn in Z. cbn. nra. } apply (f_equal x3) in FO. rewrite P1 in FO. destruct (y_dir r1) as [a1 a2 a3]. unfold add3, scale3 in FO. cbn in FO, X. subst a1. lra.
    + lra.
    + rewrite FO. unfold in_rectangle. split; [lra|]. split; [lra|]. clear. unfold upright, center, v_y, v_z. vu. f_equal; ring.
  - exfalso. unfold through_lens in TL. rewrite PI0 in TL. replace (xyz (hom q 1)) with q in TL by (clear; destruct q; reflexivity). destruct (perfect_lens (upright f lx ly lz) 0 f refl (y_dir r0) q) as [[out pp]|] eqn:L; [discriminate|].
    assert (T : exists out p, perfect_lens (upright f lx ly lz) 0 f refl (y_dir r0) q = Some (out, p)). { apply lens_total; [exact PL|rewrite RD; intros Z; apply (f_equal x3) in Z; cbn in Z; lra|]. rewrite image_focus; [|exact PL|now rewrite RD]. rewrite RD, IM, QF. intros Z. apply (f_equal (fun o => match o with Some v => x3 v | None => 0 end)) in Z. cbn in Z. lra. }
    destruct T as (? & ? & T). congruence.
Qed.
Lemma offaxis_point f lx ly lz refl dx dy dz pix r r' y z : let c := - x3 (y_dir r) in let Y := f * y3 (y_dir r) / c - y * (1 / c - 1) in let Z := f * z3 (y_dir r) / c - z * (1 / c - 1) in
  0 < f -> 0 < lx -> 0 < ly -> 0 < lz -> 0 < dx -> 0 < dy -> 0 < dz -> 0 < c -> dot3 (y_dir r) (y_dir r) = 1 ->
  hits (upright f lx ly lz) r -> (exists k, add3 (y_pos r) (scale3 k (y_dir r)) = V3 f y z) -> through_lens (upright f lx ly lz) f refl r = Some r' -> Rabs Y <= dy -> Rabs Z <= dz ->
  flat_detector (upright 0 dx dy dz) pix (hom (y_dir r') 0) (hom (y_pos r') 1) = Some (detpix dy pix Y, detpix dz pix Z).
Proof.
  intros c Y Z F LX LY LZ DX DY DZ C U H (k0 & K0) TL BY BZ. pose proof (upright_axes f lx ly lz LX LY LZ) as PL. pose proof (upright_axes 0 dx dy dz DX DY DZ) as PD.
  destruct (lens_image _ _ _ _ _ PL U H TL) as (N & (k & a & b & K & (_ & _ & RQ) & PQ) & t & T & FO).
  assert (P1 : y_pos r' = V3 f y z). { assert (X1 : x3 (y_pos r') = f) by (rewrite RQ; unfold upright, center, v_y, v_z; vu; cbn; ring). assert (X2 : x3 (y_pos r') = x3 (y_pos r) + k * x3 (y_dir r)) by (rewrite PQ; clear; destruct (y_pos r), (y_dir r); reflexivity).
    assert (X3 : f = x3 (y_pos r) + k0 * x3 (y_dir r)) by (apply (f_equal x3) in K0; cbn [x3] in K0; rewrite <- K0; clear; destruct (y_pos r), (y_dir r); reflexivity). assert (KK : k = k0) by (unfold c in C; nra). now rewrite PQ, KK. }
  rewrite P1 in *. clear RQ PQ K0. destruct (upright_norms 0 dx dy dz DY DZ) as [NY NZ]. assert (EY : y3 (y_dir r') * t = f * y3 (y_dir r) - y /\ z3 (y_dir r') * t = f * z3 (y_dir r) - z /\ x3 (y_dir r') * t = - f * c).
  { unfold c. clear - FO. destruct (y_dir r) as [d1 d2 d3], (y_dir r') as [e1 e2 e3]. unfold image, upright, center, add3, scale3 in FO. cbn in FO. injection FO. intros. cbn [x3 y3 z3]. repeat split; lra. }
  destruct EY as (EY & EZ & EX). rewrite (detect_at (upright 0 dx dy dz) pix (y_dir r') (V3 f y z) (t / c) (Y / dy) (Z / dz) PD).
  - rewrite NY, NZ. f_equal. f_equal; f_equal; field; lra.
  - intros Q. unfold upright, v_x in Q. assert (Q1 : x3 (y_dir r') = 0). { clear - Q DX. destruct (y_dir r') as [a1 a2 a3]. unfold dot3 in Q. cbn in Q. cbn. nra. } rewrite Q1 in EX. assert (0 < f * c) by now apply Rmult_lt_0_compat. lra.
  - unfold Rdiv. apply Rmult_le_pos; [lra|]. left. now apply Rinv_0_lt_compat.
  - assert (B : forall v l, 0 < l -> Rabs v <= l -> -1 <= v / l <= 1). { clear. intros v l L B. assert (E : v = v / l * l) by (field; lra). set (q := v / l) in *. clearbody q. subst v. rewrite Rabs_mult, (Rabs_pos_eq l) in B by lra. assert (Rabs q <= 1) by nra. unfold Rabs in *. destruct (Rcase_abs q); lra. }
    split; [now apply B|]. split; [now apply B|]. unfold upright, center, v_y, v_z. cbn [xyz b1 b2 b3 x4 y4 z4]. 
    assert (EY' : t / c * y3 (y_dir r') = (f * y3 (y_dir r) - y) / c) by (rewrite <- EY; field; lra). assert (EZ' : t / c * z3 (y_dir r') = (f * z3 (y_dir r) - z) / c) by (rewrite <- EZ; field; lra). assert (EX' : t / c * x3 (y_dir r') = - f) by (replace (t / c * x3 (y_dir r')) with (x3 (y_dir r') * t / c) by (field; lra); rewrite EX; field; lra).
    assert (G : forall e k, add3 (V3 f y z) (scale3 k e) = V3 (f + k * x3 e) (y + k * y3 e) (z + k * z3 e)) by (clear; intros [e1 e2 e3] k; reflexivity). rewrite G, EX', EY', EZ'. unfold Y, Z. vu. f_equal; field; lra.
Qed.
(** ** The helper for monoenergetic simulations *)
Lemma combine_nth_error {A B} : forall (l : list A) (l' : list B) i a b, nth_error l i = Some a -> nth_error l' i = Some b -> nth_error (combine l l') i = Some (a, b).
Proof. induction l as [|x l IH]; intros l' i a b H1 H2; [destruct i; discriminate|]. destruct l' as [|y l']; [destruct i; discriminate|]. destruct i; cbn in *; [congruence|auto]. Qed.
Lemma nth_error_firstn_lt {A} : forall n (l : list A) i, (i < n)%nat -> nth_error (firstn n l) i = nth_error l i.
Proof. induction n as [|n IH]; intros l i H; [inversion H|]. destruct l as [|x l]; [reflexivity|]. destruct i; [reflexivity|]. cbn. apply IH. now apply Nat.succ_lt_mono. Qed.
Lemma mono_spec energy n ref angles : (n <= length angles)%nat -> (0 < n)%nat -> exists l, mono_photons energy (INR n) ref angles = Ok l /\ length l = n /\
  forall i, (i < n)%nat -> exists a, nth_error angles i = Some a /\ nth_error l i = Some (INR i, energy, fixed_pointing (Pointing (PI / 6) (PI / 6) 0 ref) (PI / 6) (PI / 6) (uniform 0 (2 * PI) a), 1).
Proof.
  intros L N. unfold mono_photons, generate_photons. destruct (times_spec 1 (INR n)) as (ts & E & NT & LT); [lra|now apply lt_0_INR|]. rewrite E. cbn [bind generate_energies generate_polarization].
  assert (LN : length ts = n). { assert (A : forall k, (k < n)%nat <-> (k < length ts)%nat). { intros k. rewrite <- LT. unfold Rdiv. rewrite Rinv_1, Rmult_1_r. split; [apply lt_INR|apply INR_lt]. } destruct (Nat.lt_trichotomy (length ts) n) as [H|[H|H]]; [|exact H|]; apply A in H; lia. }
  rewrite LN, repeat_length, map_length, firstn_length, Nat.min_l, !Nat.eqb_refl by exact L. cbn [andb negb bind]. eexists. split; [reflexivity|]. rewrite map_length, !combine_length, map_length, firstn_length, !repeat_length, LN. split; [lia|].
  intros i I. destruct (nth_error angles i) as [a|] eqn:EA; [|apply nth_error_None in EA; lia]. exists a. split; [reflexivity|]. rewrite nth_error_map.
  rewrite (combine_nth_error _ _ i (INR i, energy, uniform 0 (2 * PI) a) 1).
  - reflexivity.
  - apply combine_nth_error; [apply combine_nth_error|].
    + rewrite NT by lia. f_equal. field.
    + now apply nth_error_repeat.
    + rewrite nth_error_map, nth_error_firstn_lt, EA by exact I. reflexivity.
  - now apply nth_error_repeat.
Qed.
