(** C238: tilted transmission gratings *)
From Verif Require Import Base_Proofs Vec_Proofs Coords_Proofs Rot_Proofs Plane_Proofs Placement_Proofs Lens_Proofs Grating_Proofs Instrument_Proofs Instrument_Proofs2 Layers_Proofs Whole_Proofs Whole_Proofs2 Grating_Props Instrument_Props Whole_Props Align_Proofs Align_Props Stretch_Proofs Stretch_Props Tilt_Proofs.
From Verif Require Import Tilt_Model.
Open Scope R_scope.
Open Scope list_scope.

(** ** C238 *)
(** A photon in order 0 flies on in the direction it came from, wherever the grating is shifted and however it is turned; its place on a detector does not change. *)
Theorem C238_order_0 : forall t a c m g per dr ph d q loc q' loc' ph1 ph1' md d1 y loc1 d1' y' loc1', perpendicular_axes m -> dr_order dr = 0%Z ->
  meets m ph = Some (d, q, loc) -> meets (mul4 (move6 t a) m) ph = Some (d, q', loc') ->
  one (PGrating c true m g per) dr ph = Ok ph1 -> one (moved t a (PGrating c true m g per)) dr ph = Ok ph1' ->
  l_dir ph1 = Some (scale3 (/ norm3 d) d) /\ ph1' = at_point q' ph1 /\
  (perpendicular_axes md -> meets md ph1 = Some (d1, y, loc1) -> meets md ph1' = Some (d1', y', loc1') -> y' = y).
Proof. exact zero_moved. Qed.
Print Assumptions C238_order_0.
(** A photon that flies perpendicular to the grooves: with the angle [th] between the photon and the normal of the grating (the tilt) it is deflected by the angle [de]. The product of the sine of half of it and of a cosine that is 1
    if photon and diffracted photon have the same angle to the grating on both sides is fixed, so that no tilt gives a deflection less than that of this symmetric case, where a change of the tilt has no effect in first order. *)
Theorem C238_deflection : forall c mat g dir m wave per out bl ey ez en p, perpendicular_axes mat -> dir <> zero3 -> plane_bases mat = Some (ey, ez, en) -> p = scale3 (/ norm3 dir) dir -> dot3 p (xyz en) <> 0 ->
  grating c true mat g dir m wave per = Some (out, bl) ->
  let l := e_groove (xyz ey) (xyz ez) g in let disp := e_perp_groove (xyz ey) (xyz ez) g in let n := facing p (xyz en) in let S := sine_step c p disp m wave per in
  dot3 p l = 0 -> exists th de, - (PI / 2) < th < PI / 2 /\ - (PI / 2) <= th + de <= PI / 2 /\
    p = add3 (scale3 (cos th) n) (scale3 (sin th) disp) /\ out = add3 (scale3 (cos (th + de)) n) (scale3 (sin (th + de)) disp) /\
    sin (th + de) = sin th + S /\ dot3 out p = cos de /\ 2 * sin (de / 2) * cos (th + de / 2) = S /\
    (0 < S -> 2 * asin (S / 2) <= de) /\ (S < 0 -> de <= 2 * asin (S / 2)) /\ (S <> 0 -> (de = 2 * asin (S / 2) <-> th = - (de / 2))).
Proof. exact deflected. Qed.
Print Assumptions C238_deflection.
(** The symmetric case is the one of the blaze of a CAT grating: the diffracted photon leaves as if it was reflected on the side walls of the bars, which are perpendicular to the grating. *)
Theorem C238_blaze : forall (n disp p : v3) th de, dot3 n n = 1 -> dot3 disp disp = 1 -> dot3 n disp = 0 -> - (PI / 2) < th < PI / 2 -> - (PI / 2) <= th + de <= PI / 2 ->
  p = add3 (scale3 (cos th) n) (scale3 (sin th) disp) ->
  (th = - (de / 2) <-> add3 (scale3 (cos (th + de)) n) (scale3 (sin (th + de)) disp) = sub3 p (scale3 (2 * dot3 p disp) disp)).
Proof.
  intros n disp p th de N D O T U P. assert (PD : dot3 p disp = sin th) by (rewrite P; transitivity (cos th * dot3 n disp + sin th * dot3 disp disp); [clear; destruct n, disp; vu; ring|rewrite O, D; ring]).
  rewrite PD, P. split.
  - intros E. replace (th + de) with (- th) by lra. rewrite cos_neg, sin_neg. clear. destruct n, disp. vu. f_equal; ring.
  - intros E. assert (S : sin (th + de) = - sin th).
    { apply (f_equal (fun v => dot3 v disp)) in E. replace (dot3 (sub3 _ _) disp) with (cos th * dot3 n disp + (sin th - 2 * sin th) * dot3 disp disp) in E by (clear; destruct n, disp; vu; ring).
      replace (dot3 (add3 _ _) disp) with (cos (th + de) * dot3 n disp + sin (th + de) * dot3 disp disp) in E by (clear; destruct n, disp; vu; ring). rewrite O, D in E. lra. }
    rewrite <- sin_neg in S. assert (A : asin (sin (th + de)) = asin (sin (- th))) by now rewrite S. rewrite !asin_sin in A by lra. lra.
Qed.
Print Assumptions C238_blaze.

(** Example: sine of the photon -3/5, of the diffracted photon 3/5, the symmetric case. *)
Lemma ex_tilt_ne : V3 4 (-3) 0 <> zero3. Proof. intros H. apply (f_equal x3) in H. cbn in H. lra. Qed.
Lemma ex_tilt_unit : V3 (4 / 5) (- (3 / 5)) 0 = scale3 (/ norm3 (V3 4 (-3) 0)) (V3 4 (-3) 0).
Proof. assert (N : norm3 (V3 4 (-3) 0) = 5) by (unfold norm3; replace (dot3 _ _) with (5 * 5) by (vu; ring); apply sqrt_square; lra). rewrite N. vu. f_equal; field. Qed.
Example ex_C238 : let p := V3 (4 / 5) (- (3 / 5)) 0 in exists out bl, grating FlatSign true id4 0 (V3 4 (-3) 0) 1 (6 / 5) 1 = Some (out, bl) /\ out = V3 (4 / 5) (3 / 5) 0 /\ dot3 p (e_groove (V3 0 1 0) (V3 0 0 1) 0) = 0 /\
  sine_step FlatSign p (e_perp_groove (V3 0 1 0) (V3 0 0 1) 0) 1 (6 / 5) 1 = 6 / 5 /\ dot3 out p = cos (2 * asin (6 / 5 / 2)).
Proof.
  cbv zeta. destruct (C35_evanescent FlatSign true id4 0 (V3 4 (-3) 0) 1 (6 / 5) 1 _ _ _ _ id4_axes ex_tilt_ne id4_bases ex_tilt_unit) as [_ H].
  destruct H as [[out bl] G]. { unfold e_groove, e_perp_groove. rewrite Ropp_0, sin_0, cos_0. vu. lra. }
  exists out, bl. split; [exact G|].
  destruct (C35_equation FlatSign true id4 0 (V3 4 (-3) 0) 1 (6 / 5) 1 out bl _ _ _ _ id4_axes ex_tilt_ne id4_bases ex_tilt_unit ltac:(vu; lra) G) as (N & L & D & S).
  unfold e_groove, e_perp_groove in L, D |- *. rewrite Ropp_0, sin_0, cos_0 in L, D |- *. apply norm3_1 in N. clear G. cbn [negb] in S.
  assert (E : out = V3 (4 / 5) (3 / 5) 0). { destruct out as [x y z]. vu. assert (y = 3 / 5) by lra. assert (z = 0) by lra. subst. f_equal. nra. }
  split; [exact E|]. split; [vu; ring|]. split; [unfold sine_step; field|]. rewrite E, cos_2a_sin, sin_asin by lra. vu. field.
Qed.
(** Example: order 0 of a grating that is turned by any angle around the x axis, for a photon through its center. *)
Example ex_C238_order_0 : forall u, let ph := ex_photon 0 0 (V3 0 1 0) 1 1 in let dr := Draw 0 1 0 0 0 0 0 in exists loc' ph1 ph1',
  meets id4 ph = Some (V3 (-1) 0 0, V3 0 0 0, (0, 0)) /\ meets (mul4 (move6 zero3 (V3 u 0 0)) id4) ph = Some (V3 (-1) 0 0, V3 0 0 0, loc') /\
  one (PGrating FlatSign true id4 0 (fun _ => 1)) dr ph = Ok ph1 /\ one (moved zero3 (V3 u 0 0) (PGrating FlatSign true id4 0 (fun _ => 1))) dr ph = Ok ph1'.
Proof.
  intros u. cbv zeta. destruct (ex_C235_roll u) as (_ & _ & M & loc' & M'). cbv zeta in M, M'. set (ph := ex_photon 0 0 (V3 0 1 0) 1 1) in *. exists loc'. eexists. eexists. split; [exact M|]. split; [exact M'|].
  pose proof (m_axes _ (move6_rigid zero3 (V3 u 0 0)) id4 id4_axes) as P'. pose proof (proj1 (meets_iff _ _ _ _ _ P') M') as (_ & N' & _). pose proof (proj1 (meets_iff _ _ _ _ _ id4_axes) M) as (_ & N & _).
  assert (B : Rltb 1 0 || Rltb 1 1 = false) by (apply orb_false_iff; split; apply Rltb_false; lra).
  split.
  - cbn [one surface]. rewrite M. cbn [effect dr_order]. rewrite (order_0_direction FlatSign id4 0 _ _ _ id4_axes ex_ne N). cbn [bent bind fst snd bad_factor dr_p]. rewrite B. reflexivity.
  - unfold moved. cbn [displace_part one surface]. rewrite M'. cbn [effect dr_order]. rewrite (order_0_direction FlatSign _ 0 _ _ _ P' ex_ne N'). cbn [bent bind fst snd bad_factor dr_p]. rewrite B. reflexivity.
Qed.
