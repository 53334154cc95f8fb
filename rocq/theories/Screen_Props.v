(** Property C247: spectra on a flat detector parallel to a transmission grating. *)
From Verif Require Import Base_Proofs Vec_Proofs Plane_Proofs Grating_Proofs Instrument_Proofs Instrument_Proofs2 Layers_Proofs Stretch_Proofs Tilt_Proofs Overlap_Proofs Ruling_Proofs Screen_Proofs.
From Verif Require Export Screen_Model.
Open Scope R_scope.

(** ** C247 *)
(** A photon along the normal of a transmission grating with sine [S] of the angle of diffraction is found on a plane at distance [h] parallel to the grating at [h S / sqrt (1 - S^2)] along the direction of dispersion, and not displaced along the grooves. *)
Theorem C247_place : forall c mat g dir m wave per out bl ex ey en p q s h, perpendicular_axes mat -> dir <> zero3 -> plane_bases mat = Some (ex, ey, en) -> p = scale3 (/ norm3 dir) dir ->
  (p = xyz en \/ p = neg3 (xyz en)) -> grating c true mat g dir m wave per = Some (out, bl) -> dot3 out (xyz en) <> 0 ->
  let disp := e_perp_groove (xyz ex) (xyz ey) g in let S := sine_step c p disp m wave per in let y := add3 q (scale3 s out) in
  dot3 (sub3 y q) p = h -> S * S < 1 /\ y = add3 (add3 q (scale3 h p)) (scale3 (screen h S) disp).
Proof.
  intros c mat g dir m wave per out bl ex ey en p q s h A D B U PN G N disp S y H. destruct (normal_ray c mat g dir m wave per out bl ex ey en p A D B U PN G) as (P & _ & Z & Q & E). fold disp in Z, Q, E. fold S in Q, E.
  assert (L : S * S < 1).
  { destruct Q as [Q|Q]; [exact Q|]. exfalso. apply N. rewrite E, Q. replace (1 - 1) with 0 by ring. rewrite sqrt_0, dot3_add_l, !dot3_scale_l.
    assert (dot3 disp (xyz en) = 0) as ->; [|ring]. destruct PN as [<-|PN]; [now rewrite dot3_comm|]. rewrite dot3_comm. rewrite PN in Z. revert Z. generalize disp (xyz en). clear. intros u v. destruct u, v. vu. lra. }
  split; [exact L|]. unfold y in *. rewrite E in H |- *. exact (on_screen p disp S q s h P Z (root_pos S L) H).
Qed.
Print Assumptions C247_place.
(** The same with the elements of an instrument: a grating, and a detector with a normal along the photon. *)
Theorem C247_instrument : forall c mg g per dr ph d q loc ph1 md d1 y loc1 ex ey en p r, perpendicular_axes mg -> perpendicular_axes md -> meets mg ph = Some (d, q, loc) ->
  plane_bases mg = Some (ex, ey, en) -> p = scale3 (/ norm3 d) d -> (p = xyz en \/ p = neg3 (xyz en)) ->
  one (PGrating c true mg g per) dr ph = Ok ph1 -> xyz (v_x md) = scale3 r p -> meets md ph1 = Some (d1, y, loc1) ->
  let disp := e_perp_groove (xyz ex) (xyz ey) g in let S := sine_step c p disp (dr_order dr) (energy2wave / l_energy ph) (per loc) in let h := dot3 (sub3 (xyz (center md)) q) p in
  0 <= h /\ S * S < 1 /\ y = add3 (add3 q (scale3 h p)) (scale3 (screen h S) disp).
Proof.
  intros c mg g per dr ph d q loc ph1 md d1 y loc1 ex ey en p r A AD M B U PN O R MD disp S h. destruct (meets_line mg ph d q loc A M) as (DI & N & _).
  assert (D0 : d <> zero3) by (intros ->; apply N; destruct (xyz (v_x mg)); unfold zero3; vu; ring).
  destruct (meets_line md ph1 d1 y loc1 AD MD) as (D1 & N1 & PL & x1 & s & X1 & SP & Y). cbn [one surface] in O. rewrite M in O. cbn [effect] in O.
  destruct (grating c true mg g d (dr_order dr) (energy2wave / l_energy ph) (per loc)) as [[out bl]|] eqn:G; cbn [bent option_map bind fst snd] in O; (destruct (bad_factor (Some (dr_p dr))); [discriminate|]).
  2: { assert (E : l_dir ph1 = None) by (injection O as <-; reflexivity). congruence. }
  assert (E : l_dir ph1 = Some out /\ l_pos ph1 = Some q) by (injection O as <-; split; reflexivity). destruct E as [E1 E2]. assert (d1 = out) as -> by congruence. assert (x1 = q) as -> by congruence.
  rewrite R in N1, PL. rewrite dot3_scale_r in N1, PL. assert (R0 : r <> 0) by (intros ->; apply N1; ring).
  assert (NP : dot3 out p <> 0) by (intros Z; apply N1; rewrite Z; ring). assert (PL' : dot3 (sub3 y (xyz (center md))) p = 0) by (apply Rmult_integral in PL; destruct PL as [PL|PL]; [contradiction|exact PL]).
  assert (H : dot3 (sub3 (add3 q (scale3 s out)) q) p = h). { rewrite <- Y. unfold h. rewrite !dot3_sub_l in *. lra. }
  assert (NE : dot3 out (xyz en) <> 0). { destruct PN as [<- |PN]; [exact NP|]. intros Z. apply NP. rewrite PN, dot_neg, Z. ring. }
  destruct (C247_place c mg g d (dr_order dr) (energy2wave / l_energy ph) (per loc) out bl ex ey en p q s h A D0 B U PN G NE H) as [L E]. rewrite <- Y in E.
  destruct (normal_ray c mg g d _ _ _ out bl ex ey en p A D0 B U PN G) as (P & _ & Z & _ & EO). split; [|split; [exact L|exact E]].
  rewrite <- H. replace (sub3 (add3 q (scale3 s out)) q) with (scale3 s out) by (clear; revert q s out; vring). rewrite dot3_scale_l. apply Rmult_le_pos; [exact SP|].
  rewrite EO, dot3_add_l, !dot3_scale_l, (dot3_comm (e_perp_groove (xyz ex) (xyz ey) g) p), Z, P. pose proof (sqrt_pos (1 - S * S)) as T. unfold S, disp in T. lra.
Qed.
Print Assumptions C247_instrument.
(** The place is the distance times the tangent of the angle. *)
Theorem C247_tangent : forall h S, S * S < 1 -> screen h S = h * tan (asin S).
Proof. exact screen_tan. Qed.
Print Assumptions C247_tangent.
(** The sine, and so the wavelength, is read off the place without error; every place belongs to one sine. *)
Theorem C247_read : forall h, 0 < h -> (forall S, S * S < 1 -> sine_of h (screen h S) = S) /\ (forall x, sine_of h x * sine_of h x < 1 /\ screen h (sine_of h x) = x).
Proof. intros h H. split; [intros S Q; exact (screen_read h S H Q)|intros x; exact (sine_range h x H)]. Qed.
Print Assumptions C247_read.
(** Larger sines are found further along the direction of dispersion, at least by the distance times the difference of sines. *)
Theorem C247_spread : forall h S1 S2, 0 < h -> -1 < S1 -> S1 < S2 -> S2 < 1 -> h * (S2 - S1) <= screen h S2 - screen h S1.
Proof. exact screen_mono. Qed.
Print Assumptions C247_spread.
(** So wavelengths in one pixel of width [b] differ at most by period * b / (order * distance). *)
Theorem C247_pixel : forall h per m w1 w2 b, 0 < h -> 0 < per -> (m <> 0)%Z -> -1 < IZR m * w1 / per < 1 -> -1 < IZR m * w2 / per < 1 ->
  Rabs (screen h (IZR m * w1 / per) - screen h (IZR m * w2 / per)) <= b -> Rabs (w1 - w2) <= per * b / (Rabs (IZR m) * h).
Proof.
  intros h per m w1 w2 b H P M B1 B2 X. assert (M0 : IZR m <> 0) by (intros Z; apply M; now apply eq_IZR). pose proof (Rabs_pos_lt _ M0) as MP.
  assert (L : h * Rabs (IZR m * w1 / per - IZR m * w2 / per) <= b).
  { eapply Rle_trans; [|exact X]. destruct (Rtotal_order (IZR m * w1 / per) (IZR m * w2 / per)) as [T|[T|T]].
    - pose proof (screen_mono h _ _ H (proj1 B1) T (proj2 B2)) as W. rewrite (Rabs_left _ (Rlt_minus _ _ T)), Rabs_left1; [lra|]. assert (0 < h * (IZR m * w2 / per - IZR m * w1 / per)) by (apply Rmult_lt_0_compat; lra). lra.
    - rewrite T. unfold Rminus. rewrite !Rplus_opp_r, Rabs_R0. lra.
    - pose proof (screen_mono h _ _ H (proj1 B2) T (proj2 B1)) as W. assert (0 < h * (IZR m * w1 / per - IZR m * w2 / per)) by (apply Rmult_lt_0_compat; lra). rewrite !Rabs_right; lra. }
  replace (IZR m * w1 / per - IZR m * w2 / per) with (IZR m * (w1 - w2) * / per) in L by (field; lra). rewrite !Rabs_mult, (Rabs_right (/ per)) in L by (pose proof (Rinv_0_lt_compat _ P); lra).
  apply Rmult_le_reg_r with (Rabs (IZR m) * h / per); [apply Rdiv_lt_0_compat; [apply Rmult_lt_0_compat|]; lra|]. replace (per * b / (Rabs (IZR m) * h) * (Rabs (IZR m) * h / per)) with b by (field; repeat split; lra). unfold Rdiv. lra.
Qed.
Print Assumptions C247_pixel.
(** The resolving power calculated from places is smaller than the one from wavelengths. *)
Theorem C247_resolving_power : forall h S1 S2, 0 < h -> 0 < S1 -> S1 < S2 -> S2 < 1 -> let x1 := screen h S1 in let x2 := screen h S2 in x1 < x2 /\ x2 / (x2 - x1) < S2 / (S2 - S1).
Proof.
  intros h S1 S2 H A L B x1 x2. pose proof (screen_mono h S1 S2 H ltac:(lra) L B) as M. destruct (screen_ratio h S1 S2 H A L B) as [P R]. fold x1 x2 in M, P, R. assert (X : x1 < x2) by nra. split; [exact X|].
  apply Rmult_lt_reg_r with ((x2 - x1) * (S2 - S1)); [apply Rmult_lt_0_compat; lra|]. replace (x2 / (x2 - x1) * ((x2 - x1) * (S2 - S1))) with (x2 * (S2 - S1)) by (field; lra). replace (S2 / (S2 - S1) * ((x2 - x1) * (S2 - S1))) with (S2 * (x2 - x1)) by (field; lra). lra.
Qed.
Print Assumptions C247_resolving_power.
(** A linear scale of wavelengths, place over distance, is too long by a fraction between S^2 / 2 and S^2 / (2 (1 - S^2)). *)
Theorem C247_linear : forall h S, 0 < h -> 0 < S < 1 -> S * S / 2 <= screen h S / h / S - 1 <= S * S / (2 * (1 - S * S)).
Proof. exact linear_scale. Qed.
Print Assumptions C247_linear.
(** Two identical lines in orders m and -m are found at opposite places; the order 0 is not displaced; places scale with the distance. *)
Theorem C247_scales : forall h k S, screen h (- S) = - screen h S /\ screen h 0 = 0 /\ screen (k * h) S = k * screen h S.
Proof. intros h k S. unfold screen. replace (- S * - S) with (S * S) by ring. repeat split; unfold Rdiv; ring. Qed.
Print Assumptions C247_scales.

(** Examples: a sine of 3/5 at distance 4 is found at 3. *)
Example C247_example : screen 4 (3 / 5) = 3 /\ sine_of 4 3 = 3 / 5.
Proof.
  unfold screen, sine_of. replace (1 - 3 / 5 * (3 / 5)) with (4 / 5 * (4 / 5)) by field. replace (4 * 4 + 3 * 3) with (5 * 5) by ring. rewrite !sqrt_square by lra. split; field.
Qed.
Example C247_place_example : exists bl, grating FlatSign true id4 0 (V3 1 0 0) 1 3 5 = Some (V3 (4 / 5) (3 / 5) 0, bl) /\ add3 (V3 7 8 9) (scale3 5 (V3 (4 / 5) (3 / 5) 0)) = V3 11 11 9.
Proof.
  assert (T : option_map fst (grating FlatSign true id4 0 (V3 1 0 0) 1 3 5) = Some (V3 (4 / 5) (3 / 5) 0)).
  { unfold grating. rewrite id4_bases. unfold diffract. assert (U : unit3 (V3 1 0 0) = Some (V3 1 0 0)). { rewrite unit3_some by (intros E; injection E; lra). assert (N : norm3 (V3 1 0 0) = 1) by (apply norm3_1; vu; ring). rewrite N. f_equal. unfold scale3. cbn. f_equal; field. }
    rewrite U. unfold diffract_dln, e_perp_groove, e_groove. rewrite Ropp_0, cos_0, sin_0. cbv zeta. set (q := 1 - _ - _). assert (Q : q = 4 / 5 * (4 / 5)) by (unfold q; vu; cbn; lra). rewrite Q, (proj2 (Rltb_false _ 0)), sqrt_square by lra. cbn [option_map fst]. f_equal.
    assert (S : Rsign (dot3 (V3 1 0 0) (xyz (V4 1 0 0 0))) = 1) by (apply Rsign_pos; vu; cbn; lra). rewrite S. unfold order_sign. clear. vu. cbn. f_equal; field. }
  destruct (grating FlatSign true id4 0 (V3 1 0 0) 1 3 5) as [[o bl]|]; [|discriminate]. cbn in T. injection T as ->. exists bl. split; [reflexivity|]. unfold add3, scale3. cbn. f_equal; field.
Qed.
