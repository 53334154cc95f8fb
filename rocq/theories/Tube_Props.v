(** C231: circular detectors in instruments.  C232: a telescope with gratings on the Rowland circle makes a point of a spectral line. *)
From Verif Require Import Base_Proofs Vec_Proofs Coords_Proofs Plane_Proofs Lens_Proofs Instrument_Proofs Instrument_Proofs2 Layers_Proofs Whole_Proofs Instrument_Props.
From Verif Require Import Angles_Proofs Cylinder_Proofs Spectro_Proofs Spectro_Props.
From Verif Require Import Tube_Proofs.
Open Scope R_scope.
Open Scope list_scope.

(** ** C231 *)
(** The photon is moved to the first point of the tube on its ray, from its position forwards. *)
Theorem C231_first : forall m minv a b dr ph d x k u, well_made (PTube m minv a b) -> l_dir ph = Some d -> l_pos ph = Some x -> (forall s, d <> scale3 s (xyz (v_z m))) ->
  0 <= k -> on_tube a b u -> app4 m (hom u 1) = hom (add3 x (scale3 k d)) 1 ->
  (forall l u', 0 <= l < k -> on_tube a b u' -> app4 m (hom u' 1) <> hom (add3 x (scale3 l d)) 1) ->
  one (PTube m minv a b) dr ph = Ok (LPhoton (Some d) (Some (add3 x (scale3 k d))) (l_pol ph) (l_energy ph) (l_prob ph)).
Proof.
  intros m minv a b dr ph d x k u W D X N K U Q F. apply (proj1 (tube_detected m minv a b dr ph d x W D X N)); [exact K|now exists u|].
  intros l L (u' & U' & Q'). exact (F l u' L U' Q').
Qed.
Print Assumptions C231_first.
(** If there is a point there is a first point. *)
Theorem C231_some : forall m minv a b dr ph d x k u, well_made (PTube m minv a b) -> l_dir ph = Some d -> l_pos ph = Some x -> (forall s, d <> scale3 s (xyz (v_z m))) ->
  0 <= k -> on_tube a b u -> app4 m (hom u 1) = hom (add3 x (scale3 k d)) 1 ->
  exists k', 0 <= k' <= k /\ one (PTube m minv a b) dr ph = Ok (LPhoton (Some d) (Some (add3 x (scale3 k' d))) (l_pol ph) (l_energy ph) (l_prob ph)).
Proof.
  intros m minv a b dr ph d x k u W D X N K U Q. destruct (tube_detected m minv a b dr ph d x W D X N) as (A & B & _). assert (T : tube_point m a b x d k) by now exists u.
  destruct B as (k' & K' & T' & F); [now exists k|]. exists k'. split; [|now apply A]. split; [exact K'|]. apply Rnot_lt_le. intros L. exact (F k ltac:(lra) T).
Qed.
Print Assumptions C231_some.
(** Photons that miss are not changed at all; so are photons that fly along the tube and photons without direction. *)
Theorem C231_missed : forall m minv a b dr ph, well_made (PTube m minv a b) ->
  (forall d x, l_dir ph = Some d -> l_pos ph = Some x -> (exists s, d = scale3 s (xyz (v_z m))) \/ forall k u, 0 <= k -> on_tube a b u -> app4 m (hom u 1) <> hom (add3 x (scale3 k d)) 1) ->
  one (PTube m minv a b) dr ph = Ok ph.
Proof.
  intros m minv a b dr ph W H. destruct (l_dir ph) as [d|] eqn:D; [|rewrite tube_one; unfold meets_tube; now rewrite D]. destruct (l_pos ph) as [x|] eqn:X; [|rewrite tube_one; unfold meets_tube; now rewrite D, X].
  destruct (H d x eq_refl eq_refl) as [[s S]|N]; [now apply (tube_along m minv a b dr ph d s)|].
  destruct (Req_EM_T (x3 (xyz (app4 minv (hom d 0)))) 0) as [Z1|Z1]; [destruct (Req_EM_T (y3 (xyz (app4 minv (hom d 0)))) 0) as [Z2|Z2]|].
  - rewrite tube_one. unfold meets_tube. rewrite D, X. destruct W as (_ & _ & W). destruct (W _ _ _ _ eq_refl) as (_ & I & A & _). rewrite (cylinder_unfold m minv a b d x I A), crossing_parallel by assumption. reflexivity.
  - apply (proj2 (proj2 (tube_detected m minv a b dr ph d x W D X ltac:(intros s S; destruct W as (_ & _ & W); destruct (W _ _ _ _ eq_refl) as (I' & I & A & P); apply Z2; exact (proj2 (proj2 (local_parallel m minv d I (proj1 P) A I') (ex_intro _ s S))))))).
    intros k K (u & U & Q). exact (N k u K U Q).
  - apply (proj2 (proj2 (tube_detected m minv a b dr ph d x W D X ltac:(intros s S; destruct W as (_ & _ & W); destruct (W _ _ _ _ eq_refl) as (I' & I & A & P); apply Z1; exact (proj1 (proj2 (local_parallel m minv d I (proj1 P) A I') (ex_intro _ s S))))))).
    intros k K (u & U & Q). exact (N k u K U Q).
Qed.
Print Assumptions C231_missed.
(** A second circular detector at the same place changes nothing. *)
Theorem C231_twice : forall m minv a b dr dr' ph ph', well_made (PTube m minv a b) -> one (PTube m minv a b) dr ph = Ok ph' -> one (PTube m minv a b) dr' ph' = Ok ph'.
Proof. exact tube_twice. Qed.
Print Assumptions C231_twice.
(** For photon lists *)
Theorem C231_table : forall m minv a b drs t t', Instrument_Model.rectangular t -> process (PTube m minv a b) drs t = Ok t' ->
  Forall2 (fun ph ph' => one (PTube m minv a b) dr0 ph = Ok ph') (crows t) (crows t').
Proof.
  intros m minv a b drs t t' R H. destruct (process_ok_rows _ _ _ _ R H) as (drs' & rows & _ & E & ->). rewrite rows_of_rows.
  clear R H. revert drs' rows E. generalize (crows t). clear t drs. intros l. induction l as [|ph l IH]; intros drs rows E; cbn [each_row] in E; [assert (rows = []) as -> by congruence; constructor|].
  assert (G : forall dr ds, bind (one (PTube m minv a b) dr ph) (fun x => bind (each_row (PTube m minv a b) ds l) (fun r => Ok (x :: r))) = Ok rows -> Forall2 (fun ph ph' => one (PTube m minv a b) dr0 ph = Ok ph') (ph :: l) rows).
  { intros dr ds. rewrite tube_one. cbn [bind]. destruct (each_row _ ds l) as [r|] eqn:Q; [|discriminate]. cbn [bind]. intros Z. injection Z as <-. constructor; [now rewrite tube_one|now apply (IH ds)]. }
  destruct (draws_for _ ph); [|now apply (G dr0 drs)]. destruct drs as [|dr ds]; [discriminate|now apply (G dr ds)].
Qed.
Print Assumptions C231_table.
Lemma tube1_well a b : well_made (PTube tube1 tube1 a b).
Proof.
  split; [discriminate|]. split; [discriminate|]. intros m minv x y E. assert (m = tube1) as -> by congruence. assert (minv = tube1) as -> by congruence. destruct tube1_inv as [I A]. split; [exact I|]. split; [exact I|]. split; [exact A|].
  split; [exact A|]. unfold tube1. cbn [v_x v_y v_z b0 b1 b2 xyz x4 y4 z4]. split; [intros Q; injection Q; lra|]. split; [intros Q; injection Q; lra|]. split; [intros Q; injection Q; lra|]. repeat split; vu; ring.
Qed.
(** Example: a photon inside of the tube around (1, 0, 0) with radius 1 *)
Example ex_C231 : one (PTube tube1 tube1 (- (PI / 2)) (PI / 2)) dr0 (LPhoton (Some (V3 (-1) 0 0)) (Some (V3 1 0 0)) None 1 (Some (1 / 2))) =
  Ok (LPhoton (Some (V3 (-1) 0 0)) (Some (V3 0 0 0)) None 1 (Some (1 / 2))).
Proof.
  pose proof PI_RGT_0. assert (E : V3 0 0 0 = add3 (V3 1 0 0) (scale3 1 (V3 (-1) 0 0))) by (vu; f_equal; ring). rewrite E. apply (C231_first tube1 tube1 (- (PI / 2)) (PI / 2) dr0 (LPhoton (Some (V3 (-1) 0 0)) (Some (V3 1 0 0)) None 1 (Some (1 / 2))) (V3 (-1) 0 0) (V3 1 0 0) 1 (V3 1 0 0)).
  - apply tube1_well.
  - reflexivity.
  - reflexivity.
  - intros s S. apply (f_equal x3) in S. unfold tube1 in S. cbn in S. lra.
  - lra.
  - split; [cbn; ring|]. split; [cbn; lra|]. exists 0. rewrite cos_0, sin_0. split; [reflexivity|]. split; [reflexivity|]. apply angle_between_interval; [unfold twopi; lra|]. exists 0%Z. unfold twopi. lra.
  - unfold tube1. vu. cbn. unfold hom. cbn. f_equal; ring.
  - intros l u L (C & _) Q. assert (K : x4 (app4 tube1 (hom u 1)) = 1 - l /\ y4 (app4 tube1 (hom u 1)) = 0) by (rewrite Q; unfold hom, add3, scale3; cbn; split; ring).
    destruct K as [K1 K2]. destruct u as [p q r]. unfold tube1 in K1, K2. cbn in K1, K2, C. assert (p = l) by lra. assert (q = 0) by lra. subst. nra.
Qed.

(** ** C232 *)
(** A photon that comes from a lens to a grating on the Rowland circle, ruled perpendicular to the plane of the circle and facing the focus of the lens, is detected by the tube made from the
    Rowland circle at the angle [a + 2 o], where [a] is the angle of the focus and [o] that of the order: wherever it hit the lens, and wherever the grating is on the circle. *)
Theorem C232_line : forall t w rot det detinv lim0 lim1 a b o eps mat g c per ml off f refl rn drs ph d0 q0 loc0 ph1 d loc, Rowland_Model.rigid (tpos t) -> 0 < tr t -> 0 < w ->
  from_rowland t w rot = Some det -> mul4 det detinv = id4 -> mul4 detinv det = id4 -> affine detinv -> 0 < a - b < 2 * PI -> - (PI / 2) <= o <= PI / 2 ->
  ruled_in_plane t 0 ((a + b) / 2 + PI / 2) eps mat g ->
  sin o = eps * order_direction c 0 * (IZR (dr_order (hd dr0 (tl drs))) * (energy2wave / l_energy ph) / per loc) -> 0 < (a - b) / 2 + o < PI ->
  angle_between (b - rot) lim0 lim1 = false -> angle_between (a + 2 * o - rot) lim0 lim1 = true ->
  perpendicular_axes ml -> perpendicular_axes mat -> meets ml ph = Some (d0, q0, loc0) -> dot3 d0 d0 = 1 ->
  add3 (sub3 (xyz (center ml)) (scale3 (off / norm3 (xyz (v_z ml))) (xyz (v_z ml)))) (scale3 f d0) = xyz (parametric t a 0) ->
  one (PLens ml off f refl rn) (hd dr0 drs) ph = Ok ph1 -> meets mat ph1 = Some (d, xyz (parametric t b 0), loc) ->
  0 < dot3 (sub3 (xyz (parametric t a 0)) (xyz (parametric t b 0))) d -> 0 <= dr_p (hd dr0 (tl drs)) <= 1 ->
  exists ph', through [PLens ml off f refl rn; PGrating c true mat g per; PTube det detinv lim0 lim1] drs ph = Ok ph' /\ l_pos ph' = Some (xyz (parametric t (a + 2 * o) 0)) /\
    l_energy ph' = l_energy ph /\ l_prob ph' = times (l_prob ph1) (Some (dr_p (hd dr0 (tl drs)))).
Proof. exact line_detected. Qed.
Print Assumptions C232_line.
(** A whole array of gratings (and other flat elements): the photon misses all but one of them. *)
Theorem C232_array : forall t w rot det detinv lim0 lim1 a b o eps mat g c per ml off f refl rn gs1 gs2 drs ph d0 q0 loc0 ph1 ph2 d loc, Rowland_Model.rigid (tpos t) -> 0 < tr t -> 0 < w ->
  from_rowland t w rot = Some det -> mul4 det detinv = id4 -> mul4 detinv det = id4 -> affine detinv -> 0 < a - b < 2 * PI -> - (PI / 2) <= o <= PI / 2 ->
  ruled_in_plane t 0 ((a + b) / 2 + PI / 2) eps mat g ->
  let dr := nth (S (length gs1)) drs dr0 in
  sin o = eps * order_direction c 0 * (IZR (dr_order dr) * (energy2wave / l_energy ph) / per loc) -> 0 < (a - b) / 2 + o < PI ->
  angle_between (b - rot) lim0 lim1 = false -> angle_between (a + 2 * o - rot) lim0 lim1 = true ->
  perpendicular_axes ml -> perpendicular_axes mat -> meets ml ph = Some (d0, q0, loc0) -> dot3 d0 d0 = 1 ->
  add3 (sub3 (xyz (center ml)) (scale3 (off / norm3 (xyz (v_z ml))) (xyz (v_z ml)))) (scale3 f d0) = xyz (parametric t a 0) ->
  one (PLens ml off f refl rn) (hd dr0 drs) ph = Ok ph1 -> Forall (fun p => exists m, layer_of m p /\ meets m ph1 = None) gs1 ->
  meets mat ph1 = Some (d, xyz (parametric t b 0), loc) -> 0 < dot3 (sub3 (xyz (parametric t a 0)) (xyz (parametric t b 0))) d -> 0 <= dr_p dr <= 1 ->
  one (PGrating c true mat g per) dr ph1 = Ok ph2 -> Forall (fun p => exists m, layer_of m p /\ meets m ph2 = None) gs2 ->
  exists ph', through (PLens ml off f refl rn :: gs1 ++ PGrating c true mat g per :: gs2 ++ [PTube det detinv lim0 lim1]) drs ph = Ok ph' /\
    l_pos ph' = Some (xyz (parametric t (a + 2 * o) 0)) /\ l_energy ph' = l_energy ph /\ l_prob ph' = times (l_prob ph1) (Some (dr_p dr)).
Proof. exact array_detected. Qed.
Print Assumptions C232_array.
(** The same without the lens and for any angle of incidence [i] *)
Theorem C232_incidence : forall t w rot det detinv lim0 lim1 a b i o eps mat g c per drs ph d loc s, Rowland_Model.rigid (tpos t) -> 0 < tr t -> 0 < w -> from_rowland t w rot = Some det ->
  mul4 det detinv = id4 -> mul4 detinv det = id4 -> affine detinv -> 0 < a - b < 2 * PI -> - (PI / 2) < i < PI / 2 -> - (PI / 2) <= o <= PI / 2 ->
  ruled_in_plane t 0 ((a + b) / 2 + PI / 2 - i) eps mat g ->
  sin o = sin i + eps * order_direction c (eps * sin i) * (IZR (dr_order (hd dr0 drs)) * (energy2wave / l_energy ph) / per loc) -> 0 < (a - b) / 2 + (o - i) < PI ->
  angle_between (b - rot) lim0 lim1 = false -> angle_between (a + 2 * (o - i) - rot) lim0 lim1 = true ->
  meets mat ph = Some (d, xyz (parametric t b 0), loc) -> 0 < s -> sub3 (xyz (parametric t a 0)) (xyz (parametric t b 0)) = scale3 s d -> 0 <= dr_p (hd dr0 drs) <= 1 ->
  exists ph', through [PGrating c true mat g per; PTube det detinv lim0 lim1] drs ph = Ok ph' /\ l_pos ph' = Some (xyz (parametric t (a + 2 * (o - i)) 0)) /\ l_energy ph' = l_energy ph /\
    l_prob ph' = times (l_prob ph) (Some (dr_p (hd dr0 drs))).
Proof. exact spectro_detected. Qed.
Print Assumptions C232_incidence.
(** Photons of different energies arrive at different points. *)
Theorem C232_resolves : forall t a o o' s m e e' per, Rowland_Model.rigid (tpos t) -> 0 < tr t -> - (PI / 2) < o < PI / 2 -> - (PI / 2) < o' < PI / 2 -> s <> 0 -> (m <> 0)%Z -> per <> 0 -> 0 < e -> 0 < e' ->
  sin o = s * (IZR m * (energy2wave / e) / per) -> sin o' = s * (IZR m * (energy2wave / e') / per) ->
  xyz (parametric t (a + 2 * o) 0) = xyz (parametric t (a + 2 * o') 0) -> e = e'.
Proof.
  intros t a o o' s m e e' per G Tr O O' S M P E E' H H' Q. rewrite !(parametric_center t _ G) in Q. apply add_cancel, scale_cancel in Q; [|lra]. apply (in_plane_same t _ _ G) in Q.
  assert (W : energy2wave / e = energy2wave / e').
  { apply (C205_resolves a 0 o o' s m (energy2wave / e) (energy2wave / e') per O O' S M P); rewrite ?sin_0, ?Rplus_0_l, ?Rminus_0_r; assumption. }
  assert (EW : energy2wave <> 0) by (unfold energy2wave; lra). assert (X : energy2wave * e' = energy2wave * e). { apply (f_equal (fun x => x * (e * e'))) in W. field_simplify in W; lra. }
  apply Rmult_eq_reg_l in X; [now symmetry|exact EW].
Qed.
Print Assumptions C232_resolves.
(** Example: lens at x = 5 with focal length 5, grating at x = 2, focus in the origin; photon on the axis, order 1 with wavelength / period = 3/5 *)
Lemma at_x_axes c : perpendicular_axes (translation2aff (V3 c 0 0)).
Proof. unfold translation2aff, perpendicular_axes, affine. cbn. split; [auto|]. split; [intros Q; injection Q; lra|]. split; [intros Q; injection Q; lra|]. split; [intros Q; injection Q; lra|]. repeat split; vu; ring. Qed.
Lemma at_x_meets c k pol e f : 0 <= k -> meets (translation2aff (V3 c 0 0)) (LPhoton (Some (V3 (-1) 0 0)) (Some (V3 (c + k) 0 0)) pol e f) = Some (V3 (-1) 0 0, V3 c 0 0, (0, 0)).
Proof.
  intros K. apply (meets_iff _ _ _ _ _ (at_x_axes c)). cbn [l_dir l_pos]. split; [reflexivity|]. split; [unfold translation2aff; vu; cbn; lra|]. exists (V3 (c + k) 0 0), k, 0, 0. split; [reflexivity|]. split; [exact K|].
  split; [vu; f_equal; ring|]. split; [|now rewrite !Rmult_0_l]. unfold in_rectangle. split; [lra|]. split; [lra|]. unfold translation2aff. vu. cbn. f_equal; ring.
Qed.
Lemma beside_missed ph : (forall d, l_dir ph = Some d -> exists k, l_pos ph = Some (sub3 (V3 2 0 0) (scale3 k d))) -> meets (translation2aff (V3 2 10 0)) ph = None.
Proof.
  intros H. destruct (meets _ ph) as [[[d' q] loc]|] eqn:M; [exfalso|reflexivity].
  assert (A : perpendicular_axes (translation2aff (V3 2 10 0))).
  { unfold translation2aff, perpendicular_axes, affine. cbn. split; [auto|]. split; [intros Q; injection Q; lra|]. split; [intros Q; injection Q; lra|]. split; [intros Q; injection Q; lra|]. repeat split; vu; ring. }
  apply (meets_iff _ _ _ _ _ A) in M. destruct M as (D & N & x & l & a & b & X' & _ & Q & (I1 & I2 & I3) & _). destruct (H _ D) as [k X]. assert (x = sub3 (V3 2 0 0) (scale3 k d')) as -> by congruence.
  rewrite Q in I3. destruct d' as [u v w]. unfold translation2aff in I3, N. vu. cbn in I3. cbn in N. injection I3 as J1 J2 J3. assert (L : (l - k) * u = 0) by lra. apply Rmult_integral in L. destruct L; [|lra].
  assert (l = k) by lra. subst. lra.
Qed.
Definition beside : part := PGrating FlatSign true (translation2aff (V3 2 10 0)) 0 (fun _ => 5 / 3).
Example ex_C232 : exists ph' ph2', let ph := LPhoton (Some (V3 (-1) 0 0)) (Some (V3 (5 + 1) 0 0)) None energy2wave (Some 1) in
  let lens := PLens (translation2aff (V3 5 0 0)) 0 5 (fun _ _ => 1) (fun _ => None) in let gr := PGrating FlatSign true (translation2aff (V3 2 0 0)) 0 (fun _ => 5 / 3) in
  let tube := PTube tube1 tube1 (- (PI / 2)) (PI / 2) in
  through [lens; gr; tube] [dr0; Draw 1 (1 / 2) 0 0 0 0 0] ph = Ok ph' /\ through (lens :: [beside] ++ gr :: [beside] ++ [tube]) [dr0; dr0; Draw 1 (1 / 2) 0 0 0 0 0] ph = Ok ph2' /\
  l_pos ph' = Some (xyz (parametric torus1 (PI + 2 * asin (- (3 / 5))) 0)) /\ l_pos ph2' = l_pos ph'.
Proof.
  cbv zeta.
  set (ph := LPhoton (Some (V3 (-1) 0 0)) (Some (V3 (5 + 1) 0 0)) None energy2wave (Some 1)). set (ml := translation2aff (V3 5 0 0)). set (mat := translation2aff (V3 2 0 0)).
  destruct asin_35 as [A E]. pose proof asin_35_open. pose proof PI_RGT_0. destruct tube1_inv as [I1 I2].
  assert (P4 : asin (- (3 / 5)) < 0) by (apply Rnot_le_lt; intros Q; assert (0 <= sin (asin (- (3 / 5)))) by (apply sin_ge_0; lra); lra).
  assert (P3 : - (PI / 4) < asin (- (3 / 5))).
  { apply Rnot_le_lt. intros Q. apply sin_incr_1 in Q; try lra. rewrite E, sin_neg, sin_PI4 in Q. assert (Sq : sqrt 2 * sqrt 2 = 2) by (apply sqrt_sqrt; lra). pose proof (sqrt_lt_R0 2 ltac:(lra)) as Sp.
    assert (V : 1 / sqrt 2 = sqrt 2 / 2) by (apply (Rmult_eq_reg_r (sqrt 2)); [field_simplify; lra|lra]). rewrite V in Q. nra. }
  assert (U : dot3 (V3 (-1) 0 0) (V3 (-1) 0 0) = 1) by (vu; ring).
  assert (ML : meets ml ph = Some (V3 (-1) 0 0, V3 5 0 0, (0, 0))) by (apply at_x_meets; lra).
  assert (FA : xyz (parametric torus1 PI 0) = V3 0 0 0) by (rewrite torus1_focus; reflexivity). assert (FB : xyz (parametric torus1 0 0) = V3 2 0 0) by (rewrite torus1_grating; reflexivity).
  assert (FO : add3 (sub3 (xyz (center ml)) (scale3 (0 / norm3 (xyz (v_z ml))) (xyz (v_z ml)))) (scale3 5 (V3 (-1) 0 0)) = xyz (parametric torus1 PI 0)).
  { rewrite FA. replace (0 / norm3 (xyz (v_z ml))) with 0 by (unfold Rdiv; ring). unfold ml, translation2aff. vu. cbn. f_equal; ring. }
  assert (O1 : exists pol pr, one (PLens ml 0 5 (fun _ _ => 1) (fun _ => None)) dr0 ph = Ok (LPhoton (Some (V3 (-1) 0 0)) (Some (V3 5 0 0)) pol energy2wave pr)).
  { cbn [one surface]. rewrite ML. cbn [effect]. destruct (Lens_Proofs.axis_point ml 0 (at_x_axes 5)) as (c & C & CE).
    assert (UN : unit3 (V3 (-1) 0 0) = Some (V3 (-1) 0 0)) by (apply unit3_of_unit; exact U).
    assert (F : focuspoint ml 0 5 (V3 (-1) 0 0) = Some (V3 0 0 0)) by (rewrite (focus_point ml 0 5 _ c _ C UN); rewrite CE; f_equal; rewrite <- FA; exact FO).
    assert (S : sub3 (V3 0 0 0) (V3 5 0 0) = scale3 5 (V3 (-1) 0 0)) by (vu; f_equal; ring).
    unfold perfect_lens. rewrite F, UN, S, (unit3_longer 5 _ ltac:(lra)), UN. cbv zeta. cbn [bind snd bad_factor].
    assert (B : Rltb (1 * 1) 0 || Rltb 1 (1 * 1) = false) by (apply orb_false_iff; split; apply Rltb_false; lra). rewrite B. cbn [bent fst snd]. eexists. eexists. reflexivity. }
  destruct O1 as (pol & pr & O1).
  assert (EW : energy2wave <> 0) by (unfold energy2wave; lra).
  set (dr := Draw 1 (1 / 2) 0 0 0 0 0).
  assert (R : ruled_in_plane torus1 0 ((PI + 0) / 2 + PI / 2) (-1) mat 0).
  { pose proof (C204_placed torus1 0 PI 0 [parametric torus1 0 0] [Some mat] 0 mat torus1_rigid) as C. cbn [tr torus1] in C. specialize (C ltac:(lra) ltac:(lra)).
    replace (-1) with (if Rltb 0 (sin ((PI + 0) / 2)) then -1 else 1) by (replace ((PI + 0) / 2) with (PI / 2) by field; rewrite sin_PI2, (proj2 (Rltb_true 0 1)) by lra; reflexivity).
    apply C; [intros v [<-|[]]; rewrite torus1_grating; reflexivity|exact torus1_placed|reflexivity|reflexivity]. }
  assert (SO : sin (asin (- (3 / 5))) = -1 * order_direction FlatSign 0 * (IZR (dr_order dr) * (energy2wave / l_energy ph) / (5 / 3))) by (rewrite E; cbn [dr_order order_direction l_energy ph dr]; field; exact EW).
  assert (B0 : angle_between (0 - PI) (- (PI / 2)) (PI / 2) = false).
  { apply Bool.not_true_iff_false. intros Q. apply angle_between_interval in Q; [|unfold twopi; lra]. destruct Q as [n Q]. unfold twopi in Q.
    assert (0 < IZR n < 1) as [K1 K2] by (split; nra). apply lt_IZR in K1. apply (lt_IZR n 1) in K2. lia. }
  assert (B1 : angle_between (PI + 2 * asin (- (3 / 5)) - PI) (- (PI / 2)) (PI / 2) = true) by (apply angle_between_interval; [unfold twopi; lra|]; exists 0%Z; lra).
  set (ph1 := LPhoton (Some (V3 (-1) 0 0)) (Some (V3 5 0 0)) pol energy2wave pr) in *.
  assert (MG : meets mat ph1 = Some (V3 (-1) 0 0, xyz (parametric torus1 0 0), (0, 0))) by (rewrite FB; unfold mat, ph1; replace 5 with (2 + 3) by ring; apply at_x_meets; lra).
  assert (FW : 0 < dot3 (sub3 (xyz (parametric torus1 PI 0)) (xyz (parametric torus1 0 0))) (V3 (-1) 0 0)) by (rewrite FA, FB; vu; lra).
  assert (T0 : 0 < tr torus1) by (cbn; lra). assert (DP : 0 <= dr_p dr <= 1) by (cbn; lra).
  destruct (C232_line torus1 1 PI tube1 tube1 (- (PI / 2)) (PI / 2) PI 0 (asin (- (3 / 5))) (-1) mat 0 FlatSign (fun _ => 5 / 3) ml 0 5 (fun _ _ => 1) (fun _ => None) [dr0; dr] ph
    (V3 (-1) 0 0) (V3 5 0 0) (0, 0) ph1 (V3 (-1) 0 0) (0, 0)) as (ph' & H1 & H2 & _); try assumption; try exact torus1_rigid; try exact tube1_made; try apply at_x_axes; try lra.
  assert (O2 : exists ph2, one (PGrating FlatSign true mat 0 (fun _ => 5 / 3)) dr ph1 = Ok ph2 /\ l_pos ph2 = Some (V3 2 0 0)).
  { cbn [through hd tl] in H1. change (Draw 0 0 0 0 0 0 0) with dr0 in H1. rewrite O1 in H1. cbn [bind] in H1. destruct (one (PGrating _ _ _ _ _) dr ph1) as [ph2|] eqn:O; [|discriminate]. exists ph2. split; [reflexivity|].
    cbn [one surface] in O. rewrite MG in O. destruct (effect _ _ _ _ _ _) as [o1|]; cbn [bind] in O; [|discriminate]. destruct (bad_factor (snd o1)); [discriminate|].
    apply (f_equal (fun r => match r with Ok a => l_pos a | Err _ => None end)) in O. cbn [l_pos] in O. rewrite FB in O. now symmetry. }
  destruct O2 as (ph2 & O2 & X2).
  destruct (C232_array torus1 1 PI tube1 tube1 (- (PI / 2)) (PI / 2) PI 0 (asin (- (3 / 5))) (-1) mat 0 FlatSign (fun _ => 5 / 3) ml 0 5 (fun _ _ => 1) (fun _ => None) [beside] [beside] [dr0; dr0; dr] ph
    (V3 (-1) 0 0) (V3 5 0 0) (0, 0) ph1 ph2 (V3 (-1) 0 0) (0, 0)) as (ph3 & H3 & H4 & _); try assumption; try exact torus1_rigid; try exact tube1_made; try apply at_x_axes; try lra.
  - constructor; [|constructor]. exists (translation2aff (V3 2 10 0)). split; [split; [reflexivity|intros m'; discriminate]|]. apply beside_missed. intros d D. exists 3. assert (d = V3 (-1) 0 0) as -> by (cbn in D; congruence).
    cbn. apply (f_equal Some). vu. f_equal; ring.
  - constructor; [|constructor]. exists (translation2aff (V3 2 10 0)). split; [split; [reflexivity|intros m'; discriminate]|]. apply beside_missed. intros d D. exists 0. rewrite X2. apply (f_equal Some). destruct d. vu. f_equal; ring.
  - exists ph', ph3. split; [exact H1|]. split; [exact H3|]. split; [exact H2|now rewrite H4, H2].
Qed.
