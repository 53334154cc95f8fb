(** C237: gratings and detectors at the wrong distance *)
From Verif Require Import Base_Proofs Vec_Proofs Coords_Proofs Rot_Proofs Plane_Proofs Placement_Proofs Lens_Proofs Grating_Proofs Instrument_Proofs Instrument_Proofs2 Layers_Proofs Whole_Proofs Whole_Proofs2 Grating_Props Instrument_Props Whole_Props Align_Proofs Align_Props Stretch_Proofs.
From Verif Require Import Align_Model.
Open Scope R_scope.
Open Scope list_scope.

(** ** C237 *)
(** A grating (filter, ...) [p] with the matrix [m] is shifted by [t]; behind it is a detector. The photon keeps the direction that the grating gives to it, and its place on the detector moves by this vector,
    where [d] is the direction in front of and [d1] the direction behind the grating. *)
Theorem C237_spot : forall t p m dr ph d q loc q' loc' md ph1 ph1' d1 y loc1 d1' y' loc1', well_made p -> uniform p -> geometry p = Some m ->
  meets m ph = Some (d, q, loc) -> meets (mul4 (move6 t zero3) m) ph = Some (d, q', loc') ->
  one p dr ph = Ok ph1 -> one (moved t zero3 p) dr ph = Ok ph1' -> perpendicular_axes md -> meets md ph1 = Some (d1, y, loc1) -> meets md ph1' = Some (d1', y', loc1') ->
  let k := dot3 t (xyz (v_x m)) / dot3 d (xyz (v_x m)) in
  d1' = d1 /\ y' = add3 y (scale3 k (sub3 d (scale3 (dot3 d (xyz (v_x md)) / dot3 d1 (xyz (v_x md))) d1))).
Proof. exact spot. Qed.
Print Assumptions C237_spot.
(** Photons that do not change their direction (order 0) stay where they are. *)
Theorem C237_order_0 : forall t p m dr ph d q loc q' loc' md ph1 ph1' y loc1 d1' y' loc1', well_made p -> uniform p -> geometry p = Some m ->
  meets m ph = Some (d, q, loc) -> meets (mul4 (move6 t zero3) m) ph = Some (d, q', loc') ->
  one p dr ph = Ok ph1 -> one (moved t zero3 p) dr ph = Ok ph1' -> perpendicular_axes md -> meets md ph1 = Some (d, y, loc1) -> meets md ph1' = Some (d1', y', loc1') -> y' = y.
Proof.
  intros t p m dr ph d q loc q' loc' md ph1 ph1' y loc1 d1' y' loc1' W U GM H H' O O' PD M M'. destruct (spot t p m dr ph d q loc q' loc' md ph1 ph1' d y loc1 d1' y' loc1' W U GM H H' O O' PD M M') as [_ E].
  destruct (meets_line md ph1 d y loc1 PD M) as (_ & N & _). replace (dot3 d (xyz (v_x md)) / dot3 d (xyz (v_x md))) with 1 in E by (field; exact N). rewrite E. generalize (dot3 t (xyz (v_x m)) / dot3 d (xyz (v_x m))). clear. intros. destruct y, d. vu. f_equal; ring.
Qed.
Print Assumptions C237_order_0.
(** With the place [z0] where the ray would meet the detector without the grating: all orders and wavelengths move towards [z0] (or away from it) by the same factor, the spectrum of the ray is stretched. *)
Theorem C237_stretch : forall t p m dr ph d q loc q' loc' md ph1 ph1' d1 y loc1 d1' y' loc1' s0, well_made p -> uniform p -> geometry p = Some m ->
  meets m ph = Some (d, q, loc) -> meets (mul4 (move6 t zero3) m) ph = Some (d, q', loc') ->
  one p dr ph = Ok ph1 -> one (moved t zero3 p) dr ph = Ok ph1' -> perpendicular_axes md -> meets md ph1 = Some (d1, y, loc1) -> meets md ph1' = Some (d1', y', loc1') ->
  let z0 := add3 q (scale3 s0 d) in s0 <> 0 -> dot3 (sub3 z0 (xyz (center md))) (xyz (v_x md)) = 0 ->
  sub3 y' z0 = scale3 (1 - dot3 t (xyz (v_x m)) / dot3 d (xyz (v_x m)) / s0) (sub3 y z0).
Proof. exact stretch. Qed.
Print Assumptions C237_stretch.
(** If the grating and the detector are parallel, the factor is the same for all rays, given by the shift and by the distance of the two planes. *)
Theorem C237_parallel : forall t p m dr ph d q loc q' loc' md ph1 ph1' d1 y loc1 d1' y' loc1' s0 j, well_made p -> uniform p -> geometry p = Some m -> perpendicular_axes m ->
  meets m ph = Some (d, q, loc) -> meets (mul4 (move6 t zero3) m) ph = Some (d, q', loc') ->
  one p dr ph = Ok ph1 -> one (moved t zero3 p) dr ph = Ok ph1' -> perpendicular_axes md -> meets md ph1 = Some (d1, y, loc1) -> meets md ph1' = Some (d1', y', loc1') ->
  let z0 := add3 q (scale3 s0 d) in dot3 (sub3 z0 (xyz (center md))) (xyz (v_x md)) = 0 -> xyz (v_x md) = scale3 j (xyz (v_x m)) ->
  dot3 (sub3 (xyz (center md)) (xyz (center m))) (xyz (v_x m)) <> 0 ->
  sub3 y' z0 = scale3 (1 - dot3 t (xyz (v_x m)) / dot3 (sub3 (xyz (center md)) (xyz (center m))) (xyz (v_x m))) (sub3 y z0).
Proof. exact stretch_parallel. Qed.
Print Assumptions C237_parallel.
(** A detector that is shifted: the picture of all photons that come from one point [x] (of a grating) is stretched by a factor given by the shift and the distance of this point from the plane of the detector. *)
Theorem C237_detector : forall t md x ph ph0 d1 y loc1 d1' y' loc1' d0 y0 loc0 d0' y0' loc0', perpendicular_axes md -> l_pos ph = Some x -> l_pos ph0 = Some x ->
  meets md ph = Some (d1, y, loc1) -> meets (mul4 (move6 t zero3) md) ph = Some (d1', y', loc1') -> meets md ph0 = Some (d0, y0, loc0) -> meets (mul4 (move6 t zero3) md) ph0 = Some (d0', y0', loc0') ->
  let D := dot3 (sub3 (xyz (center md)) x) (xyz (v_x md)) in D <> 0 -> sub3 y' y0' = scale3 (1 + dot3 t (xyz (v_x md)) / D) (sub3 y y0).
Proof. exact stretch_detector. Qed.
Print Assumptions C237_detector.

(** Example: the grating at the origin with a detector at the distance 1, first order with the sine 3/5. The grating is shifted by 1/8 towards the source: the line moves from 3/4 to 27/32. *)
Definition ex_shift : v3 := V3 (1 / 8) 0 0.
Definition ex_grating : part := PGrating FlatSign true id4 0 (fun _ => energy2wave * (5 / 3)).
Definition ex_first : draw := Draw 1 1 0 0 0 0 0.
Lemma ex_ne : V3 (-1) 0 0 <> zero3. Proof. intros H. apply (f_equal x3) in H. cbn in H. lra. Qed.
Lemma ex_unit : V3 (-1) 0 0 = scale3 (/ norm3 (V3 (-1) 0 0)) (V3 (-1) 0 0).
Proof. rewrite (proj2 (norm3_1 (V3 (-1) 0 0))) by (vu; ring). vu. f_equal; field. Qed.
Lemma ex_bent : exists bl, grating FlatSign true id4 0 (V3 (-1) 0 0) 1 (energy2wave / 1) (energy2wave * (5 / 3)) = Some (V3 (- (4 / 5)) (3 / 5) 0, bl).
Proof.
  assert (EW : energy2wave <> 0) by (unfold energy2wave; lra).
  assert (Q : 1 * (energy2wave / 1) / (energy2wave * (5 / 3)) = 3 / 5) by (field; exact EW).
  destruct (C35_evanescent FlatSign true id4 0 (V3 (-1) 0 0) 1 (energy2wave / 1) (energy2wave * (5 / 3)) _ _ _ _ id4_axes ex_ne id4_bases ex_unit) as [_ H].
  destruct H as [[out bl] G]. { rewrite Q. unfold e_groove, e_perp_groove. rewrite Ropp_0, sin_0, cos_0. vu. lra. }
  exists bl. rewrite G. apply f_equal. f_equal.
  destruct (C35_equation FlatSign true id4 0 (V3 (-1) 0 0) 1 (energy2wave / 1) (energy2wave * (5 / 3)) out bl _ _ _ _ id4_axes ex_ne id4_bases ex_unit ltac:(vu; lra) G) as (N & L & D & S).
  rewrite Q in D. unfold e_groove, e_perp_groove in L, D. rewrite Ropp_0, sin_0, cos_0 in L, D. apply norm3_1 in N. clear G. destruct out as [x y z]. vu. assert (y = 3 / 5) by lra. assert (z = 0) by lra. subst. f_equal. nra.
Qed.
Example ex_C237 : let ph := ex_photon 0 0 (V3 0 1 0) 1 1 in exists q' loc loc' ph1 ph1' loc1 loc1', well_made ex_grating /\ uniform ex_grating /\
  meets id4 ph = Some (V3 (-1) 0 0, V3 0 0 0, loc) /\ meets (mul4 (move6 ex_shift zero3) id4) ph = Some (V3 (-1) 0 0, q', loc') /\
  one ex_grating ex_first ph = Ok ph1 /\ one (moved ex_shift zero3 ex_grating) ex_first ph = Ok ph1' /\ perpendicular_axes ex_focal /\
  meets ex_focal ph1 = Some (V3 (- (4 / 5)) (3 / 5) 0, V3 (-1) (3 / 4) 0, loc1) /\ meets ex_focal ph1' = Some (V3 (- (4 / 5)) (3 / 5) 0, V3 (-1) (27 / 32) 0, loc1') /\
  1 - dot3 ex_shift (xyz (v_x id4)) / dot3 (V3 (-1) 0 0) (xyz (v_x id4)) / 1 = 9 / 8.
Proof.
  cbv zeta. set (ph := ex_photon 0 0 (V3 0 1 0) 1 1). destruct ex_bent as [bl G].
  assert (W : well_made ex_grating) by (split; [|split; discriminate]; intros m H; assert (m = id4) as -> by (cbn in H; congruence); exact id4_axes).
  assert (U : uniform ex_grating) by (intros l l'; reflexivity).
  assert (M : meets id4 ph = Some (V3 (-1) 0 0, V3 0 0 0, (0, 0))) by (apply ex_meets; lra).
  assert (M' : exists loc', meets (mul4 (move6 ex_shift zero3) id4) ph = Some (V3 (-1) 0 0, V3 (1 / 8) 0 0, loc')).
  { eexists. pose proof (m_axes _ (move6_rigid ex_shift zero3) id4 id4_axes) as P. apply (meets_iff _ _ _ _ _ P).
    assert (E : mul4 (move6 ex_shift zero3) id4 = M4 (V4 1 0 0 0) (V4 0 1 0 0) (V4 0 0 1 0) (V4 (1 / 8) 0 0 1)) by (rewrite move6_aff, euler_0, mul4_id_r; reflexivity). rewrite E.
    split; [reflexivity|]. split; [vu; cbn; lra|]. exists (V3 2 0 0), (15 / 8), 0, 0. split; [reflexivity|]. split; [lra|]. split; [vu; f_equal; lra|]. split; [|reflexivity]. unfold in_rectangle. repeat split; try lra. vu. cbn. f_equal; lra. }
  destruct M' as [loc' M'].
  assert (O : exists v, one ex_grating ex_first ph = Ok (LPhoton (Some (V3 (- (4 / 5)) (3 / 5) 0)) (Some (V3 0 0 0)) v 1 (Some (1 * 1)))).
  { eexists. unfold ex_grating. cbn [one surface]. rewrite M. cbn [effect dr_order ex_first l_energy ph ex_photon]. rewrite G. cbn [option_map fst bind snd bad_factor dr_p ex_first].
    assert (B : Rltb 1 0 || Rltb 1 1 = false) by (apply orb_false_iff; split; apply Rltb_false; lra). rewrite B. reflexivity. }
  destruct O as [v O]. assert (O' : one (moved ex_shift zero3 ex_grating) ex_first ph = Ok (LPhoton (Some (V3 (- (4 / 5)) (3 / 5) 0)) (Some (V3 (1 / 8) 0 0)) v 1 (Some (1 * 1)))).
  { rewrite (C235_shifted ex_shift ex_grating id4 ex_first ph _ _ _ _ _ W U eq_refl M M'), O. unfold at_point. cbn [result_map l_dir l_pol l_energy l_prob]. match goal with |- context [Some (add3 ?a ?b)] => replace (add3 a b) with (V3 (1 / 8) 0 0) end; [reflexivity|]. unfold ex_shift. vu. cbn. f_equal; field. }
  eexists _, _, _, _, _, _, _. split; [exact W|]. split; [exact U|]. split; [exact M|]. split; [exact M'|]. split; [exact O|]. split; [exact O'|]. split; [exact ex_focal_axes|]. split; [|split].
  - apply (meets_iff _ _ _ _ _ ex_focal_axes). split; [reflexivity|]. split; [unfold ex_focal; vu; cbn; lra|]. exists (V3 0 0 0), (5 / 4), (3 / 4), 0. split; [reflexivity|]. split; [lra|]. split; [vu; f_equal; lra|]. split; [|reflexivity]. unfold in_rectangle, ex_focal. repeat split; try lra. vu. cbn. f_equal; lra.
  - apply (meets_iff _ _ _ _ _ ex_focal_axes). split; [reflexivity|]. split; [unfold ex_focal; vu; cbn; lra|]. exists (V3 (1 / 8) 0 0), (45 / 32), (27 / 32), 0. split; [reflexivity|]. split; [lra|]. split; [vu; f_equal; lra|]. split; [|reflexivity]. unfold in_rectangle, ex_focal. repeat split; try lra. vu. cbn. f_equal; lra.
  - unfold ex_shift. vu. cbn. field.
Qed.
