(** C235: what a misaligned element does *)
From Verif Require Import Base_Proofs Vec_Proofs Coords_Proofs Rot_Proofs Plane_Proofs Placement_Proofs Lens_Proofs Grating_Proofs Instrument_Proofs Instrument_Proofs2 Layers_Proofs Whole_Proofs Whole_Proofs2 Instrument_Props Whole_Props Align_Proofs.
From Verif Require Import Align_Model.
Open Scope R_scope.
Open Scope list_scope.

(** ** C235 *)
(** The matrix of a move is a rotation and a shift and has an inverse. *)
Theorem C235_rigid : forall t a, Whole_Model.rigid (move6 t a) /\ Whole_Model.rigid (back6 t a) /\ mul4 (back6 t a) (move6 t a) = id4 /\ mul4 (move6 t a) (back6 t a) = id4 /\
  (forall x, Whole_Model.shift (move6 t a) x = add3 (app3 (euler2mat a) x) t) /\ (forall m, perpendicular_axes m -> perpendicular_axes (mul4 (move6 t a) m)).
Proof.
  intros t a. split; [apply move6_rigid|]. split; [apply back6_rigid|]. split; [apply back_move|]. split; [apply move_back|]. split; [apply move_shift|]. intros m. apply m_axes, move6_rigid.
Qed.
Print Assumptions C235_rigid.
(** One element that is moved is as good as all other elements and the photons moved the other way: the results differ by the coordinate system only. *)
Theorem C235_relative : forall t a ps1 p ps2 drs ph, Forall well_made (ps1 ++ p :: ps2) -> Forall no_random (ps1 ++ p :: ps2) ->
  through (ps1 ++ moved t a p :: ps2) drs ph =
  result_map (displace (move6 t a)) (through (map (moved_back t a) ps1 ++ p :: map (moved_back t a) ps2) drs (displace (back6 t a) ph)).
Proof. exact relative. Qed.
Print Assumptions C235_relative.
Example ex_C235_relative : Forall well_made ([ex_lens] ++ PFilter id4 (fun _ => 1 / 2) :: [PDetector ex_focal]) /\ Forall no_random ([ex_lens] ++ PFilter id4 (fun _ => 1 / 2) :: [PDetector ex_focal]).
Proof.
  split; [|repeat constructor]. constructor; [exact ex_lens_well|]. constructor; [|constructor; [|constructor]]; (split; [|split; discriminate]); intros m H; cbn [geometry] in H.
  - assert (m = id4) as -> by congruence. exact id4_axes.
  - assert (m = ex_focal) as -> by congruence. exact ex_focal_axes.
Qed.
(** Shift of a grating with one period, a filter, a surface that scatters, a Brewster mirror or a detector: a photon that hits the element before and after the shift gets the same direction, polarization and
    probability (or the same error), only the position is moved along the ray. *)
Theorem C235_shifted : forall t p m dr ph d q loc q' loc', well_made p -> uniform p -> geometry p = Some m -> meets m ph = Some (d, q, loc) -> meets (mul4 (move6 t zero3) m) ph = Some (d, q', loc') ->
  one (moved t zero3 p) dr ph = result_map (at_point (add3 q (scale3 (dot3 t (xyz (v_x m)) / dot3 d (xyz (v_x m))) d))) (one p dr ph).
Proof. exact shifted_one. Qed.
Print Assumptions C235_shifted.
(** A shift in the plane of such an element changes nothing at all for a photon that hits it before and after. *)
Theorem C235_in_plane : forall t p m dr ph d q loc q' loc', well_made p -> uniform p -> geometry p = Some m -> meets m ph = Some (d, q, loc) -> meets (mul4 (move6 t zero3) m) ph = Some (d, q', loc') ->
  dot3 t (xyz (v_x m)) = 0 -> one (moved t zero3 p) dr ph = one p dr ph.
Proof.
  intros t p m dr ph d q loc q' loc' W U GM H H' Z. rewrite (shifted_one t p m dr ph d q loc q' loc' W U GM H H'), Z. unfold Rdiv. rewrite Rmult_0_l, add_scale0. now apply (at_self q p m dr ph d loc).
Qed.
Print Assumptions C235_in_plane.
(** The local coordinates, e.g. the place on a detector: minus the shift, and for a shift out of the plane the way along the ray. *)
Theorem C235_coordinates : forall m t ph d q loc q' loc', perpendicular_axes m -> meets m ph = Some (d, q, loc) -> meets (mul4 (move6 t zero3) m) ph = Some (d, q', loc') ->
  let k := dot3 t (xyz (v_x m)) / dot3 d (xyz (v_x m)) in
  q' = add3 q (scale3 k d) /\
  loc' = (fst loc + k * dot3 d (nrm (xyz (v_y m))) - dot3 t (nrm (xyz (v_y m))), snd loc + k * dot3 d (nrm (xyz (v_z m))) - dot3 t (nrm (xyz (v_z m)))).
Proof. exact shifted_meets. Qed.
Print Assumptions C235_coordinates.
(** Example: a detector that is shifted by 1/2 towards the source and by 1/4 to the side. *)
Example ex_C235_shifted : let t := V3 (1 / 2) (1 / 4) 0 in let ph := ex_photon 0 0 (V3 0 1 0) 1 1 in well_made (PDetector id4) /\ uniform (PDetector id4) /\
  meets id4 ph = Some (V3 (-1) 0 0, V3 0 0 0, (0, 0)) /\ meets (mul4 (move6 t zero3) id4) ph = Some (V3 (-1) 0 0, V3 (1 / 2) 0 0, (- (1 / 4), 0)).
Proof.
  cbv zeta. split; [split; [|split; discriminate]; intros m H; assert (m = id4) as -> by (cbn in H; congruence); exact id4_axes|]. split; [exact I|]. split; [apply ex_meets; lra|].
  assert (E : mul4 (move6 (V3 (1 / 2) (1 / 4) 0) zero3) id4 = aff id3 (V3 (1 / 2) (1 / 4) 0)) by (rewrite move6_aff, euler_0; apply mul4_id_r). rewrite E.
  assert (P : perpendicular_axes (aff id3 (V3 (1 / 2) (1 / 4) 0))) by (rewrite <- E; apply m_axes; [apply move6_rigid|exact id4_axes]).
  assert (N1 : forall w, w = V3 0 1 0 \/ w = V3 0 0 1 -> norm3 w = 1) by (intros w [->| ->]; apply norm3_1; vu; ring).
  apply (meets_iff _ _ _ _ _ P). split; [reflexivity|]. split; [vu; cbn; lra|]. exists (V3 2 0 0), (3 / 2), (- (1 / 4)), 0. split; [reflexivity|]. split; [lra|]. split; [vu; f_equal; field|].
  split; [unfold in_rectangle; repeat split; try lra; vu; cbn; f_equal; field|]. cbn [aff v_y v_z b1 b2 id3 a1 a2]. rewrite !xyz_hom, !N1 by auto. f_equal; ring.
Qed.
(** A lens that is moved: the image of a direction is the focal length along this direction from the moved point on the optical axis, wherever the photon enters and whatever leaves it on its ray after that. *)
Theorem C235_lens : forall t a m off f refl rn ps drs md ph ph1 d q loc d2 q2 loc2, perpendicular_axes m -> perpendicular_axes md -> Forall well_made ps -> all_straight ps (tl drs) ->
  meets (mul4 (move6 t a) m) ph = Some (d, q, loc) -> dot3 d d = 1 ->
  let F := add3 (add3 (app3 (euler2mat a) (axis_foot m off)) t) (scale3 f d) in
  q <> F -> dot3 (sub3 F (xyz (center md))) (xyz (v_x md)) = 0 ->
  through (moved t a (PLens m off f refl rn) :: ps) drs ph = Ok ph1 -> meets md ph1 = Some (d2, q2, loc2) -> q2 = F.
Proof.
  intros t a m off f refl rn ps drs md ph ph1 d q loc d2 q2 loc2 P PD W S M U F NF Z H M2. unfold moved in H. cbn [displace_part] in H.
  pose proof (move6_rigid t a) as G. pose proof (foot_moved (move6 t a) m off G (proj1 P)) as FM. rewrite move_shift in FM. unfold F in *. rewrite <- FM in *. unfold axis_foot in *.
  destruct (one (PDetector md) dr0 ph1) as [y|e] eqn:Y.
  - exact (proj1 (C220_image _ off f refl rn ps drs md ph ph1 d q loc d2 q2 loc2 dr0 y (m_axes _ G m P) PD W S M U NF Z H M2 Y)).
  - exfalso. cbn [one surface] in Y. rewrite M2 in Y. cbn [effect bind fst snd bad_factor] in Y. assert (B : Rltb 1 0 || Rltb 1 1 = false) by (apply orb_false_iff; split; apply Rltb_false; lra). rewrite B in Y. discriminate.
Qed.
Print Assumptions C235_lens.
(** Two moves of one lens: the two images of one direction are as far apart as the two places of the point on the optical axis. A shift moves all images by this shift, and rotations move no image if this point is
    the origin, around which [moveelem] rotates. *)
Theorem C235_images : forall (a a' t t' foot d : v3) (f : R),
  let F := add3 (add3 (app3 (euler2mat a) foot) t) (scale3 f d) in let F' := add3 (add3 (app3 (euler2mat a') foot) t') (scale3 f d) in
  sub3 F' F = sub3 (add3 (app3 (euler2mat a') foot) t') (add3 (app3 (euler2mat a) foot) t) /\ (a' = a -> sub3 F' F = sub3 t' t) /\ (foot = zero3 -> t' = t -> F' = F).
Proof.
  intros a a' t t' foot d f F F'. assert (Z : forall m, app3 m zero3 = zero3) by (clear; intros; vring). unfold F, F'. split; [|split].
  - generalize (app3 (euler2mat a) foot) (app3 (euler2mat a') foot). clear. intros. vring.
  - intros ->. generalize (app3 (euler2mat a) foot). clear. intros. vring.
  - intros -> ->. now rewrite !Z.
Qed.
Print Assumptions C235_images.
(** Example: the lens of the examples, shifted by 1/4 to the side, the image is at y = 1/4. *)
Example ex_C235_lens : let t := V3 0 (1 / 4) 0 in let g := move6 t zero3 in exists ph ph1 loc d2 loc2, perpendicular_axes (mul4 g ex_focal) /\
  meets (mul4 g id4) ph = Some (V3 (-1) 0 0, V3 0 (3 / 4) 0, loc) /\ through [moved t zero3 ex_lens] [] ph = Ok ph1 /\ meets (mul4 g ex_focal) ph1 = Some (d2, V3 (-1) (1 / 4) 0, loc2) /\
  add3 (add3 (app3 (euler2mat zero3) (axis_foot id4 0)) t) (scale3 1 (V3 (-1) 0 0)) = V3 (-1) (1 / 4) 0.
Proof.
  cbv zeta. set (t := V3 0 (1 / 4) 0). set (g := move6 t zero3). pose proof (move6_rigid t zero3) as G. fold g in G.
  destruct (ex_lens_one dr0 (1 / 2)) as (n & v & N & O & _); [lra|]. set (d2 := scale3 (/ n) (V3 (-1) (- (1 / 2)) 0)) in *. set (ph0 := ex_photon (1 / 2) 0 (V3 0 1 0) 1 1) in *. set (ph1 := LPhoton (Some d2) (Some (V3 0 (1 / 2) 0)) v 1 (Some (1 * (1 * 1)))) in *.
  assert (M0 : meets id4 ph0 = Some (V3 (-1) 0 0, V3 0 (1 / 2) 0, (1 / 2, 0))) by (apply ex_meets; lra).
  assert (M1 : meets ex_focal ph1 = Some (d2, V3 (-1) 0 0, (0 * norm3 (xyz (v_y ex_focal)), 0 * norm3 (xyz (v_z ex_focal))))).
  { apply (meets_iff _ _ _ _ _ ex_focal_axes). cbn [l_dir l_pos ph1]. assert (0 < / n) by (apply Rinv_0_lt_compat; lra). split; [reflexivity|]. split; [unfold d2, ex_focal; intros K; vu; cbn in K; lra|].
    exists (V3 0 (1 / 2) 0), n, 0, 0. split; [reflexivity|]. split; [lra|]. split; [unfold d2; vu; f_equal; field; lra|]. split; [|reflexivity]. unfold in_rectangle, ex_focal. repeat split; try lra. cbn. vu. f_equal; ring. }
  exists (displace g ph0), (displace g ph1). eexists _, _, _. split; [apply (m_axes g G), ex_focal_axes|].
  assert (SH : forall x y z, Whole_Model.shift g (V3 x y z) = V3 x (y + 1 / 4) z) by (intros; unfold g; rewrite shift_shift; unfold t; vu; f_equal; ring). assert (TU : forall w, Whole_Model.turn g w = w) by (intros w; apply shift_turn).
  split.
  { rewrite (proj1 (m_meets_some g G id4 ph0 _ _ _ id4_axes) M0), SH, TU. do 4 f_equal. lra. }
  split. { cbn [through]. change (hd (Draw 0 0 0 0 0 0 0) []) with dr0. unfold moved. fold g. rewrite (one_moved g (back6 t zero3) ex_lens dr0 ph0 G (back_move t zero3) ex_lens_well I), O. reflexivity. }
  split. { rewrite (proj1 (m_meets_some g G ex_focal ph1 _ _ _ ex_focal_axes) M1), SH. do 4 f_equal. lra. }
  unfold axis_foot. rewrite euler_0, app_id. unfold Rdiv at 1. rewrite Rmult_0_l. unfold t. vu. cbn. f_equal; field.
Qed.
(** A grating that is rotated around its normal, here the x axis, is the grating with the angle of its grooves changed by the angle of the rotation; a shift of the grating may come with it. *)
Theorem C235_roll : forall c tr m g u t s r per dr ph d q loc q' loc', perpendicular_axes m -> (forall l l', per l = per l') -> 0 < s -> xyz (v_x m) = V3 s 0 0 -> 0 < r ->
  cross3 (xyz (v_x m)) (xyz (v_y m)) = scale3 r (xyz (v_z m)) -> meets m ph = Some (d, q, loc) -> meets (mul4 (move6 t (V3 u 0 0)) m) ph = Some (d, q', loc') ->
  one (moved t (V3 u 0 0) (PGrating c tr m g per)) dr ph = result_map (at_point q') (one (PGrating c tr m (g + u) per) dr ph).
Proof. exact rolled_one. Qed.
Print Assumptions C235_roll.
(** Example: the grating at the origin and a photon through its center, any angle. *)
Example ex_C235_roll : forall u, let ph := ex_photon 0 0 (V3 0 1 0) 1 1 in xyz (v_x id4) = V3 1 0 0 /\ cross3 (xyz (v_x id4)) (xyz (v_y id4)) = scale3 1 (xyz (v_z id4)) /\
  meets id4 ph = Some (V3 (-1) 0 0, V3 0 0 0, (0, 0)) /\ exists loc, meets (mul4 (move6 zero3 (V3 u 0 0)) id4) ph = Some (V3 (-1) 0 0, V3 0 0 0, loc).
Proof.
  intros u. cbv zeta. split; [reflexivity|]. split; [vu; cbn; f_equal; ring|]. split; [apply ex_meets; lra|]. pose proof (move6_rigid zero3 (V3 u 0 0)) as G. set (g := move6 zero3 (V3 u 0 0)) in *. pose proof (m_axes g G id4 id4_axes) as P.
  eexists. apply (meets_iff _ _ _ _ _ P). assert (TX : xyz (v_x (mul4 g id4)) = V3 1 0 0).
  { rewrite (m_x g G id4 (proj1 id4_axes)). unfold g, Whole_Model.turn. rewrite move6_aff, lin_aff3, euler_x, axangle_rodrigues. unfold rodrigues. vu. cbn. f_equal; ring. }
  split; [reflexivity|]. split; [rewrite TX; vu; lra|]. exists (V3 2 0 0), 2, 0, 0. split; [reflexivity|]. split; [lra|]. split; [vu; f_equal; ring|]. split; [|reflexivity].
  unfold in_rectangle. split; [lra|]. split; [lra|]. rewrite (m_c g G id4 (proj1 id4_axes)). unfold g. rewrite move_shift. generalize (xyz (v_y (mul4 (move6 zero3 (V3 u 0 0)) id4))) (xyz (v_z (mul4 (move6 zero3 (V3 u 0 0)) id4))) (euler2mat (V3 u 0 0)). clear. intros [? ? ?] [? ? ?] m.
  unfold id4, center. vu. cbn. f_equal; ring.
Qed.
