(** C220: a telescope images a point source into a point.  C221: probabilities are weights.  C222: results do not depend on the coordinate system. *)
From Verif Require Import Whole_Model.
From Verif Require Import Base_Proofs Vec_Proofs Coords_Proofs Rot_Proofs Plane_Proofs Lens_Proofs Grating_Proofs Scatter_Proofs Instrument_Proofs Instrument_Proofs2 Layers_Proofs Whole_Proofs Whole_Proofs2 Instrument_Props.
From Verif Require Import Whole_Model.
Open Scope R_scope.
Open Scope list_scope.

(** ** C220 *)
(** Filters, baffles, detectors, propagation, scatterers that are switched off and transmission gratings in order 0 leave each photon on its ray. *)
Theorem C220_straight : forall ps drs ph ph' d x, Forall well_made ps -> all_straight ps drs -> l_dir ph = Some d -> l_pos ph = Some x -> dot3 d d = 1 -> through ps drs ph = Ok ph' ->
  l_dir ph' = Some d /\ exists k, l_pos ph' = Some (add3 x (scale3 k d)).
Proof.
  intros ps drs ph ph' d x W S D X U H. destruct (straight_through ps drs ph ph' W S) as [A B]; [intros d' D'; assert (d' = d) as -> by congruence; exact U|exact H|]. split; [congruence|now apply B].
Qed.
Print Assumptions C220_straight.
(** A lens, any number of such elements, and a detector with the focal point in its plane: the photon is found in the focal point of its direction, wherever it entered the lens. *)
Theorem C220_image : forall m off f refl rn ps drs md ph ph1 d q loc d2 q2 loc2 dr ph2, perpendicular_axes m -> perpendicular_axes md -> Forall well_made ps -> all_straight ps (tl drs) ->
  meets m ph = Some (d, q, loc) -> dot3 d d = 1 ->
  let F := add3 (sub3 (xyz (center m)) (scale3 (off / norm3 (xyz (v_z m))) (xyz (v_z m)))) (scale3 f d) in
  q <> F -> dot3 (sub3 F (xyz (center md))) (xyz (v_x md)) = 0 ->
  through (PLens m off f refl rn :: ps) drs ph = Ok ph1 -> meets md ph1 = Some (d2, q2, loc2) -> one (PDetector md) dr ph1 = Ok ph2 ->
  q2 = F /\ l_pos ph2 = Some F.
Proof.
  intros m off f refl rn ps drs md ph ph1 d q loc d2 q2 loc2 dr ph2 P PD W S M U F NF Z H M2 O.
  cbn [through] in H. destruct (one (PLens m off f refl rn) (hd (Draw 0 0 0 0 0 0 0) drs) ph) as [pl|] eqn:L; cbn [bind] in H; [|discriminate].
  destruct (lens_ray m off f refl rn _ ph pl d q loc P M U L) as [A _]. destruct (A NF) as (R & d' & D' & U').
  assert (SR : same_ray pl ph1) by (apply (straight_through ps (tl drs)); try assumption; intros d0 D0; assert (d0 = d') as -> by congruence; exact U').
  assert (E : q2 = F) by exact (hits_point md ph1 d2 q2 loc2 F PD M2 (same_on _ _ _ SR R) Z). split; [exact E|].
  cbn [one surface] in O. rewrite M2 in O. cbn [effect bind fst snd] in O. destruct (bad_factor (Some 1)); [discriminate|]. apply (f_equal (fun r => match r with Ok a => l_pos a | Err _ => None end)) in O. cbn [l_pos] in O. congruence.
Qed.
Print Assumptions C220_image.
(** Two photons from the same direction have the same detector coordinates, whatever their energies, draws and entry points are and whatever filters they went through. *)
Theorem C220_point : forall m off f refl rn ps drs ps' drs' md ph ph1 ph' ph1' d q q' loc loc' d2 q2 loc2 d2' q2' loc2', perpendicular_axes m -> perpendicular_axes md ->
  Forall well_made ps -> all_straight ps (tl drs) -> Forall well_made ps' -> all_straight ps' (tl drs') ->
  meets m ph = Some (d, q, loc) -> meets m ph' = Some (d, q', loc') -> dot3 d d = 1 ->
  let F := add3 (sub3 (xyz (center m)) (scale3 (off / norm3 (xyz (v_z m))) (xyz (v_z m)))) (scale3 f d) in
  q <> F -> q' <> F -> dot3 (sub3 F (xyz (center md))) (xyz (v_x md)) = 0 ->
  through (PLens m off f refl rn :: ps) drs ph = Ok ph1 -> through (PLens m off f refl rn :: ps') drs' ph' = Ok ph1' ->
  meets md ph1 = Some (d2, q2, loc2) -> meets md ph1' = Some (d2', q2', loc2') -> q2 = q2' /\ loc2 = loc2'.
Proof.
  intros m off f refl rn ps drs ps' drs' md ph ph1 ph' ph1' d q q' loc loc' d2 q2 loc2 d2' q2' loc2' P PD W S W' S' M M' U F NF NF' Z H H' M2 M2'.
  assert (B : bad_factor (Some 1) = false) by (apply orb_false_iff; split; apply Rltb_false; lra).
  assert (O : forall a b c x, meets md x = Some (a, b, c) -> exists y, one (PDetector md) dr0 x = Ok y) by (intros a b c x K; cbn [one surface]; rewrite K; cbn [effect bind fst snd]; rewrite B; eauto).
  destruct (O _ _ _ _ M2) as [y Y]. destruct (O _ _ _ _ M2') as [y' Y'].
  destruct (C220_image m off f refl rn ps drs md ph ph1 d q loc d2 q2 loc2 dr0 y P PD W S M U NF Z H M2 Y) as [E _].
  destruct (C220_image m off f refl rn ps' drs' md ph' ph1' d q' loc' d2' q2' loc2' dr0 y' P PD W' S' M' U NF' Z H' M2' Y') as [E' _].
  split; [congruence|]. apply (meets_iff md ph1 d2 q2 loc2 PD) in M2. apply (meets_iff md ph1' d2' q2' loc2' PD) in M2'.
  destruct M2 as (_ & _ & x & k & a & b & _ & _ & _ & R & ->). destruct M2' as (_ & _ & x' & k' & a' & b' & _ & _ & _ & R' & ->). rewrite E in R. rewrite E' in R'. destruct (rect_unique md a b a' b' _ PD R R') as [-> ->]. reflexivity.
Qed.
Print Assumptions C220_point.
(** The images of all directions are on a sphere around the point on the optical axis, with the focal length as radius. *)
Theorem C220_sphere : forall (a d : v3) (f : R), dot3 d d = 1 -> norm3 (sub3 (add3 a (scale3 f d)) a) = Rabs f.
Proof. intros a d f U. replace (sub3 (add3 a (scale3 f d)) a) with (scale3 f d) by (clear; vring). rewrite norm3_scale, (proj2 (norm3_1 d) U). ring. Qed.
Print Assumptions C220_sphere.
(** Example: the lens at the origin, a filter, a detector in the focal plane; the photon enters at y = 1/2 and is found on the optical axis. *)
Definition ex_focal : m4 := M4 (V4 1 0 0 0) (V4 0 1 0 0) (V4 0 0 1 0) (V4 (-1) 0 0 1).
Lemma ex_focal_axes : perpendicular_axes ex_focal.
Proof.
  unfold perpendicular_axes, ex_focal. split; [repeat split|]. cbn [v_x v_y v_z b0 b1 b2 xyz x4 y4 z4].
  repeat split; try (intros K; pose proof (f_equal x3 K); pose proof (f_equal y3 K); pose proof (f_equal z3 K); cbn in *; lra); vu; ring.
Qed.
Example ex_C220 : exists ph1 loc d2 loc2, let ps := [PGlobal (fun _ => 1 / 2)] in let ph := ex_photon (1 / 2) 0 (V3 0 1 0) 1 1 in
  Forall well_made ps /\ all_straight ps [] /\ meets id4 ph = Some (V3 (-1) 0 0, V3 0 (1 / 2) 0, loc) /\ through (ex_lens :: ps) [] ph = Ok ph1 /\ meets ex_focal ph1 = Some (d2, V3 (-1) 0 0, loc2).
Proof.
  destruct (ex_lens_one dr0 (1 / 2)) as (n & v & N & O & _); [lra|]. assert (B : Rltb (1 / 2) 0 || Rltb 1 (1 / 2) = false) by (apply orb_false_iff; split; apply Rltb_false; lra).
  set (d2 := scale3 (/ n) (V3 (-1) (- (1 / 2)) 0)). exists (LPhoton (Some d2) (Some (V3 0 (1 / 2) 0)) v 1 (times (Some (1 * (1 * 1))) (Some (1 / 2)))), (1 / 2, 0), d2, (0 * norm3 (xyz (v_y ex_focal)), 0 * norm3 (xyz (v_z ex_focal))). cbv zeta.
  split; [constructor; [repeat split; discriminate|constructor]|]. split; [cbn; auto|]. split; [apply ex_meets; lra|]. split.
  - cbn [through]. change (hd (Draw 0 0 0 0 0 0 0) []) with dr0. rewrite O. cbn [bind one l_energy]. rewrite B. reflexivity.
  - apply (meets_iff _ _ _ _ _ ex_focal_axes). cbn [l_dir l_pos]. assert (0 < / n) by (apply Rinv_0_lt_compat; lra). split; [reflexivity|]. split; [unfold d2, ex_focal; intros K; vu; cbn in K; lra|].
    exists (V3 0 (1 / 2) 0), n, 0, 0. split; [reflexivity|]. split; [lra|]. split; [unfold d2; vu; f_equal; field; lra|]. split; [|reflexivity]. unfold in_rectangle, ex_focal. repeat split; try lra. cbn. vu. f_equal; ring.
Qed.

(** ** C221 *)
(** All probabilities of a photon list times a number: everything happens as before, the probabilities at the end are those of before times this number. *)
Theorem C221_weights : forall c ps drs t, rectangular t -> fits ps drs t -> run ps drs (weigh_table c t) = match run ps drs t with Ok t' => Ok (weigh_table c t') | Err e => Err e end.
Proof. intros c ps drs t R F. exact (weigh_run c ps drs t R F). Qed.
Print Assumptions C221_weights.
(** The same for one photon: the probability is multiplied by a factor that does not depend on the probability. *)
Theorem C221_factor : forall ps drs ph ph1 c p, through ps drs (LPhoton (l_dir ph) (l_pos ph) (l_pol ph) (l_energy ph) (Some 1)) = Ok ph1 -> l_prob ph = Some c ->
  exists ph', through ps drs ph = Ok ph' /\ l_dir ph' = l_dir ph1 /\ l_pos ph' = l_pos ph1 /\ l_pol ph' = l_pol ph1 /\ l_energy ph' = l_energy ph1 /\ (l_prob ph1 = Some p -> l_prob ph' = Some (c * p)).
Proof.
  intros ps drs ph ph1 c p H C. assert (E : ph = weigh c (LPhoton (l_dir ph) (l_pos ph) (l_pol ph) (l_energy ph) (Some 1))) by (destruct ph; cbn in *; subst; unfold weigh; cbn; now rewrite Rmult_1_r).
  rewrite E, weigh_through, H. cbn [result_map]. eexists. split; [reflexivity|]. unfold weigh. cbn. repeat split. intros ->. reflexivity.
Qed.
Print Assumptions C221_factor.
(** A photon with probability 0 is never counted again. *)
Theorem C221_zero : forall ps drs ph ph' p, l_prob ph = Some 0 -> through ps drs ph = Ok ph' -> l_prob ph' = Some p -> p = 0.
Proof.
  intros ps drs ph ph' p Z H P. assert (E : ph = weigh 0 ph) by (destruct ph; cbn in *; subst; unfold weigh; cbn; now rewrite Rmult_0_l). rewrite E, weigh_through in H.
  destruct (through ps drs ph) as [a|]; cbn [result_map] in H; [|discriminate]. apply (f_equal (fun r => match r with Ok a => l_prob a | Err _ => None end)) in H. rewrite P in H. unfold weigh in H. cbn [l_prob] in H.
  destruct (l_prob a); cbn [times] in H; [|discriminate]. assert (p = 0 * r) as -> by congruence. ring.
Qed.
Print Assumptions C221_zero.
(** Example: the photon with probability 1 in the telescope above. *)
Example ex_C221 : let ps := [PGlobal (fun _ => 1 / 2); PDetector id4] in let ph := ex_photon (1 / 2) 0 (V3 0 1 0) 1 1 in exists ph', through ps [] ph = Ok ph' /\ l_prob ph' = Some (1 * (1 / 2) * 1) /\
  exists ph3, through ps [] (ex_photon (1 / 2) 0 (V3 0 1 0) 1 (3 / 4)) = Ok ph3 /\ l_prob ph3 = Some (3 / 4 * (1 * (1 / 2) * 1)) /\
  fits ps [[]; [dr0]] (of_rows [ph]).
Proof.
  cbv zeta. assert (B : Rltb (1 / 2) 0 || Rltb 1 (1 / 2) = false) by (apply orb_false_iff; split; apply Rltb_false; lra). assert (B1 : Rltb 1 0 || Rltb 1 1 = false) by (apply orb_false_iff; split; apply Rltb_false; lra).
  assert (M : forall p, meets id4 (LPhoton (Some (V3 (-1) 0 0)) (Some (V3 2 (1 / 2) 0)) (Some (V3 0 1 0)) 1 (times (Some p) (Some (1 / 2)))) = Some (V3 (-1) 0 0, V3 0 (1 / 2) 0, (1 / 2, 0))) by (intros p; apply ex_meets; lra).
  assert (T : through [PGlobal (fun _ => 1 / 2); PDetector id4] [] (ex_photon (1 / 2) 0 (V3 0 1 0) 1 1) = Ok (LPhoton (Some (V3 (-1) 0 0)) (Some (V3 0 (1 / 2) 0)) (Some (V3 0 1 0)) 1 (Some (1 * (1 / 2) * 1)))).
  { cbn [through one ex_photon l_energy l_dir l_pos l_pol l_prob surface]. rewrite B. cbn [bind]. rewrite (M 1). cbn [effect bind fst snd bad_factor]. rewrite B1. reflexivity. }
  eexists. split; [exact T|]. split; [reflexivity|].
  destruct (C221_factor [PGlobal (fun _ => 1 / 2); PDetector id4] [] (ex_photon (1 / 2) 0 (V3 0 1 0) 1 (3 / 4)) _ (3 / 4) (1 * (1 / 2) * 1) T eq_refl) as (ph3 & T3 & _ & _ & _ & _ & P3). exists ph3. split; [exact T3|]. split; [now apply P3|].
  cbn [fits hd tl]. split; [reflexivity|]. intros t' H. cbn [process of_rows map c_energy ex_photon l_energy existsb] in H. assert (B2 : (Rltb (1 / 2) 0 || false) || (Rltb 1 (1 / 2) || false) = false) by now rewrite !orb_false_r. rewrite B2 in H.
  assert (t' = of_rows [LPhoton (Some (V3 (-1) 0 0)) (Some (V3 2 (1 / 2) 0)) (Some (V3 0 1 0)) 1 (times (Some 1) (Some (1 / 2)))]) as -> by (apply (f_equal (fun r => match r with Ok a => a | Err _ => of_rows [] end)) in H; rewrite <- H; reflexivity). split; [|auto]. rewrite rows_of_rows. unfold hits_of. cbn [filter draws_for surface]. now rewrite (M 1).
Qed.

(** ** C222 *)
(** [g]: any rotation and translation.  An element moved by [g] does to the photon moved by [g] what the element does to the photon: one element of any kind but a RandomGaussianScatter. *)
Theorem C222_element : forall g ginv p dr ph, Whole_Model.rigid g -> mul4 ginv g = id4 -> well_made p -> no_random p ->
  one (displace_part g ginv p) dr (displace g ph) = match one p dr ph with Ok ph' => Ok (displace g ph') | Err e => Err e end.
Proof. intros g ginv p dr ph G I W N. exact (one_moved g ginv p dr ph G I W N). Qed.
Print Assumptions C222_element.
(** whole simulations with all columns *)
Theorem C222_instrument : forall g ginv ps drs t, Whole_Model.rigid g -> mul4 ginv g = id4 -> Forall well_made ps -> Forall no_random ps -> rectangular t -> fits ps drs t ->
  run (map (displace_part g ginv) ps) drs (displace_table g t) = match run ps drs t with Ok t' => Ok (displace_table g t') | Err e => Err e end.
Proof. intros g ginv ps drs t G I W N R F. exact (displace_run g ginv G I ps drs t W N R F). Qed.
Print Assumptions C222_instrument.
(** RandomGaussianScatter: the zero point of the azimuth is relative to the axes of the coordinate system; with another number for the azimuth (the same difference for all numbers) the result is the same. *)
Theorem C222_random_partial : forall g d p, Whole_Model.rigid g -> unit3 d = Some p -> exists c, forall a u,
  random_scatter (Whole_Model.turn g d) (Some (a, u)) = option_map (Whole_Model.turn g) (random_scatter d (Some (a, u + c))).
Proof. exact random_turn. Qed.
Print Assumptions C222_random_partial.
(** With the same number the result is another one. *)
Definition ex_quarter : m4 := M4 (V4 0 0 1 0) (V4 0 1 0 0) (V4 (-1) 0 0 0) (V4 0 0 0 1).
Lemma ex_quarter_rigid : Whole_Model.rigid ex_quarter.
Proof. split; [repeat split|]. split; [unfold orthonormal; vu; cbn; repeat split; lra|vu; cbn; lra]. Qed.
Theorem C222_random_refuted : ~ (forall g d a u, Whole_Model.rigid g -> dot3 d d = 1 -> random_scatter (Whole_Model.turn g d) (Some (a, u)) = option_map (Whole_Model.turn g) (random_scatter d (Some (a, u)))).
Proof.
  intros H. specialize (H ex_quarter (V3 (-1) 0 0) (PI / 2) 0 ex_quarter_rigid ltac:(vu; ring)).
  assert (T : Whole_Model.turn ex_quarter (V3 (-1) 0 0) = V3 0 0 (-1)) by (unfold Whole_Model.turn, ex_quarter, lin; vu; cbn; f_equal; ring). rewrite T in H.
  assert (U : forall v, v = V3 (-1) 0 0 \/ v = V3 0 0 (-1) \/ v = V3 0 (-1) 0 -> unit3 v = Some v) by (intros v [->|[->| ->]]; apply unit3_of_unit; vu; ring).
  assert (G1 : guessvec (V3 (-1) 0 0) = V3 0 1 0). { unfold guessvec. cbn [x3]. destruct (Rltb _ _) eqn:L; [|reflexivity]. apply Rltb_true in L. rewrite Rabs_left in L by lra. lra. }
  assert (G2 : guessvec (V3 0 0 (-1)) = V3 1 0 0). { unfold guessvec. cbn [x3]. destruct (Rltb _ _) eqn:L; [reflexivity|]. apply Rltb_false in L. rewrite Rabs_R0 in L. lra. }
  assert (C1 : cross3 (V3 (-1) 0 0) (V3 0 1 0) = V3 0 0 (-1)) by (vu; f_equal; ring). assert (C2 : cross3 (V3 0 0 (-1)) (V3 1 0 0) = V3 0 (-1) 0) by (vu; f_equal; ring).
  unfold random_scatter in H. rewrite !U in H by auto. rewrite G1, G2, C1, C2 in H. unfold axangle2mat in H. rewrite !U in H by auto. cbn [option_map] in H. rewrite Rmult_0_l in H.
  assert (K : forall x y : v3, Some x = Some y -> x = y) by congruence. apply K in H. apply (f_equal x3) in H. unfold einsum_ij_i, axangle2mat_n, Whole_Model.turn, ex_quarter in H.
  rewrite cos_0, sin_0, cos_PI2, sin_PI2 in H. vu. cbn in H. lra.
Qed.
Print Assumptions C222_random_refuted.
(** Example: a quarter turn and the lens. *)
Example ex_C222 : mul4 (M4 (V4 0 0 (-1) 0) (V4 0 1 0 0) (V4 1 0 0 0) (V4 0 0 0 1)) ex_quarter = id4 /\ well_made ex_lens /\ no_random ex_lens /\
  exists ph', one ex_lens dr0 (ex_photon (1 / 2) 0 (V3 0 1 0) 1 1) = Ok ph' /\ l_pos ph' = Some (V3 0 (1 / 2) 0) /\ Whole_Model.turn ex_quarter (V3 (-1) 0 0) = V3 0 0 (-1).
Proof.
  split; [unfold ex_quarter; vu; cbn; unfold id4; f_equal; f_equal; ring|]. split; [exact ex_lens_well|]. split; [exact I|]. destruct (ex_lens_one dr0 (1 / 2)) as (n & v & N & O & _); [lra|]. eexists. split; [exact O|]. split; [reflexivity|].
  unfold Whole_Model.turn, ex_quarter, lin. vu. cbn. f_equal; ring.
Qed.
