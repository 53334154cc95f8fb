(** C212: stacks and sequences.  C213: where scatter happens.  C214: moving photons along their ray.  C215: from the source through any instrument. *)
From Verif Require Import Layers_Model.
From Verif Require Import Base_Proofs Vec_Proofs Coords_Proofs Aperture_Proofs Rot_Proofs Plane_Proofs Lens_Proofs Grating_Proofs Scatter_Proofs Source_Proofs Instrument_Proofs Instrument_Proofs2 Layers_Proofs Aperture_Props Source_Props Instrument_Props.
Open Scope R_scope.
Open Scope list_scope.

(** ** C212 *)
(** As long as the photon has a direction that is not in the plane, a stack is the sequence of its layers (behind a plane without function). *)
Theorem C212_sequence_partial : forall m ps drs ph, perpendicular_axes m -> Forall (layer_of m) ps ->
  (forall k ph', (k < length ps)%nat -> meets m ph <> None -> stack_photon m (firstn k ps) drs ph = Ok ph' -> leaves m ph') ->
  stack_photon m ps drs ph = through (PDetector m :: ps) (dr0 :: drs) ph.
Proof. exact stack_sequence. Qed.
Print Assumptions C212_sequence_partial.
(** Photons that miss the stack are not changed. *)
Theorem C212_missed : forall m ps drs ph, meets m ph = None -> stack_photon m ps drs ph = Ok ph.
Proof. intros m ps drs ph M. unfold stack_photon. now rewrite M. Qed.
Print Assumptions C212_missed.
(** A photon in an order that does not exist is filtered by the layers behind the grating in a stack, but not in a sequence. *)
Theorem C212_filter : forall q loc m f dr ph, l_dir ph = None -> l_pos ph = Some q -> 0 <= f (l_energy ph) <= 1 ->
  layer (PFilter m f) dr q loc ph = Ok (LPhoton None (Some q) (l_pol ph) (l_energy ph) (times (l_prob ph) (Some (f (l_energy ph))))) /\ one (PFilter m f) dr ph = Ok ph.
Proof. exact nan_layers. Qed.
Print Assumptions C212_filter.
(** All layers and a photon that has no direction any more: it stays so, it is at the place of the stack and gets the factors of the layers. *)
Theorem C212_lost : forall q loc dr ph pr, l_dir ph = None -> l_prob ph = Some pr ->
  let out := fun pol f => LPhoton None (Some q) pol (l_energy ph) f in
  (forall m off f refl rn r, rn (l_energy ph) = Some r -> 0 <= r <= 1 -> layer (PLens m off f refl rn) dr q loc ph = Ok (out None (Some (pr * r)))) /\
  (forall m f, layer (PThin m f) dr q loc ph = Ok (out None (Some pr))) /\
  (forall c tr m g per, 0 <= dr_p dr <= 1 -> layer (PGrating c tr m g per) dr q loc ph = Ok (out None (Some (pr * dr_p dr)))) /\
  (forall m a b, layer (PRadial m a b) dr q loc ph = Ok (out None (Some pr))) /\
  (forall m, layer (PRandom m true) dr q loc ph = Ok (out None (Some pr)) /\ layer (PRandom m false) dr q loc ph = Ok (out (l_pol ph) (Some pr))) /\
  (forall m f, 0 <= f (l_energy ph) <= 1 -> layer (PFilter m f) dr q loc ph = Ok (out (l_pol ph) (Some (pr * f (l_energy ph))))) /\
  (forall m f, ~ 0 <= f (l_energy ph) <= 1 -> layer (PFilter m f) dr q loc ph = Err ValueError) /\
  (forall m minv, layer (PBrewster m minv) dr q loc ph = Ok (out None None)) /\
  (forall m, layer (PDetector m) dr q loc ph = Ok (out (l_pol ph) (Some pr))).
Proof. exact lost_in_layer. Qed.
Print Assumptions C212_lost.
(** A thin lens looks for the intersection again: a photon that flies along the plane behind the layer before gets lost. *)
Theorem C212_along : forall q loc dr ph pr d m f, l_dir ph = Some d -> l_prob ph = Some pr -> meets m ph = None ->
  layer (PThin m f) dr q loc ph = Ok (LPhoton None (Some q) None (l_energy ph) (Some pr)).
Proof. exact thin_layer_along. Qed.
Print Assumptions C212_along.
Example C212_ex_lost : l_dir (LPhoton None (Some zero3) None 1 (Some (1 / 2))) = None /\ meets id4 (LPhoton (Some (V3 0 1 0)) (Some zero3) None 1 (Some 1)) = None.
Proof.
  split; [reflexivity|]. destruct (meets _ _) as [[[d q] loc]|] eqn:M; [|reflexivity]. apply meets_iff in M; [|exact id4_axes]. destruct M as (D & N & _). cbn in D. assert (d = V3 0 1 0) as -> by congruence. exfalso. apply N. change (xyz (v_x id4)) with (V3 1 0 0). vu. cbn. ring.
Qed.
(** So stack and sequence differ in general. *)
Theorem C212_sequence_refuted : exists m ps drs ph a b, perpendicular_axes m /\ Forall (layer_of m) ps /\ physical 0 ph /\ stack_photon m ps drs ph = Ok a /\ through (PDetector m :: ps) (dr0 :: drs) ph = Ok b /\
  l_prob a = Some (1 / 2) /\ l_prob b = Some 1.
Proof.
  set (dr := Draw 1 1 0 0 0 0 0). set (ph := ex_photon 0 0 (V3 0 1 0) energy2wave 1). assert (M : meets id4 ph = Some (V3 (-1) 0 0, V3 0 0 0, (0, 0))) by (apply ex_meets; lra).
  set (ph1 := LPhoton (Some (V3 (-1) 0 0)) (Some (V3 0 0 0)) (Some (V3 0 1 0)) energy2wave (Some 1)).
  assert (M1 : meets id4 ph1 = Some (V3 (-1) 0 0, V3 0 0 0, (0, 0))) by (apply (meets_here id4 ph (V3 (-1) 0 0)); [exact id4_axes|exact M|reflexivity|reflexivity|vu; cbn; lra]).
  destruct (grating_photon FlatSign true id4 0 (fun _ => 1 / 2) dr ph1 (V3 (-1) 0 0) (V3 0 0 0) (0, 0) _ _ _ id4_axes M1 ltac:(vu; ring) id4_bases ltac:(cbn; lra)) as (ph2 & H & X & PR & D & _).
  assert (D2 : l_dir ph2 = None).
  { apply D. cbn [l_energy ph1 dr_order dr]. assert (E0 : energy2wave <> 0) by (unfold energy2wave; lra). replace (energy2wave / energy2wave) with 1 by (field; exact E0).
    replace (dot3 _ (e_perp_groove _ _ _)) with 0 by (unfold e_perp_groove; vu; cbn; ring). replace (dot3 _ (e_groove _ _ _)) with 0 by (unfold e_groove; vu; cbn; ring). lra. }
  cbn [l_prob ph1 times dr_p dr] in PR. destruct (nan_layers (V3 0 0 0) (0, 0) id4 (fun _ => 1 / 2) dr0 ph2 D2 X ltac:(lra)) as [F1 F2].
  assert (LG : layer_of id4 ex_grating) by (split; [reflexivity|discriminate]).
  exists id4, [ex_grating; PFilter id4 (fun _ => 1 / 2)], [dr; dr0], ph. do 2 eexists. split; [exact id4_axes|]. split; [constructor; [exact LG|constructor; [split; [reflexivity|discriminate]|constructor]]|].
  split; [apply ex_physical; lra|]. split.
  { unfold stack_photon. rewrite M. cbn [layers hd tl]. change (LPhoton (l_dir ph) _ _ _ _) with ph1. rewrite (layer_one id4 ex_grating dr _ _ ph1 (V3 (-1) 0 0) LG id4_axes M1). unfold ex_grating. rewrite H. cbn [bind]. change (Draw 0 0 0 0 0 0 0) with dr0. rewrite F1. reflexivity. }
  split. { cbn [through hd tl]. rewrite touch, M. cbn [bind]. change (LPhoton (Some _) _ (l_pol ph) _ _) with ph1. unfold ex_grating. rewrite H. cbn [bind]. rewrite F2. reflexivity. }
  cbn [l_prob]. rewrite PR. cbn [times]. split; f_equal; field.
Qed.
Print Assumptions C212_sequence_refuted.
(** Example for the equality: filter and detector. *)
Example ex_C212 : let ps := [PFilter id4 (fun _ => 1 / 2); PDetector id4] in let ph := ex_photon (1 / 2) 0 (V3 0 1 0) 1 1 in
  Forall (layer_of id4) ps /\ stack_photon id4 ps [] ph = through (PDetector id4 :: ps) [dr0] ph /\
  exists ph', stack_photon id4 ps [] ph = Ok ph' /\ l_prob ph' = Some (1 * (1 / 2) * 1).
Proof.
  cbv zeta. set (ph := ex_photon (1 / 2) 0 (V3 0 1 0) 1 1). assert (M : meets id4 ph = Some (V3 (-1) 0 0, V3 0 (1 / 2) 0, (1 / 2, 0))) by (apply ex_meets; lra).
  assert (B : Rltb (1 / 2) 0 || Rltb 1 (1 / 2) = false) by (apply orb_false_iff; split; apply Rltb_false; lra). assert (B1 : Rltb 1 0 || Rltb 1 1 = false) by (apply orb_false_iff; split; apply Rltb_false; lra).
  assert (F : Forall (layer_of id4) [PFilter id4 (fun _ => 1 / 2); PDetector id4]) by (repeat constructor; discriminate).
  split; [exact F|]. split.
  - apply C212_sequence_partial; [exact id4_axes|exact F|]. intros k ph' K _ H. unfold stack_photon in H. rewrite M in H. exists (V3 (-1) 0 0). split; [|vu; cbn; lra].
    destruct k as [|[|k]]; [| |cbn in K; lia]; cbn [firstn layers bind] in H; unfold layer, layer_values in H; cbn [l_dir ph ex_photon effect l_energy] in H; rewrite ?B in H; cbn [bind snd bad_factor] in H; rewrite ?B in H; apply (f_equal (fun r => match r with Ok a => l_dir a | Err _ => None end)) in H; cbn in H; congruence.
  - unfold stack_photon. rewrite M. cbn [layers]. unfold layer, layer_values. cbn [l_dir ph ex_photon effect l_energy bind]. rewrite B. cbn [bind snd bad_factor]. rewrite B. cbn [bind l_dir fst snd]. cbn [effect bind snd bad_factor]. rewrite B1. eexists. split; reflexivity.
Qed.

(** ** C213 *)
(** A scatterer moves the photons that meet its plane to this plane and does nothing to those that are behind it already. *)
Theorem C213_position : forall p m dr ph ph', (exists m' a b, p = PRadial m' a b) \/ (exists m' on, p = PRandom m' on) -> geometry p = Some m -> one p dr ph = Ok ph' ->
  (meets m ph = None -> ph' = ph) /\ (forall d q loc, meets m ph = Some (d, q, loc) -> l_pos ph' = Some q).
Proof. exact scatter_position. Qed.
Print Assumptions C213_position.
Example ex_C213 : exists d q loc, geometry (PRandom id4 true) = Some id4 /\ meets id4 (ex_photon (1 / 2) 0 (V3 0 1 0) 1 1) = Some (d, q, loc) /\ q = V3 0 (1 / 2) 0.
Proof. eexists _, _, _. split; [reflexivity|]. split; [apply ex_meets; lra|reflexivity]. Qed.
(** The position stays the same if the photon is in the plane of the scatterer. *)
Theorem C213_last_partial : forall p m dr ph ph' x d a b, (exists m' a b, p = PRadial m' a b) \/ (exists m' on, p = PRandom m' on) -> geometry p = Some m -> perpendicular_axes m ->
  l_dir ph = Some d -> l_pos ph = Some x -> in_rectangle m a b x -> one p dr ph = Ok ph' -> l_pos ph' = Some x.
Proof.
  intros p m dr ph ph' x d a b S G P D X R O. destruct (scatter_position p m dr ph ph' S G O) as [A B]. destruct (meets m ph) as [[[d' q] loc]|] eqn:M; [|rewrite (A eq_refl); exact X].
  rewrite (B d' q loc eq_refl). f_equal. destruct (proj1 (meets_iff m ph d' q loc P) M) as (D' & _). assert (d' = d) as -> by congruence. exact (in_plane_position m ph x d a b q loc P D X R M).
Qed.
Print Assumptions C213_last_partial.
(** In general it does not: the ray starts from the plane of the scatterer, not from the last interaction ... *)
Theorem C213_last_refuted : exists p m dr ph ph', p = PRandom m true /\ perpendicular_axes m /\ physical 0 ph /\ one p dr ph = Ok ph' /\ l_pos ph = Some (V3 2 0 0) /\ l_pos ph' = Some (V3 0 0 0).
Proof.
  set (ph := ex_photon 0 0 (V3 0 1 0) 1 1). assert (M : meets id4 ph = Some (V3 (-1) 0 0, V3 0 0 0, (0, 0))) by (apply ex_meets; lra).
  assert (B1 : Rltb 1 0 || Rltb 1 1 = false) by (apply orb_false_iff; split; apply Rltb_false; lra).
  exists (PRandom id4 true), id4, dr0, ph. eexists. split; [reflexivity|]. split; [exact id4_axes|]. split; [apply ex_physical; lra|]. cbn [one surface]. rewrite M. cbn [effect bind snd bad_factor]. rewrite B1. split; [reflexivity|]. split; reflexivity.
Qed.
Print Assumptions C213_last_refuted.
(** ... and a photon that is behind the plane is not scattered at all. *)
Theorem C213_behind_refuted : exists p m ph, p = PRandom m true /\ perpendicular_axes m /\ physical 0 ph /\ forall dr, one p dr ph = Ok ph.
Proof.
  exists (PRandom id4 true), id4, (LPhoton (Some (V3 (-1) 0 0)) (Some (V3 (-2) 0 0)) (Some (V3 0 1 0)) 1 (Some 1)). split; [reflexivity|]. split; [exact id4_axes|]. split.
  - destruct (ex_physical 0 0 1 1 ltac:(lra)) as (A & B & C & D). repeat split; assumption || (now apply D).
  - intros dr. cbn [one surface]. destruct (meets id4 _) as [[[d q] loc]|] eqn:M; [|reflexivity]. exfalso. apply meets_iff in M; [|exact id4_axes]. destruct M as (D & _ & x & k & a & b & X & K & Q & R & _).
    cbn [l_dir l_pos] in D, X. assert (SI : forall u v : v3, Some u = Some v -> u = v) by congruence. apply SI in D. apply SI in X. subst d x. pose proof (rect_plane id4 a b q id4_axes R) as A. rewrite Q in A. vu. cbn in A. lra.
Qed.
Print Assumptions C213_behind_refuted.

(** ** C214 *)
(** Moving a photon along its ray does not change what an element does to it, as long as it stays in front of the element ... *)
Theorem C214_before : forall m p dr dr' ph ph1 x d q loc k s, geometry p = Some m -> (forall m', p <> PBaffle m') -> (forall m' a, p <> PRadial m' a true) -> perpendicular_axes m ->
  meets m ph = Some (d, q, loc) -> l_pos ph = Some x -> q = add3 x (scale3 k d) -> s <= k -> one (PPropagate s) dr' ph = Ok ph1 -> one p dr ph1 = one p dr ph.
Proof. intros m p dr dr' ph ph1 x d q loc k s G B NR P M X Q S O. rewrite moved_one in O. assert (ph1 = moved s ph) as -> by congruence. now apply (moved_same m p dr ph x d q loc k s (conj G B)). Qed.
Print Assumptions C214_before.
(** ... beyond it, the element does nothing. *)
Theorem C214_beyond : forall m p dr dr' ph ph1 x d q loc k s, geometry p = Some m -> (forall m', p <> PBaffle m') -> perpendicular_axes m ->
  meets m ph = Some (d, q, loc) -> l_pos ph = Some x -> q = add3 x (scale3 k d) -> k < s -> one (PPropagate s) dr' ph = Ok ph1 -> one p dr ph1 = Ok ph1.
Proof. intros m p dr dr' ph ph1 x d q loc k s G B P M X Q S O. rewrite moved_one in O. assert (ph1 = moved s ph) as -> by congruence. now apply (moved_beyond m p dr ph x d q loc k s (conj G B)). Qed.
Print Assumptions C214_beyond.
(** Not for RadialMirrorScatter with scatter perpendicular to the plane of reflection: this plane is calculated with the position of the photon before the scatter. *)
Theorem C214_radial_refuted : exists m dr ph ph1 a b, perpendicular_axes m /\ physical 0 ph /\ one (PPropagate 2) dr0 ph = Ok ph1 /\ one (PRadial m false true) dr ph = Ok a /\ one (PRadial m false true) dr ph1 = Ok b /\ l_pos a = l_pos b /\ l_dir a <> l_dir b.
Proof.
  set (dr := Draw 0 0 0 (PI / 2) 0 0 0). set (ph := ex_photon 1 0 (V3 0 1 0) 1 1). assert (M : meets id4 ph = Some (V3 (-1) 0 0, V3 0 1 0, (1, 0))) by (apply ex_meets; lra).
  assert (X1 : moved 2 ph = LPhoton (Some (V3 (-1) 0 0)) (Some (V3 0 1 0)) (Some (V3 0 1 0)) 1 (Some 1)) by (unfold moved, ph, ex_photon; cbn [l_dir l_pos l_pol l_energy l_prob]; f_equal; f_equal; vu; f_equal; ring).
  assert (M1 : meets id4 (moved 2 ph) = Some (V3 (-1) 0 0, V3 0 1 0, (1, 0))).
  { rewrite (moved_meets id4 ph (V3 2 1 0) (V3 (-1) 0 0) (V3 0 1 0) (1, 0) 2 2 id4_axes M eq_refl) by (vu; f_equal; ring). now rewrite (proj2 (Rleb_true 2 2)) by lra. }
  destruct (rotate_by_total (sub3 (V3 2 1 0) (xyz (center id4))) (Some (PI / 2)) (V3 (-1) 0 0)) as [o1 O1]; [left; intros K; apply (f_equal y3) in K; vu; cbn in K; lra|].
  destruct (rotate_by_total (sub3 (V3 0 1 0) (xyz (center id4))) (Some (PI / 2)) (V3 (-1) 0 0)) as [o2 O2]; [left; intros K; apply (f_equal y3) in K; vu; cbn in K; lra|].
  assert (B1 : Rltb 1 0 || Rltb 1 1 = false) by (apply orb_false_iff; split; apply Rltb_false; lra).
  exists id4, dr, ph, (moved 2 ph). do 2 eexists. split; [exact id4_axes|]. split; [apply ex_physical; lra|]. split; [apply moved_one|].
  split. { cbn [one surface]. rewrite M. cbn [effect l_pos ph ex_photon dr dr_b]. unfold radial_scatter. cbv zeta. cbn [rotate_by] in *. rewrite O1. cbn [bent bind snd bad_factor]. rewrite B1. reflexivity. }
  split. { cbn [one surface]. rewrite M1. rewrite X1. cbn [effect l_pos dr dr_b]. unfold radial_scatter. cbv zeta. cbn [rotate_by] in *. rewrite O2. cbn [bent bind snd bad_factor]. rewrite B1. reflexivity. }
  split; [reflexivity|]. cbn [l_dir fst snd]. intros E. assert (o1 = o2) as <- by congruence.
  apply rotate_by_spec in O1. apply rotate_by_spec in O2. destruct O1 as (_ & _ & S1). destruct O2 as (_ & _ & S2). destruct (S1 _ eq_refl) as [A1 _]. destruct (S2 _ eq_refl) as [A2 A3].
  rewrite cos_PI2 in A3. assert (A4 : dot3 o1 (V3 (-1) 0 0) = 0) by (rewrite A3; [ring|vu; cbn; ring]). destruct o1 as [a b c]. vu. cbn in *. lra.
Qed.
Print Assumptions C214_radial_refuted.
(** Example *)
Example ex_C214 : let ph := ex_photon (1 / 2) 0 (V3 0 1 0) 1 1 in
  exists ph1, one (PPropagate 1) dr0 ph = Ok ph1 /\ l_pos ph1 = Some (V3 1 (1 / 2) 0) /\ one (PDetector id4) dr0 ph1 = one (PDetector id4) dr0 ph /\
  exists ph3, one (PPropagate 3) dr0 ph = Ok ph3 /\ one (PDetector id4) dr0 ph3 = Ok ph3.
Proof.
  cbv zeta. set (ph := ex_photon (1 / 2) 0 (V3 0 1 0) 1 1). assert (M : meets id4 ph = Some (V3 (-1) 0 0, V3 0 (1 / 2) 0, (1 / 2, 0))) by (apply ex_meets; lra).
  assert (Q : V3 0 (1 / 2) 0 = add3 (V3 2 (1 / 2) 0) (scale3 2 (V3 (-1) 0 0))) by (vu; f_equal; ring).
  exists (moved 1 ph). split; [apply moved_one|]. split; [unfold moved; cbn [l_dir l_pos ph ex_photon]; f_equal; vu; f_equal; ring|]. split.
  - apply (C214_before id4 _ dr0 dr0 ph (moved 1 ph) (V3 2 (1 / 2) 0) (V3 (-1) 0 0) (V3 0 (1 / 2) 0) (1 / 2, 0) 2 1); [reflexivity|discriminate|discriminate|exact id4_axes|exact M|reflexivity|exact Q|lra|apply moved_one].
  - exists (moved 3 ph). split; [apply moved_one|]. apply (C214_beyond id4 _ dr0 dr0 ph (moved 3 ph) (V3 2 (1 / 2) 0) (V3 (-1) 0 0) (V3 0 (1 / 2) 0) (1 / 2, 0) 2 3); [reflexivity|discriminate|exact id4_axes|exact M|reflexivity|exact Q|lra|apply moved_one].
Qed.

(** ** C215 *)
Lemma entry_spec p aper ra dec a e u1 u2 : affine (p_ref p) -> rotation (lin (p_ref p)) -> 0 < cos dec -> perpendicular_axes aper -> 0 <= u1 <= 1 -> 0 <= u2 <= 1 ->
  exists ph d f, entry p aper ra dec a e u1 u2 = Some ph /\ l_dir ph = Some d /\ photons_dir p ra dec = Some (hom d 0) /\ l_prob ph = Some f /\ l_energy ph = e /\
    (dot3 d (xyz (v_x aper)) <= 0 -> f * norm3 (xyz (v_x aper)) = - dot3 d (xyz (v_x aper))) /\ (0 <= dot3 d (xyz (v_x aper)) -> f = 0) /\
    dot3 d d = 1 /\ (exists v, l_pol ph = Some v /\ dot3 v v = 1 /\ dot3 v d = 0) /\ 0 <= f <= 1 /\
    (exists x y z, l_pos ph = Some x /\ -1 <= y <= 1 /\ -1 <= z <= 1 /\ in_rectangle aper y z x).
Proof.
  intros A R C PA U1 U2. destruct (C114_pol p ra dec a A R C) as (m & d & q & Ro & F & PD & Dd & _ & QQ & DQ).
  assert (DD : dot3 d d = 1).
  { rewrite Dd, orthonormal_dot by apply Ro. pose proof (cs1 ra). pose proof (cs1 dec). unfold skyvec. vu. cbn. nra. }
  destruct (projected_spec aper d PA) as (f & PF & FR & FP & F0). unfold entry. rewrite F, PF. rewrite place_hom by apply PA. exists (LPhoton (Some d) (Some (add3 (xyz (center aper)) (add3 (scale3 (u1 * 2 - 1) (xyz (v_y aper))) (scale3 (u2 * 2 - 1) (xyz (v_z aper)))))) (Some q) e (Some (1 * f))), d, f.
  rewrite !Coords_Proofs.xyz_hom. cbn [rect_xy fst snd l_dir l_prob l_energy l_pol l_pos]. split; [reflexivity|]. split; [reflexivity|]. split; [rewrite PD, <- Dd; reflexivity|]. split; [f_equal; ring|]. split; [reflexivity|].
  split; [apply FP; now apply norm3_1|]. split; [exact F0|]. split; [exact DD|]. split; [exists q; split; [reflexivity|]; split; [exact QQ|]; now rewrite dot3_comm|]. split; [exact FR|].
  do 3 eexists. split; [reflexivity|]. split; [|split; [|split; [|split; [|reflexivity]]]]; lra.
Qed.
Lemma entry_physical p aper ra dec a e u1 u2 ph : affine (p_ref p) -> rotation (lin (p_ref p)) -> 0 < cos dec -> perpendicular_axes aper -> entry p aper ra dec a e u1 u2 = Some ph -> physical 0 ph /\ l_energy ph = e.
Proof.
  intros A R C PA H. destruct (C114_pol p ra dec a A R C) as (m & d & q & Ro & F & PD & Dd & _ & QQ & DQ).
  assert (DD : dot3 d d = 1).
  { rewrite Dd, orthonormal_dot by apply Ro. pose proof (cs1 ra). pose proof (cs1 dec). unfold skyvec. vu. cbn. nra. }
  destruct (projected_spec aper d PA) as (f & PF & FR & _). unfold entry in H. rewrite F, PF, !Coords_Proofs.xyz_hom in H.
  assert (SI : forall x y : lphoton, Some x = Some y -> x = y) by congruence. apply SI in H. subst ph. cbn [l_energy]. split; [|reflexivity]. unfold physical. cbn [l_dir l_pol l_prob].
  assert (S3 : forall x y : v3, Some x = Some y -> x = y) by congruence. split; [intros x X; apply S3 in X; now subst|]. split; [intros x X; apply S3 in X; now subst|].
  split; [intros x y X Y; apply S3 in X; apply S3 in Y; subst; rewrite dot3_comm, DQ, Rabs_R0; lra|]. intros g G. assert (g = 1 * f) as -> by congruence. lra.
Qed.
Lemma entry_run p aper ps drs srcs t t' : affine (p_ref p) -> rotation (lin (p_ref p)) -> perpendicular_axes aper -> Forall well_made ps -> rectangular t ->
  Forall2 (fun s ph => 0 < cos (snd (fst (fst s))) /\ exists u1 u2, entry p aper (fst (fst (fst s))) (snd (fst (fst s))) (snd (fst s)) (snd s) u1 u2 = Some ph) srcs (crows t) ->
  run ps drs t = Ok t' ->
  rectangular t' /\ Forall2 (fun s ph' =>
    (forall d, l_dir ph' = Some d -> dot3 d d = 1) /\ (forall v, l_pol ph' = Some v -> dot3 v v = 1) /\
    (forall d v, l_dir ph' = Some d -> l_pol ph' = Some v -> Rabs (dot3 v d) <= INR (length ps) * / 100000000) /\
    (forall f', l_prob ph' = Some f' -> 0 <= f' <= 1) /\ l_energy ph' = snd s) srcs (crows t').
Proof.
  intros A R PA W RT S H. assert (P : Forall (physical 0) (crows t)).
  { clear - A R PA S. induction S as [|s ph l l' (C & u1 & u2 & E) S IH]; constructor; [|exact IH]. now apply entry_physical in E. }
  destruct (run_physical ps drs t t' 0 W (Rle_refl 0) RT P H) as [R' F]. split; [exact R'|]. clear - A R PA S F. revert F. generalize (crows t'). induction S as [|s ph l l' (C & u1 & u2 & E) S IH]; intros l2 F; inversion F as [|? ph' ? ? F1 F2]; subst; constructor; [|now apply IH].
  destruct F1 as ((P1 & P2 & P3 & P4) & EN & _). apply entry_physical in E; try assumption. split; [exact P1|]. split; [exact P2|]. split; [|split; [exact P4|now rewrite EN]].
  intros d v D V. specialize (P3 d v D V). unfold tiny in P3. lra.
Qed.
(** A source that is not on a pole makes a photon for any aperture. It comes from the source, and starts on the aperture. *)
Theorem C215_entry : forall p aper ra dec a e u1 u2, affine (p_ref p) -> rotation (lin (p_ref p)) -> 0 < cos dec -> perpendicular_axes aper -> 0 <= u1 <= 1 -> 0 <= u2 <= 1 ->
  exists ph d f, entry p aper ra dec a e u1 u2 = Some ph /\ l_dir ph = Some d /\ photons_dir p ra dec = Some (hom d 0) /\ l_prob ph = Some f /\ l_energy ph = e /\
    (dot3 d (xyz (v_x aper)) <= 0 -> f * norm3 (xyz (v_x aper)) = - dot3 d (xyz (v_x aper))) /\ (0 <= dot3 d (xyz (v_x aper)) -> f = 0) /\
    dot3 d d = 1 /\ (exists v, l_pol ph = Some v /\ dot3 v v = 1 /\ dot3 v d = 0) /\ 0 <= f <= 1 /\
    (exists x y z, l_pos ph = Some x /\ -1 <= y <= 1 /\ -1 <= z <= 1 /\ in_rectangle aper y z x).
Proof. exact entry_spec. Qed.
Print Assumptions C215_entry.
(** Every photon that goes from the source through any number of well-made elements is a physical one. *)
Theorem C215_instrument : forall p aper ps drs srcs t t', affine (p_ref p) -> rotation (lin (p_ref p)) -> perpendicular_axes aper -> Forall well_made ps -> rectangular t ->
  Forall2 (fun s ph => 0 < cos (snd (fst (fst s))) /\ exists u1 u2, entry p aper (fst (fst (fst s))) (snd (fst (fst s))) (snd (fst s)) (snd s) u1 u2 = Some ph) srcs (crows t) ->
  run ps drs t = Ok t' ->
  rectangular t' /\ Forall2 (fun s ph' =>
    (forall d, l_dir ph' = Some d -> dot3 d d = 1) /\ (forall v, l_pol ph' = Some v -> dot3 v v = 1) /\
    (forall d v, l_dir ph' = Some d -> l_pol ph' = Some v -> Rabs (dot3 v d) <= INR (length ps) * / 100000000) /\
    (forall f', l_prob ph' = Some f' -> 0 <= f' <= 1) /\ l_energy ph' = snd s) srcs (crows t').
Proof. exact entry_run. Qed.
Print Assumptions C215_instrument.
(** Example: a pointing along the x axis, an aperture at the origin and a filter for all photons. *)
Example ex_C215 : exists p aper ph, affine (p_ref p) /\ rotation (lin (p_ref p)) /\ perpendicular_axes aper /\ Forall well_made [PGlobal (fun _ => 1 / 2)] /\ 0 < cos 0 /\ entry p aper 0 0 0 1 (1 / 2) (3 / 4) = Some ph /\
  l_dir ph = Some (V3 (-1) 0 0) /\ l_prob ph = Some 1 /\ exists t', run [PGlobal (fun _ => 1 / 2)] [] (of_rows [ph]) = Ok t'.
Proof.
  set (p := Pointing 0 0 0 id4). assert (A : affine id4) by (unfold affine; cbn; auto). assert (RO : rotation (lin id4)) by (split; [unfold orthonormal; vu; cbn; repeat split; lra|vu; cbn; lra]).
  assert (C0 : 0 < cos 0) by (rewrite cos_0; lra). destruct (C215_entry p id4 0 0 0 1 (1 / 2) (3 / 4) A RO C0 id4_axes ltac:(lra) ltac:(lra)) as (ph & d & f & E & D & PD & PR & EN & F1 & _).
  assert (DX : d = V3 (-1) 0 0).
  { pose proof (C113_onaxis p) as O. cbn [p_ra p_dec p_ref p] in O. assert (SI : forall x y : v4, Some x = Some y -> x = y) by congruence. rewrite PD in O. apply SI in O. apply (f_equal xyz) in O. rewrite Coords_Proofs.xyz_hom in O. rewrite O. vu. cbn. f_equal; ring. }
  assert (N1 : norm3 (V3 1 0 0) = 1) by (apply norm3_1; vu; ring).
  exists p, id4, ph. split; [exact A|]. split; [exact RO|]. split; [exact id4_axes|]. split; [constructor; [|constructor]|]. { repeat split; discriminate. }
  split; [exact C0|]. split; [exact E|]. split; [now rewrite D, DX|]. split.
  { rewrite PR. f_equal. rewrite DX in F1. replace (xyz (v_x id4)) with (V3 1 0 0) in F1 by (vu; reflexivity). rewrite N1 in F1. assert (L : dot3 (V3 (-1) 0 0) (V3 1 0 0) = -1) by (vu; ring). rewrite L in F1. specialize (F1 ltac:(lra)). lra. }
  assert (B : Rltb (1 / 2) 0 || Rltb 1 (1 / 2) = false) by (apply orb_false_iff; split; apply Rltb_false; lra). apply orb_false_iff in B. destruct B as [B B'].
  eexists. cbn [run process of_rows c_energy map existsb]. rewrite B, B'. reflexivity.
Qed.
