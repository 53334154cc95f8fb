(** C209: photons stay physical in any instrument.  C210: photons do not influence each other.  C211: photons in evanescent orders. *)
From Verif Require Import Instrument_Model.
From Verif Require Import Base_Proofs Vec_Proofs Coords_Proofs Aperture_Proofs Rot_Proofs Plane_Proofs Lens_Proofs Grating_Proofs Scatter_Proofs Brewster_Proofs Instrument_Proofs Instrument_Proofs2.
Open Scope R_scope.
Open Scope list_scope.

(** ** C209 *)
(** One element of any kind, one photon: directions and polarizations stay unit vectors; the angle between them changes by not more than 1e-8. *)
Theorem C209_element : forall p dr ph ph' eps, well_made p -> 0 <= eps -> physical eps ph -> one p dr ph = Ok ph' ->
  physical (eps + / 100000000) ph' /\ l_energy ph' = l_energy ph /\
  (forall f', l_prob ph' = Some f' -> f' = 0 \/ exists f, l_prob ph = Some f /\ f' <= f) /\ (l_dir ph = None -> l_dir ph' = None).
Proof. exact one_physical. Qed.
Print Assumptions C209_element.
(** A photon list in a sequence of [n] elements, as it is calculated (columns and masks). *)
Theorem C209_instrument : forall ps drs t t' eps, Forall well_made ps -> 0 <= eps -> rectangular t -> Forall (physical eps) (crows t) -> run ps drs t = Ok t' ->
  rectangular t' /\ Forall2 (fun ph ph' =>
    (forall d, l_dir ph' = Some d -> dot3 d d = 1) /\ (forall v, l_pol ph' = Some v -> dot3 v v = 1) /\
    (forall d v, l_dir ph' = Some d -> l_pol ph' = Some v -> Rabs (dot3 v d) <= eps + INR (length ps) * / 100000000) /\
    (forall f', l_prob ph' = Some f' -> 0 <= f' <= 1 /\ (f' = 0 \/ exists f, l_prob ph = Some f /\ f' <= f)) /\
    l_energy ph' = l_energy ph) (crows t) (crows t').
Proof.
  intros ps drs t t' eps W EP R P H. destruct (run_physical ps drs t t' eps W EP R P H) as [R' F]. split; [exact R'|].
  clear - F. induction F as [|a b la lb K F IH]; constructor; [|exact IH]. unfold follows, physical in K. destruct K as ((A & B & C & D) & E & G & _).
  split; [exact A|]. split; [exact B|]. split; [exact C|]. split; [|exact E]. intros f' H. split; [now apply D|now apply G].
Qed.
Print Assumptions C209_instrument.

(** Examples: elements at the origin, photons along the x axis *)
Definition ex_photon (y z : R) (pol : v3) (e f : R) : lphoton := LPhoton (Some (V3 (-1) 0 0)) (Some (V3 2 y z)) (Some pol) e (Some f).
Lemma ex_meets y z pol e f : -1 <= y <= 1 -> -1 <= z <= 1 -> meets id4 (ex_photon y z pol e f) = Some (V3 (-1) 0 0, V3 0 y z, (y, z)).
Proof.
  intros Y Z. unfold meets, ex_photon. cbn [l_dir l_pos].
  assert (N : forall v, v = V3 1 0 0 \/ v = V3 0 1 0 \/ v = V3 0 0 1 -> norm3 v = 1) by (intros v [->|[->| ->]]; apply norm3_1; vu; ring).
  assert (H : fst (fst (plane_intersect id4 (hom (V3 (-1) 0 0) 0) (hom (V3 2 y z) 1))) = true).
  { apply plane_hit_iff; [exact id4_axes|]. split; [intros K; vu; cbn in K; lra|]. exists 2, y, z. split; [lra|]. unfold in_rectangle. repeat split; try lra; try (apply Rabs_le; lra). cbn. vring. }
  destruct (plane_intersect id4 (hom (V3 (-1) 0 0) 0) (hom (V3 2 y z) 1)) as [[h ip] il] eqn:E. cbn [fst] in H. subst h.
  destruct (plane_hit_values _ _ _ _ _ _ id4_axes E) as [_ V]. destruct (V eq_refl) as (k & a & b & q & K & I & Q & -> & ->).
  unfold in_rectangle in I. destruct I as (A & B & I).
  assert (QE : q = V3 0 y z /\ a = y /\ b = z).
  { pose proof (eq_trans (eq_sym Q) I) as J. pose proof (f_equal x3 J) as I1. pose proof (f_equal y3 J) as I2. pose proof (f_equal z3 J) as I3. cbn in I1, I2, I3.
    assert (K2 : k = 2) by lra. split; [rewrite Q, K2; unfold add3, scale3; cbn; f_equal; ring|]. split; lra. }
  destruct QE as (-> & -> & ->). rewrite xyz_hom. cbn [xyz v_y v_z id4 b1 b2 x4 y4 z4]. rewrite !N by auto. now rewrite !Rmult_1_r.
Qed.
Lemma ex_physical y z e f : 0 <= f <= 1 -> physical 0 (ex_photon y z (V3 0 1 0) e f).
Proof.
  intros F. unfold physical, ex_photon. cbn [l_dir l_pol l_prob]. assert (SI : forall x y : v3, Some x = Some y -> x = y) by congruence.
  split; [intros d H; apply SI in H; subst d; vu; ring|]. split; [intros d H; apply SI in H; subst d; vu; ring|].
  split; [intros d v H H'; apply SI in H; apply SI in H'; subst d v; replace (dot3 _ _) with 0 by (vu; ring); rewrite Rabs_R0; lra|].
  intros x H. assert (f = x) as <- by congruence. exact F.
Qed.
Definition ex_lens : part := PLens id4 0 1 (fun _ _ => 1) (fun _ => None).
Lemma ex_lens_well : well_made ex_lens.
Proof. split; [|split; discriminate]. intros m H. assert (m = id4) as -> by (cbn in H; congruence). exact id4_axes. Qed.
Lemma ex_lens_one dr y : -1 <= y <= 1 -> exists n v, 1 <= n /\ one ex_lens dr (ex_photon y 0 (V3 0 1 0) 1 1) = Ok (LPhoton (Some (scale3 (/ n) (V3 (-1) (- y) 0))) (Some (V3 0 y 0)) v 1 (Some (1 * (1 * 1)))) /\
  n * n = 1 + y * y /\ (Rabs y <= / 1000000000 -> v = Some (V3 0 1 0)).
Proof.
  intros Y. set (w := V3 (-1) (- y) 0). assert (W : dot3 w w = 1 + y * y) by (unfold w; vu; ring). assert (W0 : w <> zero3) by (intros E; apply (f_equal x3) in E; cbn in E; lra).
  assert (NN : norm3 w * norm3 w = 1 + y * y) by (unfold norm3; rewrite sqrt_sqrt by (rewrite W; nra); exact W).
  assert (N1 : 1 <= norm3 w) by (pose proof (norm3_nonneg w); nra).
  destruct (axis_point id4 0 id4_axes) as (c & C & CE). assert (c = zero3) as ->. { rewrite CE. replace (0 / norm3 (xyz (v_z id4))) with 0 by (unfold Rdiv; ring). cbn. unfold sub3, scale3, zero3. cbn. f_equal; ring. }
  assert (U : unit3 (V3 (-1) 0 0) = Some (V3 (-1) 0 0)) by (apply unit3_of_unit; vu; ring).
  assert (F : focuspoint id4 0 1 (V3 (-1) 0 0) = Some (V3 (-1) 0 0)). { rewrite (focus_point id4 0 1 _ zero3 _ C U). f_equal. unfold add3, scale3, zero3. cbn. f_equal; ring. }
  assert (S : sub3 (V3 (-1) 0 0) (V3 0 y 0) = w) by (unfold w, sub3; cbn; f_equal; ring).
  unfold ex_lens. exists (norm3 w). eexists. split; [exact N1|]. cbn [one surface]. rewrite ex_meets by lra. cbn [effect]. unfold perfect_lens. rewrite F, U, S, (unit3_some w W0).
  split. { cbn [bind snd bad_factor]. assert (B : Rltb (1 * 1) 0 || Rltb 1 (1 * 1) = false) by (apply orb_false_iff; split; apply Rltb_false; lra). rewrite B. reflexivity. }
  split; [exact NN|]. intros T. cbn [fst snd bent transported ex_photon l_pol]. unfold parallel_transport. rewrite !xyz_hom.
  assert (WU : dot3 (scale3 (/ norm3 w) w) (scale3 (/ norm3 w) w) = 1) by (rewrite dot3_scale_l, dot3_scale_r, W, <- NN; field; lra).
  assert (CL : isclose (norm3 (cross3 (V3 (-1) 0 0) (scale3 (/ norm3 w) w))) 0 = true).
  { apply isclose_true. rewrite Rminus_0_r, Rabs_R0, Rmult_0_r, Rplus_0_r. replace (cross3 _ _) with (scale3 (/ norm3 w * y) (V3 0 0 1)) by (unfold w; vu; cbn; f_equal; ring).
    rewrite norm3_scale, (proj2 (norm3_1 (V3 0 0 1))) by (vu; ring). rewrite Rmult_1_r, Rabs_Rabsolu, Rabs_mult.
    assert (0 < / norm3 w <= 1) by (split; [apply Rinv_0_lt_compat; lra|rewrite <- Rinv_1; apply Rinv_le_contravar; lra]). rewrite (Rabs_pos_eq (/ norm3 w)) by lra. pose proof (Rabs_pos y). nra. }
  destruct (transport_parallel _ _ _ _ eye2 zero3 U (unit3_of_unit _ WU) CL) as [-> _]. cbn [option_map]. rewrite xyz_hom. f_equal. vring.
Qed.
(** The polarization is not kept exactly perpendicular: directions that agree within 1e-8 count as equal. *)
Theorem C209_exact_refuted : ~ (forall p dr ph ph', well_made p -> physical 0 ph -> one p dr ph = Ok ph' -> physical 0 ph').
Proof.
  intros H. set (y := / 1000000000). assert (Y : 0 < y < 1) by (unfold y; lra). destruct (ex_lens_one dr0 y) as (n & v & N & O & NN & V); [lra|].
  assert (v = Some (V3 0 1 0)) as -> by (apply V; rewrite Rabs_pos_eq by lra; unfold y; lra).
  destruct (H _ _ _ _ ex_lens_well (ex_physical y 0 1 1 ltac:(lra)) O) as (_ & _ & K & _). specialize (K _ _ eq_refl eq_refl).
  replace (dot3 _ _) with (- (/ n * y)) in K by (vu; ring). rewrite Rabs_Ropp in K. assert (0 < / n) by (apply Rinv_0_lt_compat; lra). rewrite Rabs_pos_eq in K by nra. nra.
Qed.
Print Assumptions C209_exact_refuted.
(** Example: lens, filter, baffle and propagation. *)
Example ex_C209 : exists drs t', let ps := [ex_lens; PGlobal (fun _ => 1 / 2); PPropagate 3] in let t := of_rows [ex_photon (1 / 2) 0 (V3 0 1 0) 1 1] in
  Forall well_made ps /\ rectangular t /\ Forall (physical 0) (crows t) /\ run ps drs t = Ok t'.
Proof.
  destruct (ex_lens_one dr0 (1 / 2)) as (n & v & N & O & _); [lra|]. exists [[dr0]]. eexists. cbv zeta. split.
  { constructor; [exact ex_lens_well|]. constructor; [repeat split; discriminate|]. constructor; [repeat split; discriminate|constructor]. }
  split; [apply of_rows_rect|]. split; [rewrite rows_of_rows; constructor; [apply ex_physical; lra|constructor]|].
  assert (M : draws_for ex_lens (ex_photon (1 / 2) 0 (V3 0 1 0) 1 1) = true) by (unfold draws_for, ex_lens, surface; now rewrite ex_meets by lra).
  cbn [run hd tl]. rewrite process_each by (unfold hits_of; cbn [filter]; now rewrite M). cbn [each_row]. rewrite M, O. cbn [bind].
  cbn [process of_rows map c_energy existsb l_energy l_dir]. assert (B : (Rltb (1 / 2) 0 || false) || (Rltb 1 (1 / 2) || false) = false) by (rewrite !orb_false_r; apply orb_false_iff; split; apply Rltb_false; lra).
  rewrite B. cbn [bind]. reflexivity.
Qed.

(** ** C210 *)
(** What happens to a photon depends on this photon, the element, and its own random draw only. *)
Theorem C210_photon : forall p drs t t', rectangular t -> length drs = hits_of p (crows t) -> process p drs t = Ok t' ->
  rectangular t' /\ length (crows t') = length (crows t) /\ forall i ph, nth_error (crows t) i = Some ph -> exists ph', nth_error (crows t') i = Some ph' /\
    (draws_for p ph = false -> forall dr, one p dr ph = Ok ph') /\
    (draws_for p ph = true -> exists dr, nth_error drs (hits_of p (firstn i (crows t))) = Some dr /\ one p dr ph = Ok ph').
Proof. exact process_rows. Qed.
Print Assumptions C210_photon.
(** The call fails only if one photon on its own would make it fail. *)
Theorem C210_failure : forall p drs t e, rectangular t -> length drs = hits_of p (crows t) -> process p drs t = Err e -> e = ValueError /\
  exists i ph, nth_error (crows t) i = Some ph /\
    ((draws_for p ph = false /\ forall dr, one p dr ph = Err ValueError) \/
     (draws_for p ph = true /\ exists dr, nth_error drs (hits_of p (firstn i (crows t))) = Some dr /\ one p dr ph = Err ValueError)).
Proof. exact process_fail. Qed.
Print Assumptions C210_failure.
(** Two photon lists one after the other, or both in one table: one element. *)
Theorem C210_batches : forall p d1 d2 t1 t2, rectangular t1 -> rectangular t2 -> length d1 = hits_of p (crows t1) -> length d2 = hits_of p (crows t2) ->
  process p (d1 ++ d2) (stack t1 t2) = bind (process p d1 t1) (fun a => bind (process p d2 t2) (fun b => Ok (stack a b))).
Proof. exact process_split. Qed.
Print Assumptions C210_batches.
(** The same for a sequence. *)
Theorem C210_instrument : forall ps d1 d2 t1 t2 u1 u2, length d1 = length d2 -> rectangular t1 -> rectangular t2 -> fits ps d1 t1 -> fits ps d2 t2 ->
  run ps d1 t1 = Ok u1 -> run ps d2 t2 = Ok u2 -> run ps (zip2 (@app draw) d1 d2) (stack t1 t2) = Ok (stack u1 u2).
Proof. exact run_split. Qed.
Print Assumptions C210_instrument.
Example ex_C210 : let t := of_rows [ex_photon (1 / 2) 0 (V3 0 1 0) 1 1; LPhoton None None None 1 (Some 1)] in
  rectangular t /\ length [dr0] = hits_of ex_lens (crows t) /\ fits [ex_lens] [[dr0]] t /\ exists t', process ex_lens [dr0] t = Ok t'.
Proof.
  assert (M : draws_for ex_lens (ex_photon (1 / 2) 0 (V3 0 1 0) 1 1) = true) by (unfold draws_for, ex_lens, surface; now rewrite ex_meets by lra).
  assert (L : length [dr0] = hits_of ex_lens [ex_photon (1 / 2) 0 (V3 0 1 0) 1 1; LPhoton None None None 1 (Some 1)]) by (unfold hits_of; cbn [filter]; rewrite M; reflexivity).
  cbv zeta. split; [apply of_rows_rect|]. rewrite rows_of_rows. split; [exact L|]. split; [cbn [fits hd]; rewrite rows_of_rows; split; [exact L|easy]|].
  rewrite process_each by exact L. cbn [each_row]. rewrite M. destruct (ex_lens_one dr0 (1 / 2)) as (n & v & N & O & _); [lra|]. rewrite O. eexists. reflexivity.
Qed.
(** Elements that do not bend the path: filters multiply the probability by their transmission at the energy of the photon and detectors leave it. *)
Theorem C210_straight : forall m f dr ph d q loc pr, meets m ph = Some (d, q, loc) -> l_prob ph = Some pr ->
  (0 <= f (l_energy ph) <= 1 -> one (PFilter m f) dr ph = Ok (LPhoton (l_dir ph) (Some q) (l_pol ph) (l_energy ph) (Some (pr * f (l_energy ph))))) /\
  (~ 0 <= f (l_energy ph) <= 1 -> one (PFilter m f) dr ph = Err ValueError) /\
  one (PDetector m) dr ph = Ok (LPhoton (l_dir ph) (Some q) (l_pol ph) (l_energy ph) (Some pr)).
Proof. exact straight_elements. Qed.
Print Assumptions C210_straight.
Example ex_C210_straight : exists d q loc, meets id4 (ex_photon (1 / 2) 0 (V3 0 1 0) 1 1) = Some (d, q, loc) /\ l_prob (ex_photon (1 / 2) 0 (V3 0 1 0) 1 1) = Some 1.
Proof. rewrite ex_meets by lra. eexists _, _, _. split; reflexivity. Qed.

(** ** C211 *)
(** The direction is nan if and only if the order does not exist (the sine would be larger than 1); then the polarization is nan, too. *)
Theorem C211_grating : forall c tr m g per dr ph d q loc ex ey en,
  perpendicular_axes m -> meets m ph = Some (d, q, loc) -> dot3 d d = 1 -> plane_bases m = Some (ex, ey, en) -> 0 <= dr_p dr <= 1 ->
  let l := e_groove (xyz ex) (xyz ey) g in let disp := e_perp_groove (xyz ex) (xyz ey) g in
  let t := dot3 d disp + (match c with FlatSign => 1 | CATSign => if Rleb (dot3 d disp) 0 then -1 else 1 end) * (IZR (dr_order dr) * (energy2wave / l_energy ph) / per loc) in
  exists ph', one (PGrating c tr m g per) dr ph = Ok ph' /\ l_pos ph' = Some q /\ l_prob ph' = times (l_prob ph) (Some (dr_p dr)) /\
    (l_dir ph' = None <-> 1 < t * t + dot3 d l * dot3 d l) /\ (l_dir ph' = None -> l_pol ph' = None).
Proof. exact grating_photon. Qed.
Print Assumptions C211_grating.
Example ex_C211 : exists ph ph', one (PGrating FlatSign true id4 0 (fun _ => 1)) (Draw 1 1 0 0 0 0 0) ph = Ok ph' /\ l_pos ph' = Some (V3 0 (1 / 2) 0) /\ l_dir ph' <> None.
Proof.
  assert (EW : energy2wave <> 0) by (unfold energy2wave; lra). set (ph := ex_photon (1 / 2) 0 (V3 0 1 0) (2 * energy2wave) 1). exists ph.
  destruct (C211_grating FlatSign true id4 0 (fun _ => 1) (Draw 1 1 0 0 0 0 0) ph (V3 (-1) 0 0) (V3 0 (1 / 2) 0) (1 / 2, 0) (V4 0 1 0 0) (V4 0 0 1 0) (V4 1 0 0 0) id4_axes) as (ph' & O & P & _ & D & _); [apply ex_meets; lra|vu; ring|exact id4_bases|cbn; lra|].
  exists ph'. split; [exact O|]. split; [exact P|]. intros N. apply D in N. clear D O. unfold e_groove, e_perp_groove in N. rewrite Ropp_0, sin_0, cos_0 in N. cbn [dr_order l_energy ph ex_photon] in N.
  replace (energy2wave / (2 * energy2wave)) with (1 / 2) in N by (field; exact EW). vu. cbn in N. lra.
Qed.
(** A photon without direction does not hit any element ... *)
Theorem C211_misses : forall m ph, l_dir ph = None -> meets m ph = None.
Proof. exact nan_misses. Qed.
Print Assumptions C211_misses.
(** ... and stays so to the end of any sequence; without baffles, global filters and propagators nothing changes. *)
Theorem C211_to_the_end : forall ps drs t t', rectangular t -> run ps drs t = Ok t' -> forall i ph, nth_error (crows t) i = Some ph -> l_dir ph = None ->
  exists ph', nth_error (crows t') i = Some ph' /\ l_dir ph' = None /\ l_pol ph' = l_pol ph /\ l_energy ph' = l_energy ph /\
    ((forall p, In p ps -> surface p <> None /\ forall m, p <> PBaffle m) -> ph' = ph).
Proof. exact run_nan. Qed.
Print Assumptions C211_to_the_end.
(** Its probability is not set to 0: a sum over the probabilities at the end counts it. *)
Definition ex_grating : part := PGrating FlatSign true id4 0 (fun _ => 1 / 2).
Lemma ex_grating_one dr pol : dr_order dr = 1%Z -> dr_p dr = 1 -> exists ph', one ex_grating dr (ex_photon 0 0 pol energy2wave 1) = Ok ph' /\ l_dir ph' = None /\ l_prob ph' = Some 1.
Proof.
  intros O P. assert (E0 : energy2wave <> 0) by (unfold energy2wave; lra).
  destruct (grating_photon FlatSign true id4 0 (fun _ => 1 / 2) dr (ex_photon 0 0 pol energy2wave 1) (V3 (-1) 0 0) (V3 0 0 0) (0, 0) _ _ _ id4_axes (ex_meets 0 0 pol energy2wave 1 ltac:(lra) ltac:(lra)) ltac:(vu; ring) id4_bases ltac:(lra)) as (ph' & H & _ & PR & D & _).
  exists ph'. split; [exact H|]. cbn [l_prob ex_photon times] in PR. rewrite P in PR. split; [|rewrite PR; f_equal; ring]. apply D. cbn [l_energy ex_photon]. rewrite O.
  replace (energy2wave / energy2wave) with 1 by (field; exact E0). 
  replace (dot3 _ (e_perp_groove _ _ _)) with 0 by (unfold e_perp_groove; vu; cbn; ring). replace (dot3 _ (e_groove _ _ _)) with 0 by (unfold e_groove; vu; cbn; ring). lra.
Qed.
Theorem C211_probability_refuted : exists ps drs t t' ph', Forall well_made ps /\ rectangular t /\ Forall (physical 0) (crows t) /\ run ps drs t = Ok t' /\
  crows t' = [ph'] /\ l_dir ph' = None /\ l_prob ph' = Some 1.
Proof.
  set (dr := Draw 1 1 0 0 0 0 0). destruct (ex_grating_one dr (V3 0 1 0) eq_refl eq_refl) as (ph' & H & D & P).
  assert (M : draws_for ex_grating (ex_photon 0 0 (V3 0 1 0) energy2wave 1) = true) by (unfold draws_for, ex_grating, surface; now rewrite ex_meets by lra).
  exists [ex_grating; PDetector id4], [[dr]], (of_rows [ex_photon 0 0 (V3 0 1 0) energy2wave 1]), (of_rows [ph']), ph'.
  assert (W : forall p, geometry p = Some id4 -> (forall m minv, p <> PBrewster m minv) -> well_made p). { intros p G B. split; [intros m E; assert (m = id4) as -> by congruence; exact id4_axes|]. split; [intros m minv E; now destruct (B m minv)|]. intros m minv a b ->. discriminate. }
  split; [constructor; [apply W; [reflexivity|discriminate]|constructor; [apply W; [reflexivity|discriminate]|constructor]]|]. split; [apply of_rows_rect|]. split; [rewrite rows_of_rows; constructor; [apply ex_physical; lra|constructor]|].
  split; [|rewrite rows_of_rows; now repeat split].
  cbn [run hd tl]. rewrite process_each by (unfold hits_of; cbn [filter]; now rewrite M). cbn [each_row]. rewrite M, H. cbn [bind].
  assert (M' : draws_for (PDetector id4) ph' = false) by (unfold draws_for, surface; now rewrite nan_misses by exact D).
  rewrite process_each by (unfold hits_of; cbn [filter]; now rewrite M'). cbn [each_row]. rewrite M'. rewrite nan_one by (try exact D; discriminate). reflexivity.
Qed.
Print Assumptions C211_probability_refuted.
