(** C223: two mirrors as polarizer and analyzer.  C224: two gratings.  C225: global filters can be anywhere. *)
From Verif Require Import Chain_Model.
From Verif Require Import Base_Proofs Vec_Proofs Coords_Proofs Rot_Proofs Plane_Proofs Lens_Proofs Grating_Proofs Brewster_Proofs Instrument_Proofs Instrument_Proofs2 Layers_Proofs Chain_Proofs Instrument_Props.
From Verif Require Import Chain_Model.
Open Scope R_scope.
Open Scope list_scope.

(** ** C223 *)
(** Law of Malus: a second mirror reflects the square of the cosine of the angle between the two planes of incidence. *)
Theorem C223_malus : forall m1 i1 m2 i2 dr1 dr2 ph ph1 d q loc d1 q1 loc1 v f n1 n2, well_made (PBrewster m1 i1) -> well_made (PBrewster m2 i2) -> polarizer dr1 -> polarizer dr2 ->
  meets m1 ph = Some (d, q, loc) -> dot3 d d = 1 -> l_pol ph = Some v -> dot3 v v <= 1 -> l_prob ph = Some f -> incidence m1 d n1 -> dot3 v n1 <> 0 ->
  one (PBrewster m1 i1) dr1 ph = Ok ph1 -> meets m2 ph1 = Some (d1, q1, loc1) -> incidence m2 d1 n2 ->
  exists ph2, through [PBrewster m1 i1; PBrewster m2 i2] [dr1; dr2] ph = Ok ph2 /\
    l_prob ph2 = Some (f * (dot3 v n1 * dot3 v n1) * (dot3 n1 n2 * dot3 n1 n2)) /\ (dot3 n1 n2 <> 0 -> l_pol ph2 = Some (neg3 n2)).
Proof.
  intros m1 i1 m2 i2 dr1 dr2 ph ph1 d q loc d1 q1 loc1 v f n1 n2 W1 W2 P1 P2 M U V VV F I NZ O M2 I2.
  pose proof (mirror_one m1 i1 dr1 ph d q loc v f n1 W1 P1 M U I V VV F) as E. rewrite (proj2 (Reqb_false _ _) NZ) in E. rewrite O in E. assert (SI : forall x y : lphoton, Ok x = Ok y -> x = y) by congruence. apply SI in E. subst ph1.
  destruct (proj1 (meets_iff m2 _ d1 q1 loc1 (proj1 W2 _ eq_refl)) M2) as (D & _). cbn [l_dir] in D. assert (mirrored m1 d = d1) as <- by congruence.
  assert (U1 : dot3 (mirrored m1 d) (mirrored m1 d) = 1) by (rewrite (mirrored_unit m1 d (proj1 W1 _ eq_refl)); exact U).
  destruct (unit3_spec _ _ I) as (_ & _ & N1 & _). assert (NN : dot3 (neg3 n1) (neg3 n1) <= 1) by (rewrite neg_dot, dot_neg_r; lra).
  eexists. split; [cbn [through hd tl]; rewrite O; cbn [bind]; rewrite (mirror_one m2 i2 dr2 _ _ q1 loc1 _ _ n2 W2 P2 M2 U1 I2 eq_refl NN eq_refl); reflexivity|].
  cbn [l_prob l_pol]. rewrite neg_dot. split; [f_equal; ring|]. intros Z. rewrite (proj2 (Reqb_false _ _)); [reflexivity|lra].
Qed.
Print Assumptions C223_malus.
(** So crossed mirrors block all light, *)
Theorem C223_crossed : forall m1 i1 m2 i2 dr1 dr2 ph ph1 d q loc d1 q1 loc1 v f n1 n2, well_made (PBrewster m1 i1) -> well_made (PBrewster m2 i2) -> polarizer dr1 -> polarizer dr2 ->
  meets m1 ph = Some (d, q, loc) -> dot3 d d = 1 -> l_pol ph = Some v -> dot3 v v <= 1 -> l_prob ph = Some f -> incidence m1 d n1 -> dot3 v n1 <> 0 ->
  one (PBrewster m1 i1) dr1 ph = Ok ph1 -> meets m2 ph1 = Some (d1, q1, loc1) -> incidence m2 d1 n2 -> dot3 n1 n2 = 0 ->
  exists ph2, through [PBrewster m1 i1; PBrewster m2 i2] [dr1; dr2] ph = Ok ph2 /\ l_prob ph2 = Some 0.
Proof.
  intros m1 i1 m2 i2 dr1 dr2 ph ph1 d q loc d1 q1 loc1 v f n1 n2 W1 W2 P1 P2 M U V VV F I NZ O M2 I2 Z.
  destruct (C223_malus m1 i1 m2 i2 dr1 dr2 ph ph1 d q loc d1 q1 loc1 v f n1 n2 W1 W2 P1 P2 M U V VV F I NZ O M2 I2) as (ph2 & E & P & _). exists ph2. split; [exact E|]. rewrite P, Z. f_equal. ring.
Qed.
Print Assumptions C223_crossed.
(** and a second mirror that is parallel to the first changes nothing in the intensity and restores the direction. *)
Theorem C223_parallel : forall m1 i1 m2 i2 k dr1 dr2 ph ph1 d q loc d1 q1 loc1 v f n1, well_made (PBrewster m1 i1) -> well_made (PBrewster m2 i2) -> polarizer dr1 -> polarizer dr2 ->
  k <> 0 -> xyz (v_x m2) = scale3 k (xyz (v_x m1)) ->
  meets m1 ph = Some (d, q, loc) -> dot3 d d = 1 -> l_pol ph = Some v -> dot3 v v <= 1 -> l_prob ph = Some f -> incidence m1 d n1 -> dot3 v n1 <> 0 ->
  one (PBrewster m1 i1) dr1 ph = Ok ph1 -> meets m2 ph1 = Some (d1, q1, loc1) ->
  exists ph2, through [PBrewster m1 i1; PBrewster m2 i2] [dr1; dr2] ph = Ok ph2 /\ l_prob ph2 = l_prob ph1 /\ l_dir ph2 = l_dir ph.
Proof.
  intros m1 i1 m2 i2 k dr1 dr2 ph ph1 d q loc d1 q1 loc1 v f n1 W1 W2 P1 P2 K X M U V VV F I NZ O M2.
  pose proof (mirror_one m1 i1 dr1 ph d q loc v f n1 W1 P1 M U I V VV F) as E. rewrite (proj2 (Reqb_false _ _) NZ) in E. rewrite O in E. assert (SI : forall x y : lphoton, Ok x = Ok y -> x = y) by congruence. apply SI in E.
  pose proof (proj1 W1 _ eq_refl) as A1. pose proof (proj1 W2 _ eq_refl) as A2.
  destruct (proj1 (meets_iff m2 _ d1 q1 loc1 A2) M2) as (D & _). assert (D1 : d1 = mirrored m1 d) by (subst ph1; cbn [l_dir] in D; congruence).
  destruct (unit3_spec _ _ I) as (_ & _ & N1 & _).
  assert (I2 : exists n2, incidence m2 d1 n2 /\ dot3 n1 n2 * dot3 n1 n2 = 1).
  { unfold incidence in *. assert (C : cross3 d1 (xyz (v_x m2)) = scale3 k (cross3 d (xyz (v_x m1)))).
    { rewrite D1, X. unfold mirrored, nrm. cbv zeta. generalize (/ norm3 (xyz (v_x m1))) (xyz (v_x m1)). clear. vring. }
    rewrite C. destruct (Rtotal_order k 0) as [H|[H|H]]; [|contradiction|].
    - exists (neg3 n1). replace (scale3 k (cross3 d (xyz (v_x m1)))) with (neg3 (scale3 (- k) (cross3 d (xyz (v_x m1))))) by (clear; vring). rewrite unit3_neg, unit3_scale, I by lra. split; [reflexivity|]. rewrite dot_neg_r, N1. ring.
    - exists n1. rewrite unit3_scale, I by lra. split; [reflexivity|]. rewrite N1. ring. }
  destruct I2 as (n2 & I2 & NN). destruct (C223_malus m1 i1 m2 i2 dr1 dr2 ph ph1 d q loc d1 q1 loc1 v f n1 n2 W1 W2 P1 P2 M U V VV F I NZ O M2 I2) as (ph2 & T & P & _). exists ph2. split; [exact T|]. split.
  - rewrite P, NN. subst ph1. cbn [l_prob]. f_equal. ring.
  - destruct (proj1 (meets_iff m1 _ d q loc A1) M) as (D0 & _). rewrite D0. cbn [through hd tl] in T. rewrite O in T. cbn [bind] in T.
    assert (U1 : dot3 d1 d1 = 1) by (rewrite D1, (mirrored_unit m1 d A1); exact U). assert (NG : dot3 (neg3 n1) (neg3 n1) <= 1) by (rewrite neg_dot, dot_neg_r; lra).
    rewrite (mirror_one m2 i2 dr2 ph1 d1 q1 loc1 (neg3 n1) (f * (dot3 v n1 * dot3 v n1)) n2 W2 P2 M2 U1 I2) in T by (subst ph1; try reflexivity; exact NG). cbn [bind] in T. apply SI in T. rewrite <- T. cbn [l_dir]. f_equal. rewrite D1. exact (mirrored_parallel m1 m2 k d A1 K X).
Qed.
Print Assumptions C223_parallel.
(** But light that is blocked completely has no polarization, and the probability 0 is nan, no longer 0, after the next mirror. *)
Theorem C223_blocked_refuted : forall m1 i1 m2 i2 dr1 dr2 ph ph1 d q loc d1 q1 loc1 v f n1, well_made (PBrewster m1 i1) -> well_made (PBrewster m2 i2) -> polarizer dr1 ->
  meets m1 ph = Some (d, q, loc) -> dot3 d d = 1 -> l_pol ph = Some v -> dot3 v v <= 1 -> l_prob ph = Some f -> incidence m1 d n1 -> dot3 v n1 = 0 ->
  one (PBrewster m1 i1) dr1 ph = Ok ph1 -> meets m2 ph1 = Some (d1, q1, loc1) ->
  l_prob ph1 = Some 0 /\ exists ph2, through [PBrewster m1 i1; PBrewster m2 i2] [dr1; dr2] ph = Ok ph2 /\ l_prob ph2 = None.
Proof.
  intros m1 i1 m2 i2 dr1 dr2 ph ph1 d q loc d1 q1 loc1 v f n1 W1 W2 P1 M U V VV F I Z O M2.
  pose proof (mirror_one m1 i1 dr1 ph d q loc v f n1 W1 P1 M U I V VV F) as E. rewrite (proj2 (Reqb_true _ _) Z) in E. rewrite O in E. assert (SI : forall x y : lphoton, Ok x = Ok y -> x = y) by congruence. apply SI in E.
  destruct (proj1 (meets_iff m2 _ d1 q1 loc1 (proj1 W2 _ eq_refl)) M2) as (D & _). assert (D1 : d1 = mirrored m1 d) by (subst ph1; cbn [l_dir] in D; congruence).
  split; [subst ph1; cbn [l_prob]; rewrite Z; f_equal; ring|]. assert (U1 : dot3 d1 d1 = 1) by (rewrite D1, (mirrored_unit m1 d (proj1 W1 _ eq_refl)); exact U).
  eexists. split; [cbn [through hd tl]; rewrite O; cbn [bind]; rewrite (mirror_nan m2 i2 dr2 ph1 d1 q1 loc1 W2 M2 U1) by (subst ph1; reflexivity); reflexivity|reflexivity].
Qed.
Print Assumptions C223_blocked_refuted.
(** two mirrors at 45 degrees, parallel to each other or crossed *)
Definition ex_m1 : m4 := M4 (V4 1 1 0 0) (V4 (-1) 1 0 0) (V4 0 0 1 0) (V4 0 0 0 1).
Definition ex_i1 : m4 := M4 (V4 (1 / 2) (- (1 / 2)) 0 0) (V4 (1 / 2) (1 / 2) 0 0) (V4 0 0 1 0) (V4 0 0 0 1).
Definition ex_m2 : m4 := M4 (V4 1 1 0 0) (V4 (-1) 1 0 0) (V4 0 0 1 0) (V4 0 2 0 1).
Definition ex_i2 : m4 := M4 (V4 (1 / 2) (- (1 / 2)) 0 0) (V4 (1 / 2) (1 / 2) 0 0) (V4 0 0 1 0) (V4 (-1) (-1) 0 1).
Definition ex_m3 : m4 := M4 (V4 0 1 1 0) (V4 0 (-1) 1 0) (V4 1 0 0 0) (V4 0 2 0 1).
Definition ex_i3 : m4 := M4 (V4 0 0 1 0) (V4 (1 / 2) (- (1 / 2)) 0 0) (V4 (1 / 2) (1 / 2) 0 0) (V4 (-1) 1 0 1).
Lemma ex_mirrors : well_made (PBrewster ex_m1 ex_i1) /\ well_made (PBrewster ex_m2 ex_i2) /\ well_made (PBrewster ex_m3 ex_i3).
Proof.
  assert (K : forall m i, perpendicular_axes m -> mul4 i m = id4 -> well_made (PBrewster m i)).
  { intros m i P E. split; [intros m' H; cbn in H; congruence|split; [intros m' i' H; congruence|discriminate]]. }
  assert (NE : forall v : v3, x3 v + 3 * y3 v + 2 * z3 v <> 0 -> v <> zero3) by (intros v H E; subst v; apply H; cbn; ring).
  assert (AX : forall m, affine m -> (forall v, In v [v_x m; v_y m; v_z m] -> x4 v + 3 * y4 v + 2 * z4 v <> 0) -> dot3 (xyz (v_x m)) (xyz (v_y m)) = 0 -> dot3 (xyz (v_x m)) (xyz (v_z m)) = 0 -> dot3 (xyz (v_y m)) (xyz (v_z m)) = 0 -> perpendicular_axes m).
  { intros m A N B C D. split; [exact A|]. split; [|split; [|split; [|now split]]]; apply NE; [apply (N (v_x m))|apply (N (v_y m))|apply (N (v_z m))]; cbn; tauto. }
  split; [|split]; apply K.
  all: try (apply AX; [repeat split|intros v [<-|[<-|[<-|[]]]]; cbn; lra|vu; cbn; ring|vu; cbn; ring|vu; cbn; ring]).
  all: unfold mul4, id4, app4, add4, scale4; cbn; f_equal; f_equal; field.
Qed.
Lemma ex_m1_meets pol : meets ex_m1 (ex_photon 0 0 pol 1 1) = Some (V3 (-1) 0 0, V3 0 0 0, (0 * norm3 (xyz (v_y ex_m1)), 0 * norm3 (xyz (v_z ex_m1)))).
Proof.
  apply meets_iff; [exact (proj1 (proj1 ex_mirrors) _ eq_refl)|]. split; [reflexivity|]. split; [vu; cbn; lra|]. exists (V3 2 0 0), 2, 0, 0. split; [reflexivity|]. split; [lra|]. split; [vu; cbn; f_equal; ring|]. split; [|reflexivity].
  unfold in_rectangle. split; [lra|]. split; [lra|]. vu. cbn. f_equal; ring.
Qed.
Lemma ex_m1_mirrored : mirrored ex_m1 (V3 (-1) 0 0) = V3 0 1 0.
Proof.
  unfold mirrored, nrm. cbv zeta. assert (N : norm3 (xyz (v_x ex_m1)) * norm3 (xyz (v_x ex_m1)) = 2). { unfold norm3. rewrite sqrt_sqrt; vu; cbn; lra. }
  rewrite dot3_scale_r, scale_scale3. set (k := / norm3 _). assert (K : k * k = / 2). { unfold k. rewrite <- Rinv_mult. now rewrite N. }
  replace (2 * (k * dot3 (V3 (-1) 0 0) (xyz (v_x ex_m1))) * k) with (-1); [vu; cbn; f_equal; ring|]. transitivity (2 * (k * k) * dot3 (V3 (-1) 0 0) (xyz (v_x ex_m1))); [rewrite K; vu; cbn; field|ring].
Qed.
Lemma ex_inc1 : incidence ex_m1 (V3 (-1) 0 0) (V3 0 0 (-1)).
Proof. unfold incidence. replace (cross3 _ _) with (V3 0 0 (-1)) by (vu; cbn; f_equal; ring). apply unit3_of_unit. vu. ring. Qed.
Lemma ex_after m pol e f : (m = ex_m2 \/ m = ex_m3) -> exists loc, meets m (LPhoton (Some (V3 0 1 0)) (Some (V3 0 0 0)) pol e f) = Some (V3 0 1 0, V3 0 2 0, loc).
Proof.
  intros H. assert (P : perpendicular_axes m) by (destruct H as [-> | ->]; [exact (proj1 (proj1 (proj2 ex_mirrors)) _ eq_refl)|exact (proj1 (proj2 (proj2 ex_mirrors)) _ eq_refl)]).
  exists (0 * norm3 (xyz (v_y m)), 0 * norm3 (xyz (v_z m))). apply meets_iff; [exact P|]. split; [reflexivity|]. split; [destruct H as [-> | ->]; vu; cbn; lra|].
  exists (V3 0 0 0), 2, 0, 0. split; [reflexivity|]. split; [lra|]. split; [vu; cbn; f_equal; ring|]. split; [|reflexivity]. unfold in_rectangle. split; [lra|]. split; [lra|]. destruct H as [-> | ->]; vu; cbn; f_equal; ring.
Qed.
Example C223_example : let dr := Draw 0 0 0 0 0 1 0 in
  (exists ph2, through [PBrewster ex_m1 ex_i1; PBrewster ex_m2 ex_i2] [dr; dr] (ex_photon 0 0 (V3 0 0 1) 1 1) = Ok ph2 /\ l_prob ph2 = Some (1 * (dot3 (V3 0 0 1) (V3 0 0 (-1)) * dot3 (V3 0 0 1) (V3 0 0 (-1)))) /\ l_dir ph2 = Some (V3 (-1) 0 0)) /\
  (exists ph2, through [PBrewster ex_m1 ex_i1; PBrewster ex_m3 ex_i3] [dr; dr] (ex_photon 0 0 (V3 0 0 1) 1 1) = Ok ph2 /\ l_prob ph2 = Some 0) /\
  (exists ph2, through [PBrewster ex_m1 ex_i1; PBrewster ex_m2 ex_i2] [dr; dr] (ex_photon 0 0 (V3 0 1 0) 1 1) = Ok ph2 /\ l_prob ph2 = None).
Proof.
  intros dr. destruct ex_mirrors as (W1 & W2 & W3). assert (P : polarizer dr) by (split; reflexivity). assert (U : dot3 (V3 (-1) 0 0) (V3 (-1) 0 0) = 1) by (vu; ring).
  assert (NZ : dot3 (V3 0 0 1) (V3 0 0 (-1)) <> 0) by (vu; lra).
  pose proof (mirror_one ex_m1 ex_i1 dr (ex_photon 0 0 (V3 0 0 1) 1 1) _ _ _ _ 1 _ W1 P (ex_m1_meets _) U ex_inc1 eq_refl ltac:(vu; lra) eq_refl) as O. rewrite (proj2 (Reqb_false _ _) NZ), ex_m1_mirrored in O.
  split; [|split].
  - destruct (ex_after ex_m2 (Some (neg3 (V3 0 0 (-1)))) 1 (Some (1 * (dot3 (V3 0 0 1) (V3 0 0 (-1)) * dot3 (V3 0 0 1) (V3 0 0 (-1))))) (or_introl eq_refl)) as [loc M].
    destruct (C223_parallel ex_m1 ex_i1 ex_m2 ex_i2 1 dr dr _ _ _ _ _ _ _ _ (V3 0 0 1) 1 _ W1 W2 P P R1_neq_R0 ltac:(vu; cbn; f_equal; ring) (ex_m1_meets _) U eq_refl ltac:(vu; lra) eq_refl ex_inc1 NZ O M) as (ph2 & T & A & B). exists ph2. split; [exact T|]. split; [exact A|exact B].
  - destruct (ex_after ex_m3 (Some (neg3 (V3 0 0 (-1)))) 1 (Some (1 * (dot3 (V3 0 0 1) (V3 0 0 (-1)) * dot3 (V3 0 0 1) (V3 0 0 (-1))))) (or_intror eq_refl)) as [loc M].
    apply (C223_crossed ex_m1 ex_i1 ex_m3 ex_i3 dr dr _ _ _ _ _ _ _ _ (V3 0 0 1) 1 _ (V3 1 0 0) W1 W3 P P (ex_m1_meets _) U eq_refl ltac:(vu; lra) eq_refl ex_inc1 NZ O M); [|vu; ring].
    unfold incidence. replace (cross3 _ _) with (V3 1 0 0) by (vu; cbn; f_equal; ring). apply unit3_of_unit. vu. ring.
  - assert (Z : dot3 (V3 0 1 0) (V3 0 0 (-1)) = 0) by (vu; ring). clear O.
    pose proof (mirror_one ex_m1 ex_i1 dr (ex_photon 0 0 (V3 0 1 0) 1 1) _ _ _ _ 1 _ W1 P (ex_m1_meets _) U ex_inc1 eq_refl ltac:(vu; lra) eq_refl) as O. rewrite (proj2 (Reqb_true _ _) Z), ex_m1_mirrored in O.
    destruct (ex_after ex_m2 None 1 (Some (1 * (dot3 (V3 0 1 0) (V3 0 0 (-1)) * dot3 (V3 0 1 0) (V3 0 0 (-1))))) (or_introl eq_refl)) as [loc M].
    exact (proj2 (C223_blocked_refuted ex_m1 ex_i1 ex_m2 ex_i2 dr dr _ _ _ _ _ _ _ _ (V3 0 1 0) 1 _ W1 W2 P (ex_m1_meets _) U eq_refl ltac:(vu; lra) eq_refl ex_inc1 Z O M)).
Qed.

(** ** C224 *)
Lemma grating_one c tr m g per dr ph ph1 d q loc : perpendicular_axes m -> meets m ph = Some (d, q, loc) -> one (PGrating c tr m g (fun _ => per)) dr ph = Ok ph1 ->
  l_dir ph1 = option_map fst (grating c tr m g d (dr_order dr) (energy2wave / l_energy ph) per) /\ l_energy ph1 = l_energy ph.
Proof.
  intros P M O. cbn [one surface] in O. rewrite M in O. cbn [effect bind] in O. destruct (bad_factor _); [discriminate|]. assert (SI : forall x y : lphoton, Ok x = Ok y -> x = y) by congruence. apply SI in O. subst ph1. cbn [l_dir l_energy fst snd].
  split; [|reflexivity]. now destruct (option_map fst (grating c tr m g d (dr_order dr) (energy2wave / l_energy ph) per)).
Qed.
Lemma bases_normal m m' v : same_bases m m' -> dot3 v (xyz (v_x m')) <> 0 -> dot3 v (xyz (v_x m)) <> 0.
Proof. intros (a & b & c & _ & _ & _ & X & _) N E. apply N. rewrite X, dot3_scale_r, E. ring. Qed.
(** Two gratings with the same grooves and the same orientation: the orders add up. Two reflections are one transmission, as for mirrors. *)
Theorem C224_add : forall tr1 tr2 m m' g per dr1 dr2 ph ph1 ph2 d q loc d1 q1 loc1, perpendicular_axes m -> perpendicular_axes m' -> same_bases m m' ->
  meets m ph = Some (d, q, loc) -> dot3 d d = 1 -> one (PGrating FlatSign tr1 m g (fun _ => per)) dr1 ph = Ok ph1 ->
  meets m' ph1 = Some (d1, q1, loc1) -> one (PGrating FlatSign tr2 m' g (fun _ => per)) dr2 ph1 = Ok ph2 ->
  l_dir ph2 = option_map fst (grating FlatSign (Bool.eqb tr1 tr2) m g d (dr_order dr1 + dr_order dr2) (energy2wave / l_energy ph) per).
Proof.
  intros tr1 tr2 m m' g per dr1 dr2 ph ph1 ph2 d q loc d1 q1 loc1 P P' S M U O1 M1 O2.
  destruct (grating_one _ _ m g per dr1 ph ph1 d q loc P M O1) as [D1 E1]. destruct (grating_one _ _ m' g per dr2 ph1 ph2 d1 q1 loc1 P' M1 O2) as [D2 E2].
  destruct (proj1 (meets_iff m ph d q loc P) M) as (_ & N & _). destruct (proj1 (meets_iff m' ph1 d1 q1 loc1 P') M1) as (L & N1 & _). rewrite L in D1. rewrite D2, E1.
  exact (grating_two FlatSign tr1 tr2 m m' g d (dr_order dr1) (dr_order dr2) _ per d1 P P' S U N (eq_sym D1) (bases_normal m m' d1 S N1)).
Qed.
Print Assumptions C224_add.
(** So the opposite order undoes the diffraction. *)
Theorem C224_undo : forall m m' g per dr1 dr2 ph ph1 ph2 d q loc d1 q1 loc1, perpendicular_axes m -> perpendicular_axes m' -> same_bases m m' ->
  meets m ph = Some (d, q, loc) -> dot3 d d = 1 -> one (PGrating FlatSign true m g (fun _ => per)) dr1 ph = Ok ph1 ->
  meets m' ph1 = Some (d1, q1, loc1) -> one (PGrating FlatSign true m' g (fun _ => per)) dr2 ph1 = Ok ph2 -> dr_order dr2 = (- dr_order dr1)%Z ->
  l_dir ph2 = Some d.
Proof.
  intros m m' g per dr1 dr2 ph ph1 ph2 d q loc d1 q1 loc1 P P' S M U O1 M1 O2 E. rewrite (C224_add true true m m' g per dr1 dr2 ph ph1 ph2 d q loc d1 q1 loc1 P P' S M U O1 M1 O2), E, Z.add_opp_diag_r. cbn [Bool.eqb].
  destruct (proj1 (meets_iff m ph d q loc P) M) as (_ & N & _). assert (D : d <> zero3) by (intros ->; revert U; vu; lra).
  refine (proj1 (grating_zero FlatSign m g d _ per _ _ _ d P D (Bend_Proofs.plane_bases_val m P) (unit_scaled d U) _)). rewrite Coords_Proofs.xyz_hom. apply (dot_nrm d _ (proj1 (proj2 P))). exact N.
Qed.
Print Assumptions C224_undo.
(** Light that goes back along its path is diffracted to where it came from, in transmission and in reflection. *)
Theorem C224_reversed : forall tr m m' g p k w per o, perpendicular_axes m -> perpendicular_axes m' -> same_bases m m' -> dot3 p p = 1 -> dot3 p (xyz (v_x m)) <> 0 ->
  option_map fst (grating FlatSign tr m g p k w per) = Some o -> dot3 o (xyz (v_x m)) <> 0 -> option_map fst (grating FlatSign tr m' g (neg3 o) k w per) = Some (neg3 p).
Proof. exact grating_back. Qed.
Print Assumptions C224_reversed.
(** For CAT gratings the sign of the order depends on the side of the ray: orders add up only if the rays before both gratings are on the same side. *)
Theorem C224_cat_partial : forall tr1 tr2 m m' g per dr1 dr2 ph ph1 ph2 d q loc d1 q1 loc1, perpendicular_axes m -> perpendicular_axes m' -> same_bases m m' ->
  meets m ph = Some (d, q, loc) -> dot3 d d = 1 -> one (PGrating CATSign tr1 m g (fun _ => per)) dr1 ph = Ok ph1 ->
  meets m' ph1 = Some (d1, q1, loc1) -> one (PGrating CATSign tr2 m' g (fun _ => per)) dr2 ph1 = Ok ph2 ->
  let across := add3 (scale3 (cos g) (nrm (xyz (v_y m)))) (scale3 (sin g) (nrm (xyz (v_z m)))) in
  let total := if Bool.eqb (Rltb 0 (dot3 d across)) (Rltb 0 (dot3 d1 across)) then (dr_order dr1 + dr_order dr2)%Z else (dr_order dr1 - dr_order dr2)%Z in
  l_dir ph2 = option_map fst (grating CATSign (Bool.eqb tr1 tr2) m g d total (energy2wave / l_energy ph) per).
Proof.
  intros tr1 tr2 m m' g per dr1 dr2 ph ph1 ph2 d q loc d1 q1 loc1 P P' S M U O1 M1 O2 ac total.
  destruct (grating_one _ _ m g per dr1 ph ph1 d q loc P M O1) as [D1 E1]. destruct (grating_one _ _ m' g per dr2 ph1 ph2 d1 q1 loc1 P' M1 O2) as [D2 E2].
  destruct (proj1 (meets_iff m ph d q loc P) M) as (_ & N & _). destruct (proj1 (meets_iff m' ph1 d1 q1 loc1 P') M1) as (L & N1 & _). rewrite L in D1. rewrite D2, E1.
  pose proof (grating_two CATSign tr1 tr2 m m' g d (dr_order dr1) (dr_order dr2) _ per d1 P P' S U N (eq_sym D1) (bases_normal m m' d1 S N1)) as T. cbv zeta in T. rewrite T. f_equal. f_equal.
  unfold total. fold (across m g) in ac. change (across m g) with ac. destruct (Rltb 0 (dot3 d ac)), (Rltb 0 (dot3 d1 ac)); cbn [Bool.eqb]; lia.
Qed.
Print Assumptions C224_cat_partial.
Lemma id_nrm : nrm (V3 1 0 0) = V3 1 0 0 /\ nrm (V3 0 1 0) = V3 0 1 0 /\ nrm (V3 0 0 1) = V3 0 0 1.
Proof. split; [|split]; apply nrm_one; vu; ring. Qed.
Lemma id_across : across id4 0 = V3 0 1 0.
Proof. unfold across. change (xyz (v_y id4)) with (V3 0 1 0). change (xyz (v_z id4)) with (V3 0 0 1). destruct id_nrm as (_ & -> & ->). rewrite cos_0, sin_0. vu. f_equal; ring. Qed.
Lemma cat_id k : (IZR k / 4) * (IZR k / 4) <= 1 -> exists o, option_map fst (grating CATSign true id4 0 (V3 (-1) 0 0) k 1 4) = Some o /\ dot3 o (V3 0 1 0) = - (IZR k / 4) /\ dot3 o (V3 1 0 0) = - sqrt (1 - (IZR k / 4) * (IZR k / 4)).
Proof.
  intros K. assert (U : dot3 (V3 (-1) 0 0) (V3 (-1) 0 0) = 1) by (vu; ring). destruct (grating_dln CATSign true id4 0 (V3 (-1) 0 0) k 1 4 id4_axes U) as [O E]. rewrite E. cbv zeta in O.
  rewrite id_across in *. change (xyz (v_x id4)) with (V3 1 0 0) in *. change (xyz (v_y id4)) with (V3 0 1 0) in *. change (xyz (v_z id4)) with (V3 0 0 1) in *. destruct id_nrm as (X & Y & Z). rewrite X, Y, Z in *.
  assert (L : e_groove (V3 0 1 0) (V3 0 0 1) 0 = V3 0 0 1) by (unfold e_groove; rewrite Ropp_0, cos_0, sin_0; vu; f_equal; ring). rewrite L in *.
  assert (Q : exists o, diffract_dln CATSign true (neg3 (V3 0 1 0)) (V3 0 0 1) (V3 1 0 0) (V3 (-1) 0 0) k 1 4 = Some o).
  { unfold diffract_dln. cbv zeta. rewrite (order_sign_side _ _ CATSign). unfold side. assert (D : dot3 (V3 (-1) 0 0) (neg3 (V3 0 1 0)) = 0) by (vu; ring). rewrite D, (proj2 (Rltb_false 0 0)) by lra.
    rewrite (proj2 (Rltb_false _ 0)); [eauto|]. replace (dot3 (V3 (-1) 0 0) (V3 0 0 1)) with 0 by (vu; ring). replace (0 + 1 * IZR k * 1 / 4) with (IZR k / 4) by field. lra. }
  destruct Q as [o Q]. exists o. split; [exact Q|]. assert (N : dot3 (V3 (-1) 0 0) (V3 1 0 0) <> 0) by (vu; lra). destruct (diffract_components _ _ _ (V3 (-1) 0 0) O CATSign true k 1 4 o Q N) as (A & B & _ & C).
  rewrite (order_sign_side _ _ CATSign) in B. unfold side in B. assert (D : dot3 (V3 (-1) 0 0) (neg3 (V3 0 1 0)) = 0) by (vu; ring). rewrite D, (proj2 (Rltb_false 0 0)) in B by lra. rewrite dot_neg_r in B, C. split; [lra|].
  rewrite C. replace (dot3 (V3 (-1) 0 0) (V3 0 0 1)) with 0 by (vu; ring). assert (BB : - dot3 o (V3 0 1 0) = IZR k / 4) by (rewrite B; field). rewrite BB. unfold Rsign. replace (dot3 (V3 (-1) 0 0) (V3 1 0 0)) with (-1) by (vu; ring).
  rewrite (proj2 (Rltb_false 0 (-1))), (proj2 (Rltb_true (-1) 0)) by lra. replace (1 - IZR k / 4 * (IZR k / 4) - 0 * 0) with (1 - IZR k / 4 * (IZR k / 4)) by ring. ring.
Qed.
(** Otherwise the orders are subtracted: order 1 after order -1 does not undo it. *)
Theorem C224_cat_refuted : exists o1 o2, option_map fst (grating CATSign true id4 0 (V3 (-1) 0 0) (-1) 1 4) = Some o1 /\ option_map fst (grating CATSign true id4 0 o1 1 1 4) = Some o2 /\
  dot3 o2 (V3 0 1 0) = 1 / 2 /\ option_map fst (grating CATSign true id4 0 (V3 (-1) 0 0) (-1 + 1) 1 4) = Some (V3 (-1) 0 0).
Proof.
  destruct (cat_id (-1)%Z) as (o1 & E1 & Y1 & X1); [cbn; lra|]. destruct (cat_id (-2)%Z) as (o2 & E2 & Y2 & X2); [cbn; lra|]. exists o1, o2. split; [exact E1|].
  assert (U : dot3 (V3 (-1) 0 0) (V3 (-1) 0 0) = 1) by (vu; ring). assert (S : same_bases id4 id4). { exists 1, 1, 1. repeat split; try lra; symmetry; apply scale3_1. }
  assert (N1 : dot3 o1 (xyz (v_x id4)) <> 0). { change (xyz (v_x id4)) with (V3 1 0 0). rewrite X1. intros H. assert (H' : sqrt (1 - IZR (-1) / 4 * (IZR (-1) / 4)) = 0) by lra. apply sqrt_eq_0 in H'; lra. }
  assert (N : dot3 (V3 (-1) 0 0) (xyz (v_x id4)) <> 0) by (vu; cbn; lra).
  pose proof (grating_two CATSign true true id4 id4 0 (V3 (-1) 0 0) (-1) 1 1 4 o1 id4_axes id4_axes S U N E1 N1) as T. cbv zeta in T. rewrite id_across in T. replace (dot3 (V3 (-1) 0 0) (V3 0 1 0)) with 0 in T by (vu; ring).
  rewrite Y1, (proj2 (Rltb_false 0 0)), (proj2 (Rltb_true 0 (- (IZR (-1) / 4)))) in T by (cbn; lra). cbn [Z.mul Z.add Pos.mul Pos.add Bool.eqb] in T. split; [rewrite T; exact E2|]. split; [rewrite Y2; cbn; lra|].
  cbn [Z.add Z.pos_sub]. assert (D : V3 (-1) 0 0 <> zero3) by (intros H; apply (f_equal x3) in H; cbn in H; lra).
  refine (proj1 (grating_zero CATSign id4 0 (V3 (-1) 0 0) 1 4 _ _ _ _ id4_axes D (Bend_Proofs.plane_bases_val id4 id4_axes) (unit_scaled _ U) _)). rewrite Coords_Proofs.xyz_hom. apply (dot_nrm _ _ (proj1 (proj2 id4_axes))). exact N.
Qed.
Print Assumptions C224_cat_refuted.
Lemma flat_id w per : w / per = 1 / 4 -> option_map fst (grating FlatSign true id4 0 (V3 (-1) 0 0) 1 w per) = Some (V3 (- sqrt (15 / 16)) (1 / 4) 0).
Proof.
  intros W. assert (U : dot3 (V3 (-1) 0 0) (V3 (-1) 0 0) = 1) by (vu; ring). destruct (grating_dln FlatSign true id4 0 (V3 (-1) 0 0) 1 w per id4_axes U) as [O E]. rewrite E. cbv zeta in O.
  rewrite id_across in *. change (xyz (v_x id4)) with (V3 1 0 0) in *. change (xyz (v_y id4)) with (V3 0 1 0) in *. change (xyz (v_z id4)) with (V3 0 0 1) in *. destruct id_nrm as (X & Y & Z). rewrite X, Y, Z in *.
  assert (L : e_groove (V3 0 1 0) (V3 0 0 1) 0 = V3 0 0 1) by (unfold e_groove; rewrite Ropp_0, cos_0, sin_0; vu; f_equal; ring). rewrite L in *.
  unfold diffract_dln. cbv zeta. cbn [order_sign]. replace (dot3 (V3 (-1) 0 0) (neg3 (V3 0 1 0))) with 0 by (vu; ring). replace (dot3 (V3 (-1) 0 0) (V3 0 0 1)) with 0 by (vu; ring). replace (dot3 (V3 (-1) 0 0) (V3 1 0 0)) with (-1) by (vu; ring).
  replace (0 + -1 * 1 * w / per) with (- (1 / 4)) by (transitivity (- (w / per)); [rewrite W; reflexivity|unfold Rdiv; ring]).
  replace (1 - - (1 / 4) * - (1 / 4) - 0 * 0) with (15 / 16) by field. rewrite (proj2 (Rltb_false (15 / 16) 0)) by lra. unfold Rsign. rewrite (proj2 (Rltb_false 0 (-1))), (proj2 (Rltb_true (-1) 0)) by lra. f_equal. vu. f_equal; ring.
Qed.
(** a second grating 2 mm behind the first *)
Definition ex_behind : m4 := M4 (V4 1 0 0 0) (V4 0 1 0 0) (V4 0 0 1 0) (V4 (-2) 0 0 1).
Example C224_example : let per := 4 * energy2wave in let g m := PGrating FlatSign true m 0 (fun _ => per) in
  exists ph1 ph2 loc, one (g id4) (Draw 1 1 0 0 0 0 0) (ex_photon 0 0 (V3 0 0 1) 1 1) = Ok ph1 /\ l_dir ph1 = Some (V3 (- sqrt (15 / 16)) (1 / 4) 0) /\ meets ex_behind ph1 = Some loc /\
    one (g ex_behind) (Draw (-1) 1 0 0 0 0 0) ph1 = Ok ph2 /\ l_dir ph2 = Some (V3 (-1) 0 0).
Proof.
  intros per g. assert (EW : energy2wave <> 0) by (unfold energy2wave; lra). assert (B : Rltb 1 0 || Rltb 1 1 = false) by (apply orb_false_iff; split; apply Rltb_false; lra).
  assert (M : meets id4 (ex_photon 0 0 (V3 0 0 1) 1 1) = Some (V3 (-1) 0 0, V3 0 0 0, (0, 0))) by (apply ex_meets; lra).
  assert (O : exists ph1, one (g id4) (Draw 1 1 0 0 0 0 0) (ex_photon 0 0 (V3 0 0 1) 1 1) = Ok ph1 /\ l_pos ph1 = Some (V3 0 0 0)).
  { unfold g. cbn [one surface]. rewrite M. cbn [effect bind snd fst bad_factor dr_p]. rewrite B. eexists. split; reflexivity. }
  destruct O as (ph1 & O & X). assert (D : l_dir ph1 = Some (V3 (- sqrt (15 / 16)) (1 / 4) 0)).
  { rewrite (proj1 (grating_one _ _ _ _ _ _ _ _ _ _ _ id4_axes M O)). cbn [dr_order]. apply flat_id. unfold per, ex_photon. cbn [l_energy]. field. exact EW. }
  assert (PB : perpendicular_axes ex_behind).
  { split; [repeat split|]. split; [intros H; apply (f_equal x3) in H; cbn in H; lra|]. split; [intros H; apply (f_equal y3) in H; cbn in H; lra|]. split; [intros H; apply (f_equal z3) in H; cbn in H; lra|]. repeat split; vu; cbn; ring. }
  assert (SB : same_bases id4 ex_behind) by (exists 1, 1, 1; repeat split; try lra; symmetry; apply scale3_1).
  set (s := sqrt (15 / 16)) in *. assert (S2 : s * s = 15 / 16) by (apply sqrt_sqrt; lra). assert (S0 : 0 <= s) by apply sqrt_pos. assert (S1 : 1 / 2 < s) by nra.
  assert (MB : exists q loc, meets ex_behind ph1 = Some (V3 (- s) (1 / 4) 0, q, loc)).
  { eexists. eexists. apply (meets_iff ex_behind ph1 _ _ _ PB). split; [exact D|]. split; [vu; cbn; lra|]. exists (V3 0 0 0), (2 / s), (1 / 2 / s), 0. split; [exact X|]. split; [left; apply Rdiv_lt_0_compat; lra|]. split; [reflexivity|]. split; [|reflexivity].
    assert (H : 0 < / s < 2) by (split; [apply Rinv_0_lt_compat; lra|replace 2 with (/ (1 / 2)) by field; apply Rinv_lt_contravar; lra]).
    unfold in_rectangle. split; [unfold Rdiv; lra|]. split; [lra|]. vu. cbn. f_equal; field; lra. }
  destruct MB as (q & loc & MB). assert (O2 : exists ph2, one (g ex_behind) (Draw (-1) 1 0 0 0 0 0) ph1 = Ok ph2).
  { unfold g. cbn [one surface]. rewrite MB. cbn [effect bind snd fst bad_factor dr_p]. rewrite B. eexists. reflexivity. }
  destruct O2 as (ph2 & O2). exists ph1, ph2. eexists. split; [exact O|]. split; [exact D|]. split; [exact MB|]. split; [exact O2|].
  refine (C224_undo id4 ex_behind 0 per _ _ _ ph1 ph2 _ _ _ _ _ _ id4_axes PB SB M _ O MB O2 eq_refl). vu. ring.
Qed.

(** ** C225 *)
(** A global filter can be anywhere in the instrument: the photons at the end are the same, and so are errors. *)
Theorem C225_photon : forall f p dr dr' ph, bind (one (PGlobal f) dr ph) (one p dr') = bind (one p dr' ph) (one (PGlobal f) dr).
Proof. exact global_swap. Qed.
Print Assumptions C225_photon.
Theorem C225_anywhere : forall f ps1 ps2 drs1 drs2 t, rectangular t -> length drs1 = length ps1 -> fits ps1 drs1 t ->
  run (ps1 ++ PGlobal f :: ps2) (drs1 ++ [] :: drs2) t = run (PGlobal f :: ps1 ++ ps2) ([] :: drs1 ++ drs2) t.
Proof. intros f ps1 ps2 drs1 drs2 t. apply run_swap. Qed.
Print Assumptions C225_anywhere.
(** This is not true for a filter with a place in the instrument. *)
Theorem C225_flat : exists f dr ph a b, bind (one (PFilter id4 f) dr ph) (one (PPropagate 5) dr) = Ok a /\ bind (one (PPropagate 5) dr ph) (one (PFilter id4 f) dr) = Ok b /\ l_prob a = Some (1 * (1 / 2)) /\ l_prob b = Some 1.
Proof.
  exists (fun _ => 1 / 2), dr0, (ex_photon 0 0 (V3 0 1 0) 1 1).
  assert (B : Rltb (1 / 2) 0 || Rltb 1 (1 / 2) = false) by (apply orb_false_iff; split; apply Rltb_false; lra).
  eexists. eexists. split; [cbn [one surface]; rewrite ex_meets by lra; cbn [effect]; rewrite B; cbn [bind snd fst bad_factor]; rewrite B; cbn [bind one]; reflexivity|]. split.
  - cbn [one bind surface ex_photon l_pos l_dir l_pol l_energy l_prob]. set (ph := LPhoton _ _ _ _ _). assert (M : meets id4 ph = None); [|rewrite M; reflexivity].
    destruct (meets id4 ph) as [[[d q] loc]|] eqn:E; [|reflexivity]. exfalso. apply (meets_iff id4 ph d q loc id4_axes) in E. destruct E as (D & _ & x & k & a & b & X & K & Q & (A & A' & I) & _). unfold ph in D, X. cbn [l_dir l_pos] in D, X.
    assert (SI : forall x y : v3, Some x = Some y -> x = y) by congruence. apply SI in D. apply SI in X. subst d x. rewrite I in Q. apply (f_equal x3) in Q. vu. cbn in Q. lra.
  - split; reflexivity.
Qed.
Print Assumptions C225_flat.
Example C225_example : exists t, run [ex_lens; PGlobal (fun _ => 1 / 2)] [[dr0]; []] (of_rows [ex_photon (1 / 2) 0 (V3 0 1 0) 1 1]) = Ok t /\ run [PGlobal (fun _ => 1 / 2); ex_lens] [[]; [dr0]] (of_rows [ex_photon (1 / 2) 0 (V3 0 1 0) 1 1]) = Ok t.
Proof.
  pose proof (C225_anywhere (fun _ => 1 / 2) [ex_lens] [] [[dr0]] [] (of_rows [ex_photon (1 / 2) 0 (V3 0 1 0) 1 1]) (of_rows_rect _) eq_refl) as S. cbn [app] in S.
  assert (H : length [dr0] = hits_of ex_lens [ex_photon (1 / 2) 0 (V3 0 1 0) 1 1]). { unfold hits_of, ex_lens. cbn [filter draws_for surface]. rewrite ex_meets by lra. reflexivity. }
  assert (F : fits [ex_lens] [[dr0]] (of_rows [ex_photon (1 / 2) 0 (V3 0 1 0) 1 1])) by (cbn [fits hd tl]; rewrite rows_of_rows; split; [exact H|trivial]).
  cut (exists t, run [ex_lens; PGlobal (fun _ => 1 / 2)] [[dr0]; []] (of_rows [ex_photon (1 / 2) 0 (V3 0 1 0) 1 1]) = Ok t). { intros [t T]. exists t. split; [exact T|]. rewrite <- (S F). exact T. }
  cbn [run hd tl]. rewrite (process_each ex_lens [dr0] _ H).
  destruct (ex_lens_one dr0 (1 / 2)) as (n & v & _ & O & _); [lra|]. cbn [each_row]. unfold ex_lens at 1 2. cbn [draws_for surface]. rewrite !ex_meets by lra. cbn [is_some]. fold ex_lens. rewrite O. cbn [bind]. rewrite process_each by (now rewrite no_hits). cbn [each_row draws_for surface one l_energy].
  assert (B : Rltb (1 / 2) 0 || Rltb 1 (1 / 2) = false) by (apply orb_false_iff; split; apply Rltb_false; lra). rewrite B. cbn [bind run]. eexists. reflexivity.
Qed.
