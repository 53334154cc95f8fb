(** Properties C41, C81. *)
From Verif Require Import Vec_Proofs Coords_Proofs Plane_Proofs Brewster_Proofs Lens_Proofs.
From Verif Require Import Qmatrix_Proofs.
Open Scope R_scope.

(** The mirror reflects: for a photon of direction [d] and surface normal [ex] (the normalized x axis of the element) the new direction is the mirror image,
    a unit vector, with only its component along [ex] flipped. *)
Theorem C41_reflection : forall m minv rs rp d pol r, perpendicular_axes m -> mul4 minv m = id4 -> d <> zero3 ->
  brewster m minv rs rp (hom d 0) pol = Ok r ->
  let ex := scale3 (/ norm3 (xyz (v_x m))) (xyz (v_x m)) in let u := scale3 (/ norm3 d) d in
  exists new, fst (fst r) = Some (hom new 0) /\ norm3 new = 1 /\ dot3 new ex = - dot3 u ex /\ forall v, dot3 v ex = 0 -> dot3 new v = dot3 u v.
Proof.
  intros m minv rs rp d pol r P I D H ex u.
  assert (X : dot3 ex ex = 1) by (apply nrm_unit, P). assert (U : dot3 u u = 1) by (now apply nrm_unit).
  rewrite (brewster_unfold m minv rs rp d pol P I D) in H. cbv zeta in H. fold (nrm d) in u. fold (nrm (xyz (v_x m))) in ex. fold ex u in H.
  exists (sub3 u (scale3 (2 * dot3 u ex) ex)). split.
  - destruct (unit3 (cross3 u ex)) as [vs|]; [destruct (Rltb _ _); [discriminate|]|]; injection H as <-; reflexivity.
  - split; [apply norm3_1; now rewrite mirror_norm|]. split; [now apply mirror_flip|]. intros v V. now apply mirror_dot.
Qed.
Print Assumptions C41_reflection.
(** Probability: the s component squared (rs = 1, rp = 0 of the class itself), in [0, 1]; the new polarization is perpendicular to the new direction. *)
Theorem C41_probability : forall m minv d pol, perpendicular_axes m -> mul4 minv m = id4 -> d <> zero3 -> dot3 (xyz pol) (xyz pol) <= 1 ->
  let ex := scale3 (/ norm3 (xyz (v_x m))) (xyz (v_x m)) in let u := scale3 (/ norm3 d) d in let new := sub3 u (scale3 (2 * dot3 u ex) ex) in
  cross3 u ex <> zero3 ->
  exists vs p q, unit3 (cross3 u ex) = Some vs /\ brewster m minv 1 0 (hom d 0) pol = Ok (Some (hom new 0), Some p, q) /\
    p = dot3 (xyz pol) vs * dot3 (xyz pol) vs /\ 0 <= p <= 1 /\ (0 < p -> q = Some (neg3 vs) /\ dot3 (neg3 vs) new = 0 /\ norm3 (neg3 vs) = 1).
Proof.
  intros m minv d pol P I D L ex u new N.
  destruct (brewster_main m minv 1 0 d pol P I D ltac:(lra) ltac:(lra) L N) as (vs & p & q & V & B & Ep & R & Q & S).
  exists vs, p, q. split; [exact V|]. split; [exact B|]. split; [rewrite Ep; ring|]. split; [exact R|]. intros Pos. pose proof (S eq_refl Pos) as E. split; [exact E|]. now apply Q.
Qed.
Print Assumptions C41_probability.
(** The same for general reflectivities of a derived class. *)
Theorem C41_general_fresnel : forall m minv rs rp d pol, perpendicular_axes m -> mul4 minv m = id4 -> d <> zero3 -> 0 <= rs <= 1 -> 0 <= rp <= 1 ->
  dot3 (xyz pol) (xyz pol) <= 1 ->
  let ex := scale3 (/ norm3 (xyz (v_x m))) (xyz (v_x m)) in let u := scale3 (/ norm3 d) d in let new := sub3 u (scale3 (2 * dot3 u ex) ex) in
  cross3 u ex <> zero3 ->
  exists vs p q, unit3 (cross3 u ex) = Some vs /\ brewster m minv rs rp (hom d 0) pol = Ok (Some (hom new 0), Some p, q) /\
    p = rs * (dot3 (xyz pol) vs * dot3 (xyz pol) vs) + rp * (dot3 (xyz pol) (cross3 u vs) * dot3 (xyz pol) (cross3 u vs)) /\ 0 <= p <= 1 /\
    (forall v, q = Some v -> dot3 v new = 0 /\ norm3 v = 1) /\
    (rp = 0 -> 0 < p -> q = Some (neg3 vs)).
Proof. exact brewster_main. Qed.
Print Assumptions C41_general_fresnel.
(** Normal incidence: no plane of incidence, probability and polarization are nan. *)
Theorem C41_normal_incidence_nan : forall m minv rs rp d pol, perpendicular_axes m -> mul4 minv m = id4 -> d <> zero3 ->
  let ex := scale3 (/ norm3 (xyz (v_x m))) (xyz (v_x m)) in let u := scale3 (/ norm3 d) d in cross3 u ex = zero3 ->
  brewster m minv rs rp (hom d 0) pol = Ok (Some (hom (sub3 u (scale3 (2 * dot3 u ex) ex)) 0), None, None).
Proof. exact brewster_normal. Qed.
Print Assumptions C41_normal_incidence_nan.

Lemma id_axes : perpendicular_axes id4.
Proof.
  unfold perpendicular_axes, affine. cbn. repeat split; try (intros H; first [apply (f_equal x3) in H; cbn in H; lra | apply (f_equal y3) in H; cbn in H; lra | apply (f_equal z3) in H; cbn in H; lra]); vu; ring.
Qed.
Lemma id_inv : mul4 id4 id4 = id4. Proof. vu. repeat f_equal; ring. Qed.
Definition d0 := V3 (- (3 / 5)) (4 / 5) 0.
Lemma d0_ne : d0 <> zero3. Proof. intros H. apply (f_equal y3) in H. cbn in H. lra. Qed.
Lemma d0_nrm : scale3 (/ norm3 d0) d0 = d0. Proof. apply nrm_one. unfold d0. vu. field. Qed.
Lemma ex_nrm : scale3 (/ norm3 (xyz (v_x id4))) (xyz (v_x id4)) = V3 1 0 0. Proof. unfold v_x. apply (nrm_one (V3 1 0 0)). vu. ring. Qed.
Lemma d0_cross : cross3 d0 (V3 1 0 0) = scale3 (4 / 5) (V3 0 0 (-1)). Proof. unfold d0. vu. f_equal; ring. Qed.
Lemma d0_vs : unit3 (cross3 d0 (V3 1 0 0)) = Some (V3 0 0 (-1)).
Proof. rewrite d0_cross, unit3_scale by lra. apply unit3_of_unit. vu. ring. Qed.
(** The relation of s and p components is not kept: for a mirror that reflects both components completely the amount of s polarization changes, because the new
    polarization vector is built from squared amplitudes. *)
Theorem C41_components_refuted :
  ~ (forall m minv d pol vs new p q, perpendicular_axes m -> mul4 minv m = id4 -> d <> zero3 -> norm3 (xyz pol) = 1 -> dot3 (xyz pol) d = 0 ->
       unit3 (cross3 (scale3 (/ norm3 d) d) (scale3 (/ norm3 (xyz (v_x m))) (xyz (v_x m)))) = Some vs ->
       brewster m minv 1 1 (hom d 0) pol = Ok (new, p, Some q) -> dot3 q vs * dot3 q vs = dot3 (xyz pol) vs * dot3 (xyz pol) vs).
Proof.
  intros H. pose (pol := V4 (- (16 / 25)) (- (12 / 25)) (- (3 / 5)) 0).
  pose proof (brewster_unfold id4 id4 1 1 d0 pol id_axes id_inv d0_ne) as B. cbv zeta in B. unfold nrm in B. rewrite d0_nrm, ex_nrm, d0_vs in B.
  assert (E1 : dot3 (xyz pol) (V3 0 0 (-1)) = 3 / 5) by (unfold pol; vu; field).
  assert (E2 : dot3 (xyz pol) (cross3 d0 (V3 0 0 (-1))) = 4 / 5) by (unfold pol, d0; vu; field).
  assert (E3 : cross3 (sub3 d0 (scale3 (2 * dot3 d0 (V3 1 0 0)) (V3 1 0 0))) (V3 0 0 (-1)) = V3 (- (4 / 5)) (3 / 5) 0) by (unfold d0; vu; f_equal; field).
  rewrite E1, E2, E3 in B. rewrite (proj2 (Rltb_false _ _)) in B by lra.
  assert (W : add3 (scale3 (- (1 * (3 / 5 * (3 / 5)))) (V3 0 0 (-1))) (scale3 (1 * (4 / 5 * (4 / 5))) (V3 (- (4 / 5)) (3 / 5) 0)) = V3 (- (64 / 125)) (48 / 125) (9 / 25)) by (vu; f_equal; field).
  rewrite W in B.
  assert (N : V3 (- (64 / 125)) (48 / 125) (9 / 25) <> zero3) by (intros Z; apply (f_equal y3) in Z; cbn in Z; lra).
  rewrite (unit3_some _ N) in B. set (w := V3 (- (64 / 125)) (48 / 125) (9 / 25)) in *.
  assert (P1 : norm3 (xyz pol) = 1) by (apply norm3_1; unfold pol; vu; field).
  assert (P2 : dot3 (xyz pol) d0 = 0) by (unfold pol, d0; vu; field).
  assert (VS : unit3 (cross3 (scale3 (/ norm3 d0) d0) (scale3 (/ norm3 (xyz (v_x id4))) (xyz (v_x id4)))) = Some (V3 0 0 (-1))) by (rewrite d0_nrm, ex_nrm; exact d0_vs).
  specialize (H id4 id4 d0 pol (V3 0 0 (-1)) _ _ _ id_axes id_inv d0_ne P1 P2 VS B). rewrite E1, !dot3_scale_l in H.
  pose proof (norm3_sqr w) as S. assert (Sw : dot3 w w = 337 / 625) by (unfold w; vu; field). rewrite Sw in S.
  assert (Dw : dot3 w (V3 0 0 (-1)) = - (9 / 25)) by (unfold w; vu; field). rewrite Dw in H.
  pose proof (norm3_pos w N) as Pos. assert (Ii : / norm3 w * / norm3 w * (337 / 625) = 1) by (rewrite <- S; field; lra). nra.
Qed.
Print Assumptions C41_components_refuted.
(** What the code does: the part of s polarization is s^4 rs^2 / (s^4 rs^2 + p^4 rp^2). With complete reflection it is kept exactly for pure s or p polarization and for equal parts. *)
Theorem C41_components_partial : forall m minv rs rp d pol vs new pr q, perpendicular_axes m -> mul4 minv m = id4 -> d <> zero3 ->
  let u := scale3 (/ norm3 d) d in unit3 (cross3 u (scale3 (/ norm3 (xyz (v_x m))) (xyz (v_x m)))) = Some vs ->
  brewster m minv rs rp (hom d 0) pol = Ok (new, pr, Some q) ->
  let s := dot3 (xyz pol) vs in let p := dot3 (xyz pol) (cross3 u vs) in
  (dot3 q vs)² * ((rs * s²)² + (rp * p²)²) = (rs * s²)² /\ 0 < (rs * s²)² + (rp * p²)² /\
  (rs = 1 -> rp = 1 -> dot3 (xyz pol) (xyz pol) = 1 -> dot3 (xyz pol) d = 0 -> (dot3 q vs)² = s² <-> s² = 0 \/ s² = 1 / 2 \/ s² = 1).
Proof.
  intros m minv rs rp d pol vs new pr q A I D u V B s p. set (ex := scale3 (/ norm3 (xyz (v_x m))) (xyz (v_x m))) in *. assert (X : dot3 ex ex = 1) by (apply nrm_unit, A). assert (U : dot3 u u = 1) by (now apply nrm_unit).
  pose proof (brewster_unfold m minv rs rp d pol A I D) as E. cbv zeta in E. unfold nrm in E. fold ex u in E. rewrite V, B in E. fold s p in E. destruct (Rltb _ _); [discriminate|].
  set (n := sub3 u (scale3 (2 * dot3 u ex) ex)) in *. set (w := add3 (scale3 (- (rs * (s * s))) vs) (scale3 (rp * (p * p)) (cross3 n vs))) in *. assert (Q : unit3 w = Some q) by congruence.
  destruct (unit3_spec _ _ V) as (_ & _ & Vs & VE). assert (N0 : norm3 (cross3 u ex) <> 0) by (intros Z; unfold unit3 in V; destruct (Req_EM_T (norm3 (cross3 u ex)) 0); [discriminate|contradiction]).
  assert (VX : vs = scale3 (/ norm3 (cross3 u ex)) (cross3 u ex)) by (unfold unit3 in V; destruct (Req_EM_T (norm3 (cross3 u ex)) 0); [discriminate|congruence]).
  assert (O1 : dot3 u vs = 0) by (rewrite VX, dot3_scale_r; replace (dot3 u (cross3 u ex)) with 0 by (clear; generalize u ex; vring); ring). assert (O2 : dot3 ex vs = 0) by (rewrite VX, dot3_scale_r; replace (dot3 ex (cross3 u ex)) with 0 by (clear; generalize u ex; vring); ring).
  assert (NV : dot3 n vs = 0) by (unfold n; rewrite dot3_sub_l, dot3_scale_l, O1, O2; ring). assert (NN : dot3 n n = 1) by (unfold n; rewrite dot3_sub_l, !dot3_sub_r, !dot3_scale_l, !dot3_scale_r, (dot3_comm ex u), U, X; ring).
  assert (CC : dot3 (cross3 n vs) (cross3 n vs) = 1). { transitivity (dot3 n n * dot3 vs vs - dot3 n vs * dot3 n vs); [clearbody n; clear; revert n vs; vring|]. rewrite NN, Vs, NV. ring. }
  assert (CV : dot3 (cross3 n vs) vs = 0) by (clearbody n; clear; revert n vs; vring).
  assert (WW : dot3 w w = (rs * s²)² + (rp * p²)²). { unfold w. rewrite dot3_add_l, !dot3_add_r, !dot3_scale_l, !dot3_scale_r, Vs, CC, CV, (dot3_comm vs (cross3 n vs)), CV. unfold Rsqr. ring. }
  assert (WV : dot3 w vs = - (rs * s²)) by (unfold w; rewrite dot3_add_l, !dot3_scale_l, Vs, CV; unfold Rsqr; ring).
  assert (W0 : norm3 w <> 0) by (intros Z; unfold unit3 in Q; destruct (Req_EM_T (norm3 w) 0); [discriminate|contradiction]). assert (QE : q = scale3 (/ norm3 w) w) by (unfold unit3 in Q; destruct (Req_EM_T (norm3 w) 0); [discriminate|congruence]).
  assert (NW : norm3 w * norm3 w = (rs * s²)² + (rp * p²)²) by (rewrite norm3_sqr; exact WW). assert (P0 : 0 < (rs * s²)² + (rp * p²)²) by (rewrite <- NW; nra).
  assert (F : (dot3 q vs)² * ((rs * s²)² + (rp * p²)²) = (rs * s²)²). { rewrite QE, dot3_scale_l, WV, <- NW. unfold Rsqr. field. exact W0. }
  split; [exact F|]. split; [exact P0|]. intros -> -> PN PT.
  assert (T : dot3 (xyz pol) u = 0) by (unfold u; rewrite dot3_scale_r, PT; ring). pose proof (transverse_parts u vs (xyz pol) U Vs O1 T) as PP.
  assert (LI : forall a b (y v c : v3), dot3 y (add3 (scale3 a v) (scale3 b c)) = a * dot3 y v + b * dot3 y c) by (clear; vring).
  assert (SP : s² + p² = 1) by (rewrite <- PN; transitivity (dot3 (xyz pol) (add3 (scale3 s vs) (scale3 p (cross3 u vs)))); [symmetry; apply LI|apply f_equal; symmetry; exact PP]).
  set (x := s²) in *. replace p² with (1 - x) in * by lra. set (k := (dot3 q vs)²) in *. clearbody x k. clear - F P0. unfold Rsqr in *. split.
  - intros ->. assert (Z : x * (x - 1) * (2 * x - 1) = 0) by nra. apply Rmult_integral in Z. destruct Z as [Z|Z]; [apply Rmult_integral in Z; destruct Z as [Z|Z]; [left; lra|right; right; lra]|right; left; lra].
  - intros H. apply Rmult_eq_reg_r with (1 * x * (1 * x) + 1 * (1 - x) * (1 * (1 - x))); [|lra]. rewrite F. destruct H as [->|[->| ->]]; field.
Qed.
Print Assumptions C41_components_partial.
Example C41_example : exists p, brewster id4 id4 1 0 (hom d0 0) (V4 (- (16 / 25)) (- (12 / 25)) (- (3 / 5)) 0) = Ok (Some (V4 (3 / 5) (4 / 5) 0 0), Some p, Some (V3 0 0 1)) /\ p = 9 / 25.
Proof.
  pose proof (C41_probability id4 id4 d0 (V4 (- (16 / 25)) (- (12 / 25)) (- (3 / 5)) 0) id_axes id_inv d0_ne ltac:(vu; lra)) as H. cbv zeta in H.
  rewrite d0_nrm, ex_nrm in H. destruct H as (vs & p & q & V & B & Ep & R & Q).
  { intros Z. pose proof d0_vs as V. rewrite Z, unit3_zero in V. discriminate. }
  rewrite d0_vs in V. injection V as <-. assert (E : p = 9 / 25) by (rewrite Ep; vu; field).
  destruct Q as [-> _]; [lra|]. exists p. split; [|exact E]. rewrite B.
  replace (neg3 (V3 0 0 (-1))) with (V3 0 0 1) by (vu; f_equal; ring). 
  replace (hom (sub3 d0 (scale3 (2 * dot3 d0 (V3 1 0 0)) (V3 1 0 0))) 0) with (V4 (3 / 5) (4 / 5) 0 0) by (unfold d0; vu; f_equal; field). reflexivity.
Qed.

(** C81: the reflection probability of the multi layer is the Gaussian with the given peak and full width at half maximum *)
Theorem C81_peak : forall p mr f, f <> 0 -> ml_probability p p mr f = mr / 100.
Proof. exact ml_peak. Qed.
Print Assumptions C81_peak.
Theorem C81_fwhm : forall p mr f, f <> 0 -> ml_probability (p + f / 2) p mr f = mr / 100 / 2 /\ ml_probability (p - f / 2) p mr f = mr / 100 / 2.
Proof. exact ml_half. Qed.
Print Assumptions C81_fwhm.
Theorem C81_range : forall w p mr f, 0 <= mr <= 100 -> 0 <= ml_probability w p mr f <= 1.
Proof. exact ml_range. Qed.
Print Assumptions C81_range.
Example C81_example : ml_probability 6 5 40 2 = 1 / 5.
Proof. replace 6 with (5 + 2 / 2) by field. destruct (C81_fwhm 5 40 2) as [E _]; [lra|]. rewrite E. field. Qed.
