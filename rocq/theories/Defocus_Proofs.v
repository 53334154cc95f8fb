(** Lemmas for detectors out of focus. *)
From Verif Require Import Defocus_Model.
From Verif Require Import Base_Proofs Vec_Proofs Coords_Proofs Plane_Proofs Lens_Proofs Instrument_Proofs Instrument_Proofs2 Layers_Proofs Whole_Proofs Analysis_Proofs Analysis_Proofs2.
Open Scope R_scope.
Open Scope list_scope.

Definition focus_of (m : m4) (off f : R) (d : v3) : v3 := add3 (sub3 (xyz (center m)) (scale3 (off / norm3 (xyz (v_z m))) (xyz (v_z m)))) (scale3 f d).
Lemma focus_height m off f d : perpendicular_axes m -> dot3 (sub3 (focus_of m off f d) (xyz (center m))) (xyz (v_x m)) = f * dot3 d (xyz (v_x m)).
Proof.
  intros (_ & _ & _ & _ & _ & XZ & _). unfold focus_of. generalize dependent (xyz (v_x m)). generalize (xyz (center m)) (xyz (v_z m)) (off / norm3 (xyz (v_z m))). clear. intros c z k x H.
  replace (dot3 (sub3 (add3 (sub3 c (scale3 k z)) (scale3 f d)) c) x) with (f * dot3 d x - k * dot3 x z) by (vu; ring). rewrite H. ring.
Qed.
Lemma in_plane_height m a b q : perpendicular_axes m -> in_rectangle m a b q -> dot3 (sub3 q (xyz (center m))) (xyz (v_x m)) = 0.
Proof.
  intros (_ & _ & _ & _ & XY & XZ & _) (_ & _ & ->). generalize dependent (xyz (v_x m)). generalize (xyz (center m)) (xyz (v_y m)) (xyz (v_z m)). clear. intros c y z x H H'.
  replace (dot3 (sub3 (add3 c (add3 (scale3 a y) (scale3 b z))) c) x) with (a * dot3 x y + b * dot3 x z) by (vu; ring). rewrite H, H'. ring.
Qed.
Lemma on_line (p q F d : v3) k k' : d <> zero3 -> F = add3 q (scale3 k d) -> q <> F -> p = add3 q (scale3 k' d) -> exists t, p = add3 F (scale3 t (sub3 q F)).
Proof.
  intros D EF NF EP. assert (K : k <> 0). { intros ->. apply NF. rewrite EF. generalize q d. clear. intros q d. vring. }
  exists (1 - k' / k). rewrite EP, EF. clear - K. destruct q as [a b c], d as [u v w]. unfold add3, sub3, scale3. cbn. f_equal; field; exact K.
Qed.
Lemma blurred m md off f refl rn d ph ps drs ph1 q loc d2 q2 loc2 : perpendicular_axes m -> perpendicular_axes md -> parallel_to m md -> dot3 d d = 1 -> f <> 0 ->
  Forall well_made ps -> all_straight ps (tl drs) -> Instrument_Model.meets m ph = Some (d, q, loc) -> through (PLens m off f refl rn :: ps) drs ph = Ok ph1 -> Instrument_Model.meets md ph1 = Some (d2, q2, loc2) ->
  q2 = add3 (focus_of m off f d) (scale3 (blur m md f d) (sub3 q (focus_of m off f d))).
Proof.
  intros P PD PA U Fz W S M H M2. set (F := focus_of m off f d). pose proof (focus_height m off f d P) as HF. fold F in HF.
  pose proof M as MI. apply (meets_iff m ph d q loc P) in MI. destruct MI as (_ & ND & x & k & a & b & _ & _ & _ & RI & _). pose proof (in_plane_height m a b q P RI) as HQ.
  assert (NF : q <> F). { intros E. rewrite E in HQ. rewrite HQ in HF. apply (Rmult_integral_contrapositive_currified f (dot3 d (xyz (v_x m))) Fz ND). now symmetry. }
  cbn [through] in H. destruct (one (PLens m off f refl rn) (hd (Draw 0 0 0 0 0 0 0) drs) ph) as [pl|] eqn:L; cbn [bind] in H; [|discriminate].
  destruct (lens_ray m off f refl rn _ ph pl d q loc P M U L) as [A _]. destruct (A NF) as (R & d' & D' & U'). fold (focus_of m off f d) in R. fold F in R.
  assert (SR : same_ray pl ph1) by (apply (straight_through ps (tl drs)); try assumption; intros d0 D0; assert (d0 = d') as -> by congruence; exact U').
  assert (PQ : l_pos pl = Some q).
  { cbn [one surface] in L. rewrite M in L. destruct (effect _ _ _ _ _ _) as [o|]; cbn [bind] in L; [|discriminate]. destruct (bad_factor (snd o)); [discriminate|]. apply (f_equal (fun r => match r with Ok a => l_pos a | Err _ => None end)) in L. cbn [l_pos] in L. congruence. }
  destruct R as (dd & xx & kF & DD & XX & EF). assert (dd = d') as -> by congruence. assert (xx = q) as -> by congruence.
  pose proof M2 as MI2. apply (meets_iff md ph1 d2 q2 loc2 PD) in MI2. destruct MI2 as (DI2 & ND2 & x2 & k2 & a2 & b2 & X2 & _ & E2 & RI2 & _). pose proof (in_plane_height md a2 b2 q2 PD RI2) as HQ2.
  destruct SR as [SD SP]. assert (d2 = d') as -> by congruence. destruct (SP d' q D' PQ) as (k1 & P1). assert (x2 = add3 q (scale3 k1 d')) as -> by congruence.
  assert (D0 : d' <> zero3) by (intros E; rewrite E in U'; vu; cbn in U'; lra).
  assert (EP : q2 = add3 q (scale3 (k1 + k2) d')) by (rewrite E2; generalize q d'; clear; intros q d'; vring).
  destruct (on_line q2 q F d' kF (k1 + k2) D0 EF NF EP) as (t & T). rewrite T. f_equal. f_equal.
  destruct PA as (j & ky & kz & J & _ & _ & VX & _). rewrite VX in HQ2. rewrite T in HQ2.
  assert (HZ : f * dot3 d (xyz (v_x m)) <> 0) by (apply Rmult_integral_contrapositive_currified; assumption).
  assert (HH : dot3 (sub3 F (xyz (center m))) (xyz (v_x m)) + t * (0 - dot3 (sub3 F (xyz (center m))) (xyz (v_x m))) = dot3 (sub3 (xyz (center md)) (xyz (center m))) (xyz (v_x m))).
  { rewrite <- HQ. apply (Rmult_eq_reg_l j); [|exact J]. clear - HQ2. revert HQ2. generalize (xyz (v_x m)) (xyz (center md)) (xyz (center m)). intros n c1 c0 HQ2.
    replace (dot3 (sub3 (add3 F (scale3 t (sub3 q F))) c1) (scale3 j n)) with (j * (dot3 (sub3 F c0) n + t * (dot3 (sub3 q c0) n - dot3 (sub3 F c0) n)) - j * dot3 (sub3 c1 c0) n) in HQ2 by (vu; ring). lra. }
  rewrite HF in HH. unfold blur. rewrite <- HH. field. split; [exact ND|exact Fz].
Qed.
Lemma coordinates m a b q : perpendicular_axes m -> in_rectangle m a b q ->
  a * norm3 (xyz (v_y m)) = dot3 (sub3 q (xyz (center m))) (xyz (v_y m)) / norm3 (xyz (v_y m)) /\ b * norm3 (xyz (v_z m)) = dot3 (sub3 q (xyz (center m))) (xyz (v_z m)) / norm3 (xyz (v_z m)).
Proof.
  intros (_ & _ & Y & Z & _ & _ & YZ) (_ & _ & ->). pose proof (norm3_pos _ Y) as NY. pose proof (norm3_pos _ Z) as NZ.
  assert (QY : norm3 (xyz (v_y m)) * norm3 (xyz (v_y m)) = dot3 (xyz (v_y m)) (xyz (v_y m))) by (apply sqrt_sqrt, dot3_nonneg).
  assert (QZ : norm3 (xyz (v_z m)) * norm3 (xyz (v_z m)) = dot3 (xyz (v_z m)) (xyz (v_z m))) by (apply sqrt_sqrt, dot3_nonneg).
  split.
  - replace (dot3 (sub3 (add3 (xyz (center m)) (add3 (scale3 a (xyz (v_y m))) (scale3 b (xyz (v_z m))))) (xyz (center m))) (xyz (v_y m))) with (a * (norm3 (xyz (v_y m)) * norm3 (xyz (v_y m)))).
    + field. lra.
    + rewrite QY. revert YZ. generalize (xyz (center m)) (xyz (v_y m)) (xyz (v_z m)). clear. intros c y z H. replace (dot3 (sub3 (add3 c (add3 (scale3 a y) (scale3 b z))) c) y) with (a * dot3 y y + b * dot3 y z) by (vu; ring). rewrite H. ring.
  - replace (dot3 (sub3 (add3 (xyz (center m)) (add3 (scale3 a (xyz (v_y m))) (scale3 b (xyz (v_z m))))) (xyz (center m))) (xyz (v_z m))) with (b * (norm3 (xyz (v_z m)) * norm3 (xyz (v_z m)))).
    + field. lra.
    + rewrite QZ. revert YZ. generalize (xyz (center m)) (xyz (v_y m)) (xyz (v_z m)). clear. intros c y z H. replace (dot3 (sub3 (add3 c (add3 (scale3 a y) (scale3 b z))) c) z) with (a * dot3 y z + b * dot3 z z) by (vu; ring). rewrite H. ring.
Qed.
Lemma scaled_axis k v w c : 0 < k -> v <> zero3 -> dot3 (sub3 w c) (scale3 k v) / norm3 (scale3 k v) = dot3 (sub3 w c) v / norm3 v.
Proof. intros K V. pose proof (norm3_pos v V). rewrite norm3_scale, dot3_scale_r, Rabs_right by lra. field. lra. Qed.
(** where the focus would be on the detector *)
Definition image_of (m md : m4) (off f : R) (d : v3) (v : v3) : R :=
  dot3 (sub3 (add3 (focus_of m off f d) (scale3 (blur m md f d) (sub3 (xyz (center m)) (focus_of m off f d)))) (xyz (center md))) v / norm3 v.
Lemma seen_scaled m md off f refl rn d c : perpendicular_axes m -> perpendicular_axes md -> parallel_to m md -> dot3 d d = 1 -> f <> 0 -> seen m md off f refl rn d c ->
  snd c = (blur m md f d * fst (fst c) + image_of m md off f d (xyz (v_y m)), blur m md f d * snd (fst c) + image_of m md off f d (xyz (v_z m))).
Proof.
  intros P PD PA U Fz (ph & ps & drs & ph1 & q & d2 & q2 & W & S & M & H & M2). destruct c as [loc loc2]. cbn [fst snd] in *.
  pose proof (blurred m md off f refl rn d ph ps drs ph1 q loc d2 q2 loc2 P PD PA U Fz W S M H M2) as Q2.
  apply (meets_iff m ph d q loc P) in M. destruct M as (_ & _ & x & k & a & b & _ & _ & _ & RI & EL). apply (meets_iff md ph1 d2 q2 loc2 PD) in M2. destruct M2 as (_ & _ & x2 & k2 & a2 & b2 & _ & _ & _ & RI2 & EL2).
  destruct (coordinates m a b q P RI) as [CA CB]. destruct (coordinates md a2 b2 q2 PD RI2) as [CA2 CB2]. destruct P as (_ & _ & Y & Z & _). rewrite EL, EL2, CA, CB, CA2, CB2. cbn [fst snd].
  destruct PA as (j & ky & kz & J & KY & KZ & _ & VY & VZ). rewrite VY, VZ, !scaled_axis by assumption. rewrite Q2. unfold image_of. pose proof (norm3_pos _ Y). pose proof (norm3_pos _ Z).
  generalize (blur m md f d) (focus_of m off f d). intros t F.
  assert (G : forall v, norm3 v <> 0 -> dot3 (sub3 (add3 F (scale3 t (sub3 q F))) (xyz (center md))) v / norm3 v = t * (dot3 (sub3 q (xyz (center m))) v / norm3 v) + dot3 (sub3 (add3 F (scale3 t (sub3 (xyz (center m)) F))) (xyz (center md))) v / norm3 v).
  { intros v V. replace (dot3 (sub3 (add3 F (scale3 t (sub3 q F))) (xyz (center md))) v) with (t * dot3 (sub3 q (xyz (center m))) v + dot3 (sub3 (add3 F (scale3 t (sub3 (xyz (center m)) F))) (xyz (center md))) v); [field; exact V|].
    generalize (xyz (center m)) (xyz (center md)). clear. intros c c1. vu. ring. }
  f_equal; apply G; lra.
Qed.
Lemma width_scaled m md off f refl rn d l w : perpendicular_axes m -> perpendicular_axes md -> parallel_to m md -> dot3 d d = 1 -> f <> 0 -> Forall (seen m md off f refl rn d) l ->
  mean_width_2d (map fst l) = Some w -> mean_width_2d (map snd l) = Some (Rabs (blur m md f d) * w).
Proof.
  intros P PD PA U Fz SE E. set (t := blur m md f d). set (sx := image_of m md off f d (xyz (v_y m))). set (sy := image_of m md off f d (xyz (v_z m))).
  assert (EQ : map snd l = map (fun p => (t * fst p - 0 * snd p + sx, 0 * fst p + t * snd p + sy)) (map fst l)).
  { rewrite map_map. induction SE as [|c l Hc F IH]; [reflexivity|]. cbn [map] in *. f_equal.
    - rewrite (seen_scaled m md off f refl rn d c P PD PA U Fz Hc). fold t sx sy. f_equal; ring.
    - clear - F P PD PA U Fz. induction F as [|c l Hc F IH]; [reflexivity|]. cbn [map]. f_equal; [|exact IH]. rewrite (seen_scaled m md off f refl rn d c P PD PA U Fz Hc). fold t sx sy. f_equal; ring. }
  rewrite EQ, (width_similar _ t 0 sx sy w E). do 2 f_equal. replace (t * t + 0 * 0) with (Rsqr t) by (unfold Rsqr; ring). apply sqrt_Rsqr_abs.
Qed.
