(** Lemmas on spectra of gratings and detectors at the wrong distance *)
From Verif Require Import Base_Proofs Vec_Proofs Coords_Proofs Rot_Proofs Plane_Proofs Placement_Proofs Lens_Proofs Grating_Proofs Instrument_Proofs Instrument_Proofs2 Layers_Proofs Whole_Proofs Whole_Proofs2 Align_Proofs.
From Verif Require Import Align_Model.
Open Scope R_scope.
Open Scope list_scope.

Lemma on_plane m a b q : perpendicular_axes m -> in_rectangle m a b q -> dot3 (sub3 q (xyz (center m))) (xyz (v_x m)) = 0.
Proof.
  intros (_ & _ & _ & _ & XY & XZ & _) (_ & _ & ->). revert XY XZ. generalize (xyz (center m)) (xyz (v_x m)) (xyz (v_y m)) (xyz (v_z m)). clear. intros c n v w XY XZ.
  transitivity (a * dot3 n v + b * dot3 n w); [destruct c, n, v, w; vu; ring|]. rewrite XY, XZ. ring.
Qed.
Lemma meets_line m ph d q loc : perpendicular_axes m -> meets m ph = Some (d, q, loc) ->
  l_dir ph = Some d /\ dot3 d (xyz (v_x m)) <> 0 /\ dot3 (sub3 q (xyz (center m))) (xyz (v_x m)) = 0 /\ exists x k, l_pos ph = Some x /\ 0 <= k /\ q = add3 x (scale3 k d).
Proof.
  intros P H. apply (meets_iff _ _ _ _ _ P) in H. destruct H as (D & N & x & k & a & b & X & K & Q & I & _). split; [exact D|]. split; [exact N|]. split; [exact (on_plane m a b q P I)|]. exists x, k. now repeat split.
Qed.
(** two rays with the same direction from different points *)
Lemma two_rays c n x u d1 y y' s s' : dot3 d1 n <> 0 -> y = add3 x (scale3 s d1) -> y' = add3 (add3 x u) (scale3 s' d1) -> dot3 (sub3 y c) n = 0 -> dot3 (sub3 y' c) n = 0 ->
  y' = add3 y (sub3 u (scale3 (dot3 u n / dot3 d1 n) d1)).
Proof.
  intros N Y Y' H H'. assert (E : s' = s - dot3 u n / dot3 d1 n).
  { assert (A : dot3 (sub3 y' c) n = dot3 (sub3 y c) n + dot3 u n + (s' - s) * dot3 d1 n) by (rewrite Y, Y'; generalize s s'; clear; intros; destruct c, n, x, u, d1; vu; ring).
    rewrite H, H' in A. apply (Rmult_eq_reg_r (dot3 d1 n)); [|exact N]. transitivity (s * dot3 d1 n - dot3 u n); [lra|]. field. exact N. }
  rewrite Y', Y, E. generalize (dot3 u n / dot3 d1 n). clear. intros. destruct x, u, d1. vu. f_equal; ring.
Qed.
Lemma left_at p m dr ph d q loc ph1 : uniform p -> geometry p = Some m -> meets m ph = Some (d, q, loc) -> one p dr ph = Ok ph1 -> l_pos ph1 = Some q.
Proof.
  intros U GM H O. pose proof (at_self q p m dr ph d loc U GM H) as A. rewrite O in A. cbn [result_map] in A. assert (A' : at_point q ph1 = ph1) by congruence. rewrite <- A'. reflexivity.
Qed.
Lemma spot t p m dr ph d q loc q' loc' md ph1 ph1' d1 y loc1 d1' y' loc1' : well_made p -> uniform p -> geometry p = Some m ->
  meets m ph = Some (d, q, loc) -> meets (mul4 (move6 t zero3) m) ph = Some (d, q', loc') ->
  one p dr ph = Ok ph1 -> one (moved t zero3 p) dr ph = Ok ph1' -> perpendicular_axes md -> meets md ph1 = Some (d1, y, loc1) -> meets md ph1' = Some (d1', y', loc1') ->
  let k := dot3 t (xyz (v_x m)) / dot3 d (xyz (v_x m)) in
  d1' = d1 /\ y' = add3 y (scale3 k (sub3 d (scale3 (dot3 d (xyz (v_x md)) / dot3 d1 (xyz (v_x md))) d1))).
Proof.
  intros W U GM H H' O O' PD M M' k. pose proof (left_at p m dr ph d q loc ph1 U GM H O) as X. rewrite (shifted_one t p m dr ph d q loc q' loc' W U GM H H'), O in O'. cbn [result_map] in O'. fold k in O'.
  assert (E : ph1' = at_point (add3 q (scale3 k d)) ph1) by congruence. rewrite E in M'.
  destruct (meets_line md ph1 d1 y loc1 PD M) as (D & N & PL & x & s & X1 & _ & Y). destruct (meets_line md _ d1' y' loc1' PD M') as (D' & _ & PL' & x' & s' & X1' & _ & Y').
  cbn [at_point l_dir l_pos] in D', X1'. assert (d1' = d1) as -> by congruence. split; [reflexivity|]. assert (x = q) as -> by congruence. assert (x' = add3 q (scale3 k d)) as -> by congruence.
  rewrite (two_rays (xyz (center md)) (xyz (v_x md)) q (scale3 k d) d1 y y' s s' N Y Y' PL PL'). f_equal. generalize (dot3 d1 (xyz (v_x md))) (xyz (v_x md)) N. clear. intros r n Z. destruct d, d1, n. vu. f_equal; field; exact Z.
Qed.
Lemma stretch t p m dr ph d q loc q' loc' md ph1 ph1' d1 y loc1 d1' y' loc1' s0 : well_made p -> uniform p -> geometry p = Some m ->
  meets m ph = Some (d, q, loc) -> meets (mul4 (move6 t zero3) m) ph = Some (d, q', loc') ->
  one p dr ph = Ok ph1 -> one (moved t zero3 p) dr ph = Ok ph1' -> perpendicular_axes md -> meets md ph1 = Some (d1, y, loc1) -> meets md ph1' = Some (d1', y', loc1') ->
  let z0 := add3 q (scale3 s0 d) in s0 <> 0 -> dot3 (sub3 z0 (xyz (center md))) (xyz (v_x md)) = 0 ->
  sub3 y' z0 = scale3 (1 - dot3 t (xyz (v_x m)) / dot3 d (xyz (v_x m)) / s0) (sub3 y z0).
Proof.
  intros W U GM H H' O O' PD M M' z0 S Z. destruct (spot t p m dr ph d q loc q' loc' md ph1 ph1' d1 y loc1 d1' y' loc1' W U GM H H' O O' PD M M') as [_ E].
  pose proof (left_at p m dr ph d q loc ph1 U GM H O) as X. destruct (meets_line md ph1 d1 y loc1 PD M) as (D & N & PL & x & s & X1 & _ & Y). assert (x = q) as -> by congruence.
  assert (F : dot3 d (xyz (v_x md)) / dot3 d1 (xyz (v_x md)) = s / s0).
  { assert (A : s * dot3 d1 (xyz (v_x md)) = s0 * dot3 d (xyz (v_x md))). { unfold z0 in Z. rewrite Y in PL. rewrite <- Z in PL. revert PL. generalize (xyz (center md)) (xyz (v_x md)). clear. intros [? ? ?] [? ? ?] L. destruct q, d, d1. vu. lra. }
    apply (Rmult_eq_reg_r (dot3 d1 (xyz (v_x md)) * s0)); [|now apply Rmult_integral_contrapositive_currified]. transitivity (s0 * dot3 d (xyz (v_x md))); [field; exact N|]. rewrite <- A. field. exact S. }
  rewrite F in E. rewrite E, Y. unfold z0. generalize (dot3 t (xyz (v_x m)) / dot3 d (xyz (v_x m))) S. clear. intros k S. destruct q, d, d1. vu. f_equal; field; exact S.
Qed.
(** planes parallel to each other *)
Lemma stretch_parallel t p m dr ph d q loc q' loc' md ph1 ph1' d1 y loc1 d1' y' loc1' s0 j : well_made p -> uniform p -> geometry p = Some m -> perpendicular_axes m ->
  meets m ph = Some (d, q, loc) -> meets (mul4 (move6 t zero3) m) ph = Some (d, q', loc') ->
  one p dr ph = Ok ph1 -> one (moved t zero3 p) dr ph = Ok ph1' -> perpendicular_axes md -> meets md ph1 = Some (d1, y, loc1) -> meets md ph1' = Some (d1', y', loc1') ->
  let z0 := add3 q (scale3 s0 d) in dot3 (sub3 z0 (xyz (center md))) (xyz (v_x md)) = 0 -> xyz (v_x md) = scale3 j (xyz (v_x m)) ->
  dot3 (sub3 (xyz (center md)) (xyz (center m))) (xyz (v_x m)) <> 0 ->
  sub3 y' z0 = scale3 (1 - dot3 t (xyz (v_x m)) / dot3 (sub3 (xyz (center md)) (xyz (center m))) (xyz (v_x m))) (sub3 y z0).
Proof.
  intros W U GM P H H' O O' PD M M' z0 Z J B. destruct (meets_line m ph d q loc P H) as (_ & N & PL & _).
  assert (J0 : j <> 0). { intros ->. destruct PD as (_ & NX & _). apply NX. rewrite J. destruct (xyz (v_x m)). unfold zero3. vu. f_equal; ring. }
  assert (A : s0 * dot3 d (xyz (v_x m)) = dot3 (sub3 (xyz (center md)) (xyz (center m))) (xyz (v_x m))).
  { unfold z0 in Z. rewrite J in Z. assert (Z' : j * dot3 (sub3 (add3 q (scale3 s0 d)) (xyz (center md))) (xyz (v_x m)) = 0) by (rewrite <- Z; generalize (xyz (center md)) (xyz (v_x m)); clear; intros [? ? ?] [? ? ?]; destruct q, d; vu; ring).
    apply Rmult_integral in Z'. destruct Z' as [Z'|Z']; [contradiction|]. revert PL Z'. generalize (xyz (center m)) (xyz (center md)) (xyz (v_x m)). clear. intros [? ? ?] [? ? ?] [? ? ?]. destruct q, d. vu. lra. }
  assert (S : s0 <> 0) by (intros ->; apply B; rewrite <- A; ring).
  pose proof (stretch t p m dr ph d q loc q' loc' md ph1 ph1' d1 y loc1 d1' y' loc1' s0 W U GM H H' O O' PD M M' S Z) as E. cbv zeta in E. fold z0 in E. rewrite E. f_equal. rewrite <- A. field. split; [exact N|exact S].
Qed.
(** the detector at another distance *)
Lemma stretch_detector t md x ph ph0 d1 y loc1 d1' y' loc1' d0 y0 loc0 d0' y0' loc0' : perpendicular_axes md -> l_pos ph = Some x -> l_pos ph0 = Some x ->
  meets md ph = Some (d1, y, loc1) -> meets (mul4 (move6 t zero3) md) ph = Some (d1', y', loc1') -> meets md ph0 = Some (d0, y0, loc0) -> meets (mul4 (move6 t zero3) md) ph0 = Some (d0', y0', loc0') ->
  let D := dot3 (sub3 (xyz (center md)) x) (xyz (v_x md)) in D <> 0 -> sub3 y' y0' = scale3 (1 + dot3 t (xyz (v_x md)) / D) (sub3 y y0).
Proof.
  intros P X X0 M M' M0 M0' D B.
  assert (L : forall ph d1 y loc1 d1' y' loc1', l_pos ph = Some x -> meets md ph = Some (d1, y, loc1) -> meets (mul4 (move6 t zero3) md) ph = Some (d1', y', loc1') -> sub3 y' x = scale3 (1 + dot3 t (xyz (v_x md)) / D) (sub3 y x)).
  { clear - P B. intros ph d1 y loc1 d1' y' loc1' X M M'. pose proof (move6_rigid t zero3) as G. destruct (meets_line _ _ _ _ _ (m_axes _ G md P) M') as (D1' & _ & _). destruct (meets_line md ph d1 y loc1 P M) as (D1 & N & PL & x1 & s & X1 & _ & Y). assert (x1 = x) as -> by congruence. assert (d1' = d1) as -> by congruence.
    destruct (shifted_meets md t ph d1 y loc1 y' loc1' P M M') as [E _].
    assert (A : s * dot3 d1 (xyz (v_x md)) = D). { unfold D. rewrite Y in PL. revert PL. generalize (xyz (center md)) (xyz (v_x md)). clear. intros [? ? ?] [? ? ?] L. destruct x, d1. vu. lra. }
    rewrite E, <- A, Y. assert (S : s <> 0) by (intros ->; apply B; rewrite <- A; ring). revert N. generalize (dot3 d1 (xyz (v_x md))) (dot3 t (xyz (v_x md))). clear - S. intros r k N. destruct x, d1. vu. f_equal; field; split; assumption. }
  pose proof (L ph d1 y loc1 d1' y' loc1' X M M') as E. pose proof (L ph0 d0 y0 loc0 d0' y0' loc0' X0 M0 M0') as E0. clear - E E0. revert E E0. generalize (1 + dot3 t (xyz (v_x md)) / D). intros r E E0.
  replace (sub3 y' y0') with (sub3 (sub3 y' x) (sub3 y0' x)) by (destruct x, y', y0'; vu; f_equal; ring). rewrite E, E0. destruct x, y, y0. vu. f_equal; ring.
Qed.
