(** C236: overlapping orders and order sorting *)
From Verif Require Import Base_Proofs Vec_Proofs Coords_Proofs Rowland_Proofs Angles_Proofs Spectro_Proofs Instrument_Proofs Instrument_Proofs2 Layers_Proofs Cylinder_Proofs Instrument_Props Spectro_Props Tube_Proofs Tube_Props Overlap_Proofs.
From Verif Require Import Overlap_Model.
Open Scope R_scope.
Open Scope list_scope.

(** ** C236 *)
(** Spectra of different orders lie on top of each other: two lines are in the same place of the Rowland circle if and only if their orders have the ratio of their energies. *)
Theorem C236_overlap : forall t a o o' s m m' e e' per, Rowland_Model.rigid (tpos t) -> 0 < tr t -> - (PI / 2) < o < PI / 2 -> - (PI / 2) < o' < PI / 2 -> s <> 0 -> per <> 0 -> 0 < e -> 0 < e' ->
  sin o = s * (IZR m * (energy2wave / e) / per) -> sin o' = s * (IZR m' * (energy2wave / e') / per) ->
  (xyz (parametric t (a + 2 * o) 0) = xyz (parametric t (a + 2 * o') 0) <-> IZR m / e = IZR m' / e').
Proof.
  intros t a o o' s m m' e e' per G Tr O O' S P E E' H H'. pose proof hc_pos as HC. assert (X : IZR m / e = IZR m' / e' <-> o = o').
  { assert (K : forall n x, 0 < x -> s * (IZR n * (energy2wave / x) / per) = s * energy2wave / per * (IZR n / x)) by (intros n x Hx; field; split; lra). rewrite K in H, H' by assumption.
    assert (C : s * energy2wave / per <> 0) by (unfold Rdiv; apply Rmult_integral_contrapositive_currified; [apply Rmult_integral_contrapositive_currified; [exact S|lra]|now apply Rinv_neq_0_compat]). split; intros Q.
    - rewrite <- Q in H'. rewrite <- H in H'. apply Rle_antisym; apply sin_incr_0; lra.
    - subst o'. rewrite H' in H. apply Rmult_eq_reg_l in H; [now symmetry|exact C]. }
  rewrite X. split; [|now intros ->]. intros Q. rewrite !(parametric_center t _ G) in Q. apply add_cancel, scale_cancel in Q; [|lra]. apply (in_plane_same t _ _ G) in Q. destruct Q as [n Q]. unfold twopi in Q. pose proof PI_RGT_0 as Pi.
  assert (-1 < IZR n < 1) as [B1 B2] by (split; nra). apply (lt_IZR (-1)) in B1. apply (lt_IZR n 1) in B2. assert (n = 0%Z) by lia. subst n. lra.
Qed.
Print Assumptions C236_overlap.
(** The energy that belongs to a place for an assumed order [n] is the energy for which osip.py sets the window: the energy of the photon times the ratio of the orders; the true energy for the true order. *)
Theorem C236_nominal : forall s per m e n o, s <> 0 -> per <> 0 -> 0 < e -> (m <> 0)%Z -> sin o = s * (IZR m * (energy2wave / e) / per) ->
  line_energy s per (sin o) n = e / IZR m * IZR n /\ line_energy s per (sin o) m = e /\ (n <> 0%Z -> line_energy s per (sin o) n * (IZR m / IZR n) = e).
Proof.
  intros s per m e n o S P E M H. rewrite !(nominal s per (sin o) m e _ S P E M H). assert (IZR m <> 0) by now apply not_0_IZR. split; [reflexivity|]. split; [now field|]. intros N. apply not_0_IZR in N. now field.
Qed.
Print Assumptions C236_nominal.
(** FractionalDistanceOSIP with a fraction of at most 1: a photon whose measured energy is off by less than the half width of the window is sorted into its order and no other. *)
Theorem C236_sorted : forall f s per m e o E, s <> 0 -> per <> 0 -> 0 < e -> (m <> 0)%Z -> 0 <= f <= 1 -> sin o = s * (IZR m * (energy2wave / e) / per) -> Rabs (E - e) < f / 2 * (e / IZR (Z.abs m)) ->
  sorted_into (base_range (fractional_tab f)) s per (sin o) m E /\ forall n, (n <> 0)%Z -> sorted_into (base_range (fractional_tab f)) s per (sin o) n E -> n = m.
Proof.
  intros f s per m e o E S P He M F H HE. unfold sorted_into. assert (SM : same_side m m) by (split; [exact M|reflexivity]). pose proof (window_own f e m E He M HE) as W. rewrite (nominal s per (sin o) m e m S P He M H). split; [exact W|].
  intros n N Q. rewrite (nominal s per (sin o) m e n S P He M H) in Q. destruct (Z.eq_dec (Z.sgn n) (Z.sgn m)) as [Z|Z]; [exact (window_unique f e m n m E He M (proj2 F) (conj N Z) SM Q W)|]. exfalso.
  assert (NEG : e / IZR m * IZR n < 0).
  { assert (IZR m * IZR n < 0) by (rewrite <- mult_IZR; apply (IZR_lt _ 0); destruct (Z.lt_trichotomy m 0) as [A|[A|A]], (Z.lt_trichotomy n 0) as [B|[B|B]]; try lia; rewrite ?(Z.sgn_neg m), ?(Z.sgn_neg n), ?(Z.sgn_pos m), ?(Z.sgn_pos n) in Z by lia; nia).
    assert (IZR m <> 0) by now apply not_0_IZR. replace (e / IZR m * IZR n) with (e * (IZR m * IZR n) * / (IZR m * IZR m)) by now field. assert (0 < / (IZR m * IZR m)) by (apply Rinv_0_lt_compat; now apply Rlt_0_sqr). assert (e * (IZR m * IZR n) < 0) by (clear - He H0; nra). clear - H2 H3. nra. }
  unfold in_window, base_range, fractional_tab in Q. cbn [fst snd] in Q. pose proof (abs_pos n N) as AN. set (D := e / IZR m * IZR n / IZR (Z.abs n)) in *.
  assert (DN : D <= 0). { unfold D. apply Rnot_lt_le. intros C. apply (Rmult_lt_compat_r _ _ _ AN) in C. replace (e / IZR m * IZR n / IZR (Z.abs n) * IZR (Z.abs n)) with (e / IZR m * IZR n) in C by (field; repeat split; first [now apply not_0_IZR | lra]). lra. }
  assert (f / 2 * D <= 0) by (clear - F DN; nra). lra.
Qed.
Print Assumptions C236_sorted.
(** With the full distance (fraction 1) every measured energy above half the distance of the orders is in one window, unless it is on the border of two. *)
Theorem C236_complete : forall s per m e o E, s <> 0 -> per <> 0 -> 0 < e -> (m <> 0)%Z -> sin o = s * (IZR m * (energy2wave / e) / per) -> e / (2 * IZR (Z.abs m)) < E ->
  (forall k, E * IZR (Z.abs m) / e <> IZR k + 1 / 2) -> exists n, same_side m n /\ sorted_into (base_range (fractional_tab 1)) s per (sin o) n E.
Proof. intros s per m e o E S P He M H L B. destruct (window_some e m E He M L B) as (n & N & W). exists n. split; [exact N|]. unfold sorted_into. now rewrite (nominal s per (sin o) m e n S P He M H). Qed.
Print Assumptions C236_complete.
(** FixedWidthOSIP: the windows of neighboring orders do not overlap if and only if the half width is at most half the distance of the orders. *)
Theorem C236_fixed_width : forall h s per m e o, s <> 0 -> per <> 0 -> 0 < e -> (m <> 0)%Z -> 0 < h -> sin o = s * (IZR m * (energy2wave / e) / per) ->
  ((forall n n' E, same_side m n -> same_side m n' -> sorted_into (base_range (fixed_width_tab h)) s per (sin o) n E -> sorted_into (base_range (fixed_width_tab h)) s per (sin o) n' E -> n = n') <-> h <= e / (2 * IZR (Z.abs m))).
Proof.
  intros h s per m e o S P He M Hh H. pose proof (abs_pos m M) as A. set (u := e / IZR (Z.abs m)). assert (U : 0 < u) by (apply Rdiv_lt_0_compat; assumption). assert (HU : e / (2 * IZR (Z.abs m)) = u / 2) by (unfold u; field; lra). rewrite HU.
  assert (EN : forall n, same_side m n -> line_energy s per (sin o) n = IZR (Z.abs n) * u).
  { intros n SN. rewrite (nominal s per (sin o) m e n S P He M H). replace (e / IZR m * IZR n) with (e * (IZR n / IZR m)) by (unfold Rdiv; ring). rewrite (side_abs m n SN M). unfold u, Rdiv; ring. }
  split.
  - intros Q. apply Rnot_lt_le. intros L. destruct (same_side_abs m 1 M ltac:(lia)) as [S1 A1]. destruct (same_side_abs m 2 M ltac:(lia)) as [S2 A2].
    assert (K : (Z.sgn m * 1 = Z.sgn m * 2)%Z); [|destruct (sgn_mul m _ S1 M); lia].
    apply (Q _ _ (3 / 2 * u) S1 S2); unfold sorted_into, in_window, base_range, fixed_width_tab; cbn [fst snd]; first [rewrite (EN _ S1), A1 | rewrite (EN _ S2), A2]; lra.
  - intros L n n' E S1 S2 Q1 Q2. unfold sorted_into, in_window, base_range, fixed_width_tab in Q1, Q2. cbn [fst snd] in Q1, Q2. rewrite (EN n S1) in Q1. rewrite (EN n' S2) in Q2.
    assert (X : (IZR (Z.abs n) - IZR (Z.abs n')) * u < 1 * u) by lra. assert (Y : (IZR (Z.abs n') - IZR (Z.abs n)) * u < 1 * u) by lra. apply Rmult_lt_reg_r in X; [|exact U]. apply Rmult_lt_reg_r in Y; [|exact U].
    rewrite <- minus_IZR in X, Y. apply (lt_IZR _ 1) in X. apply (lt_IZR _ 1) in Y. destruct (sgn_mul m n S1 M), (sgn_mul m n' S2 M). nia.
Qed.
Print Assumptions C236_fixed_width.
(** All together: a photon goes through lens, grating and circular detector. Whoever knows only its place on the Rowland circle and its energy measured by the CCD, off by less than the half width of the window, finds its
    order by order sorting, and with it its exact energy. *)
Theorem C236_instrument : forall t w rot det detinv lim0 lim1 a b o eps mat g c per ml off f refl rn drs ph d0 q0 loc0 ph1 d loc fr, Rowland_Model.rigid (tpos t) -> 0 < tr t -> 0 < w ->
  from_rowland t w rot = Some det -> mul4 det detinv = id4 -> mul4 detinv det = id4 -> affine detinv -> 0 < a - b < 2 * PI -> - (PI / 2) < o < PI / 2 ->
  ruled_in_plane t 0 ((a + b) / 2 + PI / 2) eps mat g -> let m := dr_order (hd dr0 (tl drs)) in let s := eps * order_direction c 0 in let e := l_energy ph in
  sin o = s * (IZR m * (energy2wave / e) / per loc) -> 0 < (a - b) / 2 + o < PI ->
  angle_between (b - rot) lim0 lim1 = false -> angle_between (a + 2 * o - rot) lim0 lim1 = true ->
  perpendicular_axes ml -> perpendicular_axes mat -> meets ml ph = Some (d0, q0, loc0) -> dot3 d0 d0 = 1 ->
  add3 (sub3 (xyz (center ml)) (scale3 (off / norm3 (xyz (v_z ml))) (xyz (v_z ml)))) (scale3 f d0) = xyz (parametric t a 0) ->
  one (PLens ml off f refl rn) (hd dr0 drs) ph = Ok ph1 -> meets mat ph1 = Some (d, xyz (parametric t b 0), loc) ->
  0 < dot3 (sub3 (xyz (parametric t a 0)) (xyz (parametric t b 0))) d -> 0 <= dr_p (hd dr0 (tl drs)) <= 1 ->
  s <> 0 -> per loc <> 0 -> 0 < e -> (m <> 0)%Z -> 0 <= fr <= 1 ->
  exists ph', through [PLens ml off f refl rn; PGrating c true mat g per; PTube det detinv lim0 lim1] drs ph = Ok ph' /\
    forall o' n E, - (PI / 2) < o' < PI / 2 -> l_pos ph' = Some (xyz (parametric t (a + 2 * o') 0)) -> Rabs (E - e) < fr / 2 * (e / IZR (Z.abs m)) -> (n <> 0)%Z ->
      (sorted_into (base_range (fractional_tab fr)) s (per loc) (sin o') n E <-> n = m) /\ line_energy s (per loc) (sin o') m = e.
Proof.
  intros t w rot det detinv lim0 lim1 a b o eps mat g c per ml off f refl rn drs ph d0 q0 loc0 ph1 d loc fr G Tr Hw FR I1 I2 AI AB O RU m s e SO FW L1 L2 PL PM ML U FO O1 MG FD DP S P He M F.
  destruct (C232_line t w rot det detinv lim0 lim1 a b o eps mat g c per ml off f refl rn drs ph d0 q0 loc0 ph1 d loc G Tr Hw FR I1 I2 AI AB) as (ph' & H & X & _); try assumption; [lra|]. exists ph'. split; [exact H|].
  intros o' n E O' X' HE N. assert (Q : xyz (parametric t (a + 2 * o) 0) = xyz (parametric t (a + 2 * o') 0)) by congruence.
  assert (o = o') as <-.
  { rewrite !(parametric_center t _ G) in Q. apply add_cancel, scale_cancel in Q; [|lra]. apply (in_plane_same t _ _ G) in Q. destruct Q as [k Q]. unfold twopi in Q. pose proof PI_RGT_0 as Pi.
    assert (-1 < IZR k < 1) as [B1 B2] by (split; nra). apply (lt_IZR (-1)) in B1. apply (lt_IZR k 1) in B2. assert (k = 0%Z) by lia. subst k. lra. }
  destruct (C236_sorted fr s (per loc) m e o E S P He M F SO HE) as [A B]. split; [split; [now apply B|intros ->; exact A]|]. exact (proj1 (proj2 (C236_nominal s (per loc) m e m o S P He M SO))).
Qed.
Print Assumptions C236_instrument.
(** Example: order 2 at the energy that belongs to wavelength 1 on a grating with period 5, at sin = 2/5. A CCD energy 1/5 too high is less than half the distance to order 3 off, 3/10 are more. *)
Example ex_C236 : sin (asin (2 / 5)) = 1 * (IZR 2 * (energy2wave / energy2wave) / 5) /\ - (PI / 2) < asin (2 / 5) < PI / 2 /\ Rabs (energy2wave * (6 / 5) - energy2wave) < 1 / 2 * (energy2wave / IZR (Z.abs 2)) /\
  sorted_into (base_range (fractional_tab 1)) 1 5 (sin (asin (2 / 5))) 2 (energy2wave * (6 / 5)) /\ sorted_into (base_range (fractional_tab 1)) 1 5 (sin (asin (2 / 5))) 3 (energy2wave * (13 / 10)) /\
  ~ energy2wave / 3 <= energy2wave / (2 * IZR (Z.abs 2)).
Proof.
  pose proof hc_pos as H. assert (S : sin (asin (2 / 5)) = 2 / 5) by (apply sin_asin; lra). assert (E : sin (asin (2 / 5)) = 1 * (IZR 2 * (energy2wave / energy2wave) / 5)) by (rewrite S; field; lra).
  split; [exact E|]. split; [apply asin_bound_lt; lra|]. assert (A : Rabs (energy2wave * (6 / 5) - energy2wave) < 1 / 2 * (energy2wave / IZR (Z.abs 2))) by (change (IZR (Z.abs 2)) with 2; apply Rabs_def1; lra). split; [exact A|].
  split; [apply (C236_sorted 1 1 5 2 energy2wave (asin (2 / 5)) _); try assumption; lra || lia|]. split; [|change (IZR (Z.abs 2)) with 2; lra].
  unfold sorted_into. rewrite (proj1 (C236_nominal 1 5 2 energy2wave 3 (asin (2 / 5)) ltac:(lra) ltac:(lra) H ltac:(lia) E)). unfold in_window, base_range, fractional_tab. cbn [fst snd]. change (IZR (Z.abs 3)) with 3. lra.
Qed.
