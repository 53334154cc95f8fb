(** Gratings with wrong period or wrong direction of the grooves *)
From Verif Require Import Vec_Proofs Plane_Proofs Grating_Proofs Tilt_Proofs Overlap_Proofs Ruling_Proofs.
From Verif Require Export Ruling_Model.
Open Scope R_scope.

(** C243: Only order * wavelength / period counts, for every grating, both sign conventions and every direction of the photon, also where there is no diffracted ray. *)
Theorem C243_ratio : forall c tr mat g dir m wave per m' wave' per', IZR m * wave / per = IZR m' * wave' / per' -> grating c tr mat g dir m wave per = grating c tr mat g dir m' wave' per'.
Proof. exact grating_ratio. Qed.
Print Assumptions C243_ratio.
(** Rays with another ratio have another direction. *)
Theorem C243_ratio_only : forall c tr mat g dir m wave per m' wave' per' out b b', perpendicular_axes mat -> dir <> zero3 -> dot3 dir (xyz (v_x mat)) <> 0 ->
  grating c tr mat g dir m wave per = Some (out, b) -> grating c tr mat g dir m' wave' per' = Some (out, b') -> IZR m * wave / per = IZR m' * wave' / per'.
Proof. exact grating_ratio_only. Qed.
Print Assumptions C243_ratio_only.
(** In an instrument a photon that meets a grating with the wrong period [per'] flies on like a photon with the energy [e per' / per] behind the grating as designed. *)
Theorem C243_instrument : forall c tr mat g per per' dr ph ph1, l_energy ph <> 0 -> per <> 0 -> per' <> 0 -> one (PGrating c tr mat g (fun _ => per')) dr ph = Ok ph1 ->
  exists ph2, one (PGrating c tr mat g (fun _ => per)) dr (with_energy (l_energy ph * (per' / per)) ph) = Ok ph2 /\ ph1 = with_energy (l_energy ph) ph2.
Proof. exact one_period. Qed.
Print Assumptions C243_instrument.
(** The energy assigned to the photon from the place where it is found is wrong by the same factor in every order. *)
Theorem C243_energy : forall s per per' m e so, s <> 0 -> per <> 0 -> per' <> 0 -> 0 < e -> (m <> 0)%Z -> so = s * (IZR m * (energy2wave / e) / per') -> line_energy s per so m = e * (per' / per).
Proof. exact wrong_energy. Qed.
Print Assumptions C243_energy.
(** Periods that scatter by the fraction [delta] give energies that scatter by the same fraction: higher orders do not help. *)
Theorem C243_scatter : forall s per per' m e so delta, s <> 0 -> 0 < per -> per' <> 0 -> 0 < e -> (m <> 0)%Z -> so = s * (IZR m * (energy2wave / e) / per') ->
  (Rabs (per' - per) <= delta * per <-> Rabs (line_energy s per so m - e) <= delta * e).
Proof. exact scatter_energy. Qed.
Print Assumptions C243_scatter.
(** In the plane of the grating the direction changes by order * wavelength / period along the direction of dispersion, for every direction of the photon. *)
Theorem C243_in_plane : forall c tr mat g dir m wave per out bl ex ey en p, perpendicular_axes mat -> dir <> zero3 -> plane_bases mat = Some (ex, ey, en) -> p = scale3 (/ norm3 dir) dir -> dot3 p (xyz en) <> 0 ->
  grating c tr mat g dir m wave per = Some (out, bl) ->
  let disp := e_perp_groove (xyz ex) (xyz ey) g in out = add3 (add3 p (scale3 (sine_step c p disp m wave per) disp)) (scale3 (dot3 (sub3 out p) (xyz en)) (xyz en)).
Proof. exact in_plane. Qed.
Print Assumptions C243_in_plane.
(** Turned grooves have turned directions. *)
Theorem C243_grooves : forall ex ey g a, e_perp_groove ex ey (g + a) = add3 (scale3 (cos a) (e_perp_groove ex ey g)) (scale3 (sin a) (e_groove ex ey g)) /\
  e_groove ex ey (g + a) = sub3 (scale3 (cos a) (e_groove ex ey g)) (scale3 (sin a) (e_perp_groove ex ey g)).
Proof. intros. split; [apply turned_perp|apply turned_groove]. Qed.
Print Assumptions C243_grooves.
(** For photons along the normal the whole pattern of orders is turned with the grooves: on a plane parallel to the grating every order and wavelength is found at the same distance, turned by the same angle. *)
Theorem C243_turned : forall c tr mat g a dir m wave per out bl ex ey en p q s s' out' L bl', perpendicular_axes mat -> dir <> zero3 -> plane_bases mat = Some (ex, ey, en) -> p = scale3 (/ norm3 dir) dir ->
  (p = xyz en \/ p = neg3 (xyz en)) -> grating c tr mat g dir m wave per = Some (out, bl) -> grating c tr mat (g + a) dir m wave per = Some (out', bl') -> dot3 out (xyz en) <> 0 ->
  let l := e_groove (xyz ex) (xyz ey) g in let disp := e_perp_groove (xyz ex) (xyz ey) g in
  let y := add3 q (scale3 s out) in let y' := add3 q (scale3 s' out') in dot3 (sub3 y q) (xyz en) = L -> dot3 (sub3 y' q) (xyz en) = L ->
  dot3 (sub3 y q) l = 0 /\ dot3 (sub3 y' q) disp = cos a * dot3 (sub3 y q) disp /\ dot3 (sub3 y' q) l = sin a * dot3 (sub3 y q) disp /\ norm3 (sub3 y' q) = norm3 (sub3 y q).
Proof.
  intros c tr mat g a dir m wave per out bl ex ey en p q s s' out' L bl' A D B U PN G G' N l disp.
  destruct (normal_incidence c tr mat g a dir m wave per out bl ex ey en p A D B U PN G) as (o' & b' & k & G1 & E & E'). rewrite G' in G1. injection G1 as <- <-.
  destruct (full_facts c tr mat g dir m wave per ex ey en p A D B U) as (_ & _ & O & _). cbv zeta in O. fold l disp in O, E, E'.
  refine (turned_spectrum _ k a l disp (xyz en) q s s' out out' L O _ E E'). intros ->. apply N. rewrite E. destruct O as (_ & _ & _ & _ & DN & _). cbn [a0 a1 a2] in DN.
  assert (Z : dot3 disp (xyz en) = 0). { revert DN. generalize disp (xyz en). clear. intros u v H. destruct u, v. vu. lra. } rewrite dot3_add_l, !dot3_scale_l, Z. ring.
Qed.
Print Assumptions C243_turned.
(** the other ray exists as well *)
Theorem C243_turned_exists : forall c tr mat g a dir m wave per out bl ex ey en p, perpendicular_axes mat -> dir <> zero3 -> plane_bases mat = Some (ex, ey, en) -> p = scale3 (/ norm3 dir) dir ->
  (p = xyz en \/ p = neg3 (xyz en)) -> grating c tr mat g dir m wave per = Some (out, bl) ->
  exists out' bl', grating c tr mat (g + a) dir m wave per = Some (out', bl') /\ dot3 out' (xyz en) = dot3 out (xyz en).
Proof.
  intros c tr mat g a dir m wave per out bl ex ey en p A D B U PN G. destruct (normal_incidence c tr mat g a dir m wave per out bl ex ey en p A D B U PN G) as (o' & b' & k & G1 & E & E'). exists o', b'. split; [exact G1|].
  destruct (full_facts c tr mat g dir m wave per ex ey en p A D B U) as (_ & _ & O & _). cbv zeta in O. destruct O as (_ & _ & _ & _ & DN & LN). cbn [a0 a1 a2] in DN, LN. rewrite E, E', !dot3_add_l, !dot3_scale_l, LN.
  assert (Z : dot3 (e_perp_groove (xyz ex) (xyz ey) g) (xyz en) = 0). { revert DN. generalize (e_perp_groove (xyz ex) (xyz ey) g) (xyz en). clear. intros u v H. destruct u, v. vu. lra. } rewrite Z. ring.
Qed.
Print Assumptions C243_turned_exists.
(** Order 0 of a transmission grating sees neither period nor grooves. *)
Theorem C243_order_0 : forall c c' mat g g' dir wave wave' per per', perpendicular_axes mat -> dir <> zero3 -> dot3 dir (xyz (v_x mat)) <> 0 ->
  option_map fst (grating c true mat g dir 0 wave per) = option_map fst (grating c' true mat g' dir 0 wave' per').
Proof. intros. rewrite !order_0_direction by assumption. reflexivity. Qed.
Print Assumptions C243_order_0.

(** sin = 3/5 in order 1; the same ray in order 2 of a grating with twice the period, the order is found along z if the grooves are turned by a quarter *)
Example ex_C243 : option_map fst (grating FlatSign true id4 0 (V3 1 0 0) 1 3 5) = Some (V3 (4 / 5) (3 / 5) 0) /\ grating FlatSign true id4 0 (V3 1 0 0) 1 3 5 = grating FlatSign true id4 0 (V3 1 0 0) 2 3 10 /\
  line_energy 1 5 (IZR 2 * (energy2wave / 3) / 10) 2 = 3 * (10 / 5).
Proof.
  split; [|split; [apply C243_ratio; lra|]].
  - unfold grating. rewrite id4_bases. unfold diffract. assert (U : unit3 (V3 1 0 0) = Some (V3 1 0 0)). { rewrite unit3_some by (intros E; injection E; lra). assert (N : norm3 (V3 1 0 0) = 1) by (apply norm3_1; vu; ring). rewrite N. f_equal. unfold scale3. cbn. f_equal; field. }
    rewrite U. unfold diffract_dln, e_perp_groove, e_groove. rewrite Ropp_0, cos_0, sin_0. cbv zeta. set (q := 1 - _ - _). assert (Q : q = 4 / 5 * (4 / 5)) by (unfold q; vu; cbn; lra). rewrite Q, (proj2 (Rltb_false _ 0)), sqrt_square by lra. cbn [option_map fst]. f_equal.
    assert (S : Rsign (dot3 (V3 1 0 0) (xyz (V4 1 0 0 0))) = 1) by (apply Rsign_pos; vu; cbn; lra). rewrite S. unfold order_sign. clear. vu. cbn. f_equal; field.
  - apply (C243_energy 1 5 10 2 3); try lra; discriminate.
Qed.
