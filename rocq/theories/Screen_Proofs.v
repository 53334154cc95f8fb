(** Lemmas on spectra on a flat detector parallel to a transmission grating *)
From Verif Require Import Base_Proofs Vec_Proofs Plane_Proofs Grating_Proofs Instrument_Proofs Instrument_Proofs2 Layers_Proofs Stretch_Proofs Tilt_Proofs Overlap_Proofs Ruling_Proofs.
From Verif Require Export Screen_Model.
Open Scope R_scope.

Lemma normal_ray c mat g dir m wave per out bl ex ey en p : perpendicular_axes mat -> dir <> zero3 -> plane_bases mat = Some (ex, ey, en) -> p = scale3 (/ norm3 dir) dir ->
  (p = xyz en \/ p = neg3 (xyz en)) -> grating c true mat g dir m wave per = Some (out, bl) ->
  let disp := e_perp_groove (xyz ex) (xyz ey) g in let S := sine_step c p disp m wave per in
  dot3 p p = 1 /\ dot3 disp disp = 1 /\ dot3 p disp = 0 /\ S * S <= 1 /\ out = add3 (scale3 (sqrt (1 - S * S)) p) (scale3 S disp).
Proof.
  intros A D B U PN G disp S. destruct (full_facts c true mat g dir m wave per ex ey en p A D B U) as (_ & P & O & _). cbv zeta in O. fold disp in O. set (l := e_groove (xyz ex) (xyz ey) g) in *.
  destruct O as (DD & LL & NN & DL & DN & LN). cbn [a0 a1 a2] in *. set (n := xyz en) in *.
  assert (D1 : dot3 disp disp = 1) by (revert DD; generalize disp; clear; intros v; destruct v; vu; lra). assert (D3 : dot3 disp n = 0) by (revert DN; generalize disp n; clear; intros v w; destruct v, w; vu; lra).
  assert (PD : dot3 p disp = 0) by (destruct PN as [-> | ->]; [now rewrite dot3_comm|]; rewrite dot3_comm, dot_neg, D3; ring).
  assert (PL : dot3 p l = 0) by (destruct PN as [-> | ->]; [now rewrite dot3_comm|]; rewrite dot3_comm, dot_neg, LN; ring).
  assert (N : dot3 p n <> 0). { destruct PN as [-> | ->]; [rewrite NN; lra|]. rewrite dot3_comm, dot_neg, NN. lra. }
  destruct (grating_main c true mat g dir m wave per out bl ex ey en p A D B U N G) as (U1 & L & E & H). fold l disp n in L, E, H. fold (sine_step c p disp m wave per) in E. fold S in E. rewrite PD, Rplus_0_l in E. rewrite PL in L.
  assert (HP : 0 <= dot3 out p). { destruct PN as [PN|PN]; rewrite PN in H |- *; [rewrite NN in H; lra|]. rewrite (dot3_comm (neg3 n) n) in H. rewrite dot_neg in H |- *. rewrite NN in H. lra. }
  assert (O : orthonormal (M3 (neg3 disp) l n)) by (unfold orthonormal; cbn [a0 a1 a2]; repeat split; assumption).
  pose proof (frame_expand _ _ _ out O) as F. rewrite dot_neg, E, L in F.
  assert (F' : out = add3 (scale3 (dot3 out p) p) (scale3 S disp)).
  { destruct PN as [-> | ->]; [|rewrite dot_neg]; etransitivity; try exact F; generalize (dot3 out n) S; clear; revert disp l n; vring. }
  assert (Q : dot3 out out = 1). { unfold norm3 in U1. rewrite <- (sqrt_sqrt (dot3 out out)); [rewrite U1; ring|]. clear. destruct out. vu. nra. }
  assert (K : dot3 out p * dot3 out p = 1 - S * S).
  { rewrite F' in Q. rewrite !dot3_add_l, !dot3_add_r, !dot3_scale_l, !dot3_scale_r, (dot3_comm disp p), PD, D1, P in Q. lra. }
  split; [exact P|]. split; [exact D1|]. split; [exact PD|]. split; [nra|]. rewrite <- K, sqrt_square by exact HP. exact F'.
Qed.
(** on a plane perpendicular to the beam *)
Lemma on_screen (p disp : v3) S q s h : dot3 p p = 1 -> dot3 p disp = 0 -> 0 < sqrt (1 - S * S) ->
  let y := add3 q (scale3 s (add3 (scale3 (sqrt (1 - S * S)) p) (scale3 S disp))) in dot3 (sub3 y q) p = h -> y = add3 (add3 q (scale3 h p)) (scale3 (screen h S) disp).
Proof.
  intros P Z K y H. unfold screen. set (k := sqrt (1 - S * S)) in *. assert (Y : sub3 y q = scale3 s (add3 (scale3 k p) (scale3 S disp))) by (unfold y; clear; clearbody k; revert s k S p disp q; vring).
  rewrite Y in H. rewrite dot3_scale_l, dot3_add_l, !dot3_scale_l, (dot3_comm disp p), P, Z in H. assert (E : h = s * k) by lra. rewrite E.
  replace (s * k * (S / k)) with (s * S) by (field; lra). unfold y. clear. clearbody k. revert s k S p disp q. vring.
Qed.
Lemma root_pos S : S * S < 1 -> 0 < sqrt (1 - S * S). Proof. intros H. apply sqrt_lt_R0. lra. Qed.
Lemma root_sq S : S * S < 1 -> sqrt (1 - S * S) * sqrt (1 - S * S) = 1 - S * S. Proof. intros H. apply sqrt_sqrt. lra. Qed.
Lemma screen_read h S : 0 < h -> S * S < 1 -> sine_of h (screen h S) = S.
Proof.
  intros H Q. unfold sine_of, screen. pose proof (root_pos S Q) as K. pose proof (root_sq S Q) as KK. set (k := sqrt (1 - S * S)) in *.
  replace (h * h + h * (S / k) * (h * (S / k))) with (h / k * (h / k)).
  - rewrite sqrt_square; [field; lra|]. apply Rlt_le, Rdiv_lt_0_compat; lra.
  - apply Rmult_eq_reg_r with (k * k); [|nra]. transitivity (h * h); [field; lra|]. transitivity (h * h * (k * k + S * S)); [rewrite KK; ring|field; lra].
Qed.
Lemma sine_range h x : 0 < h -> sine_of h x * sine_of h x < 1 /\ screen h (sine_of h x) = x.
Proof.
  intros H. unfold sine_of, screen. assert (P : 0 < h * h + x * x) by nra. pose proof (sqrt_lt_R0 _ P) as K. pose proof (sqrt_sqrt (h * h + x * x) ltac:(lra)) as KK. set (r := sqrt (h * h + x * x)) in *.
  assert (E : 1 - x / r * (x / r) = h / r * (h / r)). { apply Rmult_eq_reg_r with (r * r); [|nra]. transitivity (r * r - x * x); [field; lra|]. transitivity (h * h); [rewrite KK; ring|field; lra]. }
  assert (HP : 0 < h / r) by (apply Rdiv_lt_0_compat; lra). split; [nra|]. rewrite E, sqrt_square by lra. field. lra.
Qed.
(** tan asin *)
Lemma screen_tan h S : S * S < 1 -> screen h S = h * tan (asin S).
Proof. intros Q. unfold screen, tan. rewrite sin_asin by nra. rewrite cos_asin by nra. unfold Rsqr. reflexivity. Qed.
Lemma ratio_lt S1 S2 : 0 <= S1 < S2 -> S2 * S2 < 1 -> sqrt (1 - S2 * S2) < sqrt (1 - S1 * S1).
Proof. intros H Q. apply sqrt_lt_1_alt. nra. Qed.
Lemma screen_mono h S1 S2 : 0 < h -> -1 < S1 -> S1 < S2 -> S2 < 1 -> h * (S2 - S1) <= screen h S2 - screen h S1.
Proof.
  intros H A L B.
  assert (Pos : forall a b, 0 <= a -> a < b -> b < 1 -> h * (b - a) <= screen h b - screen h a).
  { intros a b Ha Hab Hb. assert (QA : a * a < 1) by nra. assert (QB : b * b < 1) by nra. unfold screen. pose proof (ratio_lt a b (conj Ha Hab) QB) as R. pose proof (root_pos a QA) as KA. pose proof (root_pos b QB) as KB. pose proof (root_sq a QA) as SA. set (k := sqrt (1 - a * a)) in *. set (j := sqrt (1 - b * b)) in *.
    assert (K1 : k <= 1) by nra. assert (I1 : 1 <= / k) by (rewrite <- Rinv_1 at 1; apply Rinv_le_contravar; lra). assert (I2 : / k <= / j) by (apply Rinv_le_contravar; lra). unfold Rdiv. assert (b - a <= b * / j - a * / k) by nra. nra. }
  assert (Neg : forall a, screen h (- a) = - screen h a) by (intros a; unfold screen; replace (- a * - a) with (a * a) by ring; unfold Rdiv; ring).
  assert (Z : screen h 0 = 0) by (unfold screen, Rdiv; ring).
  destruct (Rle_lt_dec 0 S1) as [U|U]; [now apply Pos|]. destruct (Rle_lt_dec S2 0) as [V|V].
  - pose proof (Pos (- S2) (- S1) ltac:(lra) ltac:(lra) ltac:(lra)) as W. rewrite !Neg in W. lra.
  - pose proof (Pos 0 S2 ltac:(lra) V B) as W. pose proof (Pos 0 (- S1) ltac:(lra) ltac:(lra) ltac:(lra)) as X. rewrite Neg, Z in X. rewrite Z in W. lra.
Qed.
Lemma screen_ratio h S1 S2 : 0 < h -> 0 < S1 -> S1 < S2 -> S2 < 1 -> 0 < screen h S1 /\ screen h S1 * S2 < screen h S2 * S1.
Proof.
  intros H A L B. assert (QA : S1 * S1 < 1) by nra. assert (QB : S2 * S2 < 1) by nra. unfold screen. pose proof (ratio_lt S1 S2 ltac:(lra) QB) as R. pose proof (root_pos S1 QA) as KA. pose proof (root_pos S2 QB) as KB. set (k := sqrt (1 - S1 * S1)) in *. set (j := sqrt (1 - S2 * S2)) in *.
  assert (I : / k < / j) by (apply Rinv_lt_contravar; [apply Rmult_lt_0_compat; lra|lra]). pose proof (Rinv_0_lt_compat k KA) as IK. unfold Rdiv. split; [apply Rmult_lt_0_compat; [lra|apply Rmult_lt_0_compat; lra]|].
  replace (h * (S1 * / k) * S2) with (h * S1 * S2 * / k) by ring. replace (h * (S2 * / j) * S1) with (h * S1 * S2 * / j) by ring. apply Rmult_lt_compat_l; [|exact I]. apply Rmult_lt_0_compat; [apply Rmult_lt_0_compat|]; lra.
Qed.
(** the linear scale *)
Lemma linear_scale h S : 0 < h -> 0 < S < 1 -> S * S / 2 <= screen h S / h / S - 1 <= S * S / (2 * (1 - S * S)).
Proof.
  intros H [A B]. assert (Q : S * S < 1) by nra. unfold screen. pose proof (root_pos S Q) as K. pose proof (root_sq S Q) as KK. set (k := sqrt (1 - S * S)) in *. assert (K1 : k < 1) by nra.
  replace (h * (S / k) / h / S - 1) with ((1 - k) / k) by (field; repeat split; lra). rewrite <- KK. replace (S * S) with ((1 - k) * (1 + k)) by nra. split.
  - apply Rmult_le_reg_r with (2 * k); [lra|]. replace ((1 - k) / k * (2 * k)) with (2 * (1 - k)) by (field; lra). replace ((1 - k) * (1 + k) / 2 * (2 * k)) with ((1 - k) * ((1 + k) * k)) by field. nra.
  - apply Rmult_le_reg_r with (2 * (k * k)); [nra|]. replace ((1 - k) * (1 + k) / (2 * (k * k)) * (2 * (k * k))) with ((1 - k) * (1 + k)) by (field; lra). replace ((1 - k) / k * (2 * (k * k))) with ((1 - k) * (2 * k)) by (field; lra). nra.
Qed.
