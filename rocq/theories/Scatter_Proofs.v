(** Lemmas about [Scatter_Model]. *)
From Verif Require Import Vec_Proofs Coords_Proofs Rot_Proofs Lens_Proofs Cylinder_Proofs Angles_Proofs.
From Verif Require Export Scatter_Model.
Open Scope R_scope.

Lemma rotate_by_spec axis angle dir out : rotate_by axis angle dir = Some out ->
  norm3 out = norm3 dir /\ (angle = None -> out = dir) /\
  (forall a, angle = Some a -> dot3 out axis = dot3 dir axis /\ (dot3 axis dir = 0 -> dot3 out dir = cos a * dot3 dir dir)).
Proof.
  unfold rotate_by. destruct angle as [a|].
  - destruct (axangle2mat axis a) as [m|] eqn:E; [|discriminate]. intros H. injection H as <-. unfold einsum_ij_i.
    destruct (axangle2mat_Some _ _ _ E) as (N & [O _] & F & I & A). destruct (axangle2mat_Some _ _ _ I) as (_ & [O' _] & F' & _ & A').
    split; [now apply orthonormal_norm|]. split; [discriminate|]. intros a' Ea. injection Ea as <-. split.
    + rewrite <- F' at 1. now rewrite orthonormal_dot.
    + intros Z. rewrite (A' dir Z), cos_neg. reflexivity.
  - intros H. injection H as <-. split; [reflexivity|]. split; [reflexivity|discriminate].
Qed.
Lemma rotate_by_total axis angle dir : axis <> zero3 \/ angle = None -> exists out, rotate_by axis angle dir = Some out.
Proof.
  intros H. unfold rotate_by. destruct angle as [a|]; [|eauto]. destruct H as [H|H]; [|discriminate].
  destruct (axangle2mat_total axis a H) as [m ->]. eauto.
Qed.
Lemma radial_norm c pos dir ip pp out : radial_scatter c pos dir ip pp = Some out -> norm3 out = norm3 dir.
Proof.
  unfold radial_scatter. cbv zeta. destruct (rotate_by _ ip dir) as [o|] eqn:E; [|discriminate]. intros H.
  apply rotate_by_spec in E. apply rotate_by_spec in H. destruct E as [<- _]. apply H.
Qed.
Lemma radial_inplane c pos dir a out : radial_scatter c pos dir (Some a) None = Some out ->
  dot3 out dir = cos a * dot3 dir dir /\ dot3 out (cross3 dir (sub3 pos c)) = 0.
Proof.
  unfold radial_scatter. cbv zeta. destruct (rotate_by _ (Some a) dir) as [o|] eqn:E; [|discriminate]. cbn. intros H. injection H as <-.
  apply rotate_by_spec in E. destruct E as (_ & _ & E). destruct (E a eq_refl) as [F G]. split.
  - apply G. rewrite dot3_comm, dot3_cross_l. reflexivity.
  - rewrite F, dot3_cross_l. reflexivity.
Qed.
Lemma radial_zero c pos dir : radial_scatter c pos dir None None = Some dir.
Proof. reflexivity. Qed.
Lemma radial_total c pos dir ip pp : cross3 dir (sub3 pos c) <> zero3 -> exists out, radial_scatter c pos dir ip pp = Some out.
Proof.
  intros N. unfold radial_scatter. cbv zeta. destruct (rotate_by_total (cross3 dir (sub3 pos c)) ip dir (or_introl N)) as [o ->].
  apply rotate_by_total. left. intros E. apply N. rewrite E. clear. vring.
Qed.
(** the guess is never parallel to the direction *)
Lemma guess_perp p : dot3 p p = 1 -> cross3 p (guessvec p) <> zero3.
Proof.
  intros U E. unfold guessvec in E. destruct (Rltb (Rabs (x3 p)) (99999 / 100000)) eqn:L.
  - apply Rltb_true in L. destruct p as [x y z]. cbn [x3] in L. pose proof (f_equal y3 E) as E1. pose proof (f_equal z3 E) as E2. vu.
    assert (z = 0) by lra. assert (y = 0) by lra. subst. assert (X : x * x = 1) by lra. apply Rabs_def2 in L. nra.
  - apply Rltb_false in L. destruct p as [x y z]. cbn [x3] in L. pose proof (f_equal x3 E) as E1. pose proof (f_equal z3 E) as E2. vu.
    assert (z = 0) by lra. assert (x = 0) by lra. subst. rewrite Rabs_R0 in L. lra.
Qed.
Lemma rod_perp u t v : dot3 u v = 0 -> rodrigues u t v = add3 (scale3 (cos t) v) (scale3 (sin t) (cross3 u v)).
Proof. intros H. unfold rodrigues. rewrite H. generalize (cos t) (sin t). clear. vring. Qed.
Lemma einsum_rod u t v : einsum_ij_i (axangle2mat_n u t) v = rodrigues u (- t) v.
Proof. unfold einsum_ij_i. rewrite axangle_trans. apply axangle_rodrigues. Qed.
(** explicit form of the scattered direction *)
Lemma random_form dir p : unit3 dir = Some p ->
  exists e, dot3 e e = 1 /\ dot3 p e = 0 /\ forall a u,
    random_scatter dir (Some (a, u)) = Some (add3 (scale3 (cos a) p) (scale3 (sin a) (add3 (scale3 (cos (u * twopi)) (cross3 p e)) (scale3 (sin (u * twopi)) e)))).
Proof.
  intros U. destruct (unit3_spec _ _ U) as (_ & _ & P & _).
  pose proof (guess_perp p P) as G. set (g := cross3 p (guessvec p)) in *.
  set (e := scale3 (/ norm3 g) g). pose proof (unit3_some g G) as E. fold e in E. destruct (unit3_spec _ _ E) as (_ & _ & Ee & _).
  assert (PE : dot3 p e = 0). { unfold e. rewrite dot3_scale_r. unfold g. rewrite dot3_cross_l. ring. }
  exists e. split; [exact Ee|]. split; [exact PE|].
  intros a u. unfold random_scatter. rewrite U. fold g. unfold axangle2mat. rewrite E, (unit3_of_unit p P). f_equal. rewrite !einsum_rod.
  rewrite (rod_perp e (- a) p) by (rewrite dot3_comm; exact PE). rewrite cos_neg, sin_neg.
  unfold rodrigues. rewrite cos_neg, sin_neg.
  replace (add3 (scale3 (cos a) p) (scale3 (- sin a) (cross3 e p))) with (add3 (scale3 (cos a) p) (scale3 (sin a) (cross3 p e))) by (generalize (cos a) (sin a) e p; clear; vring).
  assert (D : dot3 p (add3 (scale3 (cos a) p) (scale3 (sin a) (cross3 p e))) = cos a) by (rewrite dot3_add_r, !dot3_scale_r, P, dot3_cross_l; ring).
  rewrite D.
  assert (C : cross3 p (add3 (scale3 (cos a) p) (scale3 (sin a) (cross3 p e))) = scale3 (- sin a) e).
  { transitivity (scale3 (sin a) (sub3 (scale3 (dot3 p e) p) (scale3 (dot3 p p) e))); [generalize (cos a) (sin a); clear; vring|]. rewrite PE, P. generalize (sin a) e p. clear. vring. }
  rewrite C. generalize (cos a) (sin a) (cos (u * twopi)) (sin (u * twopi)) (cross3 p e). clear. vring.
Qed.
Lemma random_spec dir a u p : unit3 dir = Some p ->
  exists out, random_scatter dir (Some (a, u)) = Some out /\ norm3 out = 1 /\ dot3 out p = cos a.
Proof.
  intros U. destruct (random_form dir p U) as (e & Ee & PE & F). specialize (F a u). destruct (unit3_spec _ _ U) as (_ & _ & P & _).
  eexists. split; [exact F|]. set (w := add3 (scale3 (cos (u * twopi)) (cross3 p e)) (scale3 (sin (u * twopi)) e)).
  assert (PW : dot3 p w = 0). { unfold w. rewrite dot3_add_r, !dot3_scale_r, PE, dot3_cross_l. ring. }
  assert (WW : dot3 w w = 1).
  { unfold w. rewrite !dot3_add_l, !dot3_add_r, !dot3_scale_l, !dot3_scale_r, (dot3_comm (cross3 p e) e), dot3_cross_r, lagrange, P, Ee, PE.
    pose proof (sc1 (u * twopi)). lra. }
  split.
  - apply norm3_1. rewrite !dot3_add_l, !dot3_add_r, !dot3_scale_l, !dot3_scale_r, (dot3_comm w p), PW, WW, P. pose proof (sc1 a). lra.
  - rewrite dot3_add_l, !dot3_scale_l, (dot3_comm w p), PW, P. ring.
Qed.
Lemma cos_2PI_shift x : cos (x + 2 * PI) = cos x.
Proof. rewrite cos_plus, cos_2PI, sin_2PI. ring. Qed.
Lemma sin_2PI_shift x : sin (x + 2 * PI) = sin x.
Proof. rewrite sin_plus, cos_2PI, sin_2PI. ring. Qed.
(** every direction perpendicular to the ray is reached by some draw in [0, 1) *)
Lemma random_onto dir a p w : unit3 dir = Some p -> dot3 w w = 1 -> dot3 p w = 0 ->
  exists u, 0 <= u < 1 /\ random_scatter dir (Some (a, u)) = Some (add3 (scale3 (cos a) p) (scale3 (sin a) w)).
Proof.
  intros U W PW. destruct (unit3_spec _ _ U) as (_ & _ & P & _). destruct (random_form dir p U) as (e & Ee & PE & F).
  pose (f := cross3 p e).
  assert (FF : dot3 f f = 1) by (unfold f; rewrite lagrange, P, Ee, PE; ring).
  assert (PF : dot3 p f = 0) by (unfold f; rewrite dot3_cross_l; reflexivity).
  assert (FE : dot3 f e = 0) by (unfold f; rewrite dot3_comm; apply dot3_cross_r).
  assert (O : orthonormal (M3 f e p)).
  { unfold orthonormal. cbn [a0 a1 a2]. rewrite FF, Ee, P, FE, (dot3_comm f p), PF, (dot3_comm e p), PE. auto 10. }
  pose proof (Plane_Proofs.frame_decompose f e p w O) as D. rewrite (dot3_comm w p), PW in D.
  set (c := dot3 w f) in *. set (s := dot3 w e) in *.
  assert (CS : c * c + s * s = 1).
  { rewrite <- W. rewrite D. rewrite !dot3_add_l, !dot3_add_r, !dot3_scale_l, !dot3_scale_r, FF, Ee, P, FE, (dot3_comm e f), FE, (dot3_comm f p), PF, (dot3_comm e p), PE. ring. }
  destruct (atan2_unit c s CS) as (C & S & B). set (th := atan2 s c) in *. pose proof PI_RGT_0 as Pi.
  assert (T : 0 < twopi) by (unfold twopi; lra).
  pose (u := if Rltb th 0 then (th + twopi) / twopi else th / twopi).
  assert (Cu : cos (u * twopi) = c /\ sin (u * twopi) = s /\ 0 <= u < 1).
  { unfold u. destruct (Rltb th 0) eqn:L.
    - apply Rltb_true in L. replace ((th + twopi) / twopi * twopi) with (th + 2 * PI) by (unfold twopi in *; field; lra).
      rewrite cos_2PI_shift, sin_2PI_shift. split; [exact C|]. split; [exact S|]. split.
      + apply Rmult_le_pos; [unfold twopi in *; lra|]. left. now apply Rinv_0_lt_compat.
      + apply (Rmult_lt_reg_r twopi); [exact T|]. unfold Rdiv. rewrite Rmult_assoc, Rinv_l by lra. unfold twopi in *. lra.
    - apply Rltb_false in L. replace (th / twopi * twopi) with th by (field; lra). split; [exact C|]. split; [exact S|]. split.
      + apply Rmult_le_pos; [lra|]. left. now apply Rinv_0_lt_compat.
      + apply (Rmult_lt_reg_r twopi); [exact T|]. unfold Rdiv. rewrite Rmult_assoc, Rinv_l by lra. unfold twopi in *. lra. }
  destruct Cu as (Cu & Su & Bu). exists u. split; [exact Bu|]. rewrite F, Cu, Su. fold f. do 3 f_equal. rewrite D. generalize c s. clear. vring.
Qed.
