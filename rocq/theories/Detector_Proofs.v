(** Lemmas about [Detector_Model]. *)
From Verif Require Import Vec_Proofs Coords_Proofs Plane_Proofs Position_Proofs Cylinder_Proofs.
From Verif Require Export Detector_Model.
Open Scope R_scope.

Lemma Rround_near x : Rabs (IZR (Rround x) - x) <= 1 / 2.
Proof.
  unfold Rround. cbv zeta. destruct (Rfloor_spec x) as [L U]. set (f := Rfloor x) in *.
  destruct (Rltb (x - IZR f) (1 / 2)) eqn:A; [apply Rltb_true in A; apply Rabs_le; lra|apply Rltb_false in A].
  destruct (Rltb (1 / 2) (x - IZR f)) eqn:B; [apply Rltb_true in B; rewrite plus_IZR; apply Rabs_le; lra|apply Rltb_false in B].
  destruct (Z.even f); [|rewrite plus_IZR]; apply Rabs_le; lra.
Qed.
Lemma Rround_IZR n : Rround (IZR n) = n.
Proof.
  unfold Rround. cbv zeta. rewrite (Rfloor_unique (IZR n) n) by lra. rewrite (proj2 (Rltb_true _ _)) by lra. reflexivity.
Qed.
Section Pix.
Variables z pix : R.
Hypothesis P : 0 < pix.
Lemma detpix_mono c d : c < d -> detpix z pix c < detpix z pix d.
Proof. intros H. unfold detpix, Rdiv. pose proof (Rinv_0_lt_compat _ P). nra. Qed.
Lemma detpix_center : detpix z pix 0 = centerpix z pix.
Proof. unfold detpix, Rdiv. ring. Qed.
Lemma detpix_step c : detpix z pix (c + pix) = detpix z pix c + 1.
Proof. unfold detpix. field. lra. Qed.
Lemma detpix_range a : -1 <= a <= 1 -> 0 <= z ->
  let d := Rabs (IZR (npix z pix) - 2 * z / pix) in
  - (1 / 2) - d / 2 <= detpix z pix (a * z) <= IZR (npix z pix) - 1 / 2 + d / 2 /\ d <= 1 / 2.
Proof.
  intros A Z d. split; [|apply Rround_near]. unfold detpix, centerpix. set (n := IZR (npix z pix)) in *.
  assert (T : a * z / pix = a * (2 * z / pix) / 2) by (field; lra). rewrite T.
  assert (Q : 0 <= 2 * z / pix). { apply Rmult_le_pos; [lra|]. left. now apply Rinv_0_lt_compat. }
  set (q := 2 * z / pix) in *. assert (D : Rabs (n - q) <= d) by (unfold d; lra). apply Rabs_def2_le in D. split; nra.
Qed.
Lemma detpix_exact n a : 2 * z / pix = IZR n -> -1 <= a <= 1 -> 0 <= z -> npix z pix = n /\ - (1 / 2) <= detpix z pix (a * z) <= IZR n - 1 / 2.
Proof.
  intros E A Z. assert (N : npix z pix = n) by (unfold npix; rewrite E; apply Rround_IZR). split; [exact N|].
  destruct (detpix_range a A Z) as [R _]. rewrite N in R. replace (IZR n - 2 * z / pix) with 0 in R by lra. rewrite Rabs_R0 in R. lra.
Qed.
End Pix.
Lemma decompose44_zooms m : perpendicular_axes m ->
  exists r zx, decompose44 m = Some (tra m, r, V3 zx (norm3 (xyz (v_y m))) (norm3 (xyz (v_z m))), zero3).
Proof.
  intros (A & N0 & N1 & N2 & H01 & H02 & H12). unfold decompose44, tra. cbv zeta. unfold v_x, v_y, v_z in *.
  set (p := xyz (b0 m)) in *. set (q := xyz (b1 m)) in *. set (o := xyz (b2 m)) in *.
  pose proof (norm3_pos _ N0). pose proof (norm3_pos _ N1). pose proof (norm3_pos _ N2).
  assert (S0 : forall a b, sub3 a (scale3 0 b) = a) by (clear; vring).
  assert (S1 : forall a b c, sub3 a (add3 (scale3 0 b) (scale3 0 c)) = a) by (clear; vring).
  rewrite (proj2 (Reqb_false _ _)) by lra. rewrite !dot3_scale_l, H01, H02, !Rmult_0_r, S0.
  rewrite (proj2 (Reqb_false _ _)) by lra. rewrite ?dot3_scale_l, H12, !Rmult_0_r, S1.
  rewrite (proj2 (Reqb_false _ _)) by lra. unfold Rdiv. rewrite !Rmult_0_l.
  destruct (Rltb _ _); eauto.
Qed.
Lemma flat_detector_spec m pix d p x y : perpendicular_axes m -> flat_detector m pix (hom d 0) (hom p 1) = Some (x, y) ->
  exists k a b, 0 <= k /\ in_rectangle m a b (add3 p (scale3 k d)) /\
    x = detpix (norm3 (xyz (v_y m))) pix (a * norm3 (xyz (v_y m))) /\ y = detpix (norm3 (xyz (v_z m))) pix (b * norm3 (xyz (v_z m))).
Proof.
  intros P H. unfold flat_detector in H. destruct (decompose44_zooms m P) as (r & zx & D). rewrite D in H.
  destruct (plane_intersect m (hom d 0) (hom p 1)) as [[h ip] il] eqn:E. destruct h; [|discriminate].
  destruct (plane_hit_values m d p true ip il P E) as [_ V]. destruct (V eq_refl) as (k & a & b & q & K & I & Q & _ & L). rewrite L in H.
  injection H as <- <-. exists k, a, b. rewrite <- Q. auto.
Qed.
Lemma flat_detector_hit m pix d p : perpendicular_axes m ->
  ((exists x y, flat_detector m pix (hom d 0) (hom p 1) = Some (x, y)) <-> fst (fst (plane_intersect m (hom d 0) (hom p 1))) = true).
Proof.
  intros P. unfold flat_detector. destruct (decompose44_zooms m P) as (r & zx & D). rewrite D.
  destruct (plane_intersect m (hom d 0) (hom p 1)) as [[h ip] il] eqn:E. cbn [fst]. destruct h.
  - destruct (plane_hit_values m d p true ip il P E) as [_ V]. destruct (V eq_refl) as (k & a & b & q & _ & _ & _ & _ & L). rewrite L. split; eauto.
  - split; [intros (? & ? & ?); discriminate|discriminate].
Qed.
