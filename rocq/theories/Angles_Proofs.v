(** Lemmas about [Angles_Model]. *)
From Verif Require Import Vec_Proofs.
From Verif Require Export Angles_Model.
Open Scope R_scope.

Lemma twopi_pos : 0 < twopi.
Proof. unfold twopi. pose proof PI_RGT_0. lra. Qed.
Lemma reduce_angle_Rmod a : reduce_angle a = Rmod a twopi.
Proof.
  unfold reduce_angle. replace (twopi + Rmod a twopi) with (Rmod a twopi + twopi * IZR 1) by (simpl (IZR 1); ring).
  rewrite Rmod_shift by apply twopi_pos. apply Rmod_small; [apply twopi_pos|apply Rmod_bound, twopi_pos].
Qed.
Lemma anglediff_range a b : 0 <= anglediff a b <= twopi /\ same_angle (b - a) (anglediff a b).
Proof.
  unfold anglediff. cbn zeta. pose proof twopi_pos as P.
  destruct (Rltb (b - a) 0) eqn:E1; cbn [orb].
  - destruct (Rmod_bound (b - a) twopi P). split; [lra|]. destruct (Rmod_eq (b - a) twopi) as [n E].
    exists (- n)%Z. rewrite E, opp_IZR. ring.
  - destruct (Rltb twopi (b - a)) eqn:E2.
    + destruct (Rmod_bound (b - a) twopi P). split; [lra|]. destruct (Rmod_eq (b - a) twopi) as [n E].
      exists (- n)%Z. rewrite E, opp_IZR. ring.
    + apply Rltb_false in E1. apply Rltb_false in E2. split; [lra|]. exists 0%Z. ring.
Qed.
(** within one turn the difference is kept as it is *)
Lemma anglediff_id a b : 0 <= b - a <= twopi -> anglediff a b = b - a.
Proof.
  intros H. unfold anglediff. cbn zeta. replace (Rltb (b - a) 0) with false by (symmetry; apply Rltb_false; lra).
  replace (Rltb twopi (b - a)) with false by (symmetry; apply Rltb_false; lra). reflexivity.
Qed.
Lemma Rmod_diff x y : ccw x y = (if Rle_dec (Rmod x twopi) (Rmod y twopi) then Rmod y twopi - Rmod x twopi
                                   else Rmod y twopi - Rmod x twopi + twopi).
Proof.
  pose proof twopi_pos as P. destruct (Rmod_bound x twopi P), (Rmod_bound y twopi P).
  destruct (Rmod_eq x twopi) as [n En], (Rmod_eq y twopi) as [m Em]. unfold ccw.
  destruct (Rle_dec _ _) as [L|L].
  - apply (Rmod_unique _ _ _ (m - n)%Z); [exact P|lra|]. rewrite minus_IZR. lra.
  - apply (Rmod_unique _ _ _ (m - n - 1)%Z); [exact P|lra|]. rewrite !minus_IZR. lra.
Qed.
Lemma same_angle_Rmod a b : same_angle a b <-> Rmod a twopi = Rmod b twopi.
Proof.
  pose proof twopi_pos as P. split.
  - intros [n ->]. symmetry. now apply Rmod_shift.
  - intros H. destruct (Rmod_eq a twopi) as [n En], (Rmod_eq b twopi) as [m Em]. exists (m - n)%Z. rewrite minus_IZR. lra.
Qed.
Lemma angle_between_iff phi a b : ~ same_angle a b -> (angle_between phi a b = true <-> ccw a phi <= ccw a b).
Proof.
  intros N. rewrite same_angle_Rmod in N. pose proof twopi_pos as P. unfold angle_between. cbn zeta.
  rewrite !reduce_angle_Rmod, !Rmod_diff.
  destruct (Rmod_bound a twopi P), (Rmod_bound b twopi P), (Rmod_bound phi twopi P).
  set (x := Rmod a twopi) in *. set (y := Rmod b twopi) in *. set (z := Rmod phi twopi) in *.
  destruct (Rltb x y) eqn:E.
  - apply Rltb_true in E. rewrite andb_true_iff, !Rleb_true.
    destruct (Rle_dec x y), (Rle_dec x z); split; intros; lra.
  - apply Rltb_false in E. rewrite orb_true_iff, !Rleb_true.
    destruct (Rle_dec x y), (Rle_dec x z); split; intros; lra.
Qed.
Lemma angle_between_full phi a b : same_angle a b -> angle_between phi a b = true.
Proof.
  intros N. rewrite same_angle_Rmod in N. unfold angle_between. cbn zeta. rewrite !reduce_angle_Rmod, N.
  replace (Rltb (Rmod b twopi) (Rmod b twopi)) with false by (symmetry; apply Rltb_false; lra).
  apply orb_true_iff. rewrite !Rleb_true. lra.
Qed.
Lemma angle_between_period phi a b n m k :
  angle_between (phi + twopi * IZR n) (a + twopi * IZR m) (b + twopi * IZR k) = angle_between phi a b.
Proof. unfold angle_between. cbn zeta. rewrite !reduce_angle_Rmod. now rewrite !Rmod_shift by apply twopi_pos. Qed.
(** for borders within one turn this is the usual interval, shifted by turns *)
Lemma angle_between_interval phi a b : a < b < a + twopi ->
  (angle_between phi a b = true <-> exists n, a <= phi + twopi * IZR n <= b).
Proof.
  intros H. pose proof twopi_pos as P. rewrite angle_between_iff.
  2: { intros [n E]. assert (0 < IZR n < 1) as [K1 K2] by (split; nra). apply lt_IZR in K1. apply (lt_IZR n 1) in K2. lia. }
  assert (E : ccw a b = b - a) by (apply Rmod_small; lra). rewrite E. split.
  - intros L. destruct (Rmod_eq (phi - a) twopi) as [n En]. destruct (Rmod_bound (phi - a) twopi P). unfold ccw in L.
    exists (- n)%Z. rewrite opp_IZR. lra.
  - intros [n L]. replace (ccw a phi) with (phi + twopi * IZR n - a); [lra|]. symmetry.
    apply (Rmod_unique _ _ _ (- n)%Z); [exact P|lra|]. rewrite opp_IZR. lra.
Qed.
