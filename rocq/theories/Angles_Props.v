(** Properties C23, C24: angles. *)
From Verif Require Import Vec_Proofs Angles_Model Angles_Proofs.
Open Scope R_scope.

(** C23, for borders that are different directions: counter-clockwise from [a], one meets [phi] no later than [b]. *)
Theorem C23_between_partial : forall phi a b, ~ same_angle a b ->
  (angle_between phi a b = true <-> ccw a phi <= ccw a b).
Proof. exact angle_between_iff. Qed.
Print Assumptions C23_between_partial.
(** The same without modular arithmetic: some representation of [phi] is in the interval. *)
Theorem C23_interval_partial : forall phi a b, a < b < a + twopi ->
  (angle_between phi a b = true <-> exists n, a <= phi + twopi * IZR n <= b).
Proof. exact angle_between_interval. Qed.
Print Assumptions C23_interval_partial.
Theorem C23_representation : forall phi a b n m k,
  angle_between (phi + twopi * IZR n) (a + twopi * IZR m) (b + twopi * IZR k) = angle_between phi a b.
Proof. exact angle_between_period. Qed.
Print Assumptions C23_representation.
(** Borders that differ by full turns: the full circle. *)
Theorem C23_full_circle : forall phi a b, same_angle a b -> angle_between phi a b = true.
Proof. exact angle_between_full. Qed.
Print Assumptions C23_full_circle.
Example C23_example : angle_between (-0.1) (-0.2) 5 = true /\ angle_between 1 0 2 = true /\ angle_between 3 0 2 = false.
Proof.
  pose proof PI_RGT_0. pose proof PI_4. pose proof PI2_3_2. unfold PI2 in *.
  split; [|split].
  - apply C23_interval_partial; [unfold twopi; lra|]. exists 0%Z. simpl. lra.
  - apply C23_interval_partial; [unfold twopi; lra|]. exists 0%Z. simpl. lra.
  - apply not_true_iff_false. rewrite C23_interval_partial by (unfold twopi; lra). intros [n E]. unfold twopi in E.
    destruct (Z_lt_le_dec n 0) as [L|L].
    + assert (IZR n <= -1) by (apply (IZR_le n (-1)); lia). nra.
    + assert (0 <= IZR n) by (apply (IZR_le 0 n); lia). nra.
Qed.
(** C23 is false for equal borders: the interval from [a] to [a] contains every angle. *)
Theorem C23_equal_borders_refuted : exists phi a, angle_between phi a a = true /\ ~ ccw a phi <= ccw a a.
Proof.
  exists 1, 0. split; [apply angle_between_full; exists 0%Z; ring|].
  pose proof PI_RGT_0. pose proof PI2_3_2. unfold PI2 in *. unfold ccw.
  rewrite !Rmod_small by (unfold twopi; lra). lra.
Qed.
Print Assumptions C23_equal_borders_refuted.

(** C24 *)
Theorem C24_anglediff : forall a b, 0 <= anglediff a b <= twopi /\ same_angle (b - a) (anglediff a b).
Proof. exact anglediff_range. Qed.
Print Assumptions C24_anglediff.
(** Differences within a turn are kept as they are (so a full circle stays a full circle). *)
Theorem C24_identity : forall a b, 0 <= b - a <= twopi -> anglediff a b = b - a.
Proof. exact anglediff_id. Qed.
Print Assumptions C24_identity.
Example C24_example : anglediff (- PI) PI = twopi /\ anglediff 1 0 = twopi - 1.
Proof.
  pose proof PI_RGT_0. pose proof PI2_3_2. unfold PI2 in *. split.
  - rewrite C24_identity; unfold twopi; lra.
  - unfold anglediff. cbn zeta. replace (Rltb (0 - 1) 0) with true by (symmetry; apply Rltb_true; lra). cbn [orb].
    apply (Rmod_unique _ _ _ (-1)%Z); unfold twopi; try lra; simpl; lra.
Qed.
