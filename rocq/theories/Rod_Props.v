(** Properties C107 and C108: what holds of the claims on three.js output and on the rods of a boom. *)
From Verif Require Import Vec_Proofs Coords_Proofs Angles_Proofs Cylinder_Proofs Mission_Proofs Viz_Proofs.
From Verif Require Export Cylinder_Model Mission_Model Viz_Model.
Open Scope R_scope.

(** ** C108 *)
Lemma tube_across l0 l1 a b h : (forall phi, angle_between phi l0 l1 = true) -> 1 <= h -> (tube_crossing l0 l1 (V3 0 (-1) 0) (V3 a h b) <> None <-> -1 <= a <= 1 /\ -1 <= b <= 1).
Proof.
  intros F H. pose proof (crossing_spec l0 l1 (V3 0 (-1) 0) (V3 a h b)) as C. cbn [x3 y3] in C. specialize (C (or_intror (Rlt_not_eq (-1) 0 ltac:(lra)))).
  assert (T : forall k, on_tube l0 l1 (along (V3 a h b) (V3 0 (-1) 0) k) <-> a * a + (h - k) * (h - k) = 1 /\ -1 <= b <= 1).
  { intros k. rewrite on_tube_iff. unfold along. vu. rewrite F. replace (a + k * 0) with a by ring. replace (h + k * -1) with (h - k) by ring. replace (b + k * 0) with b by ring. tauto. }
  destruct (tube_crossing l0 l1 (V3 0 (-1) 0) (V3 a h b)) as [k|].
  - destruct C as (K & O & _). apply T in O. split; [|discriminate]. intros _. destruct O as [O B]. pose proof (Rle_0_sqr (h - k)) as S. unfold Rsqr in S. split; [split; nra|exact B].
  - split; [intros X; now destruct X|]. intros [A B] _. assert (S : 0 <= 1 - a * a) by nra. apply (C (h - sqrt (1 - a * a))).
    + assert (sqrt (1 - a * a) <= 1); [|lra]. rewrite <- sqrt_1 at 2. apply sqrt_le_1_alt. nra.
    + apply T. split; [|exact B]. replace (h - (h - sqrt (1 - a * a))) with (sqrt (1 - a * a)) by ring. rewrite sqrt_sqrt by exact S. ring.
Qed.
(** A ray that crosses the rod at right angles to its axis and to the axis of the tube that is used instead, coming from outside, is found if and only if it passes through the surface of the rod. *)
Theorem C108_across_partial : forall m minv l0 l1 a b h, affine m -> mul4 minv m = id4 -> same_angle l0 l1 -> 1 <= h ->
  ((exists ip il, cylinder_intersect m minv l0 l1 true (app4 m (V4 0 (-1) 0 0)) (app4 m (V4 a h b 1)) = Ok (true, ip, il)) <-> exists k, 0 <= k /\ on_rod (add3 (V3 a h b) (scale3 k (V3 0 (-1) 0)))).
Proof.
  intros m minv l0 l1 a b h A I SA H. pose proof (fun phi => angle_between_full phi l0 l1 SA) as F. assert (R : (exists k, 0 <= k /\ on_rod (add3 (V3 a h b) (scale3 k (V3 0 (-1) 0)))) <-> -1 <= a <= 1 /\ -1 <= b <= 1).
  { unfold on_rod. split.
    - intros (k & _ & Y & X). revert Y X. vu. cbn. intros Y X. pose proof (Rle_0_sqr (h + k * -1)) as S. unfold Rsqr in S. split; [lra|split; nra].
    - intros [X B]. assert (S : 0 <= 1 - b * b) by nra. exists (h - sqrt (1 - b * b)). split.
      + assert (sqrt (1 - b * b) <= 1); [|lra]. rewrite <- sqrt_1 at 2. apply sqrt_le_1_alt. nra.
      + vu. cbn. split; [|lra]. replace (h + (h - sqrt (1 - b * b)) * -1) with (sqrt (1 - b * b)) by ring. rewrite sqrt_sqrt by exact S. ring. }
  rewrite R, <- (tube_across l0 l1 a b h F H). unfold cylinder_intersect. rewrite <- !app4_mul, I, !app4_id. rewrite app4_aff_w by exact A. cbn [w4]. rewrite (proj2 (Reqb_true 0 0) eq_refl). cbn [negb]. change (xyz (V4 0 (-1) 0 0)) with (V3 0 (-1) 0). change (xyz (V4 a h b 1)) with (V3 a h b).
  destruct (tube_crossing l0 l1 (V3 0 (-1) 0) (V3 a h b)) as [k|]; split; intros X.
  - discriminate.
  - do 2 eexists. reflexivity.
  - destruct X as (ip & il & X). discriminate.
  - now destruct X.
Qed.
Print Assumptions C108_across_partial.
(** The default limits are the full circle. *)
Example C108_across_example : same_angle (- PI) PI /\ affine id4 /\ mul4 id4 id4 = id4 /\ on_rod (add3 (V3 (1 / 2) 3 (3 / 5)) (scale3 (11 / 5) (V3 0 (-1) 0))).
Proof. split; [exists 1%Z; unfold twopi; cbn; ring|]. split; [repeat split|]. split; [vring|]. unfold on_rod. vu. cbn. lra. Qed.
(** ** C107 *)
(** Only containers without elements, files without photons and materials without properties can be written. *)
Theorem C107_only_partial : (forall A (l : list A), (exists r, json_container l = Ok r) <-> l = []) /\ (forall A (data : list A) ph, (exists r, json_write data ph = Ok r) <-> ph = false) /\
  (forall A (data : list A), json_write data false = Ok data) /\ (forall V (d : dict V), (exists r, materialspec d = Ok r) <-> d = []).
Proof.
  split; [|split; [|split]].
  - intros A [|x l]; split; [reflexivity|intros _; exists []; reflexivity|intros [r E]; discriminate|discriminate].
  - intros A data [|]; split; [intros [r E]; discriminate|discriminate|reflexivity|intros _; exists data; reflexivity].
  - reflexivity.
  - intros V [|x d]; split; [reflexivity|intros _; exists ""; reflexivity|intros [r E]; discriminate|discriminate].
Qed.
Print Assumptions C107_only_partial.
