(** Property C248: the matrix behind the check of [Q_reflection]. *)
From Verif Require Import Base_Proofs Vec_Proofs Coords_Proofs Rot_Proofs Qmatrix_Proofs.
From Verif Require Export Qmatrix_Model.
Open Scope R_scope.

(** ** C248 *)
(** There is a matrix unless the change of direction is zero (nan). It takes twice the part along the change of direction off every vector. *)
Theorem C248_matrix : forall delta, (q_matrix delta = None <-> delta = zero4) /\
  forall q, q_matrix delta = Some q -> forall v, app4 q v = sub4 v (scale4 (2 * dot4 delta v / dot4 delta delta) delta).
Proof.
  intros delta. split; [apply q_matrix_none|]. intros q H. assert (N : delta <> zero4) by (intros E; apply q_matrix_none in E; congruence).
  destruct (q_matrix_app delta N) as (q' & Q & A). assert (q' = q) as -> by congruence. exact A.
Qed.
Print Assumptions C248_matrix.
(** As the docstring says, the length of the argument does not matter. *)
Theorem C248_length : forall k delta, k <> 0 -> q_matrix (scale4 k delta) = q_matrix delta.
Proof.
  intros k delta K. destruct (q_matrix delta) as [q|] eqn:Q.
  - assert (N : delta <> zero4) by (intros E; apply q_matrix_none in E; congruence). pose proof (dot4_pos delta N) as P.
    assert (N' : scale4 k delta <> zero4). { intros E. apply N. destruct delta as [x y z w]. unfold scale4, zero4 in *. cbn in E. injection E as E1 E2 E3 E4. f_equal; apply Rmult_eq_reg_l with k; lra. }
    destruct (q_matrix_app _ N') as (q' & Q' & A'). rewrite Q'. f_equal. apply m4_ext. intros v. rewrite A', (proj2 (C248_matrix delta) q Q v).
    assert (E1 : dot4 (scale4 k delta) v = k * dot4 delta v) by (unfold dot4, scale4; cbn; ring). assert (E2 : dot4 (scale4 k delta) (scale4 k delta) = k * k * dot4 delta delta) by (unfold dot4, scale4; cbn; ring). rewrite E1, E2.
    set (D := dot4 delta delta) in *. set (B := dot4 delta v). clearbody D B. clear - P K. destruct v as [a b c d], delta as [x y z w]. unfold sub4, scale4. cbn. f_equal; field; lra.
  - apply q_matrix_none in Q. rewrite Q. apply q_matrix_none. unfold scale4, zero4. cbn. f_equal; ring.
Qed.
Print Assumptions C248_length.
(** With the documented argument the matrix takes the old direction to the new one and back, keeps all scalar products of directions and polarizations, leaves the fourth coordinate, and applied twice has no effect. *)
Theorem C248_directions : forall d1 d2, dot3 d1 d1 = dot3 d2 d2 -> d1 <> d2 -> exists q, q_matrix (delta_dir (hom d1 0) (hom d2 0)) = Some q /\
  app4 q (hom d1 0) = hom d2 0 /\ app4 q (hom d2 0) = hom d1 0 /\
  (forall v, w4 (app4 q v) = w4 v /\ app4 q (app4 q v) = v) /\
  (forall u v, dot3 (xyz (app4 q (hom u 0))) (xyz (app4 q (hom v 0))) = dot3 u v).
Proof.
  intros d1 d2 L N. destruct (q_dirs d1 d2 N) as (q & Q & A). destruct (hh_turns d1 d2 N L) as [T1 T2]. pose proof (sub3_pos d1 d2 N) as P. exists q. split; [exact Q|]. rewrite !A, T1, T2. split; [reflexivity|]. split; [reflexivity|]. split.
  - intros v. assert (E : v = hom (xyz v) (w4 v)) by (destruct v; reflexivity). rewrite E, !A, hh_twice by exact P. split; reflexivity.
  - intros u v. rewrite !A, !xyz_hom. now apply hh_dot.
Qed.
Print Assumptions C248_directions.
(** Polarizations: a transverse vector is transverse to the new direction and has the same length; a vector perpendicular to both directions is not changed. *)
Theorem C248_polarization : forall d1 d2 q v, dot3 d1 d1 = dot3 d2 d2 -> d1 <> d2 -> q_matrix (delta_dir (hom d1 0) (hom d2 0)) = Some q -> dot3 v d1 = 0 ->
  exists v', app4 q (hom v 0) = hom v' 0 /\ dot3 v' d2 = 0 /\ dot3 v' v' = dot3 v v /\ (dot3 v d2 = 0 -> v' = v).
Proof.
  intros d1 d2 q v L N Q T. destruct (q_dirs d1 d2 N) as (q' & Q' & A). assert (q' = q) as -> by congruence. destruct (hh_turns d1 d2 N L) as [T1 T2]. pose proof (sub3_pos d1 d2 N) as P.
  exists (householder (sub3 d1 d2) v). split; [apply A|]. split; [rewrite <- T1 at 2; rewrite hh_dot by exact P; exact T|]. split; [now apply hh_dot|]. intros T'. apply hh_fix. rewrite dot3_sub_l, (dot3_comm d1 v), (dot3_comm d2 v), T, T'. ring.
Qed.
Print Assumptions C248_polarization.
(** On a flat mirror with unit normal [n] it is the reflection at the mirror. *)
Theorem C248_mirror : forall n d1 d2, dot3 n n = 1 -> dot3 d1 n <> 0 -> d2 = sub3 d1 (scale3 (2 * dot3 d1 n) n) -> exists q, q_matrix (delta_dir (hom d1 0) (hom d2 0)) = Some q /\
  forall v w, app4 q (hom v w) = hom (sub3 v (scale3 (2 * dot3 v n) n)) w.
Proof.
  intros n d1 d2 U D E. assert (S : sub3 d1 d2 = scale3 (2 * dot3 d1 n) n) by (rewrite E; generalize (2 * dot3 d1 n); clear; intros k; revert k d1 n; vring).
  assert (N : d1 <> d2). { intros X. assert (Z : dot3 (sub3 d1 d2) n = 0) by (rewrite <- X; clear; revert d1 n; vring). rewrite S, dot3_scale_l, U in Z. lra. }
  destruct (q_dirs d1 d2 N) as (q & Q & A). exists q. split; [exact Q|]. intros v w. rewrite A. f_equal. unfold householder. rewrite S, !dot3_scale_l, !dot3_scale_r, U, (dot3_comm n v).
  set (k := dot3 d1 n) in *. set (j := dot3 v n). clearbody k j. replace (2 * (2 * k * j) / (2 * k * (2 * k * 1))) with (j / k) by (field; lra). clear - D. destruct v as [a b c], n as [e f g]. unfold sub3, scale3. cbn. f_equal; field; lra.
Qed.
Print Assumptions C248_mirror.
(** It is not the parallel transport that the optical elements use: both keep the part perpendicular to the plane of the two directions, but the part in that plane comes out with opposite signs. *)
Theorem C248_opposite : forall d1 d2 q v, dot3 d1 d1 = 1 -> dot3 d2 d2 = 1 -> isclose (norm3 (cross3 d1 d2)) 0 = false -> q_matrix (delta_dir (hom d1 0) (hom d2 0)) = Some q -> dot3 v d1 = 0 ->
  exists v', parallel_transport (hom d1 0) (hom d2 0) (hom v 0) None None = Some (hom v' 0) /\
  (app4 q (hom v 0) = hom v' 0 <-> cross3 v (cross3 d1 d2) = zero3) /\
  (app4 q (hom v 0) = hom (neg3 v') 0 <-> dot3 v (cross3 d1 d2) = 0).
Proof.
  intros d1 d2 q v U1 U2 C Q T. assert (E1 : unit3 d1 = Some d1) by (now apply unit3_unit). assert (E2 : unit3 d2 = Some d2) by (now apply unit3_unit).
  destruct (hh_transport d1 d2 d1 d2 true E1 E2 C) as (s & m & M & S & S0 & Us & N & H). destruct (H v T) as [HH HM]. destruct (q_dirs d1 d2 N) as (q' & Q' & A). assert (q' = q) as -> by congruence.
  set (n := norm3 (cross3 d1 d2)) in *. assert (O1 : dot3 d1 s = 0) by (apply Rmult_eq_reg_l with n; [rewrite Rmult_0_r, <- dot3_scale_r, <- S; clear; revert d1 d2; vring|exact S0]).
  assert (O2 : dot3 d2 s = 0) by (apply Rmult_eq_reg_l with n; [rewrite Rmult_0_r, <- dot3_scale_r, <- S; clear; revert d1 d2; vring|exact S0]).
  pose proof (transverse_parts d1 s v U1 Us O1 T) as V. set (a := dot3 v s) in *. set (b := dot3 v (cross3 d1 s)) in *.
  exists (app3 m v). split; [unfold parallel_transport; rewrite !xyz_hom, M; reflexivity|]. rewrite A, HH, HM, S.
  assert (HI : forall u u', hom u 0 = hom u' 0 <-> u = u') by (intros [x y z] [x' y' z']; unfold hom; cbn; split; [intros X; injection X as -> -> ->; reflexivity|intros X; injection X as -> -> ->; reflexivity]). rewrite !HI.
  assert (P2 : dot3 (cross3 d2 s) (cross3 d2 s) = 1). { transitivity (dot3 d2 d2 * dot3 s s - dot3 d2 s * dot3 d2 s); [clear; revert d2 s; vring|]. rewrite U2, Us, O2. ring. }
  assert (PS : dot3 (cross3 d2 s) s = 0) by (clear; revert d2 s; vring).
  split.
  - assert (CV : cross3 v (scale3 n s) = scale3 (n * b) d1 \/ cross3 v (scale3 n s) = scale3 (- (n * b)) d1).
    { right. rewrite V. assert (X : cross3 (cross3 d1 s) s = neg3 d1). { transitivity (sub3 (scale3 (dot3 d1 s) s) (scale3 (dot3 s s) d1)); [clear; revert d1 s; vring|]. rewrite O1, Us. clear. revert d1 s. vring. }
      transitivity (add3 (scale3 (a * n) (cross3 s s)) (scale3 (b * n) (cross3 (cross3 d1 s) s))); [generalize (cross3 d1 s); clearbody a b n; clear; intros p; revert a b n s p; vring|]. rewrite X. clearbody a b n. clear. revert a b n s d1. vring. }
    split.
    + intros X. apply (f_equal (fun u => dot3 u (cross3 d2 s))) in X. assert (NG : forall u : v3, dot3 (neg3 u) (cross3 d2 s) = - dot3 u (cross3 d2 s)) by (generalize (cross3 d2 s); clear; intros w u; revert u w; vring). rewrite !dot3_add_l, NG, !dot3_scale_l, P2, (dot3_comm s (cross3 d2 s)), PS in X. assert (B0 : b = 0) by lra.
      destruct CV as [-> | ->]; rewrite B0; clearbody n; clear; revert n d1; vring.
    + intros X. assert (B0 : b = 0). { destruct CV as [CV|CV]; rewrite CV in X; apply (f_equal (fun u => dot3 u d1)) in X; rewrite dot3_scale_l, U1 in X; assert (Z : dot3 zero3 d1 = 0) by (clear; revert d1; vring); rewrite Z in X; apply Rmult_eq_reg_l with n; lra. }
      rewrite B0. generalize (cross3 d2 s). clearbody a. clear. intros u. revert a s u. vring.
  - rewrite dot3_scale_r. fold a. split.
    + intros X. apply (f_equal (fun u => dot3 u s)) in X. assert (NG : forall u : v3, dot3 (neg3 u) s = - dot3 u s) by (clear; revert s; vring). rewrite NG, !dot3_add_l, NG, !dot3_scale_l, Us, PS in X. assert (A0 : a = 0) by lra. rewrite A0. ring.
    + intros X. assert (A0 : a = 0) by (apply Rmult_eq_reg_l with n; lra). rewrite A0. generalize (cross3 d2 s). clearbody b. clear. intros u. revert b s u. vring.
Qed.
Print Assumptions C248_opposite.
(** a turn from x to y: polarization along z stays, polarization along -y becomes -x by the matrix and x by the transport *)
Theorem C248_transport_refuted : ~ (forall d1 d2 q v, dot3 d1 d1 = 1 -> dot3 d2 d2 = 1 -> d1 <> d2 -> q_matrix (delta_dir (hom d1 0) (hom d2 0)) = Some q -> dot3 v d1 = 0 -> parallel_transport (hom d1 0) (hom d2 0) (hom v 0) None None = Some (app4 q (hom v 0))).
Proof.
  intros H. set (d1 := V3 1 0 0). set (d2 := V3 0 1 0). set (v := V3 0 (-1) 0). assert (N : d1 <> d2) by (intros E; apply (f_equal x3) in E; cbn in E; lra).
  destruct (q_dirs d1 d2 N) as (q & Q & _). assert (U1 : dot3 d1 d1 = 1) by (unfold d1; vu; ring). assert (U2 : dot3 d2 d2 = 1) by (unfold d2; vu; ring). assert (T : dot3 v d1 = 0) by (unfold v, d1; vu; ring).
  assert (C : isclose (norm3 (cross3 d1 d2)) 0 = false).
  { assert (NN : norm3 (cross3 d1 d2) = 1) by (apply norm3_1; unfold d1, d2; vu; ring). rewrite NN. apply not_true_iff_false. rewrite isclose_true, Rminus_0_r, Rabs_R1, Rabs_R0. lra. }
  destruct (C248_opposite d1 d2 q v U1 U2 C Q T) as (v' & P & I & _). specialize (H d1 d2 q v U1 U2 N Q T). rewrite P in H. assert (X : app4 q (hom v 0) = hom v' 0) by congruence. apply I in X.
  apply (f_equal x3) in X. unfold v, d1, d2 in X. vu. lra.
Qed.
Print Assumptions C248_transport_refuted.
Example C248_example : exists q, q_matrix (delta_dir (V4 1 0 0 0) (V4 0 1 0 0)) = Some q /\ app4 q (V4 1 0 0 0) = V4 0 1 0 0 /\ app4 q (V4 0 0 1 0) = V4 0 0 1 0 /\ app4 q (V4 0 (-1) 0 0) = V4 (-1) 0 0 0.
Proof.
  assert (N : delta_dir (V4 1 0 0 0) (V4 0 1 0 0) <> zero4) by (intros E; apply (f_equal x4) in E; cbn in E; lra). destruct (q_matrix_app _ N) as (q & Q & A). exists q. split; [exact Q|].
  repeat split; rewrite A; unfold delta_dir, sub4, scale4, dot4; cbn; f_equal; field.
Qed.
