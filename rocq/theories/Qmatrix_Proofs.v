(** Proofs on the reflection matrix for polarizations. *)
From Verif Require Import Base_Proofs Vec_Proofs Coords_Proofs Rot_Proofs.
From Verif Require Export Qmatrix_Model.
Open Scope R_scope.

Lemma squares0 x y z : x * x + y * y + z * z <= 0 -> x = 0 /\ y = 0 /\ z = 0.
Proof. intros H. repeat split; nra. Qed.
Lemma norm4_sq d : norm4 d * norm4 d = dot4 d d.
Proof. unfold norm4. apply sqrt_sqrt. unfold dot4. nra. Qed.
Lemma dot4_pos d : d <> zero4 -> 0 < dot4 d d.
Proof.
  intros N. destruct (Rlt_le_dec 0 (dot4 d d)) as [H|H]; [exact H|]. exfalso. apply N. destruct d as [x y z w]. unfold dot4 in H. cbn in H. unfold zero4.
  assert (x = 0) by nra. assert (y = 0) by nra. assert (z = 0) by nra. assert (w = 0) by nra. now subst.
Qed.
Lemma q_matrix_app d : d <> zero4 -> exists q, q_matrix d = Some q /\ forall v, app4 q v = sub4 v (scale4 (2 * dot4 d v / dot4 d d) d).
Proof.
  intros N. pose proof (dot4_pos d N) as P. unfold q_matrix. cbv zeta. rewrite norm4_sq. rewrite (proj2 (Reqb_false _ _)) by lra. eexists. split; [reflexivity|]. intros v.
  set (D := dot4 d d) in *. clearbody D. destruct d as [x y z w], v as [a b c e]. unfold app4, outer4, id4, sub4, scale4, add4, dot4. cbn. f_equal; field; lra.
Qed.
Lemma q_matrix_none d : q_matrix d = None <-> d = zero4.
Proof.
  split.
  - intros H. destruct (Req_EM_T (dot4 d d) 0) as [E|E].
    + destruct d as [x y z w]. unfold dot4 in E. cbn in E. unfold zero4. assert (x = 0) by nra. assert (y = 0) by nra. assert (z = 0) by nra. assert (w = 0) by nra. now subst.
    + unfold q_matrix in H. cbv zeta in H. rewrite norm4_sq in H. rewrite (proj2 (Reqb_false _ _)) in H by exact E. discriminate.
  - intros ->. unfold q_matrix. cbv zeta. rewrite norm4_sq. rewrite (proj2 (Reqb_true _ _)); [reflexivity|]. unfold dot4, zero4. cbn. ring.
Qed.
Lemma m4_ext m n : (forall v, app4 m v = app4 n v) -> m = n.
Proof.
  intros H. assert (C : forall m, M4 (app4 m (V4 1 0 0 0)) (app4 m (V4 0 1 0 0)) (app4 m (V4 0 0 1 0)) (app4 m (V4 0 0 0 1)) = m).
  { intros [[a b c d] [e f g h] [i j k l] [o p q r]]. unfold app4, add4, scale4. cbn. f_equal; f_equal; ring. }
  rewrite <- (C m), <- (C n). now rewrite !H.
Qed.
(** for directions the last coordinate plays no role *)
Definition householder (d v : v3) : v3 := sub3 v (scale3 (2 * dot3 d v / dot3 d d) d).
Lemma q_dirs d1 d2 : d1 <> d2 -> exists q, q_matrix (delta_dir (hom d1 0) (hom d2 0)) = Some q /\ forall v w, app4 q (hom v w) = hom (householder (sub3 d1 d2) v) w.
Proof.
  intros N. assert (N4 : delta_dir (hom d1 0) (hom d2 0) <> zero4). { intros E. apply N. unfold delta_dir, zero4 in E. destruct d1 as [a b c], d2 as [e f g]. unfold sub4, hom in E. cbn in E. injection E as E1 E2 E3. f_equal; lra. }
  destruct (q_matrix_app _ N4) as (q & Q & A). exists q. split; [exact Q|]. intros v w. rewrite A. clear. unfold householder.
  assert (E1 : dot4 (delta_dir (hom d1 0) (hom d2 0)) (hom v w) = dot3 (sub3 d1 d2) v) by (unfold delta_dir, dot4, dot3; cbn; ring).
  assert (E2 : dot4 (delta_dir (hom d1 0) (hom d2 0)) (delta_dir (hom d1 0) (hom d2 0)) = dot3 (sub3 d1 d2) (sub3 d1 d2)) by (unfold delta_dir, dot4, dot3; cbn; ring).
  rewrite E1, E2. set (k := 2 * _ / _). clearbody k. unfold delta_dir, hom, sub4, scale4, sub3, scale3. cbn. f_equal; ring.
Qed.
Lemma sub3_pos d1 d2 : d1 <> d2 -> 0 < dot3 (sub3 d1 d2) (sub3 d1 d2).
Proof.
  intros N. destruct (Rlt_le_dec 0 (dot3 (sub3 d1 d2) (sub3 d1 d2))) as [H|H]; [exact H|]. exfalso. apply N. destruct d1 as [a b c], d2 as [e f g]. unfold dot3, sub3 in H. cbn in H.
  apply squares0 in H. destruct H as (A & B & C). f_equal; lra.
Qed.
Lemma hh_turns d1 d2 : d1 <> d2 -> dot3 d1 d1 = dot3 d2 d2 -> householder (sub3 d1 d2) d1 = d2 /\ householder (sub3 d1 d2) d2 = d1.
Proof.
  intros N L. pose proof (sub3_pos d1 d2 N) as P. unfold householder. set (D := dot3 (sub3 d1 d2) (sub3 d1 d2)) in *.
  assert (A : 2 * dot3 (sub3 d1 d2) d1 = D) by (unfold D; rewrite !dot3_sub_l, !dot3_sub_r, (dot3_comm d2 d1); lra). assert (B : 2 * dot3 (sub3 d1 d2) d2 = - D) by (unfold D; rewrite !dot3_sub_l, !dot3_sub_r, (dot3_comm d2 d1); lra).
  rewrite A, B. replace (D / D) with 1 by (field; lra). replace (- D / D) with (-1) by (field; lra). clear. split; revert d1 d2; vring.
Qed.
Lemma hh_dot d u v : 0 < dot3 d d -> dot3 (householder d u) (householder d v) = dot3 u v.
Proof. intros P. unfold householder. rewrite !dot3_sub_l, !dot3_sub_r, !dot3_scale_l, !dot3_scale_r, (dot3_comm u d). field. lra. Qed.
Lemma hh_twice d v : 0 < dot3 d d -> householder d (householder d v) = v.
Proof.
  intros P. unfold householder at 1. assert (E : dot3 d (householder d v) = - dot3 d v) by (unfold householder; rewrite dot3_sub_r, dot3_scale_r; field; lra). rewrite E. unfold householder.
  replace (2 * - dot3 d v / dot3 d d) with (- (2 * dot3 d v / dot3 d d)) by (field; lra). generalize (2 * dot3 d v / dot3 d d). clear. intros k. revert k d v. vring.
Qed.
Lemma hh_fix d v : dot3 d v = 0 -> householder d v = v.
Proof. intros E. unfold householder. rewrite E. unfold Rdiv. rewrite Rmult_0_r, Rmult_0_l. clear. revert d v. vring. Qed.
(** transverse vectors: parts along s and d1 x s *)
Lemma transverse_parts d1 s v : dot3 d1 d1 = 1 -> dot3 s s = 1 -> dot3 d1 s = 0 -> dot3 v d1 = 0 -> v = add3 (scale3 (dot3 v s) s) (scale3 (dot3 v (cross3 d1 s)) (cross3 d1 s)).
Proof.
  intros D S O T. set (p := cross3 d1 s). 
  assert (P : dot3 p p = 1). { unfold p. transitivity (dot3 d1 d1 * dot3 s s - dot3 d1 s * dot3 d1 s); [clear; revert d1 s; vring|]. rewrite D, S, O. ring. }
  assert (PS : dot3 p s = 0) by (unfold p; clear; revert d1 s; vring). assert (PD : dot3 p d1 = 0) by (unfold p; clear; revert d1 s; vring).
  set (r := sub3 v (add3 (scale3 (dot3 v s) s) (scale3 (dot3 v p) p))).
  assert (RS : dot3 r s = 0) by (unfold r; rewrite dot3_sub_l, dot3_add_l, !dot3_scale_l, S, PS; ring). assert (RP : dot3 r p = 0) by (unfold r; rewrite dot3_sub_l, dot3_add_l, !dot3_scale_l, P, (dot3_comm s p), PS; ring).
  assert (RD : dot3 r d1 = 0) by (unfold r; rewrite dot3_sub_l, dot3_add_l, !dot3_scale_l, T, (dot3_comm s d1), O, PD; ring).
  assert (K : dot3 r r * dot3 d1 (cross3 s p) * dot3 d1 (cross3 s p) = 0).
  { transitivity (dot3 (add3 (add3 (scale3 (dot3 r d1) (cross3 s p)) (scale3 (dot3 r s) (cross3 p d1))) (scale3 (dot3 r p) (cross3 d1 s))) (add3 (add3 (scale3 (dot3 r d1) (cross3 s p)) (scale3 (dot3 r s) (cross3 p d1))) (scale3 (dot3 r p) (cross3 d1 s)))).
    - clearbody r p. clear. revert r d1 s p. vring.
    - rewrite RS, RP, RD. clearbody r p. clear. revert d1 s p. vring. }
  assert (V : dot3 d1 (cross3 s p) = 1). { transitivity (dot3 (cross3 d1 s) p); [clearbody p; clear; revert d1 s p; vring|exact P]. }
  rewrite V in K. assert (R0 : r = zero3). { destruct r as [x y z]. unfold dot3 in K. cbn in K. unfold zero3. assert (x = 0) by nra. assert (y = 0) by nra. assert (z = 0) by nra. now subst. }
  unfold r in R0. transitivity (add3 (sub3 v (add3 (scale3 (dot3 v s) s) (scale3 (dot3 v p) p))) (add3 (scale3 (dot3 v s) s) (scale3 (dot3 v p) p))); [generalize (add3 (scale3 (dot3 v s) s) (scale3 (dot3 v p) p)); clear; intros u; revert v u; vring|].
  rewrite R0. generalize (add3 (scale3 (dot3 v s) s) (scale3 (dot3 v p) p)). clear. intros u. revert u. vring.
Qed.
Lemma hh_scale d k v : householder d (scale3 k v) = scale3 k (householder d v).
Proof. unfold householder. rewrite dot3_scale_r. replace (2 * (k * dot3 d v) / dot3 d d) with (k * (2 * dot3 d v / dot3 d d)) by (unfold Rdiv; ring). generalize (2 * dot3 d v / dot3 d d). clear. intros j. revert k j d v. vring. Qed.
Lemma hh_add d u v : householder d (add3 u v) = add3 (householder d u) (householder d v).
Proof.
  unfold householder. assert (E : dot3 d (add3 u v) = dot3 d u + dot3 d v) by (clear; revert d u v; vring). rewrite E. replace (2 * (dot3 d u + dot3 d v) / dot3 d d) with (2 * dot3 d u / dot3 d d + 2 * dot3 d v / dot3 d d) by (unfold Rdiv; ring).
  generalize (2 * dot3 d u / dot3 d d) (2 * dot3 d v / dot3 d d). clear. intros j k. revert j k d u v. vring.
Qed.
Lemma hh_p d1 d2 : d1 <> d2 -> dot3 d1 d1 = 1 -> dot3 d2 d2 = 1 -> householder (sub3 d1 d2) (cross3 d1 (cross3 d1 d2)) = neg3 (cross3 d2 (cross3 d1 d2)).
Proof.
  intros N U1 U2. pose proof (sub3_pos d1 d2 N) as P. set (c := dot3 d1 d2). assert (DD : dot3 (sub3 d1 d2) (sub3 d1 d2) = 2 - 2 * c) by (unfold c; rewrite dot3_sub_l, !dot3_sub_r, U1, U2, (dot3_comm d2 d1); ring). rewrite DD in P.
  assert (E1 : cross3 d1 (cross3 d1 d2) = sub3 (scale3 c d1) d2). { transitivity (sub3 (scale3 (dot3 d1 d2) d1) (scale3 (dot3 d1 d1) d2)); [clear; revert d1 d2; vring|]. rewrite U1. fold c. clearbody c. clear. revert c d1 d2. vring. }
  assert (E2 : cross3 d2 (cross3 d1 d2) = sub3 d1 (scale3 c d2)). { transitivity (sub3 (scale3 (dot3 d2 d2) d1) (scale3 (dot3 d1 d2) d2)); [clear; revert d1 d2; vring|]. rewrite U2. fold c. clearbody c. clear. revert c d1 d2. vring. }
  rewrite E1, E2. unfold householder. rewrite DD.
  assert (F : 2 * dot3 (sub3 d1 d2) (sub3 (scale3 c d1) d2) / (2 - 2 * c) = 1 + c). { rewrite dot3_sub_l, !dot3_sub_r, !dot3_scale_r, U1, U2, (dot3_comm d2 d1). fold c. field. lra. }
  rewrite F. clearbody c. clear. revert c d1 d2. vring.
Qed.
(** the part along s is kept by both, the other part has opposite signs *)
Lemma hh_transport dir1 dir2 d1 d2 rn : unit3 dir1 = Some d1 -> unit3 dir2 = Some d2 -> isclose (norm3 (cross3 d1 d2)) 0 = false ->
  exists s m, paralleltransport_matrix dir1 dir2 eye2 rn = Some m /\ cross3 d1 d2 = scale3 (norm3 (cross3 d1 d2)) s /\ norm3 (cross3 d1 d2) <> 0 /\ dot3 s s = 1 /\ d1 <> d2 /\
    forall v, dot3 v d1 = 0 -> householder (sub3 d1 d2) v = add3 (scale3 (dot3 v s) s) (neg3 (scale3 (dot3 v (cross3 d1 s)) (cross3 d2 s))) /\
      app3 m v = add3 (scale3 (dot3 v s) s) (scale3 (dot3 v (cross3 d1 s)) (cross3 d2 s)).
Proof.
  intros E1 E2 C. destruct (unit3_spec _ _ E1) as (_ & _ & U1 & _). destruct (unit3_spec _ _ E2) as (_ & _ & U2 & _). destruct (transport_spec dir1 dir2 d1 d2 eye2 rn E1 E2 C) as (s & m & M & S & Us & A1 & A2 & _).
  assert (S0 : norm3 (cross3 d1 d2) <> 0) by (intros X; rewrite X, isclose_refl in C; discriminate). set (n := norm3 (cross3 d1 d2)) in *.
  assert (N : d1 <> d2). { intros ->. apply S0. unfold n. assert (Z : cross3 d2 d2 = zero3) by (clear; revert d2; vring). rewrite Z. unfold norm3. replace (dot3 zero3 zero3) with 0 by (vu; ring). apply sqrt_0. }
  assert (O1 : dot3 d1 s = 0). { apply Rmult_eq_reg_l with n; [|exact S0]. rewrite Rmult_0_r, <- dot3_scale_r, <- S. clear. revert d1 d2. vring. }
  assert (O2 : dot3 d2 s = 0). { apply Rmult_eq_reg_l with n; [|exact S0]. rewrite Rmult_0_r, <- dot3_scale_r, <- S. clear. revert d1 d2. vring. }
  exists s, m. do 5 (split; [assumption|]). intros v T. pose proof (transverse_parts d1 s v U1 Us O1 T) as V. set (a := dot3 v s) in *. set (b := dot3 v (cross3 d1 s)) in *. clearbody a b. split.
  - rewrite V, hh_add, !hh_scale. rewrite (hh_fix _ s) by (rewrite dot3_sub_l, O1, O2; ring).
    assert (HP : householder (sub3 d1 d2) (cross3 d1 s) = neg3 (cross3 d2 s)).
    { pose proof (hh_p d1 d2 N U1 U2) as H. rewrite S in H. assert (L : forall u, cross3 u (scale3 n s) = scale3 n (cross3 u s)) by (clearbody n; clear; revert n s; vring). rewrite !L, hh_scale in H.
      revert H. generalize (householder (sub3 d1 d2) (cross3 d1 s)) (cross3 d2 s). clearbody n. clear - S0. intros [x y z] [e f g] H. unfold scale3, neg3 in *. cbn in *. injection H as H1 H2 H3. f_equal; apply Rmult_eq_reg_l with n; try exact S0; lra. }
    rewrite HP. generalize (cross3 d2 s). clear. intros u. revert a b s u. vring.
  - rewrite V at 1. assert (L : forall u w, app3 m (add3 (scale3 a u) (scale3 b w)) = add3 (scale3 a (app3 m u)) (scale3 b (app3 m w))) by (clear; revert a b m; vring). rewrite L, A1, A2. cbn [eye2 j11 j12 j21 j22]. generalize (cross3 d2 s). clear. intros u. revert a b s u. vring.
Qed.
