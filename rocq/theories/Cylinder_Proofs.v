(** Lemmas about [Cylinder_Model]. *)
From Verif Require Import Vec_Proofs Angles_Proofs Coords_Proofs Position_Proofs Rot_Proofs Plane_Proofs.
From Verif Require Export Cylinder_Model.
Open Scope R_scope.

Lemma atan2_unit x y : x * x + y * y = 1 -> cos (atan2 y x) = x /\ sin (atan2 y x) = y /\ - PI < atan2 y x <= PI.
Proof.
  intros H. unfold atan2. rewrite H, sqrt_1, (proj2 (Reqb_false 1 0)) by lra. unfold Rdiv. rewrite Rinv_1, Rmult_1_r.
  assert (X : -1 <= x <= 1) by nra. pose proof (acos_bound x) as B. pose proof (cos_acos x X) as C.
  assert (S : sin (acos x) = sqrt (1 - Rsqr x)) by (apply sin_acos; exact X).
  assert (E : 1 - Rsqr x = y * y) by (unfold Rsqr; lra). rewrite E in S.
  destruct (Rleb 0 y) eqn:L.
  - apply Rleb_true in L. rewrite sqrt_square in S by exact L. pose proof PI_RGT_0. repeat split; (lra || exact C || exact S).
  - apply Rleb_false in L. replace (y * y) with ((- y) * (- y)) in S by ring. rewrite sqrt_square in S by lra.
    rewrite cos_neg, sin_neg, S, C. repeat split; try lra.
    destruct (Req_EM_T (acos x) PI) as [Q|Q]; [|lra]. rewrite Q, sin_PI in S. lra.
Qed.
Lemma Rabs_def2_le z e : Rabs z <= e -> - e <= z <= e.
Proof. unfold Rabs. destruct (Rcase_abs z); lra. Qed.
(** angles with the same sine and cosine *)
Lemma same_cs p q : cos p = cos q -> sin p = sin q -> same_angle p q.
Proof.
  intros C S. unfold same_angle.
  assert (D : cos (q - p) = 1) by (rewrite cos_minus, C, S; pose proof (sc1 q); lra).
  assert (D2 : sin ((q - p) / 2) = 0).
  { replace (q - p) with (2 * ((q - p) / 2)) in D by field. rewrite cos_2a_sin in D. nra. }
  apply sin_eq_0_0 in D2. destruct D2 as [n E]. exists n. unfold twopi. lra.
Qed.
Lemma angle_between_same p q a b : same_angle p q -> angle_between p a b = angle_between q a b.
Proof.
  intros [n ->]. pose proof (angle_between_period p a b n 0 0) as H. rewrite !Rmult_0_r, !Rplus_0_r in H. now symmetry.
Qed.
Lemma on_tube_iff lim0 lim1 q : on_tube lim0 lim1 q <->
  x3 q * x3 q + y3 q * y3 q = 1 /\ -1 <= z3 q <= 1 /\ angle_between (atan2 (y3 q) (x3 q)) lim0 lim1 = true.
Proof.
  unfold on_tube. split; intros (H & Z & A); (split; [exact H|]); (split; [exact Z|]).
  - destruct A as (phi & C & S & A). destruct (atan2_unit _ _ H) as (C' & S' & _). rewrite (angle_between_same _ phi); [exact A|].
    apply same_cs; congruence.
  - destruct (atan2_unit _ _ H) as (C' & S' & _). eauto.
Qed.
Lemma quad_roots a b c k : 0 < a -> a * k * k + b * k + c = 0 ->
  0 <= b * b - 4 * a * c /\ (k = (- b + sqrt (b * b - 4 * a * c)) / (2 * a) \/ k = (- b - sqrt (b * b - 4 * a * c)) / (2 * a)).
Proof.
  intros A H. assert (E : b * b - 4 * a * c = (2 * a * k + b) * (2 * a * k + b)) by nra.
  split; [rewrite E; apply Rle_0_sqr|]. rewrite E. destruct (Rle_dec 0 (2 * a * k + b)) as [L|L].
  - left. rewrite sqrt_square by exact L. field. lra.
  - right. replace ((2 * a * k + b) * (2 * a * k + b)) with ((- (2 * a * k + b)) * (- (2 * a * k + b))) by ring.
    rewrite sqrt_square by lra. field. lra.
Qed.
Lemma quad_root_1 a b c : 0 < a -> 0 <= b * b - 4 * a * c ->
  let k := (- b + sqrt (b * b - 4 * a * c)) / (2 * a) in a * k * k + b * k + c = 0.
Proof.
  intros A D k. pose proof (sqrt_sqrt _ D) as S. set (s := sqrt _) in *. unfold k.
  replace c with ((b * b - s * s) / (4 * a)) by (rewrite S; field; lra). field. lra.
Qed.
Lemma quad_root_2 a b c : 0 < a -> 0 <= b * b - 4 * a * c ->
  let k := (- b - sqrt (b * b - 4 * a * c)) / (2 * a) in a * k * k + b * k + c = 0.
Proof.
  intros A D k. pose proof (sqrt_sqrt _ D) as S. set (s := sqrt _) in *. unfold k.
  replace c with ((b * b - s * s) / (4 * a)) by (rewrite S; field; lra). field. lra.
Qed.
Lemma quad_order a b c : 0 < a -> (- b - sqrt (b * b - 4 * a * c)) / (2 * a) <= (- b + sqrt (b * b - 4 * a * c)) / (2 * a).
Proof.
  intros A. pose proof (sqrt_pos (b * b - 4 * a * c)). unfold Rdiv. apply Rmult_le_compat_r; [|lra].
  left. apply Rinv_0_lt_compat. lra.
Qed.

Definition along (p d : v3) (k : R) : v3 := add3 p (scale3 k d).
Lemma along_xy p d k : x3 (along p d k) * x3 (along p d k) + y3 (along p d k) * y3 (along p d k) - 1 =
  (x3 d * x3 d + y3 d * y3 d) * k * k + (2 * (x3 p * x3 d + y3 p * y3 d)) * k + (x3 p * x3 p + y3 p * y3 p - 1).
Proof. destruct p, d. unfold along. cbn. ring. Qed.
Lemma tube_hit_iff lim0 lim1 d p k : x3 (along p d k) * x3 (along p d k) + y3 (along p d k) * y3 (along p d k) = 1 ->
  (tube_hit lim0 lim1 d p k = true <-> 0 <= k /\ on_tube lim0 lim1 (along p d k)).
Proof.
  intros H. rewrite on_tube_iff. unfold tube_hit. change (x3 p + k * x3 d) with (x3 (along p d k)).
  change (y3 p + k * y3 d) with (y3 (along p d k)). change (z3 p + k * z3 d) with (z3 (along p d k)).
  rewrite !andb_true_iff, !Rleb_true. split.
  - intros [[A B] C]. split; [exact A|]. split; [exact H|]. split; [now apply Rabs_def2_le|exact C].
  - intros (A & _ & B & C). split; [split; [exact A|now apply Rabs_le]|exact C].
Qed.
(** the reported way is the smallest allowed one *)
Lemma crossing_spec lim0 lim1 d p : (x3 d <> 0 \/ y3 d <> 0) ->
  match tube_crossing lim0 lim1 d p with
  | Some k => 0 <= k /\ on_tube lim0 lim1 (along p d k) /\ (forall l, 0 <= l -> on_tube lim0 lim1 (along p d l) -> k <= l)
  | None => forall k, 0 <= k -> ~ on_tube lim0 lim1 (along p d k)
  end.
Proof.
  intros N. unfold tube_crossing.
  set (c := x3 p * x3 p + y3 p * y3 p - 1). set (b := 2 * (x3 p * x3 d + y3 p * y3 d)). set (a := x3 d * x3 d + y3 d * y3 d).
  assert (A : 0 < a) by (unfold a; destruct N; nra).
  assert (Q : forall k, on_tube lim0 lim1 (along p d k) -> a * k * k + b * k + c = 0).
  { intros k (H & _). pose proof (along_xy p d k) as E. fold a b c in E. lra. }
  destruct (Rleb 0 (b * b - 4 * a * c)) eqn:U; cbn [negb].
  2:{ apply Rleb_false in U. intros k _ T. apply Q in T. apply quad_roots in T; [|exact A]. lra. }
  apply Rleb_true in U. rewrite (proj2 (Reqb_false a 0)) by lra.
  set (k1 := (- b + sqrt (b * b - 4 * a * c)) / (2 * a)). set (k2 := (- b - sqrt (b * b - 4 * a * c)) / (2 * a)).
  assert (R1 : a * k1 * k1 + b * k1 + c = 0) by (apply quad_root_1; assumption).
  assert (R2 : a * k2 * k2 + b * k2 + c = 0) by (apply quad_root_2; assumption).
  assert (O : k2 <= k1) by (now apply quad_order).
  assert (RT : forall k, on_tube lim0 lim1 (along p d k) -> k = k1 \/ k = k2) by (intros k T; apply Q in T; now apply quad_roots).
  assert (E1 : x3 (along p d k1) * x3 (along p d k1) + y3 (along p d k1) * y3 (along p d k1) = 1)
    by (pose proof (along_xy p d k1) as E; fold a b c in E; lra).
  assert (E2 : x3 (along p d k2) * x3 (along p d k2) + y3 (along p d k2) * y3 (along p d k2) = 1)
    by (pose proof (along_xy p d k2) as E; fold a b c in E; lra).
  pose proof (tube_hit_iff lim0 lim1 d p k1 E1) as H1. pose proof (tube_hit_iff lim0 lim1 d p k2 E2) as H2.
  destruct (tube_hit lim0 lim1 d p k1) eqn:T1, (tube_hit lim0 lim1 d p k2) eqn:T2; cbn [andb negb].
  - destruct (proj1 H1 eq_refl) as [P1 O1]. destruct (proj1 H2 eq_refl) as [P2 O2].
    destruct (Rltb k2 k1) eqn:L; cbn [negb andb].
    + apply Rltb_true in L. split; [exact P2|]. split; [exact O2|]. intros l _ T. destruct (RT l T); lra.
    + apply Rltb_false in L. rewrite (proj2 (Rleb_true _ _) L). cbn [negb]. split; [exact P1|]. split; [exact O1|].
      intros l _ T. destruct (RT l T); lra.
  - destruct (proj1 H1 eq_refl) as [P1 O1]. split; [exact P1|]. split; [exact O1|]. intros l L T.
    destruct (RT l T) as [->| ->]; [lra|]. exfalso. assert (false = true) by (apply H2; auto). discriminate.
  - destruct (proj1 H2 eq_refl) as [P2 O2]. split; [exact P2|]. split; [exact O2|]. intros l L T. destruct (RT l T); lra.
  - intros k L T. destruct (RT k T) as [->| ->].
    + assert (false = true) by (apply H1; auto). discriminate.
    + assert (false = true) by (apply H2; auto). discriminate.
Qed.
Lemma crossing_parallel lim0 lim1 d p : x3 d = 0 -> y3 d = 0 -> tube_crossing lim0 lim1 d p = None.
Proof.
  intros X Y. unfold tube_crossing. rewrite X, Y. destruct (negb _); [reflexivity|].
  now rewrite (proj2 (Reqb_true _ _)) by ring.
Qed.

Section Tube.
Variables (m minv : m4) (lim0 lim1 : R) (dir pos : v3).
Hypothesis Inv : mul4 m minv = id4.
Hypothesis Am : affine m.
Hypothesis Ai : affine minv.
Let d := xyz (app4 minv (hom dir 0)).
Let p := xyz (app4 minv (hom pos 1)).
Lemma app4_aff_w (n : m4) v : affine n -> w4 (app4 n v) = w4 v.
Proof. intros (W0 & W1 & W2 & W3). destruct n as [[? ? ? n0] [? ? ? n1] [? ? ? n2] [? ? ? n3]], v. cbn in *. subst. ring. Qed.
Lemma local_ray k : app4 m (hom (along p d k) 1) = hom (add3 pos (scale3 k dir)) 1.
Proof.
  unfold p, d, along.
  assert (E : hom (add3 (xyz (app4 minv (hom pos 1))) (scale3 k (xyz (app4 minv (hom dir 0))))) 1 = app4 minv (hom (add3 pos (scale3 k dir)) 1)).
  { rewrite <- (ray_hom pos dir k), app4_add, app4_scale.
    pose proof (hom_xyz (app4 minv (hom pos 1))) as P. pose proof (hom_xyz (app4 minv (hom dir 0))) as D.
    rewrite app4_aff_w in P, D by exact Ai. change (w4 (hom pos 1)) with 1 in P. change (w4 (hom dir 0)) with 0 in D.
    rewrite <- ray_hom, P, D. reflexivity. }
  rewrite E, <- app4_mul, Inv, app4_id. reflexivity.
Qed.
Lemma cylinder_unfold : cylinder_intersect m minv lim0 lim1 true (hom dir 0) (hom pos 1) =
  match tube_crossing lim0 lim1 d p with
  | None => Ok (false, None, None)
  | Some k => Ok (true, Some (hom (add3 pos (scale3 k dir)) 1),
                  match decompose44 m with
                  | Some (_, _, zoom, _) => Some (atan2 (y3 (along p d k)) (x3 (along p d k)), z3 (along p d k) * z3 zoom)
                  | None => None
                  end)
  end.
Proof.
  unfold cylinder_intersect. change (w4 (hom dir 0)) with 0. rewrite (proj2 (Reqb_true 0 0)) by reflexivity. cbn [negb]. fold d p.
  destruct (tube_crossing lim0 lim1 d p) as [k|]; [|reflexivity]. fold (along p d k). rewrite local_ray. reflexivity.
Qed.
Hypothesis Inv' : mul4 minv m = id4.
Lemma local_point k u : app4 m (hom u 1) = hom (add3 pos (scale3 k dir)) 1 <-> u = along p d k.
Proof.
  rewrite <- local_ray. split; [|now intros ->]. intros H. apply (f_equal (app4 minv)) in H. rewrite <- !app4_mul, Inv', !app4_id in H.
  apply (f_equal xyz) in H. now rewrite !xyz_hom in H.
Qed.
Lemma local_parallel : (x3 d = 0 /\ y3 d = 0) <-> exists s, dir = scale3 s (xyz (b2 m)).
Proof.
  unfold d. split.
  - intros [X Y]. exists (z3 d). pose proof (hom_xyz (app4 minv (hom dir 0))) as D. rewrite app4_aff_w in D by exact Ai.
    change (w4 (hom dir 0)) with 0 in D. fold d in D, X, Y. apply (f_equal (app4 m)) in D. rewrite <- app4_mul, Inv, app4_id in D.
    apply (f_equal xyz) in D. rewrite xyz_hom in D. rewrite <- D. unfold hom. rewrite X, Y. generalize (z3 d). intros z.
    clear. destruct m as [[? ? ? ?] [? ? ? ?] [? ? ? ?] [? ? ? ?]]. apply v3_eq; cbn; ring.
  - intros [s ->].
    assert (E : hom (scale3 s (xyz (b2 m))) 0 = app4 m (V4 0 0 s 0)).
    { destruct Am as (_ & _ & W & _). destruct m as [[? ? ? ?] [? ? ? ?] [? ? ? n2] [? ? ? ?]]. cbn in W. subst n2. apply v4_eq; cbn; ring. }
    rewrite E, <- app4_mul, Inv', app4_id. now split.
Qed.
End Tube.

Lemma decompose44_perp_zoom m : perpendicular_axes m -> exists r zx zy, decompose44 m = Some (tra m, r, V3 zx zy (norm3 (xyz (b2 m))), zero3).
Proof.
  intros (A & N0 & N1 & N2 & H01 & H02 & H12). unfold decompose44, tra. cbv zeta. unfold v_x, v_y, v_z in *.
  set (p := xyz (b0 m)) in *. set (q := xyz (b1 m)) in *. set (o := xyz (b2 m)) in *.
  pose proof (norm3_pos _ N0). pose proof (norm3_pos _ N1). pose proof (norm3_pos _ N2).
  assert (S0 : forall a b, sub3 a (scale3 0 b) = a) by (clear; vring).
  assert (S1 : forall a b c, sub3 a (add3 (scale3 0 b) (scale3 0 c)) = a) by (clear; vring).
  rewrite (proj2 (Reqb_false _ _)) by lra. rewrite !dot3_scale_l, H01, H02, !Rmult_0_r, S0.
  rewrite (proj2 (Reqb_false _ _)) by lra. rewrite ?dot3_scale_l, H12, !Rmult_0_r, S1.
  rewrite (proj2 (Reqb_false _ _)) by lra. unfold Rdiv. rewrite !Rmult_0_l.
  destruct (Rltb _ _); eauto.
Qed.
Lemma cylinder_hit_iff m minv lim0 lim1 dir pos : mul4 m minv = id4 -> mul4 minv m = id4 -> affine m -> affine minv ->
  exists h ip il, cylinder_intersect m minv lim0 lim1 true (hom dir 0) (hom pos 1) = Ok (h, ip, il) /\
  (h = true <-> (~ exists s, dir = scale3 s (xyz (b2 m))) /\
     exists k u, 0 <= k /\ on_tube lim0 lim1 u /\ app4 m (hom u 1) = hom (add3 pos (scale3 k dir)) 1).
Proof.
  intros I I' A Ai. rewrite (cylinder_unfold m minv lim0 lim1 dir pos I Ai).
  pose proof (local_parallel m minv dir I A Ai I') as LP. pose proof (local_point m minv dir pos I Ai I') as L.
  set (d := xyz (app4 minv (hom dir 0))) in *. set (p := xyz (app4 minv (hom pos 1))) in *.
  assert (C : (x3 d = 0 /\ y3 d = 0) \/ (x3 d <> 0 \/ y3 d <> 0)).
  { destruct (Req_EM_T (x3 d) 0); [destruct (Req_EM_T (y3 d) 0)|]; auto. }
  destruct C as [[X Y]|N].
  - rewrite crossing_parallel by assumption. do 3 eexists. split; [reflexivity|]. split; [discriminate|]. intros [N _]. exfalso. apply N. apply LP. now split.
  - pose proof (crossing_spec lim0 lim1 d p N) as C.
    destruct (tube_crossing lim0 lim1 d p) as [k|]; do 3 eexists; (split; [reflexivity|]).
    + split; [intros _|reflexivity]. split; [rewrite <- LP; tauto|]. exists k, (along p d k). destruct C as (C1 & C2 & _).
      split; [exact C1|]. split; [exact C2|]. now apply L.
    + split; [discriminate|]. intros [_ (k & u & K & T & E)]. apply L in E. subst u. now apply C in T.
Qed.
Lemma cylinder_values m minv lim0 lim1 dir pos h ip il : mul4 m minv = id4 -> mul4 minv m = id4 -> affine m -> affine minv ->
  cylinder_intersect m minv lim0 lim1 true (hom dir 0) (hom pos 1) = Ok (h, ip, il) ->
  (h = false -> ip = None /\ il = None) /\
  (h = true -> exists k u, 0 <= k /\ on_tube lim0 lim1 u /\ app4 m (hom u 1) = hom (add3 pos (scale3 k dir)) 1 /\
     ip = Some (hom (add3 pos (scale3 k dir)) 1) /\
     (forall l u', 0 <= l -> on_tube lim0 lim1 u' -> app4 m (hom u' 1) = hom (add3 pos (scale3 l dir)) 1 -> k <= l) /\
     (perpendicular_axes m -> exists phi, - PI < phi <= PI /\ x3 u = cos phi /\ y3 u = sin phi /\
        il = Some (phi, z3 u * norm3 (xyz (b2 m))))).
Proof.
  intros I I' A Ai. rewrite (cylinder_unfold m minv lim0 lim1 dir pos I Ai).
  pose proof (local_point m minv dir pos I Ai I') as L.
  set (d := xyz (app4 minv (hom dir 0))) in *. set (p := xyz (app4 minv (hom pos 1))) in *.
  assert (C : tube_crossing lim0 lim1 d p = None \/ (x3 d <> 0 \/ y3 d <> 0)).
  { destruct (Req_EM_T (x3 d) 0); [destruct (Req_EM_T (y3 d) 0)|]; auto. left. now apply crossing_parallel. }
  destruct C as [->|N].
  { intros H. injection H as <- <- <-. split; [now split|discriminate]. }
  pose proof (crossing_spec lim0 lim1 d p N) as C. destruct (tube_crossing lim0 lim1 d p) as [k|].
  2:{ intros H. injection H as <- <- <-. split; [now split|discriminate]. }
  intros H. assert (E : h = true /\ ip = Some (hom (add3 pos (scale3 k dir)) 1) /\
    il = match decompose44 m with Some (_, _, zoom, _) => Some (atan2 (y3 (along p d k)) (x3 (along p d k)), z3 (along p d k) * z3 zoom) | None => None end)
    by (repeat split; congruence). clear H. destruct E as (-> & -> & ->). split; [discriminate|]. intros _. destruct C as (C1 & C2 & C3).
  exists k, (along p d k). split; [exact C1|]. split; [exact C2|]. split; [now apply L|]. split; [reflexivity|]. split.
  - intros l u' Ll T E. apply L in E. subst u'. now apply C3.
  - intros P. destruct (decompose44_perp_zoom m P) as (r & zx & zy & ->). destruct C2 as (On & _).
    destruct (atan2_unit _ _ On) as (Cs & Sn & B). exists (atan2 (y3 (along p d k)) (x3 (along p d k))).
    split; [exact B|]. split; [now symmetry|]. split; [now symmetry|reflexivity].
Qed.
(** the bases of a tube with circular cross section *)
Lemma circ_dot (p q : v3) (a b c d : R) : dot3 (add3 (scale3 a p) (scale3 b q)) (add3 (scale3 c p) (scale3 d q)) =
  a * c * dot3 p p + (a * d + b * c) * dot3 p q + b * d * dot3 q q.
Proof. vring. Qed.
Lemma app4_circ m a b : affine m -> app4 m (V4 a b 0 0) = hom (add3 (scale3 a (xyz (b0 m))) (scale3 b (xyz (b1 m)))) 0.
Proof. intros (W0 & W1 & W2 & W3). destruct m as [[? ? ? n0] [? ? ? n1] [? ? ? n2] [? ? ? n3]]. cbn in *. subst. apply v4_eq; cbn; ring. Qed.
Lemma cylinder_bases_spec m phi : perpendicular_axes m -> norm3 (xyz (v_x m)) = norm3 (xyz (v_y m)) ->
  exists ep ez en, cylinder_bases m phi = Some (hom ep 0, hom ez 0, hom en 0) /\ orthonormal (M3 ep ez en) /\
    app4 m (V4 (cos phi) (sin phi) 0 0) = hom (scale3 (norm3 (xyz (v_x m))) en) 0 /\
    app4 m (V4 (- sin phi) (cos phi) 0 0) = hom (scale3 (norm3 (xyz (v_x m))) ep) 0 /\
    xyz (v_z m) = scale3 (norm3 (xyz (v_z m))) ez.
Proof.
  intros (A & N0 & N1 & N2 & H01 & H02 & H12) E. unfold cylinder_bases. rewrite !app4_circ by exact A. unfold v_x, v_y, v_z in *.
  destruct A as (W0 & W1 & W2 & W3). 
  set (p := xyz (b0 m)) in *. set (q := xyz (b1 m)) in *. set (o := xyz (b2 m)) in *.
  pose proof (norm3_pos _ N0) as P0. pose proof (norm3_pos _ N2) as P2.
  assert (D0 : dot3 p p = norm3 p * norm3 p) by (symmetry; apply norm3_sqr). assert (D1 : dot3 q q = norm3 p * norm3 p) by (rewrite E; symmetry; apply norm3_sqr).
  assert (D2 : dot3 o o = norm3 o * norm3 o) by (symmetry; apply norm3_sqr).
  set (r := norm3 p) in *. set (ep := add3 (scale3 (- sin phi) p) (scale3 (cos phi) q)). set (en := add3 (scale3 (cos phi) p) (scale3 (sin phi) q)).
  pose proof (sc1 phi) as SC.
  assert (Dp : dot3 ep ep = r * r) by (unfold ep; rewrite circ_dot, D0, D1, H01; transitivity (r * r * (sin phi * sin phi + cos phi * cos phi)); [ring|rewrite SC; ring]).
  assert (Dn : dot3 en en = r * r) by (unfold en; rewrite circ_dot, D0, D1, H01; transitivity (r * r * (sin phi * sin phi + cos phi * cos phi)); [ring|rewrite SC; ring]).
  assert (Dpn : dot3 ep en = 0) by (unfold ep, en; rewrite circ_dot, D0, D1, H01; ring).
  assert (Dpo : dot3 ep o = 0) by (unfold ep; rewrite dot3_add_l, !dot3_scale_l, H02, H12; ring).
  assert (Dno : dot3 o en = 0) by (unfold en; rewrite dot3_comm, dot3_add_l, !dot3_scale_l, H02, H12; ring).
  assert (Np : norm3 ep = r) by (unfold norm3; rewrite Dp; apply sqrt_square; lra).
  assert (Nn : norm3 en = r) by (unfold norm3; rewrite Dn; apply sqrt_square; lra).
  assert (Zp : ep <> zero3) by (intros Z; apply norm3_zero in Z; lra). assert (Zn : en <> zero3) by (intros Z; apply norm3_zero in Z; lra).
  rewrite (unit4_hom0 (hom ep 0)), (unit4_hom0 (b2 m)), (unit4_hom0 (hom en 0)), !xyz_hom by (rewrite ?xyz_hom; assumption || reflexivity). fold o.
  rewrite Np, Nn. do 3 eexists. split; [reflexivity|]. split.
  - unfold orthonormal. cbn [a0 a1 a2]. rewrite !dot3_scale_l, !dot3_scale_r, Dp, Dn, D2, Dpn, Dpo, Dno.
    repeat split; field; lra.
  - rewrite !scale_inv by lra. split; [reflexivity|]. split; [reflexivity|reflexivity].
Qed.

Lemma cylinder_surface_spec m phi z : perpendicular_axes m -> exists ez,
  xyz (v_z m) = scale3 (norm3 (xyz (v_z m))) ez /\ dot3 ez ez = 1 /\
  cylinder_surface m phi z = Some (add4 (add4 (add4 (center m) (scale4 (cos phi) (v_x m))) (scale4 (sin phi) (v_y m))) (hom (scale3 z ez) 0)).
Proof.
  intros P. destruct (decompose44_perp_zoom m P) as (r & zx & zy & E). destruct P as (A & _ & _ & N2 & _).
  pose proof (unit3_some _ N2) as U. destruct (unit3_spec _ _ U) as (_ & _ & D & Z).
  exists (scale3 (/ norm3 (xyz (v_z m))) (xyz (v_z m))). split; [exact Z|]. split; [exact D|].
  unfold cylinder_surface. rewrite E. cbn [z3]. f_equal. destruct A as (_ & _ & W & _). unfold v_z, v_x, v_y, center in *.
  destruct m as [c0 c1 c2 c3]. cbn [b0 b1 b2 b3] in *. destruct c2 as [a b c w]. cbn [w4] in W. subst w.
  generalize (norm3 (xyz (V4 a b c 0))). intros n. unfold app4. cbn [b0 b1 b2 b3 x4 y4 z4 w4]. clear.
  destruct c0, c1, c3. vu. unfold Rdiv. f_equal; ring.
Qed.
