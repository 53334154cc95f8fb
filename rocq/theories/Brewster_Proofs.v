(** Lemmas about [Brewster_Model]. *)
From Verif Require Import Vec_Proofs Coords_Proofs Plane_Proofs Rot_Proofs Aperture_Proofs Lens_Proofs.
From Verif Require Export Brewster_Model.
Open Scope R_scope.

Lemma app4_dir m a b c : affine m -> app4 m (V4 a b c 0) = hom (add3 (add3 (scale3 a (xyz (v_x m))) (scale3 b (xyz (v_y m)))) (scale3 c (xyz (v_z m)))) 0.
Proof.
  intros (W0 & W1 & W2 & W3). destruct m as [[? ? ? n0] [? ? ? n1] [? ? ? n2] [? ? ? n3]]. cbn in W0, W1, W2, W3. subst. unfold v_x, v_y, v_z. apply v4_eq; vu; ring.
Qed.
Lemma flip_alg u x y z a b c k : u = add3 (add3 (scale3 (a * k) x) (scale3 b y)) (scale3 c z) ->
  add3 (add3 (scale3 (- a * k) x) (scale3 b y)) (scale3 c z) = sub3 u (scale3 (2 * (a * k)) x).
Proof. intros ->. vring. Qed.
Lemma reflect_spec m minv d : perpendicular_axes m -> mul4 minv m = id4 -> d <> zero3 ->
  let ex := nrm (xyz (v_x m)) in
  reflect m minv (hom d 0) = Some (hom (sub3 (nrm d) (scale3 (2 * dot3 (nrm d) ex) ex)) 0).
Proof.
  intros P I D ex. pose proof (axes_frame m P) as F. destruct P as (A & Nx & Ny & Nz & _).
  unfold reflect. rewrite (unit4_hom0 (hom d 0)) by (try reflexivity; rewrite xyz_hom; exact D). rewrite xyz_hom. f_equal. fold (nrm d). set (u := nrm d).
  pose proof (frame_decompose _ _ _ u F) as E. fold ex in E. set (a := dot3 u ex) in *. set (b := dot3 u (nrm (xyz (v_y m)))) in *. set (c := dot3 u (nrm (xyz (v_z m)))) in *.
  pose (a' := a / norm3 (xyz (v_x m))). pose (b' := b / norm3 (xyz (v_y m))). pose (c' := c / norm3 (xyz (v_z m))).
  assert (S : forall t v, scale3 t (nrm v) = scale3 (t / norm3 v) v). { intros t v. unfold nrm. rewrite scale_scale3. reflexivity. }
  assert (E' : u = add3 (add3 (scale3 a' (xyz (v_x m))) (scale3 b' (xyz (v_y m)))) (scale3 c' (xyz (v_z m)))).
  { rewrite E at 1. unfold ex. rewrite !S. reflexivity. }
  assert (H : hom u 0 = app4 m (V4 a' b' c' 0)) by (rewrite (app4_dir m _ _ _ A), <- E'; reflexivity).
  rewrite H, <- app4_mul, I, app4_id. unfold flip_x. cbn [x4 y4 z4 w4]. rewrite (app4_dir m _ _ _ A). f_equal.
  replace (scale3 (2 * a) ex) with (scale3 (2 * a') (xyz (v_x m))) by (unfold ex; rewrite S; unfold a'; f_equal; unfold Rdiv; ring).
  rewrite E' at 1. generalize (xyz (v_x m)) (xyz (v_y m)) (xyz (v_z m)) a' b' c'. clear. vring.
Qed.
Lemma sub_dot u e k v : dot3 (sub3 u (scale3 k e)) v = dot3 u v - k * dot3 e v. Proof. vring. Qed.
Lemma sub_dot_r u e k v : dot3 v (sub3 u (scale3 k e)) = dot3 v u - k * dot3 v e. Proof. vring. Qed.
Lemma mirror_dot u ex v : dot3 ex ex = 1 -> dot3 v ex = 0 -> dot3 (sub3 u (scale3 (2 * dot3 u ex) ex)) v = dot3 u v.
Proof. intros E V. rewrite sub_dot, (dot3_comm ex v), V. ring. Qed.
Lemma mirror_flip u ex : dot3 ex ex = 1 -> dot3 (sub3 u (scale3 (2 * dot3 u ex) ex)) ex = - dot3 u ex.
Proof. intros E. rewrite sub_dot, E. ring. Qed.
Lemma mirror_norm u ex : dot3 ex ex = 1 -> dot3 (sub3 u (scale3 (2 * dot3 u ex) ex)) (sub3 u (scale3 (2 * dot3 u ex) ex)) = dot3 u u.
Proof. intros E. rewrite sub_dot, !sub_dot_r, E, (dot3_comm ex u). ring. Qed.
Lemma brewster_unfold m minv rs rp d pol : perpendicular_axes m -> mul4 minv m = id4 -> d <> zero3 ->
  let ex := nrm (xyz (v_x m)) in let u := nrm d in let new := sub3 u (scale3 (2 * dot3 u ex) ex) in
  brewster m minv rs rp (hom d 0) pol =
  match unit3 (cross3 u ex) with
  | None => Ok (Some (hom new 0), None, None)
  | Some vs =>
      let ps := dot3 (xyz pol) vs in let pp := dot3 (xyz pol) (cross3 u vs) in
      let i := rs * (ps * ps) + rp * (pp * pp) in
      if Rltb (1001 / 1000) i then Err ValueError
      else Ok (Some (hom new 0), Some (clip i 0 1), unit3 (add3 (scale3 (- (rs * (ps * ps))) vs) (scale3 (rp * (pp * pp)) (cross3 new vs))))
  end.
Proof.
  intros P I D ex u new. pose proof (reflect_spec m minv d P I D) as R. cbv zeta in R. fold ex in R. fold u in R. fold new in R.
  unfold brewster. rewrite R, (unit4_hom0 (hom d 0)) by (try reflexivity; rewrite xyz_hom; exact D). rewrite xyz_hom. fold (nrm d). fold u.
  destruct P as ((W0 & _) & Nx & _). unfold e_x. rewrite (unit4_hom0 (v_x m)) by assumption. fold (nrm (xyz (v_x m))). fold ex. rewrite !xyz_hom. reflexivity.
Qed.
Lemma pol_alg i v w : scale3 i (neg3 v) = add3 (scale3 (- i) v) (scale3 0 w). Proof. vring. Qed.
Section Vs.
Variables u ex vs : v3.
Hypothesis U : dot3 u u = 1.
Hypothesis X : dot3 ex ex = 1.
Hypothesis V : unit3 (cross3 u ex) = Some vs.
Let new := sub3 u (scale3 (2 * dot3 u ex) ex).
Lemma vs_facts : dot3 vs vs = 1 /\ dot3 u vs = 0 /\ dot3 ex vs = 0 /\ dot3 new vs = 0 /\ dot3 new new = 1.
Proof.
  destruct (unit3_spec _ _ V) as (_ & E & S & _). split; [exact S|].
  assert (A : dot3 u vs = 0) by (rewrite E, dot3_scale_r, dot3_cross_l; ring).
  assert (B : dot3 ex vs = 0) by (rewrite E, dot3_scale_r, dot3_cross_r; ring).
  split; [exact A|]. split; [exact B|]. split; [|unfold new; rewrite mirror_norm; assumption].
  unfold new. rewrite mirror_dot; [exact A|exact X|rewrite dot3_comm; exact B].
Qed.
Lemma vs_bessel p : dot3 p vs * dot3 p vs + dot3 p (cross3 u vs) * dot3 p (cross3 u vs) <= dot3 p p.
Proof.
  destruct vs_facts as (S & A & _).
  assert (O : orthonormal (M3 vs (cross3 u vs) u)).
  { unfold orthonormal. cbn [a0 a1 a2]. rewrite S, U, lagrange, U, S, A, dot3_cross_r, (dot3_comm vs u), A, (dot3_comm (cross3 u vs) u), dot3_cross_l.
    repeat split; ring. }
  pose proof (frame_decompose _ _ _ p O) as D. destruct O as (_ & O1 & O2 & O3 & O4 & O5). cbn [a0 a1 a2] in *.
  set (a := dot3 p vs) in *. set (b := dot3 p (cross3 u vs)) in *. set (c := dot3 p u) in *.
  assert (E : dot3 p p = a * a + b * b + c * c).
  { rewrite D at 1. rewrite D. rewrite !dot3_add_l, !dot3_add_r, !dot3_scale_l, !dot3_scale_r, (dot3_comm (cross3 u vs) vs), (dot3_comm u vs), (dot3_comm u (cross3 u vs)), S, U, O1, O3, O4, O5. ring. }
  rewrite E. nra.
Qed.
Lemma vs_intensity rs rp p : 0 <= rs <= 1 -> 0 <= rp <= 1 -> dot3 p p <= 1 ->
  let i := rs * (dot3 p vs * dot3 p vs) + rp * (dot3 p (cross3 u vs) * dot3 p (cross3 u vs)) in 0 <= i <= 1.
Proof.
  intros Rs Rp P i. pose proof (vs_bessel p) as B. unfold i.
  pose proof (Rle_0_sqr (dot3 p vs)) as Q1. pose proof (Rle_0_sqr (dot3 p (cross3 u vs))) as Q2. unfold Rsqr in *. nra.
Qed.
Lemma new_pol_perp rs' rp' q : unit3 (add3 (scale3 (- rs') vs) (scale3 rp' (cross3 new vs))) = Some q -> dot3 q new = 0 /\ dot3 q q = 1.
Proof.
  intros Q. destruct vs_facts as (S & A & B & C & N). destruct (unit3_spec _ _ Q) as (_ & E & QQ & _). split; [|exact QQ].
  rewrite E, dot3_scale_l, dot3_add_l, !dot3_scale_l, (dot3_comm vs new), C, (dot3_comm (cross3 new vs) new), dot3_cross_l. ring.
Qed.
Lemma new_pol_s i : 0 < i -> unit3 (add3 (scale3 (- i) vs) (scale3 0 (cross3 new vs))) = Some (neg3 vs).
Proof.
  intros H. destruct vs_facts as (S & _). replace (add3 (scale3 (- i) vs) (scale3 0 (cross3 new vs))) with (scale3 i (neg3 vs)).
  - rewrite unit3_scale, unit3_neg, (unit3_of_unit vs S) by exact H. reflexivity.
  - apply pol_alg.
Qed.
End Vs.
Lemma clip_id x : 0 <= x <= 1 -> clip x 0 1 = x.
Proof. intros H. apply clip_inside. lra. Qed.
Lemma nrm_one v : dot3 v v = 1 -> nrm v = v.
Proof. intros H. unfold nrm. rewrite (proj2 (norm3_1 v) H), Rinv_1. apply scale3_1. Qed.
Lemma brewster_main m minv rs rp d pol : perpendicular_axes m -> mul4 minv m = id4 -> d <> zero3 -> 0 <= rs <= 1 -> 0 <= rp <= 1 ->
  dot3 (xyz pol) (xyz pol) <= 1 ->
  let ex := nrm (xyz (v_x m)) in let u := nrm d in let new := sub3 u (scale3 (2 * dot3 u ex) ex) in
  cross3 u ex <> zero3 ->
  exists vs p q, unit3 (cross3 u ex) = Some vs /\ brewster m minv rs rp (hom d 0) pol = Ok (Some (hom new 0), Some p, q) /\
    p = rs * (dot3 (xyz pol) vs * dot3 (xyz pol) vs) + rp * (dot3 (xyz pol) (cross3 u vs) * dot3 (xyz pol) (cross3 u vs)) /\ 0 <= p <= 1 /\
    (forall v, q = Some v -> dot3 v new = 0 /\ norm3 v = 1) /\
    (rp = 0 -> 0 < p -> q = Some (neg3 vs)).
Proof.
  intros P I D Rs Rp L ex u new N.
  assert (X : dot3 ex ex = 1) by (apply nrm_unit, P). assert (U : dot3 u u = 1) by (now apply nrm_unit).
  pose proof (brewster_unfold m minv rs rp d pol P I D) as B. cbv zeta in B. fold ex u new in B. rewrite (unit3_some _ N) in B.
  set (vs := scale3 (/ norm3 (cross3 u ex)) (cross3 u ex)) in *. assert (V : unit3 (cross3 u ex) = Some vs) by (now apply unit3_some).
  pose proof (vs_intensity u ex vs U X V rs rp (xyz pol) Rs Rp L) as R. cbv zeta in R.
  rewrite (proj2 (Rltb_false _ _)) in B by lra. rewrite (clip_id _ R) in B.
  eexists vs, _, _. split; [exact V|]. split; [exact B|]. split; [reflexivity|]. split; [exact R|]. split.
  - intros v E. destruct (new_pol_perp u ex vs U X V _ _ v E) as [E1 E2]. split; [exact E1|]. now apply norm3_1.
  - intros -> Pos. rewrite Rmult_0_l in *. rewrite Rplus_0_r in Pos. now apply (new_pol_s u ex vs U X V).
Qed.
Lemma brewster_normal m minv rs rp d pol : perpendicular_axes m -> mul4 minv m = id4 -> d <> zero3 ->
  let ex := nrm (xyz (v_x m)) in let u := nrm d in cross3 u ex = zero3 ->
  brewster m minv rs rp (hom d 0) pol = Ok (Some (hom (sub3 u (scale3 (2 * dot3 u ex) ex)) 0), None, None).
Proof.
  intros P I D ex u N. pose proof (brewster_unfold m minv rs rp d pol P I D) as B. cbv zeta in B. fold ex u in B. rewrite N, unit3_zero in B. exact B.
Qed.
(** *** Multi layer *)
Lemma ln2_pos : 0 < ln 2. Proof. rewrite <- ln_1. apply ln_increasing; lra. Qed.
Lemma ml_range w p mr f : 0 <= mr <= 100 -> 0 <= ml_probability w p mr f <= 1.
Proof.
  intros M. unfold ml_probability. cbv zeta. destruct (Reqb _ 0) eqn:E; [lra|]. apply Reqb_false in E.
  assert (C : 0 < f * f / (8 * ln 2)).
  { pose proof ln2_pos. destruct (Rle_or_lt (f * f / (8 * ln 2)) 0) as [H'|]; [|assumption]. exfalso. apply E. apply Rle_antisym; [exact H'|].
    apply Rmult_le_pos; [apply Rle_0_sqr|]. left. apply Rinv_0_lt_compat. lra. }
  set (c := f * f / (8 * ln 2)) in *. set (t := - ((w - p) * (w - p)) / (2 * c)).
  assert (T : exp t <= 1).
  { rewrite <- exp_0. assert (t <= 0). { unfold t, Rdiv. pose proof (Rle_0_sqr (w - p)) as Q. unfold Rsqr in Q. pose proof (Rinv_0_lt_compat (2 * c) ltac:(lra)). nra. }
    destruct (Req_dec t 0) as [->|]; [lra|]. left. apply exp_increasing. lra. }
  pose proof (exp_pos t). nra.
Qed.
Lemma ml_peak p mr f : f <> 0 -> ml_probability p p mr f = mr / 100.
Proof.
  intros F. unfold ml_probability. cbv zeta. pose proof ln2_pos.
  assert (C : f * f / (8 * ln 2) <> 0). { unfold Rdiv. apply Rmult_integral_contrapositive_currified; [nra|]. apply Rinv_neq_0_compat. lra. }
  rewrite (proj2 (Reqb_false _ 0) C). replace (- ((p - p) * (p - p)) / (2 * (f * f / (8 * ln 2)))) with 0 by (field; lra). rewrite exp_0. lra.
Qed.
Lemma ml_half p mr f : f <> 0 -> ml_probability (p + f / 2) p mr f = mr / 100 / 2 /\ ml_probability (p - f / 2) p mr f = mr / 100 / 2.
Proof.
  intros F. unfold ml_probability. cbv zeta. pose proof ln2_pos.
  assert (C : f * f / (8 * ln 2) <> 0). { unfold Rdiv. apply Rmult_integral_contrapositive_currified; [nra|]. apply Rinv_neq_0_compat. lra. }
  rewrite (proj2 (Reqb_false _ 0) C).
  assert (E : exp (- ln 2) = / 2) by (rewrite exp_Ropp, exp_ln by lra; reflexivity).
  split; [replace (- ((p + f / 2 - p) * (p + f / 2 - p)) / (2 * (f * f / (8 * ln 2)))) with (- ln 2) by (field; lra)
         |replace (- ((p - f / 2 - p) * (p - f / 2 - p)) / (2 * (f * f / (8 * ln 2)))) with (- ln 2) by (field; lra)]; rewrite E; lra.
Qed.
