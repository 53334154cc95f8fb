(** Lemmas about [Plane_Model]. *)
From Verif Require Import Vec_Proofs Coords_Proofs.
From Verif Require Export Plane_Model.
Open Scope R_scope.

Lemma hom0 v : w4 v = 0 -> v = hom (xyz v) 0.
Proof. intros H. rewrite <- (hom_xyz v) at 1. now rewrite H. Qed.
Lemma unit4_hom0 v : w4 v = 0 -> xyz v <> zero3 -> unit4 v = Some (hom (scale3 (/ norm3 (xyz v)) (xyz v)) 0).
Proof.
  intros W N. unfold unit4. assert (E : norm4 v = norm3 (xyz v)) by (rewrite (hom0 v W) at 1; apply norm4_hom0). rewrite E.
  pose proof (norm3_pos _ N). destruct (Req_EM_T (norm3 (xyz v)) 0) as [X|X]; [lra|]. f_equal.
  rewrite (hom0 v W) at 2. generalize (norm3 (xyz v)) (xyz v). vring.
Qed.
(** decomposition in an orthonormal frame *)
Lemma frame_decompose a b c v : orthonormal (M3 a b c) -> v = add3 (add3 (scale3 (dot3 v a) a) (scale3 (dot3 v b) b)) (scale3 (dot3 v c) c).
Proof.
  intros H. rewrite <- (app3_id v) at 1. rewrite <- (orthonormal_rows _ H), app3_mul.
  assert (E : app3 (trans3 (M3 a b c)) v = V3 (dot3 v a) (dot3 v b) (dot3 v c)) by (clear; vring). rewrite E. reflexivity.
Qed.
Definition nrm (v : v3) := scale3 (/ norm3 v) v.
Lemma nrm_unit v : v <> zero3 -> dot3 (nrm v) (nrm v) = 1.
Proof. intros H. apply (unit3_spec v (nrm v)). now apply unit3_some. Qed.
Lemma axes_frame m : perpendicular_axes m -> orthonormal (M3 (nrm (xyz (v_x m))) (nrm (xyz (v_y m))) (nrm (xyz (v_z m)))).
Proof.
  intros (_ & Nx & Ny & Nz & XY & XZ & YZ). unfold orthonormal. cbn [a0 a1 a2]. rewrite !nrm_unit by assumption.
  unfold nrm. rewrite !dot3_scale_l, !dot3_scale_r, XY, XZ, YZ. repeat split; ring.
Qed.
Lemma plane_bases_spec m : perpendicular_axes m -> exists ey ez ex, plane_bases m = Some (ey, ez, ex) /\
  orthonormal (M3 (xyz ex) (xyz ey) (xyz ez)) /\ w4 ex = 0 /\ w4 ey = 0 /\ w4 ez = 0 /\
  xyz (v_x m) = scale3 (norm3 (xyz (v_x m))) (xyz ex) /\ xyz (v_y m) = scale3 (norm3 (xyz (v_y m))) (xyz ey) /\
  xyz (v_z m) = scale3 (norm3 (xyz (v_z m))) (xyz ez).
Proof.
  intros P. pose proof (axes_frame m P) as F. destruct P as ((W0 & W1 & W2 & W3) & Nx & Ny & Nz & _).
  unfold plane_bases, e_x, e_y, e_z. rewrite (unit4_hom0 (v_x m)), (unit4_hom0 (v_y m)), (unit4_hom0 (v_z m)) by assumption.
  do 3 eexists. split; [reflexivity|]. rewrite !xyz_hom. split; [exact F|]. do 3 (split; [reflexivity|]).
  pose proof (norm3_pos _ Nx). pose proof (norm3_pos _ Ny). pose proof (norm3_pos _ Nz).
  rewrite !scale3_scale3, !Rinv_r, !scale3_1 by lra. auto.
Qed.

Lemma dot4_hom u v wu : dot4 (hom u wu) (hom v 0) = dot3 u v. Proof. vring. Qed.
Lemma sub4_hom u v wu wv : sub4 (hom u wu) (hom v wv) = hom (sub3 u v) (wu - wv). Proof. vring. Qed.
Lemma ray_hom u v k : add4 (hom u 1) (scale4 k (hom v 0)) = hom (add3 u (scale3 k v)) 1. Proof. vring. Qed.
Lemma add_sub3 q c : q = add3 c (sub3 q c). Proof. vring. Qed.
Lemma plane_comb c ex ey ez a b : add3 c (add3 (add3 (scale3 0 ex) (scale3 a ey)) (scale3 b ez)) = add3 c (add3 (scale3 a ey) (scale3 b ez)).
Proof. vring. Qed.
Lemma local_comb c ey ez a b ny nz : sub3 (add3 c (add3 (scale3 a (scale3 ny ey)) (scale3 b (scale3 nz ez)))) c = add3 (scale3 (a * ny) ey) (scale3 (b * nz) ez).
Proof. vring. Qed.

Section Hit.
Variables (m : m4) (d p : v3).
Hypothesis P : perpendicular_axes m.
Let c := xyz (center m).
Let ex := nrm (xyz (v_x m)).
Let ey := nrm (xyz (v_y m)).
Let ez := nrm (xyz (v_z m)).
Let ny := norm3 (xyz (v_y m)).
Let nz := norm3 (xyz (v_z m)).
Let k := dot3 (sub3 c p) ex / dot3 d ex.
Let q := add3 p (scale3 k d).

Lemma intersect_3d : plane_intersect m (hom d 0) (hom p 1) =
  if negb (Reqb (dot3 d ex) 0) && Rleb 0 k && Rleb (Rabs (dot3 (sub3 q c) ey)) ny && Rleb (Rabs (dot3 (sub3 q c) ez)) nz
  then (true, Some (hom q 1), Some (dot3 (sub3 q c) ey, dot3 (sub3 q c) ez)) else (false, None, None).
Proof.
  destruct P as ((W0 & W1 & W2 & W3) & Nx & Ny & Nz & _).
  unfold plane_intersect, e_x, e_y, e_z. rewrite (unit4_hom0 (v_x m)), (unit4_hom0 (v_y m)), (unit4_hom0 (v_z m)) by assumption.
  fold (nrm (xyz (v_x m))) (nrm (xyz (v_y m))) (nrm (xyz (v_z m))). fold ex ey ez.
  assert (Ec : center m = hom c 1) by (rewrite <- (hom_xyz (center m)) at 1; unfold center at 2; now rewrite W3).
  assert (Ey : norm4 (v_y m) = ny) by (rewrite (hom0 (v_y m) W1); apply norm4_hom0).
  assert (Ez : norm4 (v_z m) = nz) by (rewrite (hom0 (v_z m) W2); apply norm4_hom0).
  rewrite Ec, Ey, Ez. cbv zeta.
  rewrite !sub4_hom, !dot4_hom, ray_hom, !sub4_hom, !dot4_hom. reflexivity.
Qed.
Lemma q_in_plane : dot3 d ex <> 0 -> dot3 (sub3 q c) ex = 0.
Proof. intros H. unfold q, k. rewrite dot3_sub_l, dot3_add_l, dot3_scale_l, dot3_sub_l. field. exact H. Qed.
Lemma ny_pos : 0 < ny. Proof. apply norm3_pos. apply P. Qed.
Lemma nz_pos : 0 < nz. Proof. apply norm3_pos. apply P. Qed.
Lemma vy_ey : xyz (v_y m) = scale3 ny ey.
Proof. unfold ey, nrm. fold ny. rewrite scale3_scale3, Rinv_r, scale3_1; [reflexivity|]. pose proof ny_pos. lra. Qed.
Lemma vz_ez : xyz (v_z m) = scale3 nz ez.
Proof. unfold ez, nrm. fold nz. rewrite scale3_scale3, Rinv_r, scale3_1; [reflexivity|]. pose proof nz_pos. lra. Qed.
Lemma parallel_iff : dot3 d ex = 0 <-> dot3 d (xyz (v_x m)) = 0.
Proof.
  assert (X : 0 < norm3 (xyz (v_x m))) by (apply norm3_pos, P). unfold ex, nrm. rewrite dot3_scale_r. split; intros H.
  - apply Rmult_integral in H. destruct H as [H|H]; [|exact H]. exfalso. apply (Rinv_neq_0_compat (norm3 (xyz (v_x m)))); lra.
  - rewrite H. ring.
Qed.
Lemma q_decompose : dot3 d ex <> 0 -> q = add3 c (add3 (scale3 (dot3 (sub3 q c) ey) ey) (scale3 (dot3 (sub3 q c) ez) ez)).
Proof.
  intros H. pose proof (frame_decompose ex ey ez (sub3 q c) (axes_frame m P)) as F. rewrite (q_in_plane H) in F.
  rewrite (add_sub3 q c) at 1. rewrite F at 1. apply plane_comb.
Qed.
(** any point of the ray in the plane is [q] *)
Lemma q_unique t a b : dot3 d ex <> 0 -> add3 p (scale3 t d) = add3 c (add3 (scale3 a (xyz (v_y m))) (scale3 b (xyz (v_z m)))) -> t = k.
Proof.
  intros H E. destruct (axes_frame m P) as (_ & _ & _ & XY & XZ & _). cbn [a0 a1 a2] in XY, XZ. fold ex ey ez in XY, XZ.
  apply (f_equal (fun v => dot3 v ex)) in E. rewrite vy_ey, vz_ez in E.
  rewrite !dot3_add_l, !dot3_scale_l, (dot3_comm ey), (dot3_comm ez), XY, XZ in E.
  unfold k. rewrite dot3_sub_l. apply (Rmult_eq_reg_r (dot3 d ex)); [|exact H]. field_simplify; [|exact H]. lra.
Qed.
Lemma local_coords a b : sub3 (add3 c (add3 (scale3 a (xyz (v_y m))) (scale3 b (xyz (v_z m))))) c = add3 (scale3 (a * ny) ey) (scale3 (b * nz) ez).
Proof. rewrite vy_ey, vz_ez. apply local_comb. Qed.
End Hit.

Lemma plane_hit_iff m d p : perpendicular_axes m ->
  (fst (fst (plane_intersect m (hom d 0) (hom p 1))) = true <->
   dot3 d (xyz (v_x m)) <> 0 /\ exists k a b, 0 <= k /\ in_rectangle m a b (add3 p (scale3 k d))).
Proof.
  intros P. rewrite intersect_3d by exact P.
  set (ex := nrm (xyz (v_x m))). set (ey := nrm (xyz (v_y m))). set (ez := nrm (xyz (v_z m))).
  set (k := dot3 (sub3 (xyz (center m)) p) ex / dot3 d ex). set (q := add3 p (scale3 k d)).
  set (ny := norm3 (xyz (v_y m))). set (nz := norm3 (xyz (v_z m))). set (c := xyz (center m)) in *.
  assert (NY : 0 < ny) by (apply ny_pos; exact P). assert (NZ : 0 < nz) by (apply nz_pos; exact P).
  destruct (negb (Reqb (dot3 d ex) 0) && Rleb 0 k && Rleb (Rabs (dot3 (sub3 q c) ey)) ny && Rleb (Rabs (dot3 (sub3 q c) ez)) nz) eqn:E; cbn [fst].
  - split; [intros _|reflexivity]. apply andb_true_iff in E. destruct E as [E E4]. apply andb_true_iff in E. destruct E as [E E3].
    apply andb_true_iff in E. destruct E as [E1 E2]. apply negb_true_iff, Reqb_false in E1. apply Rleb_true in E2, E3, E4.
    split; [intros X; apply E1; now apply parallel_iff|]. exists k, (dot3 (sub3 q c) ey / ny), (dot3 (sub3 q c) ez / nz).
    split; [exact E2|]. unfold in_rectangle.
    assert (B : forall x n, 0 < n -> Rabs x <= n -> -1 <= x / n <= 1).
    { intros x n Pn A. revert A. unfold Rabs. destruct (Rcase_abs x); intros A; split; apply (Rmult_le_reg_r n); try exact Pn;
        unfold Rdiv; rewrite ?Rmult_assoc, ?Rinv_l by lra; lra. }
    split; [now apply B|]. split; [now apply B|]. fold q c. rewrite (vy_ey m P), (vz_ez m P). fold ny nz ey ez.
    pose proof (q_decompose m d p P E1) as Q. fold c ex k q ey ez in Q. rewrite !scale3_scale3.
    replace (dot3 (sub3 q c) ey / ny * ny) with (dot3 (sub3 q c) ey) by (field; lra).
    replace (dot3 (sub3 q c) ez / nz * nz) with (dot3 (sub3 q c) ez) by (field; lra). exact Q.
  - split; [discriminate|]. intros (N & t & a & b & T & A & B & Q). exfalso.
    assert (N' : dot3 d ex <> 0) by (intros X; apply N; now apply parallel_iff).
    pose proof (q_unique m d p P t a b N' Q) as K. fold c ex k in K. subst t. fold q in Q.
    pose proof (local_coords m P a b) as L. fold c ny nz ey ez in L. fold c in Q. rewrite <- Q in L.
    destruct (axes_frame m P) as (_ & Y1 & Z1 & _ & _ & YZ). cbn [a0 a1 a2] in Y1, Z1, YZ. fold ey ez in Y1, Z1, YZ.
    assert (L1 : dot3 (sub3 q c) ey = a * ny). { rewrite L, dot3_add_l, !dot3_scale_l, Y1, (dot3_comm ez), YZ. ring. }
    assert (L2 : dot3 (sub3 q c) ez = b * nz). { rewrite L, dot3_add_l, !dot3_scale_l, Z1, YZ. ring. }
    apply not_true_iff_false in E. apply E. rewrite !andb_true_iff, negb_true_iff, Reqb_false, !Rleb_true, L1, L2.
    assert (AB : forall x n, 0 < n -> -1 <= x <= 1 -> Rabs (x * n) <= n).
    { intros x n Pn X. apply Rabs_le. nra. }
    auto.
Qed.
Lemma plane_hit_values m d p h ip il : perpendicular_axes m -> plane_intersect m (hom d 0) (hom p 1) = (h, ip, il) ->
  (h = false -> ip = None /\ il = None) /\
  (h = true -> exists k a b q, 0 <= k /\ in_rectangle m a b q /\ q = add3 p (scale3 k d) /\ ip = Some (hom q 1) /\
     il = Some (a * norm3 (xyz (v_y m)), b * norm3 (xyz (v_z m)))).
Proof.
  intros P H. pose proof (plane_hit_iff m d p P) as I. rewrite H in I. cbn [fst] in I.
  rewrite intersect_3d in H by exact P.
  destruct (negb _ && _ && _ && _) eqn:E; injection H as <- <- <-; split; intros X; try discriminate; [|auto].
  destruct I as [I _]. destruct (I eq_refl) as (N & t & a & b & T & R).
  assert (N' : dot3 d (nrm (xyz (v_x m))) <> 0) by (intros Y; apply N; now apply parallel_iff).
  pose proof R as (A & B & Q). pose proof (q_unique m d p P t a b N' Q) as K.
  exists t, a, b, (add3 p (scale3 t d)). split; [exact T|]. split; [exact R|]. split; [reflexivity|]. rewrite <- K. split; [reflexivity|].
  pose proof (local_coords m P a b) as L. rewrite <- Q in L.
  destruct (axes_frame m P) as (_ & Y1 & Z1 & _ & _ & YZ). cbn [a0 a1 a2] in Y1, Z1, YZ.
  rewrite L, !dot3_add_l, !dot3_scale_l, Y1, Z1, (dot3_comm (nrm (xyz (v_z m))) (nrm (xyz (v_y m)))), YZ. do 2 f_equal; ring.
Qed.
