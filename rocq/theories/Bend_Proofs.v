(** Proofs about bent and chirped gratings *)
From Coq Require Import Ratan.
From Verif Require Import Base_Proofs Vec_Proofs Coords_Proofs Plane_Proofs Position_Proofs Angles_Proofs Cylinder_Proofs Detector_Proofs Placement_Proofs Analysis_Proofs Chandra_Proofs Rmf_Proofs.
From Verif Require Export Bend_Model.
Open Scope R_scope.

(** ** Bending *)
Lemma atan_lt x : 0 < x -> atan x < x.
Proof.
  intros X. destruct (MVT_cor2 atan (fun y => / (1 + y * y)) 0 x X) as (c & E & C).
  { intros y _. replace (y * y) with (y ^ 2) by ring. apply derivable_pt_lim_atan. }
  rewrite atan_0 in E. assert (/ (1 + c * c) < 1) by (rewrite <- Rinv_1; apply Rinv_lt_contravar; nra). nra.
Qed.
Lemma new_tube_ok t rot z ex radius : 0 < radius -> new_tube t rot z ex radius =
  Ok (Tube (compose (sub3 t (scale3 radius ex)) rot (V3 radius radius (z3 z))) (- atan (y3 z / radius), atan (y3 z / radius))).
Proof. intros H. unfold new_tube. assert (E : Rleb radius 0 = false) by (apply Rleb_false; lra). now rewrite E. Qed.
Lemma compose_cols t r a b c : compose t r (V3 a b c) = M4 (hom (scale3 a (a0 r)) 0) (hom (scale3 b (a1 r)) 0) (hom (scale3 c (a2 r)) 0) (hom t 1).
Proof. unfold compose. destruct r as [[] [] []], t. unfold aff, mul3, diag3, app3, hom; vu; cbn. repeat (f_equal; try ring). Qed.
Lemma ex3_cols p q o t : norm3 p <> 0 -> ex3 (M4 (hom p 0) q o t) = Ok (scale3 (/ norm3 p) p).
Proof.
  intros H. unfold ex3, e_x, v_x. cbn [b0]. rewrite unit4_hom0; [rewrite !xyz_hom; reflexivity|reflexivity|].
  rewrite xyz_hom. intros ->. apply H. now apply norm3_zero.
Qed.
Lemma sequence_const {A B} (x : A) (l : list B) : sequence (map (fun _ => Ok x) l) = Ok (map (fun _ => x) l).
Proof. induction l as [|b l IH]; cbn; [reflexivity|]. now rewrite IH. Qed.

(** the grating's own frame, as found by the decomposition *)
Lemma frame_of m : perpendicular_axes m -> 0 < det3 (lin m) -> exists r,
  decompose44 m = Some (tra m, r, V3 (norm3 (xyz (v_x m))) (norm3 (xyz (v_y m))) (norm3 (xyz (v_z m))), zero3) /\ rotation r /\
  a0 r = nrm (xyz (v_x m)) /\ a1 r = nrm (xyz (v_y m)) /\ a2 r = nrm (xyz (v_z m)).
Proof.
  intros P D. destruct (tube_zoom m P D) as (r & E). exists r. split; [exact E|]. apply decompose44_spec in E. destruct E as (_ & Rr & (X & Y & Z) & L).
  split; [exact Rr|]. rewrite shear3_0, mul3_id_r in L. cbn [x3 y3 z3] in *.
  unfold lin in L. unfold nrm, v_x, v_y, v_z in *.
  assert (C : forall q : m3, q = mul3 r (diag3 (V3 (norm3 (xyz (b0 m))) (norm3 (xyz (b1 m))) (norm3 (xyz (b2 m))))) ->
    a0 q = scale3 (norm3 (xyz (b0 m))) (a0 r) /\ a1 q = scale3 (norm3 (xyz (b1 m))) (a1 r) /\ a2 q = scale3 (norm3 (xyz (b2 m))) (a2 r)).
  { intros q ->. clear. destruct r as [[] [] []]. generalize (norm3 (xyz (b0 m))) (norm3 (xyz (b1 m))) (norm3 (xyz (b2 m))). intros. unfold mul3, diag3, app3; vu; cbn. repeat split; f_equal; ring. }
  destruct (C _ L) as (C0 & C1 & C2). cbn [a0 a1 a2] in C0, C1, C2.
  assert (S : forall k v w, k <> 0 -> v = scale3 k w -> w = scale3 (/ k) v).
  { intros k v w K ->. destruct w. vu. f_equal; field; exact K. }
  repeat split; [apply (S _ _ _ X C0)|apply (S _ _ _ (Rgt_not_eq _ _ Y) C1)|apply (S _ _ _ (Rgt_not_eq _ _ Z) C2)].
Qed.
Definition tube_of (m : m4) (radius : R) : tube :=
  Tube (M4 (hom (scale3 radius (nrm (xyz (v_x m)))) 0) (hom (scale3 radius (nrm (xyz (v_y m)))) 0) (hom (xyz (v_z m)) 0)
           (hom (sub3 (xyz (center m)) (scale3 radius (nrm (xyz (v_x m))))) 1))
       (- atan (norm3 (xyz (v_y m)) / radius), atan (norm3 (xyz (v_y m)) / radius)).
Lemma nrm_scale v : v <> zero3 -> scale3 (norm3 v) (nrm v) = v.
Proof. intros N. pose proof (norm3_pos _ N). unfold nrm. rewrite scale3_scale3. replace (norm3 v * / norm3 v) with 1 by (field; lra). apply scale3_1. Qed.
Lemma bend_ok m l radius : perpendicular_axes m -> 0 < det3 (lin m) -> 0 < radius ->
  bend (Grat m (Some l)) radius = Ok (Bent (tube_of m radius) (map (fun _ => tube_of m radius) l)).
Proof.
  intros P D Rp. destruct (frame_of m P D) as (r & E & Rr & A0 & A1 & A2). unfold bend. cbn [gr_pos gr_elems]. rewrite E.
  assert (X : ex3 m = Ok (a0 r)).
  { pose proof P as (W & Nx & _). unfold ex3, e_x. rewrite unit4_hom0; [rewrite xyz_hom, A0; reflexivity|apply W|exact Nx]. }
  rewrite X. cbn [bind]. rewrite new_tube_ok by exact Rp. cbn [bind y3 z3 tu_pos].
  assert (T : Tube (compose (sub3 (tra m) (scale3 radius (a0 r))) r (V3 radius radius (norm3 (xyz (v_z m)))))
     (- atan (norm3 (xyz (v_y m)) / radius), atan (norm3 (xyz (v_y m)) / radius)) = tube_of m radius).
  { rewrite compose_cols. unfold tube_of. rewrite A0, A1, A2. rewrite nrm_scale by apply P. reflexivity. }
  assert (N1 : norm3 (a0 r) = 1) by (rewrite A0; apply norm3_1; apply nrm_unit; apply P).
  assert (N2 : norm3 (scale3 radius (a0 r)) = radius) by (rewrite norm3_scale, N1, Rabs_pos_eq by lra; ring).
  assert (F : ex3 (compose (sub3 (tra m) (scale3 radius (a0 r))) r (V3 radius radius (norm3 (xyz (v_z m))))) = Ok (a0 r)).
  { rewrite compose_cols, ex3_cols by lra. rewrite N2, scale3_scale3. replace (/ radius * radius) with 1 by (field; lra). now rewrite scale3_1. }
  rewrite F. cbn [bind]. rewrite new_tube_ok by exact Rp. cbn [y3 z3]. rewrite T. rewrite (sequence_const (tube_of m radius) l). reflexivity.
Qed.
(** whatever the sign of the determinant *)
Lemma bend_any m l radius r zx e : decompose44 m = Some (tra m, r, V3 zx (norm3 (xyz (v_y m))) (norm3 (xyz (v_z m))), zero3) -> ex3 m = Ok e -> orthonormal r -> 0 < radius ->
  exists b, bend (Grat m (Some l)) radius = Ok b /\
    be_tube b = Tube (compose (sub3 (tra m) (scale3 radius e)) r (V3 radius radius (norm3 (xyz (v_z m))))) (- atan (norm3 (xyz (v_y m)) / radius), atan (norm3 (xyz (v_y m)) / radius)) /\
    be_elems b = map (fun _ => Tube (compose (sub3 (tra m) (scale3 radius (a0 r))) r (V3 radius radius (norm3 (xyz (v_z m))))) (- atan (norm3 (xyz (v_y m)) / radius), atan (norm3 (xyz (v_y m)) / radius))) l.
Proof.
  intros E X O Rp. unfold bend. cbn [gr_pos gr_elems]. rewrite E, X. cbn [bind]. rewrite new_tube_ok by exact Rp. cbn [bind y3 z3 tu_pos].
  assert (N1 : norm3 (a0 r) = 1) by (apply norm3_1; apply O).
  assert (N2 : norm3 (scale3 radius (a0 r)) = radius) by (rewrite norm3_scale, N1, Rabs_pos_eq by lra; ring).
  assert (F : ex3 (compose (sub3 (tra m) (scale3 radius e)) r (V3 radius radius (norm3 (xyz (v_z m))))) = Ok (a0 r)).
  { rewrite compose_cols, ex3_cols by lra. rewrite N2, scale3_scale3. replace (/ radius * radius) with 1 by (field; lra). now rewrite scale3_1. }
  rewrite F. cbn [bind]. rewrite new_tube_ok by exact Rp. cbn [y3 z3]. rewrite sequence_const. eexists. repeat split.
Qed.
Lemma mirrored_frame m r zx : perpendicular_axes m -> det3 (lin m) < 0 -> decompose44 m = Some (tra m, r, V3 zx (norm3 (xyz (v_y m))) (norm3 (xyz (v_z m))), zero3) ->
  a0 r = neg3 (nrm (xyz (v_x m))).
Proof.
  intros P D E. pose proof (decompose44_spec _ _ _ _ _ E) as (_ & [O Dr] & (X & Y & Z) & L). rewrite shear3_0, mul3_id_r in L. cbn [x3 y3 z3] in *.
  assert (B : xyz (v_x m) = scale3 zx (a0 r)).
  { apply (f_equal a0) in L. unfold lin in L. cbn [a0] in L. unfold v_x. rewrite L. clear. destruct r as [[] [] []]. unfold mul3, diag3, app3; vu; cbn. f_equal; ring. }
  assert (Dz : det3 (lin m) = zx * norm3 (xyz (v_y m)) * norm3 (xyz (v_z m))).
  { rewrite L. transitivity (det3 r * (zx * norm3 (xyz (v_y m)) * norm3 (xyz (v_z m)))); [|rewrite Dr; ring]. clear. generalize (norm3 (xyz (v_y m))) (norm3 (xyz (v_z m))). intros. destruct r as [[] [] []]. unfold det3, mul3, diag3, app3; vu; cbn. ring. }
  assert (Nz : zx < 0).
  { apply Rnot_le_lt. intros K. assert (0 <= det3 (lin m)); [|lra]. rewrite Dz. apply Rmult_le_pos; [apply Rmult_le_pos; [exact K|lra]|lra]. }
  assert (N1 : norm3 (a0 r) = 1) by (apply norm3_1; apply O).
  unfold nrm. rewrite B, norm3_scale, N1, Rabs_left by exact Nz. rewrite scale3_scale3. replace (/ (- zx * 1) * zx) with (-1) by (field; lra). destruct (a0 r). vu. f_equal; ring.
Qed.
Lemma bend_mirrored m l radius b : perpendicular_axes m -> det3 (lin m) < 0 -> 0 < radius -> bend (Grat m (Some l)) radius = Ok b ->
  tube_point (be_tube b) 0 0 = sub3 (xyz (center m)) (scale3 (2 * radius) (nrm (xyz (v_x m)))) /\
  List.length (be_elems b) = List.length l /\ forall t, In t (be_elems b) -> tube_point t 0 0 = xyz (center m).
Proof.
  intros P D Rp B. destruct (decompose44_zooms m P) as (r & zx & E). pose proof (mirrored_frame m r zx P D E) as A.
  assert (X : ex3 m = Ok (nrm (xyz (v_x m)))).
  { pose proof P as (W & Nx & _). unfold ex3, e_x. rewrite unit4_hom0; [rewrite xyz_hom; reflexivity|apply W|exact Nx]. }
  pose proof (decompose44_spec _ _ _ _ _ E) as (_ & [O _] & _). destruct (bend_any m l radius r zx _ E X O Rp) as (b' & B' & T & L). assert (b' = b) by congruence. subst b'.
  assert (Q : forall c lims, tube_point (Tube (compose c r (V3 radius radius (norm3 (xyz (v_z m))))) lims) 0 0 = add3 c (scale3 radius (a0 r))).
  { intros c lims. unfold tube_point. cbn [tu_pos]. rewrite compose_cols, cos_0, sin_0. generalize (a0 r) (a1 r) (a2 r) (norm3 (xyz (v_z m))). clear. intros [] [] [] k. destruct c. unfold hom, app4; vu; cbn. f_equal; ring. }
  rewrite T, L. split; [|split].
  - rewrite Q, A. unfold tra, center. generalize (nrm (xyz (v_x m))) (xyz (b3 m)). clear. intros [] []. vu. f_equal; ring.
  - apply map_length.
  - intros t H. apply in_map_iff in H. destruct H as (? & <- & _). rewrite Q. unfold tra, center. generalize (a0 r) (xyz (b3 m)). clear. intros [] []. vu. f_equal; ring.
Qed.
Lemma tube_of_point m radius phi zeta : tube_point (tube_of m radius) phi zeta =
  add3 (xyz (center m)) (add3 (add3 (scale3 (radius * (cos phi - 1)) (nrm (xyz (v_x m)))) (scale3 (radius * sin phi) (nrm (xyz (v_y m))))) (scale3 zeta (xyz (v_z m)))).
Proof. unfold tube_point, tube_of. cbn [tu_pos]. generalize (xyz (center m)) (nrm (xyz (v_x m))) (nrm (xyz (v_y m))) (xyz (v_z m)). intros [] [] [] []. unfold hom, app4; vu; cbn. f_equal; ring. Qed.

Lemma nrm_orth m : perpendicular_axes m -> dot3 (nrm (xyz (v_x m))) (nrm (xyz (v_x m))) = 1 /\ dot3 (nrm (xyz (v_y m))) (nrm (xyz (v_y m))) = 1 /\ dot3 (nrm (xyz (v_x m))) (nrm (xyz (v_y m))) = 0 /\
  dot3 (nrm (xyz (v_x m))) (xyz (v_z m)) = 0 /\ dot3 (nrm (xyz (v_y m))) (xyz (v_z m)) = 0.
Proof.
  intros (_ & Nx & Ny & Nz & XY & XZ & YZ). rewrite !nrm_unit by assumption. unfold nrm. rewrite !dot3_scale_l, !dot3_scale_r, XY, XZ, YZ. repeat split; ring.
Qed.
Lemma nrm_sc k v : 0 < k -> v <> zero3 -> nrm (scale3 k (nrm v)) = nrm v.
Proof.
  intros K N. assert (U : norm3 (nrm v) = 1) by (apply norm3_1; now apply nrm_unit). unfold nrm at 1. rewrite norm3_scale, U, Rabs_pos_eq by lra.
  rewrite scale3_scale3. replace (/ (k * 1) * k) with 1 by (field; lra). apply scale3_1.
Qed.
Lemma plane_bases_val m : perpendicular_axes m -> plane_bases m = Some (hom (nrm (xyz (v_y m))) 0, hom (nrm (xyz (v_z m))) 0, hom (nrm (xyz (v_x m))) 0).
Proof.
  intros ((W0 & W1 & W2 & W3) & Nx & Ny & Nz & _). unfold plane_bases, e_x, e_y, e_z. rewrite (unit4_hom0 (v_x m)), (unit4_hom0 (v_y m)), (unit4_hom0 (v_z m)) by assumption. reflexivity.
Qed.
Lemma tube_of_axes m radius : perpendicular_axes m -> 0 < radius -> perpendicular_axes (tu_pos (tube_of m radius)) /\
  norm3 (xyz (v_x (tu_pos (tube_of m radius)))) = radius /\ norm3 (xyz (v_y (tu_pos (tube_of m radius)))) = radius.
Proof.
  intros P Rp. pose proof (nrm_orth m P) as (X & Y & XY & XZ & YZ). unfold tube_of. cbn [tu_pos]. unfold perpendicular_axes, v_x, v_y, v_z in *. cbn [b0 b1 b2]. rewrite !xyz_hom.
  assert (NX : norm3 (nrm (xyz (b0 m))) = 1) by now apply norm3_1. assert (NY : norm3 (nrm (xyz (b1 m))) = 1) by now apply norm3_1.
  rewrite !norm3_scale, NX, NY, Rabs_pos_eq by lra. rewrite !dot3_scale_l, !dot3_scale_r, XY, XZ, YZ.
  assert (Z : forall v, norm3 v = 1 -> scale3 radius v <> zero3).
  { intros v N E. apply (f_equal norm3) in E. rewrite norm3_scale, N, Rabs_pos_eq in E by lra. assert (norm3 zero3 = 0) by now apply norm3_zero. lra. }
  repeat split; try ring; try (apply Z; assumption). apply P.
Qed.
Lemma cylinder_bases_flat m radius : perpendicular_axes m -> 0 < radius -> cylinder_bases (tu_pos (tube_of m radius)) 0 = plane_bases m.
Proof.
  intros P Rp. destruct (tube_of_axes m radius P Rp) as (Q & X & Y).
  destruct (cylinder_bases_spec _ 0 Q) as (ep & ez & en & E & O & A & B & C); [congruence|]. rewrite E, plane_bases_val by exact P. rewrite X in A, B. rewrite cos_0, sin_0 in *.
  unfold tube_of in A, B, C. cbn [tu_pos] in A, B, C. unfold v_z in C. cbn [b2] in C. rewrite xyz_hom in C. change (b2 m) with (v_z m) in *.
  assert (S : forall k v w, k <> 0 -> scale3 k v = scale3 k w -> v = w).
  { intros k v w K H. apply (f_equal (scale3 (/ k))) in H. rewrite !scale3_scale3, Rinv_l, !scale3_1 in H by exact K. exact H. }
  assert (HA : en = nrm (xyz (v_x m))).
  { apply (S radius); [lra|]. apply (f_equal xyz) in A. rewrite xyz_hom in A. rewrite <- A. generalize (nrm (xyz (v_x m))) (nrm (xyz (v_y m))) (sub3 (xyz (center m)) (scale3 radius (nrm (xyz (v_x m))))) (xyz (v_z m)). intros [] [] [] []. unfold hom, app4; vu; cbn. f_equal; ring. }
  assert (HB : ep = nrm (xyz (v_y m))).
  { apply (S radius); [lra|]. apply (f_equal xyz) in B. rewrite xyz_hom in B. rewrite <- B. generalize (nrm (xyz (v_x m))) (nrm (xyz (v_y m))) (sub3 (xyz (center m)) (scale3 radius (nrm (xyz (v_x m))))) (xyz (v_z m)). intros [] [] [] []. unfold hom, app4; vu; cbn. f_equal; ring. }
  assert (HC : ez = nrm (xyz (v_z m))).
  { pose proof (norm3_pos (xyz (v_z m))). unfold nrm. rewrite C at 2. rewrite scale3_scale3, Rinv_l, scale3_1; [reflexivity|]. apply Rgt_not_eq, norm3_pos, P. }
  now rewrite HA, HB, HC.
Qed.
(** a ray from the axis of the tube goes through both gratings or none *)
Lemma angle_lim y radius phi : 0 < y -> 0 < radius -> - PI / 2 < phi < PI / 2 ->
  (angle_between phi (- atan (y / radius)) (atan (y / radius)) = true <-> Rabs (radius * tan phi) <= y).
Proof.
  intros Y Rp H. pose proof PI_RGT_0. assert (K : 0 < y / radius) by (apply Rdiv_lt_0_compat; assumption).
  destruct (atan_bound (y / radius)) as [_ B]. assert (A : 0 < atan (y / radius)) by (rewrite <- atan_0; now apply atan_increasing).
  rewrite angle_between_interval by (unfold twopi; lra).
  assert (I : (exists n, - atan (y / radius) <= phi + twopi * IZR n <= atan (y / radius)) <-> - atan (y / radius) <= phi <= atan (y / radius)).
  { split; [|intros I; exists 0%Z; rewrite Rmult_0_r, Rplus_0_r; exact I]. intros (n & N). assert (n = 0)%Z as ->; [|rewrite Rmult_0_r, Rplus_0_r in N; exact N].
    unfold twopi in N. assert (-1 < IZR n < 1) as [L1 L2] by (split; nra). apply (lt_IZR (-1)) in L1. apply (lt_IZR n 1) in L2. lia. }
  rewrite I. rewrite <- (atan_tan phi) at 1 2 by lra. rewrite <- atan_opp.
  assert (M : forall a b, atan a <= atan b <-> a <= b).
  { intros a b. split; intros L; [|destruct L as [L| ->]; [left; now apply atan_increasing|lra]]. destruct (Rle_or_lt a b) as [|X]; [assumption|]. apply atan_increasing in X. lra. }
  rewrite !M. assert (E : y = radius * (y / radius)) by (field; lra). rewrite E at 3. clear - K Rp. revert K. generalize (y / radius) (tan phi). intros q t K. split.
  - intros [L1 L2]. apply Rabs_le. split; nra.
  - intros L. pose proof (Rle_abs (radius * t)). pose proof (Rle_abs (- (radius * t))) as L'. rewrite Rabs_Ropp in L'. split; apply Rmult_le_reg_l with radius; lra.
Qed.
(** ** The finder of the grating constant *)
Lemma posongrat_ok m u v : affine m -> posongrat m u v = Ok (add3 (xyz (center m)) (add3 (scale3 u (xyz (v_y m))) (scale3 v (xyz (v_z m))))).
Proof.
  intros (W0 & W1 & W2 & W3). unfold posongrat. rewrite h2e_w1.
  - cbn [bind map nth]. f_equal. unfold center, v_y, v_z. generalize (b3 m) (b1 m) (b2 m). intros [] [] []. unfold xyz; vu; cbn. f_equal; ring.
  - intros x [<-|[]]. unfold center, v_y, v_z. destruct (b3 m), (b1 m), (b2 m). cbn in *. subst. ring.
Qed.
Lemma rel_zero k v : k <> 0 -> scale3 k v = zero3 -> v = zero3.
Proof. intros K E. destruct v. unfold zero3 in *. revert E. vu. intros E. injection E as E1 E2 E3. f_equal; nra. Qed.
(** coordinates in the plane are unique *)
Lemma rect_unique m a b a' b' : perpendicular_axes m ->
  add3 (xyz (center m)) (add3 (scale3 a (xyz (v_y m))) (scale3 b (xyz (v_z m)))) = add3 (xyz (center m)) (add3 (scale3 a' (xyz (v_y m))) (scale3 b' (xyz (v_z m)))) -> a = a' /\ b = b'.
Proof.
  intros (_ & _ & Ny & Nz & _ & _ & YZ) E.
  assert (S : forall c y z : v3, add3 c (add3 (scale3 a y) (scale3 b z)) = add3 c (add3 (scale3 a' y) (scale3 b' z)) -> dot3 y z = 0 -> (a - a') * dot3 y y = 0 /\ (b - b') * dot3 z z = 0).
  { intros [c1 c2 c3] [y1 y2 y3] [z1 z2 z3] H D. revert H D. vu. intros H D. injection H as H1 H2 H3.
    assert (Q1 : (a - a') * y1 + (b - b') * z1 = 0) by lra. assert (Q2 : (a - a') * y2 + (b - b') * z2 = 0) by lra. assert (Q3 : (a - a') * y3 + (b - b') * z3 = 0) by lra.
    split.
    - transitivity (y1 * ((a - a') * y1 + (b - b') * z1) + y2 * ((a - a') * y2 + (b - b') * z2) + y3 * ((a - a') * y3 + (b - b') * z3) - (b - b') * (y1 * z1 + y2 * z2 + y3 * z3)); [ring|]. rewrite Q1, Q2, Q3, D. ring.
    - transitivity (z1 * ((a - a') * y1 + (b - b') * z1) + z2 * ((a - a') * y2 + (b - b') * z2) + z3 * ((a - a') * y3 + (b - b') * z3) - (a - a') * (y1 * z1 + y2 * z2 + y3 * z3)); [ring|]. rewrite Q1, Q2, Q3, D. ring. }
  destruct (S _ _ _ E YZ) as [A B].
  assert (PY : dot3 (xyz (v_y m)) (xyz (v_y m)) <> 0) by (rewrite <- norm3_sqr; pose proof (norm3_pos _ Ny); nra).
  assert (PZ : dot3 (xyz (v_z m)) (xyz (v_z m)) <> 0) by (rewrite <- norm3_sqr; pose proof (norm3_pos _ Nz); nra).
  apply Rmult_integral in A, B. split; lra.
Qed.
Lemma test_ray m u v pos : perpendicular_axes m -> -1 <= u <= 1 -> -1 <= v <= 1 -> dot3 (xyz (center m)) (xyz (v_x m)) <> 0 -> posongrat m u v = Ok pos ->
  exists d k, init_photon pos = (hom (scale3 (11 / 10) pos) 1, Some (hom d 0)) /\ norm3 d = 1 /\ 0 < k /\ add3 (scale3 (11 / 10) pos) (scale3 k d) = zero3 /\
    plane_intersect m (hom d 0) (hom (scale3 (11 / 10) pos) 1) = (true, Some (hom pos 1), Some (u * norm3 (xyz (v_y m)), v * norm3 (xyz (v_z m)))).
Proof.
  intros P U V NX E. rewrite posongrat_ok in E by apply P. assert (Ep : pos = add3 (xyz (center m)) (add3 (scale3 u (xyz (v_y m))) (scale3 v (xyz (v_z m))))) by congruence. clear E.
  assert (DX : dot3 pos (xyz (v_x m)) = dot3 (xyz (center m)) (xyz (v_x m))).
  { destruct P as (_ & _ & _ & _ & XY & XZ & _). rewrite Ep. revert XY XZ. generalize (xyz (center m)) (xyz (v_x m)) (xyz (v_y m)) (xyz (v_z m)). intros [] [] [] []. vu. intros A B. rewrite <- (Rplus_0_r (_ * _ + _ + _)). nra. }
  assert (Np : pos <> zero3). { intros ->. apply NX. rewrite <- DX. unfold zero3. destruct (xyz (v_x m)). vu. ring. }
  pose proof (norm3_pos _ Np) as Lp. set (n := norm3 pos) in *.
  exists (scale3 (- / n) pos), (11 / 10 * n). split; [|split; [|split; [lra|split]]].
  - unfold init_photon. f_equal. replace (scale4 (-1) (hom pos 0)) with (hom (scale3 (-1) pos) 0) by (destruct pos; unfold hom; vu; f_equal; ring).
    rewrite unit4_hom0; [|reflexivity|rewrite xyz_hom; intros Z; apply rel_zero in Z; [contradiction|lra]]. rewrite xyz_hom, norm3_scale. replace (Rabs (-1)) with 1 by (rewrite Rabs_left; lra). fold n.
    do 2 f_equal. rewrite scale3_scale3. f_equal. field. lra.
  - rewrite norm3_scale. fold n. rewrite Rabs_Ropp, Rabs_pos_eq by (left; now apply Rinv_0_lt_compat). field. lra.
  - rewrite scale3_scale3. clearbody n. clear - Lp. destruct pos. unfold zero3. vu. f_equal; field; lra.
  - assert (HIT : fst (fst (plane_intersect m (hom (scale3 (- / n) pos) 0) (hom (scale3 (11 / 10) pos) 1))) = true).
    { apply plane_hit_iff; [exact P|]. split.
      - rewrite dot3_scale_l, DX. intros Z. apply Rmult_integral in Z as [Z|Z]; [|contradiction]. pose proof (Rinv_0_lt_compat _ Lp). lra.
      - exists (/ 10 * n), u, v. split; [lra|]. split; [exact U|]. split; [exact V|]. rewrite <- Ep. rewrite scale3_scale3. clearbody n. clear - Lp. destruct pos. vu. f_equal; field; lra. }
    destruct (plane_intersect m _ _) as [[h ip] il] eqn:E. cbn [fst] in HIT. subst h.
    destruct (plane_hit_values m _ _ _ _ _ P E) as [_ H]. destruct (H eq_refl) as (k & a & b & q & K & (A & B & Q) & Q2 & -> & ->).
    assert (S : scale3 (11 / 10 - k / n) pos = q).
    { rewrite Q2, scale3_scale3. clearbody n. clear - Lp. destruct pos. vu. f_equal; field; lra. }
    assert (D1 : dot3 q (xyz (v_x m)) = dot3 (xyz (center m)) (xyz (v_x m))).
    { destruct P as (_ & _ & _ & _ & XY & XZ & _). rewrite Q. revert XY XZ. generalize (xyz (center m)) (xyz (v_x m)) (xyz (v_y m)) (xyz (v_z m)). intros [] [] [] []. vu. intros X1 X2. nra. }
    assert (F : 11 / 10 - k / n = 1).
    { rewrite <- S, dot3_scale_l, DX in D1. apply Rmult_eq_reg_r with (dot3 (xyz (center m)) (xyz (v_x m))); [lra|exact NX]. }
    rewrite F, scale3_1 in S. assert (S2 : u = a /\ v = b) by (apply (rect_unique m u v a b P); congruence). destruct S2 as [<- <-]. now rewrite <- S.
Qed.
Lemma num_sub_abs_refl x : num_sub_abs (Some x) (Some x) = Some 0.
Proof. cbn. f_equal. rewrite Rminus_diag_eq by reflexivity. apply Rabs_R0. Qed.
Lemma num_sub_abs_0 a b : num_sub_abs a b = Some 0 <-> exists x, a = Some x /\ b = Some x.
Proof.
  split.
  - destruct a as [a|], b as [b|]; cbn; try discriminate. intros H. assert (E : Rabs (a - b) = 0) by congruence. exists b. split; [|reflexivity]. f_equal.
    destruct (Req_dec (a - b) 0) as [|X]; [lra|]. apply Rabs_no_R0 in X. contradiction.
  - intros (x & -> & ->). apply num_sub_abs_refl.
Qed.
Lemma sequence_map_ok {A B} (f : A -> result B) (g : A -> B) l : (forall x, f x = Ok (g x)) -> sequence (map f l) = Ok (map g l).
Proof. intros H. induction l as [|x l IH]; cbn; [reflexivity|]. now rewrite H, IH. Qed.
Lemma correction_ok minimize trace f m us vs : affine m -> correction minimize trace f m us vs =
  Ok (map (fun u => map (fun v => minimize (optimize_func trace f (run_photon trace f (fi_d f) (point_on m 0 0)) (point_on m u v))) vs) us).
Proof.
  intros A. unfold correction, calc_goal. rewrite posongrat_ok by exact A. cbn [bind]. apply sequence_map_ok. intros u. apply sequence_map_ok. intros v.
  rewrite posongrat_ok by exact A. reflexivity.
Qed.
(** ** The chirp *)
Lemma tile3_ok corr rows : tile3 corr = Ok rows -> List.length rows = List.length corr /\
  forall i c rest, nth_error corr i = Some (c :: rest) -> nth_error rows i = Some [c; c; c].
Proof.
  revert rows. induction corr as [|r corr IH]; intros rows H; cbn in H.
  - assert (rows = []) by congruence. subst. split; [reflexivity|]. intros [|i]; discriminate.
  - destruct r as [|c0 r]; [discriminate|]. cbn [bind] in H. unfold tile3 in IH. destruct (sequence _) as [rows'|e] eqn:E; [|discriminate].
    cbn [bind] in H. assert (rows = [c0; c0; c0] :: rows') by congruence. subst. destruct (IH rows' eq_refl) as [L N]. split; [cbn; congruence|].
    intros [|i] c rest K; cbn in K |- *; [congruence|]. eapply N; eauto.
Qed.
Lemma increasing_scale k l : 0 < k -> increasing (map (Rmult k) l) = increasing l.
Proof.
  intros K. induction l as [|x l IH]; [reflexivity|]. destruct l as [|y l]; [reflexivity|]. cbn [map increasing] in *. rewrite IH. f_equal.
  destruct (Rltb x y) eqn:E.
  - apply Rltb_true in E. apply Rltb_true. nra.
  - apply Rltb_false in E. apply Rltb_false. nra.
Qed.
Lemma chirp_inv minimize trace s f d us vs g g' : affine (gs_pos g) -> chirp minimize trace s f d us vs g = Ok g' ->
  exists v vs', vs = v :: vs' /\ List.length us = 3%nat /\
    (let ly := norm4 (v_y (gs_pos g)) in let lz := norm4 (v_z (gs_pos g)) in
     let c u := d * minimize (optimize_func (trace (gs_pos g)) f (run_photon (trace (gs_pos g)) f (fi_d f) (point_on (gs_pos g) 0 0)) (point_on (gs_pos g) u v)) in
     increasing (map (Rmult ly) us) = true /\ increasing (map (Rmult lz) us) = true /\
     g' = GS (gs_pos g) (Func (s (map (Rmult ly) us) (map (Rmult lz) us) (map (fun u => [c u; c u; c u]) us)))
            (match gs_orig g with Some o => o | None => gs_sel g end) (Some (match gs_orig g with Some o => o | None => gs_sel g end))).
Proof.
  intros A H. unfold chirp in H. rewrite correction_ok in H by exact A. cbn [bind] in H. destruct vs as [|v vs'].
  - destruct us as [|u us]; [|discriminate H]. cbn [map tile3 sequence bind] in H. unfold make_spline in H. cbn in H. discriminate H.
  - exists v, vs'. split; [reflexivity|]. cbn [map] in H. unfold tile3 in H. rewrite map_map in H.
    set (c := fun u => minimize (optimize_func (trace (gs_pos g)) f (run_photon (trace (gs_pos g)) f (fi_d f) (point_on (gs_pos g) 0 0)) (point_on (gs_pos g) u v))) in *.
    rewrite (sequence_map_ok _ (fun u => [c u; c u; c u])) in H by reflexivity. cbn [bind] in H. rewrite map_map in H. cbn [map] in H.
    unfold make_spline in H. rewrite !map_length in H. destruct (_ && _)%bool eqn:E; [|discriminate]. cbn [bind] in H.
    apply andb_prop in E as [E I2]. apply andb_prop in E as [E I1]. apply andb_prop in E as [E L2]. apply andb_prop in E as [E L1]. apply andb_prop in E as [_ E].
    split.
    + destruct us as [|u us]; [discriminate L1|]. cbn [map forallb] in E. apply andb_prop in E as [E _]. apply Nat.eqb_eq in E. symmetry. exact E.
    + split; [exact I1|]. split; [exact I2|]. assert (H' : forall a b : gstate, Ok a = Ok b -> a = b) by congruence. apply H' in H. rewrite <- H. reflexivity.
Qed.
(** a spline that is 0 between the points *)
Fixpoint find_at (l : list R) (x : R) : nat := match l with [] => O | y :: r => if Req_EM_T x y then O else S (find_at r x) end.
Definition tab_spline : rectspline := fun x y z a b => nth (find_at y b) (nth (find_at x a) z []) 0.
Lemma increasing_head x l : increasing (x :: l) = true -> forall y, In y l -> x < y.
Proof.
  revert x. induction l as [|z l IH]; intros x H y Y; [destruct Y|]. cbn [increasing] in H. apply andb_prop in H as [H1 H2]. apply Rltb_true in H1.
  destruct Y as [<-|Y]; [exact H1|]. pose proof (IH z H2 y Y). lra.
Qed.
Lemma increasing_tail x l : increasing (x :: l) = true -> increasing l = true.
Proof. destruct l; [reflexivity|]. cbn. intros H. now apply andb_prop in H. Qed.
Lemma find_at_nth l : forall i x, increasing l = true -> nth_error l i = Some x -> find_at l x = i.
Proof.
  induction l as [|y l IH]; intros [|i] x I H; try discriminate; cbn in H |- *.
  - assert (y = x) by congruence. subst. destruct (Req_EM_T x x); congruence.
  - destruct (Req_EM_T x y) as [E|_]; [|f_equal; apply IH; [eapply increasing_tail; eauto|exact H]].
    pose proof (increasing_head y l I x (nth_error_In _ _ H)). lra.
Qed.
Lemma find_at_none l x : ~ In x l -> find_at l x = List.length l.
Proof. induction l as [|y l IH]; intros N; cbn; [reflexivity|]. destruct (Req_EM_T x y) as [->|_]; [destruct N; now left|]. f_equal. apply IH. intros X. apply N. now right. Qed.
Lemma tab_spline_ok : rectspline_ok tab_spline.
Proof.
  intros x y z i j a b row v Ix Iy A B R V. unfold tab_spline. rewrite (find_at_nth x i a Ix A), (find_at_nth y j b Iy B).
  rewrite (nth_error_nth _ _ _ R). now apply nth_error_nth.
Qed.
Lemma tab_spline_off x y z a b : ~ In a x -> List.length z = List.length x -> tab_spline x y z a b = 0.
Proof. intros N L. unfold tab_spline. rewrite (find_at_none x a N). rewrite (nth_overflow z) by lia. now destruct (find_at y b). Qed.

Lemma chirp_ok minimize trace s f d us v vs g : perpendicular_axes (gs_pos g) -> List.length us = 3%nat -> increasing us = true ->
  exists g', chirp minimize trace s f d us (v :: vs) g = Ok g'.
Proof.
  intros P L I. unfold chirp. rewrite correction_ok by apply P. cbn [bind map]. unfold tile3. rewrite map_map.
  set (c := fun u => minimize (optimize_func (trace (gs_pos g)) f (run_photon (trace (gs_pos g)) f (fi_d f) (point_on (gs_pos g) 0 0)) (point_on (gs_pos g) u v))).
  rewrite (sequence_map_ok _ (fun u => [c u; c u; c u])) by reflexivity. cbn [bind]. unfold make_spline. rewrite !map_length.
  pose proof P as ((W0 & W1 & W2 & W3) & Nx & Ny & Nz & _).
  assert (PY : 0 < norm4 (v_y (gs_pos g))) by (rewrite (hom0 (v_y (gs_pos g)) W1), norm4_hom0; now apply norm3_pos).
  assert (PZ : 0 < norm4 (v_z (gs_pos g))) by (rewrite (hom0 (v_z (gs_pos g)) W2), norm4_hom0; now apply norm3_pos).
  rewrite !increasing_scale by assumption. rewrite I, L.
  assert (F : forallb (fun row : list R => Nat.eqb (List.length row) 3) (map (map (Rmult d)) (map (fun u => [c u; c u; c u]) us)) = true).
  { apply forallb_forall. intros row R. rewrite map_map in R. apply in_map_iff in R as (u & <- & _). reflexivity. }
  rewrite F. cbn. eexists. reflexivity.
Qed.
