(** Lemmas for Source_Model. *)
From Coq Require Export Permutation.
From Verif Require Export Source_Model Vec_Proofs Rot_Proofs Sampling_Proofs Base_Proofs.
Open Scope R_scope.

Lemma cs1 t : cos t * cos t + sin t * sin t = 1.
Proof. pose proof (sc1 t). lra. Qed.
Lemma skyvec_unit a b : dot3 (skyvec a b) (skyvec a b) = 1.
Proof. unfold skyvec. vu. pose proof (cs1 a). pose proof (cs1 b). nra. Qed.

Lemma astro_x_rot a : rotation (astro_x a).
Proof. unfold rotation, orthonormal, astro_x. vu. pose proof (cs1 a). repeat split; nra. Qed.
Lemma astro_y_rot a : rotation (astro_y a).
Proof. unfold rotation, orthonormal, astro_y. vu. pose proof (cs1 a). repeat split; nra. Qed.
Lemma astro_z_rot a : rotation (astro_z a).
Proof. unfold rotation, orthonormal, astro_z. vu. pose proof (cs1 a). repeat split; nra. Qed.
Lemma offset_rotation ra dec roll : rotation (offset_matrix ra dec roll).
Proof. unfold offset_matrix. auto using rotation_mul, astro_x_rot, astro_y_rot, astro_z_rot. Qed.

Lemma offset_app ra dec roll s : app3 (offset_matrix ra dec roll) s =
  V3 (dot3 s (skyvec ra dec))
     (dot3 s (sub3 (scale3 (cos roll) (east_at ra)) (scale3 (sin roll) (north_at ra dec))))
     (dot3 s (add3 (scale3 (cos roll) (north_at ra dec)) (scale3 (sin roll) (east_at ra)))).
Proof.
  destruct s as [x y z]. unfold offset_matrix, astro_x, astro_y, astro_z, skyvec, east_at, north_at. rewrite !sin_neg, !cos_neg.
  generalize (sin ra) (cos ra) (sin dec) (cos dec) (sin roll) (cos roll). intros. vu. f_equal; ring.
Qed.

Lemma trans_app m v : orthonormal m -> app3 m (app3 (trans3 m) v) = v.
Proof. intros H. rewrite <- app3_mul, orthonormal_rows by exact H. apply app3_id. Qed.
Lemma triple_app m u v w : dot3 (cross3 (app3 m u) (app3 m v)) (app3 m w) = det3 m * dot3 (cross3 u v) w.
Proof. vring. Qed.
Lemma dot_ext a b : (forall w, dot3 a w = dot3 b w) -> a = b.
Proof.
  intros H. pose proof (H (V3 1 0 0)). pose proof (H (V3 0 1 0)). pose proof (H (V3 0 0 1)). destruct a, b. vu. f_equal; lra.
Qed.
Lemma rotation_cross m u v : rotation m -> cross3 (app3 m u) (app3 m v) = app3 m (cross3 u v).
Proof.
  intros [O D]. apply dot_ext. intros w. rewrite <- (trans_app m w O), triple_app, D, orthonormal_dot by exact O. ring.
Qed.

Lemma app_aff_dir m t p : app4 (aff m t) (hom p 0) = hom (app3 m p) 0. Proof. vring. Qed.
Lemma app_dir m p : affine m -> app4 m (hom p 0) = hom (app3 (lin m) p) 0.
Proof. intros H. rewrite (affine_aff m H) at 1. apply app_aff_dir. Qed.
Lemma neg3_dot v : dot3 (neg3 v) (neg3 v) = dot3 v v. Proof. vring. Qed.

Lemma photons_dir_eq p ra dec : photons_dir p ra dec = Some (app4 (p_ref p) (hom (neg3 (app3 (p_offset p) (skyvec ra dec))) 0)).
Proof.
  unfold photons_dir. rewrite unit3_unit; [reflexivity|].
  destruct (offset_rotation (p_ra p) (p_dec p) (p_roll p)) as [O _]. unfold p_offset.
  rewrite neg3_dot, orthonormal_dot by exact O. apply skyvec_unit.
Qed.

Lemma unit4_hom v : unit4 (hom v 0) = match unit3 v with Some u => Some (hom u 0) | None => None end.
Proof.
  unfold unit4, unit3. rewrite norm4_hom0. destruct (Req_EM_T (norm3 v) 0); [reflexivity|]. f_equal. vring.
Qed.
Lemma unit3_scale k u : 0 < k -> dot3 u u = 1 -> unit3 (scale3 k u) = Some u.
Proof.
  intros K U. assert (N : norm3 (scale3 k u) = k). { rewrite norm3_scale, (proj2 (norm3_1 u) U), Rabs_pos_eq by lra. ring. }
  unfold unit3. rewrite N. destruct (Req_EM_T k 0) as [E|_]; [lra|]. rewrite scale3_scale3, Rinv_l by lra. now rewrite scale3_1.
Qed.
Lemma north_unit ra dec : dot3 (north_at ra dec) (north_at ra dec) = 1.
Proof. unfold north_at. vu. pose proof (cs1 ra). pose proof (cs1 dec). nra. Qed.
Lemma north_cross ra dec : cross3 (neg3 (skyvec ra dec)) (north_at ra dec) = east_at ra.
Proof.
  unfold north_at, east_at, skyvec. vu. pose proof (cs1 ra) as A. pose proof (cs1 dec) as D. f_equal.
  - replace (- sin ra) with (- sin ra * (cos dec * cos dec + sin dec * sin dec)) by (rewrite D; ring). ring.
  - replace (cos ra) with (cos ra * (cos dec * cos dec + sin dec * sin dec)) at 3 by (rewrite D; ring). ring.
  - ring.
Qed.
Lemma north_project ra dec : sub3 (V3 0 0 1) (scale3 (sin dec) (skyvec ra dec)) = scale3 (cos dec) (north_at ra dec).
Proof. unfold north_at, skyvec. vu. pose proof (cs1 dec) as D. f_equal; [ring|ring|]. lra. Qed.

Lemma neg_app m v : app3 m (neg3 v) = neg3 (app3 m v). Proof. vring. Qed.
Lemma hom_sub_scale k a b : sub4 (hom a 0) (scale4 k (hom b 0)) = hom (sub3 a (scale3 k b)) 0. Proof. vring. Qed.
Lemma hom_dot a b : dot4 (hom a 0) (hom b 0) = dot3 a b. Proof. vring. Qed.
Lemma hom_comb k l a b : add4 (scale4 k (hom a 0)) (scale4 l (hom b 0)) = hom (add3 (scale3 k a) (scale3 l b)) 0. Proof. vring. Qed.
Lemma dot_neg_r a b : dot3 a (neg3 b) = - dot3 a b. Proof. vring. Qed.
Lemma scale_neg k v : scale3 (- k) (neg3 v) = scale3 k v. Proof. vring. Qed.
Lemma xyz_hom v w : xyz (hom v w) = v. Proof. vring. Qed.
Lemma dot_z ra dec : dot3 (V3 0 0 1) (skyvec ra dec) = sin dec. Proof. unfold skyvec. vring. Qed.

Lemma scale3_0 v : scale3 0 v = zero3. Proof. vring. Qed.

Section Pol.
Variable p : pointing.
Hypothesis A : affine (p_ref p).
Hypothesis Ro : rotation (lin (p_ref p)).
Let M := mul3 (lin (p_ref p)) (p_offset p).
Lemma M_rot : rotation M.
Proof. unfold M. apply (rotation_mul _ _ Ro). unfold p_offset. apply offset_rotation. Qed.
Lemma dir_M ra dec : photons_dir p ra dec = Some (hom (neg3 (app3 M (skyvec ra dec))) 0).
Proof. rewrite photons_dir_eq, app_dir by exact A. unfold M. now rewrite neg_app, app3_mul. Qed.
Lemma pol_project ra dec :
  let d := hom (neg3 (app3 M (skyvec ra dec))) 0 in
  let northdir := app4 (p_ref p) (hom (app3 (p_offset p) (V3 0 0 1)) 0) in
  sub4 northdir (scale4 (dot4 northdir d) d) = hom (scale3 (cos dec) (app3 M (north_at ra dec))) 0.
Proof.
  cbv zeta. rewrite app_dir, <- app3_mul by exact A. fold M. rewrite hom_dot, dot_neg_r, (orthonormal_dot M _ _ (proj1 M_rot)).
  rewrite hom_sub_scale, dot_z, scale_neg, <- !app3_scale, <- app3_sub, north_project. reflexivity.
Qed.
Lemma pol_M ra dec a : 0 < cos dec ->
  photons_pol p (hom (neg3 (app3 M (skyvec ra dec))) 0) a =
  Some (hom (app3 M (add3 (scale3 (cos a) (north_at ra dec)) (scale3 (sin a) (east_at ra)))) 0).
Proof.
  intros C. unfold photons_pol. cbv zeta. rewrite pol_project, unit4_hom, unit3_scale; [|exact C|].
  2:{ rewrite orthonormal_dot by apply M_rot. apply north_unit. }
  rewrite !xyz_hom, hom_comb. do 2 f_equal. rewrite app3_add, !app3_scale. f_equal. f_equal.
  rewrite <- neg_app, rotation_cross by apply M_rot. now rewrite north_cross.
Qed.
Lemma pol_pole ra dec a : cos dec = 0 -> photons_pol p (hom (neg3 (app3 M (skyvec ra dec))) 0) a = None.
Proof.
  intros C. unfold photons_pol. cbv zeta. rewrite pol_project, unit4_hom, C, scale3_0. now rewrite unit3_zero.
Qed.
End Pol.

(** *** jitter *)
Lemma jitter_axis t : dot3 (V3 0 (sin t) (cos t)) (V3 0 (sin t) (cos t)) = 1.
Proof. vu. pose proof (sc1 t). lra. Qed.
Lemma jitter_eq j r a v : j <> 0 ->
  jitter_vector j r a v = Some (hom (app3 (axangle2mat_n (V3 0 (sin r) (cos r)) (- a)) (xyz v)) 0).
Proof.
  intros J. unfold jitter_vector. rewrite (proj2 (Rltb_true _ _)) by now apply Rabs_pos_lt.
  unfold axangle2mat. rewrite unit3_unit by apply jitter_axis. unfold einsum_ij_i. now rewrite axangle_trans.
Qed.
Lemma jitter_zero r a v : jitter_vector 0 r a v = Some v.
Proof. unfold jitter_vector. rewrite Rabs_R0. now rewrite (proj2 (Rltb_false _ _)) by lra. Qed.
Lemma jitter_onaxis j r a : j <> 0 -> jitter_vector j r a (V4 (-1) 0 0 0) = Some (V4 (- cos a) (sin a * cos r) (- (sin a * sin r)) 0).
Proof.
  intros J. rewrite jitter_eq by exact J. do 1 f_equal. rewrite axangle_rodrigues. unfold rodrigues. rewrite cos_neg, sin_neg.
  pose proof (cs1 r). vu. f_equal; try ring.
Qed.

(** *** times *)
Lemma Rceil_nat x : 0 < x -> forall k, INR k < x <-> (k < Z.to_nat (Rceil x))%nat.
Proof.
  intros X k. destruct (Rceil_spec x) as [L U]. rewrite INR_IZR_INZ.
  assert (P : (0 < Rceil x)%Z) by (apply lt_IZR; simpl; lra). split; intros H.
  - apply Nat2Z.inj_lt. rewrite Z2Nat.id by lia. apply lt_IZR. lra.
  - apply Nat2Z.inj_lt in H. rewrite Z2Nat.id in H by lia. apply Rle_lt_trans with (IZR (Rceil x - 1)); [apply IZR_le; lia|].
    rewrite minus_IZR. lra.
Qed.
Lemma times_spec rate T : 0 < rate -> 0 < T -> exists ts, generate_times (FluxScalar rate) T = Ok ts /\
  (forall k, (k < length ts)%nat -> nth_error ts k = Some (INR k / rate)) /\ (forall k, INR k / rate < T <-> (k < length ts)%nat).
Proof.
  intros R P. cbn [generate_times]. eexists. split; [reflexivity|]. rewrite map_length, seq_length. split.
  - intros k K. rewrite nth_error_map. rewrite (nth_error_nth' _ 0%nat) by now rewrite seq_length. rewrite seq_nth by exact K.
    cbn [option_map plus]. f_equal. field. lra.
  - intros k. assert (X : 0 < T / (1 / rate)). { replace (T / (1 / rate)) with (T * rate) by (field; lra). nra. }
    rewrite <- (Rceil_nat _ X). replace (T / (1 / rate)) with (T * rate) by (field; lra). split; intros H.
    + apply (Rmult_lt_reg_r (/ rate)); [now apply Rinv_0_lt_compat|]. rewrite Rmult_assoc, Rinv_r by lra. unfold Rdiv in H. lra.
    + apply (Rmult_lt_reg_r rate); [exact R|]. unfold Rdiv. rewrite Rmult_assoc, Rinv_l by lra. lra.
Qed.
Lemma times_empty rate T : 0 < rate -> T <= 0 -> generate_times (FluxScalar rate) T = Ok [].
Proof.
  intros R P. cbn [generate_times]. replace (Z.to_nat _) with 0%nat; [reflexivity|]. symmetry.
  destruct (Rceil_spec (T / (1 / rate))) as [L U]. replace (T / (1 / rate)) with (T * rate) in * by (field; lra).
  assert (T * rate <= 0) by nra. assert (Rceil (T * rate) < 1)%Z by (apply lt_IZR; simpl; lra). lia.
Qed.

(** *** drawing from tables *)
Lemma draw_all_spec x pdf h order ds : hist_init x pdf = Ok h -> x <> [] -> Permutation order (seq 0 (length x)) ->
  Forall (fun cv => 0 < fst cv <= Rsum (h_mass h) /\ 0 <= snd cv < 1) ds ->
  exists vs, draw_all h order ds = Ok vs /\ length vs = length ds /\
    Forall (fun v => exists i, (S i < length x)%nat /\ 0 < nth (S i) pdf 0 /\ nth i x 0 <= v < nth (S i) x 0) vs.
Proof.
  intros I N P F. induction F as [|[c v] ds [C V] F IH]; [exists []; auto|].
  cbn [fst snd] in C, V. destruct IH as (vs & E & L & Q).
  destruct (draw_bin x pdf h order I N P c v true C V) as (i & val & _ & D & Li & Pi & _ & B & _).
  exists (val :: vs). cbn [draw_all]. rewrite D. cbn [bind]. rewrite E. cbn [bind]. split; [reflexivity|]. split; [cbn; now rewrite L|].
  constructor; [exists i; auto|exact Q].
Qed.

(** *** sin t / t is decreasing *)
Lemma sin_ge_tcos t : 0 <= t <= PI -> t * cos t <= sin t.
Proof.
  intros [A B]. destruct A as [A|<-]; [|rewrite sin_0; lra].
  set (f := fun s => sin s - s * cos s).
  assert (D : forall s, derivable_pt_lim f s (s * sin s)).
  { intros s. unfold f. replace (s * sin s) with (cos s - (1 * cos s + s * (- sin s))) by ring.
    apply (derivable_pt_lim_minus sin (fun s => s * cos s)); [apply derivable_pt_lim_sin|].
    apply (derivable_pt_lim_mult id cos); [apply derivable_pt_lim_id|apply derivable_pt_lim_cos]. }
  assert (X : exists c, f t - f 0 = (c * sin c) * (t - 0) /\ 0 < c < t). { apply (MVT_cor2 f (fun s => s * sin s)); [exact A|]. intros; apply D. }
  destruct X as (c & E & C1 & C2). unfold f in E at 2. rewrite sin_0, Rmult_0_l, Rminus_0_r, Rminus_0_r, Rminus_0_r in E. unfold f in E.
  assert (0 <= sin c) by (apply sin_ge_0; lra). assert (0 <= c * sin c * t) by (apply Rmult_le_pos; [apply Rmult_le_pos|]; lra). lra.
Qed.
Lemma sinc_decr a b : 0 < a <= b -> b <= PI -> a * sin b <= b * sin a.
Proof.
  intros [A AB] B. destruct AB as [AB| ->]; [|lra].
  set (f := fun s => sin s / s).
  assert (D : forall s, 0 < s -> derivable_pt_lim f s ((cos s * s - 1 * sin s) / Rsqr s)).
  { intros s S. apply (derivable_pt_lim_div sin id); [apply derivable_pt_lim_sin|apply derivable_pt_lim_id|unfold id; lra]. }
  destruct (MVT_cor2 f (fun s => (cos s * s - 1 * sin s) / Rsqr s) a b AB) as (c & E & C1 & C2). { intros c C. apply D. lra. }
  assert (N : (cos c * c - 1 * sin c) / Rsqr c <= 0).
  { unfold Rdiv. assert (0 < / Rsqr c) by (apply Rinv_0_lt_compat, Rsqr_pos_lt; lra). pose proof (sin_ge_tcos c). nra. }
  assert (F : f b <= f a) by nra. unfold f in F.
  apply (Rmult_le_compat_l (a * b)) in F; [|nra].
  replace (a * b * (sin b / b)) with (a * sin b) in F by (field; lra). replace (a * b * (sin a / a)) with (b * sin a) in F by (field; lra). exact F.
Qed.

(** *** distance from the center of a radial source *)
Definition gdist (d t : R) : R := cos (d * sin t) * cos (d * cos t).
Lemma gdist_deriv d t : derivable_pt_lim (gdist d) t
  (- sin (d * sin t) * (d * cos t) * cos (d * cos t) + cos (d * sin t) * (- sin (d * cos t) * (d * - sin t))).
Proof.
  unfold gdist. apply (derivable_pt_lim_mult (fun t => cos (d * sin t)) (fun t => cos (d * cos t))).
  - apply (derivable_pt_lim_comp (fun t => d * sin t) cos); [|apply derivable_pt_lim_cos].
    apply (derivable_pt_lim_scal sin d); apply derivable_pt_lim_sin.
  - apply (derivable_pt_lim_comp (fun t => d * cos t) cos); [|apply derivable_pt_lim_cos].
    apply (derivable_pt_lim_scal cos d); apply derivable_pt_lim_cos.
Qed.
Lemma gdist_sign a b : 0 <= a <= b -> a + b <= PI -> 0 <= a * (cos a * sin b) - b * (sin a * cos b).
Proof.
  intros [A AB] S. destruct AB as [AB|<-]; [|lra].
  pose proof (sinc_decr (b - a) (a + b)) as H.
  assert (X : (b - a) * sin (a + b) <= (a + b) * sin (b - a)) by (apply H; lra).
  rewrite sin_plus, sin_minus in X. nra.
Qed.
Lemma sin_le_cos t : 0 <= t <= PI / 4 -> sin t <= cos t.
Proof.
  intros [A B]. pose proof PI_RGT_0. rewrite <- sin_shift. apply sin_incr_1; lra.
Qed.
Lemma gdist_ge d t : 0 <= d <= PI / 2 -> 0 <= t <= PI / 4 -> cos d <= gdist d t.
Proof.
  intros [D0 D1] [T0 T1]. destruct T0 as [T0|<-].
  2:{ unfold gdist. rewrite sin_0, cos_0, Rmult_0_r, Rmult_1_r, cos_0. lra. }
  destruct (MVT_cor2 (gdist d) _ 0 t T0 (fun c _ => gdist_deriv d c)) as (c & E & C1 & C2).
  unfold gdist in E at 2. rewrite sin_0, cos_0, Rmult_0_r, Rmult_1_r, cos_0 in E.
  pose proof PI_RGT_0 as PP. assert (S0 : 0 <= sin c) by (apply sin_ge_0; lra). pose proof (sin_le_cos c) as SC.
  assert (SUM : sin c + cos c <= 2). { pose proof (SIN_bound c). pose proof (COS_bound c). lra. }
  assert (G : 0 <= d * sin c * (cos (d * sin c) * sin (d * cos c)) - d * cos c * (sin (d * sin c) * cos (d * cos c))).
  { apply gdist_sign; [split; [now apply Rmult_le_pos|apply Rmult_le_compat_l; lra]|].
    replace (d * sin c + d * cos c) with (d * (sin c + cos c)) by ring. replace PI with (PI / 2 * 2) by field.
    apply Rmult_le_compat; lra. }
  assert (0 <= (- sin (d * sin c) * (d * cos c) * cos (d * cos c) + cos (d * sin c) * (- sin (d * cos c) * (d * - sin c))) * (t - 0)).
  { apply Rmult_le_pos; [|lra]. lra. }
  lra.
Qed.
Lemma cos_abs d x : cos (d * Rabs x) = cos (d * x).
Proof. unfold Rabs. destruct (Rcase_abs x); [|reflexivity]. rewrite <- cos_neg. f_equal. ring. Qed.
Lemma gdist_abs t : exists t', 0 <= t' <= PI / 2 /\ sin t' = Rabs (sin t) /\ cos t' = Rabs (cos t).
Proof.
  exists (acos (Rabs (cos t))). pose proof (COS_bound t) as B.
  assert (C : 0 <= Rabs (cos t) <= 1). { split; [apply Rabs_pos|]. unfold Rabs. destruct (Rcase_abs (cos t)); lra. }
  assert (E : cos (acos (Rabs (cos t))) = Rabs (cos t)) by (apply cos_acos; lra).
  assert (BD : 0 <= acos (Rabs (cos t)) <= PI) by apply acos_bound.
  assert (LE : acos (Rabs (cos t)) <= PI / 2).
  { destruct (Rle_dec (acos (Rabs (cos t))) (PI / 2)) as [H|H]; [exact H|].
    assert (cos (acos (Rabs (cos t))) < 0) by (apply cos_lt_0; [lra|]; pose proof PI_RGT_0; lra). lra. }
  split; [lra|]. split; [|exact E].
  assert (S0 : 0 <= sin (acos (Rabs (cos t)))) by (apply sin_ge_0; lra).
  apply Rsqr_inj; [exact S0|apply Rabs_pos|]. rewrite <- Rsqr_abs. rewrite !sin2, E. rewrite <- Rsqr_abs. reflexivity.
Qed.
Lemma gdist_all d t : 0 <= d <= PI / 2 -> cos d <= gdist d t.
Proof.
  intros D. destruct (gdist_abs t) as (t' & B & S & C). unfold gdist. rewrite <- (cos_abs d (sin t)), <- (cos_abs d (cos t)), <- S, <- C.
  destruct (Rle_dec t' (PI / 4)) as [H|H].
  - apply (gdist_ge d t' D). lra.
  - pose proof (gdist_ge d (PI / 2 - t') D) as X. unfold gdist in X. rewrite sin_shift, cos_shift in X. rewrite Rmult_comm. apply X. lra.
Qed.

Lemma trans_offset_dot ra dec v : dot3 (skyvec ra dec) (app3 (trans3 (offset_matrix ra dec 0)) v) = x3 v.
Proof.
  rewrite dot3_comm, dot3_app, trans3_trans3, offset_app. rewrite skyvec_unit.
  assert (E1 : dot3 (skyvec ra dec) (sub3 (scale3 (cos 0) (east_at ra)) (scale3 (sin 0) (north_at ra dec))) = 0).
  { rewrite sin_0, cos_0. unfold skyvec, east_at, north_at. vu. ring. }
  assert (E2 : dot3 (skyvec ra dec) (add3 (scale3 (cos 0) (north_at ra dec)) (scale3 (sin 0) (east_at ra))) = 0).
  { rewrite sin_0, cos_0. unfold skyvec, east_at, north_at. vu.
    transitivity (sin dec * cos dec * (1 - (cos ra * cos ra + sin ra * sin ra))); [ring|]. rewrite cs1. ring. }
  rewrite E1, E2. vu. ring.
Qed.
Lemma relative_unit ra dec lon lat : dot3 (relative_pos ra dec lon lat) (relative_pos ra dec lon lat) = 1.
Proof. unfold relative_pos. rewrite orthonormal_dot by (apply orthonormal_trans, offset_rotation). apply skyvec_unit. Qed.
Lemma relative_dist ra dec lon lat : dot3 (skyvec ra dec) (relative_pos ra dec lon lat) = cos lat * cos lon.
Proof. unfold relative_pos. now rewrite trans_offset_dot. Qed.
Lemma radial_dist ra dec d phi : dot3 (skyvec ra dec) (radial_photon ra dec d phi) = gdist d phi.
Proof. unfold radial_photon. rewrite relative_dist. unfold gdist. ring. Qed.

(** *** radii *)
Lemma acos_range x r : -1 <= x <= 1 -> 0 <= r <= PI -> (acos x <= r <-> cos r <= x).
Proof.
  intros X R. pose proof (acos_bound x) as B. split; intros H.
  - rewrite <- (cos_acos x X). apply cos_decr_1; lra.
  - rewrite <- (cos_acos x X) in H. apply cos_decr_0 in H; lra.
Qed.
Lemma sph_range ai ao u : 0 <= ai <= ao -> ao <= PI -> 0 <= u <= 1 ->
  cos ao <= cos ai * (1 - u) + u * cos ao <= cos ai /\ -1 <= cos ao /\ cos ai <= 1.
Proof.
  intros A B U. assert (cos ao <= cos ai) by (apply cos_decr_1; lra). pose proof (COS_bound ao). pose proof (COS_bound ai). nra.
Qed.
Lemma spherical_cdf ai ao u r : 0 <= ai <= ao -> ao <= PI -> 0 <= u <= 1 -> 0 <= r <= PI ->
  (spherical_radius ai ao u <= r <-> cos ai - u * (cos ai - cos ao) >= cos r).
Proof.
  intros A B U R. destruct (sph_range ai ao u A B U) as (X & L & H). unfold spherical_radius. rewrite acos_range by lra.
  split; lra.
Qed.
Lemma spherical_in ai ao u : 0 <= ai <= ao -> ao <= PI -> 0 <= u <= 1 -> ai <= spherical_radius ai ao u <= ao.
Proof.
  intros A B U. destruct (sph_range ai ao u A B U) as (X & L & H). split.
  - unfold spherical_radius. set (x := cos ai * (1 - u) + u * cos ao) in *. pose proof (acos_bound x).
    apply cos_decr_0; try lra. rewrite cos_acos; lra.
  - apply spherical_cdf; lra.
Qed.
Lemma disk_in ai ao u : 0 <= ai <= ao -> 0 <= u <= 1 -> ai <= disk_radius ai ao u <= ao.
Proof.
  intros A U. assert (D : 0 <= ao * ao - ai * ai) by nra. unfold disk_radius. split.
  - apply Rsqr_incr_0_var; [|apply sqrt_pos]. rewrite Rsqr_sqrt by nra. unfold Rsqr. nra.
  - apply Rsqr_incr_0_var; [|lra]. rewrite Rsqr_sqrt by nra. unfold Rsqr. nra.
Qed.
Lemma disk_cdf ai ao u r : 0 <= ai <= ao -> 0 <= u <= 1 -> 0 <= r ->
  (disk_radius ai ao u <= r <-> u * (ao * ao - ai * ai) <= r * r - ai * ai).
Proof.
  intros A U R. assert (D : 0 <= ao * ao - ai * ai) by nra. unfold disk_radius. split; intros H.
  - apply Rsqr_incr_1 in H; [|apply sqrt_pos|exact R]. rewrite Rsqr_sqrt in H by nra. unfold Rsqr in H. lra.
  - apply Rsqr_incr_0_var; [|exact R]. rewrite Rsqr_sqrt by nra. unfold Rsqr. lra.
Qed.

(** *** cone *)
Lemma cone_local_unit half u1 u2 : dot3 (cone_local half u1 u2) (cone_local half u1 u2) = 1.
Proof.
  unfold cone_local. cbv zeta. set (t := uniform _ _ _). set (f := acos _). pose proof (cs1 t). pose proof (cs1 f). vu. nra.
Qed.
Lemma cone_local_z half u1 u2 : 0 <= u2 <= 1 -> z3 (cone_local half u1 u2) = 1 - u2 * (1 - cos half).
Proof.
  intros U. unfold cone_local. cbv zeta. cbn [z3]. unfold uniform at 1. pose proof PI_RGT_0. pose proof (COS_bound half).
  replace (1 - 2 * (0 + (2 * PI * (1 - cos half) / (4 * PI) - 0) * u2)) with (1 - u2 * (1 - cos half)) by (field; lra).
  apply cos_acos. nra.
Qed.
Lemma z_to_d d : dot3 d d = 1 -> cross3 d (V3 0 0 1) <> zero3 -> exists m,
  axangle2mat (cross3 d (V3 0 0 1)) (- acos (z3 d)) = Some m /\ rotation m /\ app3 m (V3 0 0 1) = d.
Proof.
  intros D N. destruct (axangle2mat_total _ (- acos (z3 d)) N) as [m E]. exists m. split; [exact E|].
  destruct (axangle2mat_Some _ _ _ E) as (_ & Ro & _). split; [exact Ro|].
  unfold axangle2mat in E. rewrite unit3_some in E by exact N.
  assert (E' : m = axangle2mat_n (scale3 (/ norm3 (cross3 d (V3 0 0 1))) (cross3 d (V3 0 0 1))) (- acos (z3 d))) by congruence.
  rewrite E', axangle_rodrigues. clear E E' Ro. unfold rodrigues.
  set (n := norm3 (cross3 d (V3 0 0 1))). assert (NP : 0 < n) by now apply norm3_pos.
  assert (NN : n * n = 1 - z3 d * z3 d). { unfold n. rewrite norm3_sqr. destruct d as [x y z]. vu. nra. }
  assert (ZB : -1 <= z3 d <= 1) by nra.
  assert (Sn : sin (acos (z3 d)) = n).
  { rewrite sin_acos by exact ZB. unfold Rsqr. rewrite <- NN. apply sqrt_square. lra. }
  rewrite cos_neg, sin_neg, Sn, cos_acos by exact ZB. destruct d as [x y z]. clearbody n. vu.
  f_equal; field; lra.
Qed.
