(** Lemmas about vectors, matrices and real arithmetic. *)
From Coq Require Export Lra Psatz.
From Verif Require Export Vec_Model.
Open Scope R_scope.

Ltac vd := repeat match goal with
  | v : v3 |- _ => destruct v
  | v : v4 |- _ => destruct v
  | v : m3 |- _ => destruct v
  | v : m4 |- _ => destruct v
  end.
Ltac vu := cbv beta iota zeta delta [mul4 mul3 app4 app3 det4 det3 trans3 aff lin tra id3 id4 add3 sub3 scale3 neg3 dot3 cross3 zero3
  add4 sub4 scale4 dot4 zero4 xyz hom x3 y3 z3 x4 y4 z4 w4 a0 a1 a2 b0 b1 b2 b3] in *.
Ltac veq := lazymatch goal with
  | |- V3 _ _ _ = V3 _ _ _ => f_equal; ring
  | |- V4 _ _ _ _ = V4 _ _ _ _ => f_equal; ring
  | |- M3 _ _ _ = M3 _ _ _ => f_equal; veq
  | |- M4 _ _ _ _ = M4 _ _ _ _ => f_equal; veq
  | |- _ => ring
  end.
Ltac vring := intros; vd; vu; veq.

Lemma v3_eq a b : x3 a = x3 b -> y3 a = y3 b -> z3 a = z3 b -> a = b.
Proof. destruct a, b. cbn. now intros -> -> ->. Qed.
Lemma v4_eq a b : x4 a = x4 b -> y4 a = y4 b -> z4 a = z4 b -> w4 a = w4 b -> a = b.
Proof. destruct a, b. cbn. now intros -> -> -> ->. Qed.

(** *** vectors *)
Lemma dot3_comm a b : dot3 a b = dot3 b a. Proof. vring. Qed.
Lemma dot3_add_l a b c : dot3 (add3 a b) c = dot3 a c + dot3 b c. Proof. vring. Qed.
Lemma dot3_add_r a b c : dot3 a (add3 b c) = dot3 a b + dot3 a c. Proof. vring. Qed.
Lemma dot3_sub_l a b c : dot3 (sub3 a b) c = dot3 a c - dot3 b c. Proof. vring. Qed.
Lemma dot3_sub_r a b c : dot3 a (sub3 b c) = dot3 a b - dot3 a c. Proof. vring. Qed.
Lemma dot3_scale_l k a b : dot3 (scale3 k a) b = k * dot3 a b. Proof. vring. Qed.
Lemma dot3_scale_r k a b : dot3 a (scale3 k b) = k * dot3 a b. Proof. vring. Qed.
Lemma dot3_cross_l a b : dot3 a (cross3 a b) = 0. Proof. vring. Qed.
Lemma dot3_cross_r a b : dot3 b (cross3 a b) = 0. Proof. vring. Qed.
Lemma cross3_anti a b : cross3 a b = neg3 (cross3 b a). Proof. vring. Qed.
Lemma cross3_self a : cross3 a a = zero3. Proof. vring. Qed.
Lemma lagrange a b : dot3 (cross3 a b) (cross3 a b) = dot3 a a * dot3 b b - dot3 a b * dot3 a b. Proof. vring. Qed.
Lemma lagrange4 a b c d : dot3 (cross3 a b) (cross3 c d) = dot3 a c * dot3 b d - dot3 a d * dot3 b c. Proof. vring. Qed.
Lemma bac_cab a b c : cross3 a (cross3 b c) = sub3 (scale3 (dot3 a c) b) (scale3 (dot3 a b) c). Proof. vring. Qed.
Lemma cross_cross a b c : cross3 (cross3 a b) c = sub3 (scale3 (dot3 a c) b) (scale3 (dot3 b c) a). Proof. vring. Qed.
Lemma cross3_scale_l k a b : cross3 (scale3 k a) b = scale3 k (cross3 a b). Proof. vring. Qed.
Lemma cross3_scale_r k a b : cross3 a (scale3 k b) = scale3 k (cross3 a b). Proof. vring. Qed.
Lemma triple_cycle a b c : dot3 a (cross3 b c) = dot3 b (cross3 c a). Proof. vring. Qed.
Lemma scale3_scale3 k l a : scale3 k (scale3 l a) = scale3 (k * l) a. Proof. vring. Qed.
Lemma scale3_1 a : scale3 1 a = a. Proof. vring. Qed.
Lemma scale4_1 a : scale4 1 a = a. Proof. vring. Qed.
Lemma scale4_scale4 k l a : scale4 k (scale4 l a) = scale4 (k * l) a. Proof. vring. Qed.

Lemma dot3_nonneg a : 0 <= dot3 a a.
Proof. vd. vu. nra. Qed.
Lemma dot3_zero a : dot3 a a = 0 <-> a = zero3.
Proof.
  split; [|intros ->; vring]. destruct a as [x y z]. vu. intros H.
  assert (x = 0 /\ y = 0 /\ z = 0) as (-> & -> & ->) by (repeat split; nra). reflexivity.
Qed.
Lemma dot4_nonneg a : 0 <= dot4 a a.
Proof. vd. vu. nra. Qed.
Lemma dot4_zero a : dot4 a a = 0 <-> a = zero4.
Proof.
  split; [|intros ->; vring]. destruct a as [x y z w]. vu. intros H.
  assert (x = 0 /\ y = 0 /\ z = 0 /\ w = 0) as (-> & -> & -> & ->) by (repeat split; nra). reflexivity.
Qed.
Lemma norm3_sqr a : norm3 a * norm3 a = dot3 a a.
Proof. unfold norm3. apply sqrt_sqrt, dot3_nonneg. Qed.
Lemma norm3_nonneg a : 0 <= norm3 a.
Proof. apply sqrt_pos. Qed.
Lemma norm3_zero a : norm3 a = 0 <-> a = zero3.
Proof.
  rewrite <- dot3_zero, <- norm3_sqr. split; intros H; [rewrite H; ring|]. nra.
Qed.
Lemma norm3_1 a : norm3 a = 1 <-> dot3 a a = 1.
Proof.
  rewrite <- norm3_sqr. pose proof (norm3_nonneg a). split; intros X; [rewrite X; ring|nra].
Qed.
Lemma norm4_sqr a : norm4 a * norm4 a = dot4 a a.
Proof. unfold norm4. apply sqrt_sqrt, dot4_nonneg. Qed.
Lemma norm4_nonneg a : 0 <= norm4 a.
Proof. apply sqrt_pos. Qed.
Lemma norm4_zero a : norm4 a = 0 <-> a = zero4.
Proof. rewrite <- dot4_zero, <- norm4_sqr. split; intros H; [rewrite H; ring|]. nra. Qed.
Lemma norm4_hom0 v : norm4 (hom v 0) = norm3 v.
Proof. unfold norm4, norm3. f_equal. vring. Qed.
Lemma norm3_scale k a : norm3 (scale3 k a) = Rabs k * norm3 a.
Proof.
  unfold norm3. replace (dot3 (scale3 k a) (scale3 k a)) with (Rsqr k * dot3 a a) by (unfold Rsqr; vring).
  rewrite sqrt_mult; [|apply Rle_0_sqr|apply dot3_nonneg]. now rewrite sqrt_Rsqr_abs.
Qed.

Lemma unit3_spec a u : unit3 a = Some u -> a <> zero3 /\ u = scale3 (/ norm3 a) a /\ dot3 u u = 1 /\ a = scale3 (norm3 a) u.
Proof.
  unfold unit3. destruct (Req_EM_T (norm3 a) 0) as [E|E]; [discriminate|]. intros H. injection H as <-.
  split; [intros X; apply E; now apply norm3_zero|]. split; [reflexivity|]. split.
  - rewrite dot3_scale_l, dot3_scale_r, <- norm3_sqr. field. exact E.
  - rewrite scale3_scale3, Rinv_r by exact E. now rewrite scale3_1.
Qed.
Lemma unit3_some a : a <> zero3 -> unit3 a = Some (scale3 (/ norm3 a) a).
Proof. intros H. unfold unit3. destruct (Req_EM_T (norm3 a) 0) as [E|E]; [|reflexivity]. destruct H. now apply norm3_zero. Qed.
Lemma unit3_zero : unit3 zero3 = None.
Proof. unfold unit3. destruct (Req_EM_T (norm3 zero3) 0) as [E|E]; [reflexivity|]. destruct E. now apply norm3_zero. Qed.
Lemma unit3_unit a : dot3 a a = 1 -> unit3 a = Some a.
Proof.
  intros H. assert (N : norm3 a = 1) by now apply norm3_1. unfold unit3. rewrite N.
  destruct (Req_EM_T 1 0) as [E|E]; [lra|]. now rewrite Rinv_1, scale3_1.
Qed.
Lemma norm3_pos a : a <> zero3 -> 0 < norm3 a.
Proof.
  intros H. destruct (norm3_nonneg a) as [X|X]; [exact X|]. destruct H. now apply norm3_zero.
Qed.

(** Cauchy-Schwarz *)
Lemma cauchy a b : dot3 a b * dot3 a b <= dot3 a a * dot3 b b.
Proof. pose proof (lagrange a b). pose proof (dot3_nonneg (cross3 a b)). lra. Qed.

(** *** matrices *)
Lemma app3_mul m n v : app3 (mul3 m n) v = app3 m (app3 n v). Proof. vring. Qed.
Lemma app4_mul m n v : app4 (mul4 m n) v = app4 m (app4 n v). Proof. vring. Qed.
Lemma mul3_assoc a b c : mul3 (mul3 a b) c = mul3 a (mul3 b c).
Proof. unfold mul3 at 1 3. cbn [a0 a1 a2]. now rewrite !app3_mul. Qed.
Lemma mul4_assoc a b c : mul4 (mul4 a b) c = mul4 a (mul4 b c).
Proof. unfold mul4 at 1 3. cbn [b0 b1 b2 b3]. now rewrite !app4_mul. Qed.
Lemma mul3_id_l m : mul3 id3 m = m. Proof. vring. Qed.
Lemma mul3_id_r m : mul3 m id3 = m. Proof. vring. Qed.
Lemma mul4_id_l m : mul4 id4 m = m. Proof. vring. Qed.
Lemma mul4_id_r m : mul4 m id4 = m. Proof. vring. Qed.
Lemma app4_id v : app4 id4 v = v. Proof. vring. Qed.
Lemma app3_id v : app3 id3 v = v. Proof. vring. Qed.
Lemma app4_add m u v : app4 m (add4 u v) = add4 (app4 m u) (app4 m v). Proof. vring. Qed.
Lemma app4_sub m u v : app4 m (sub4 u v) = sub4 (app4 m u) (app4 m v). Proof. vring. Qed.
Lemma app4_scale m k v : app4 m (scale4 k v) = scale4 k (app4 m v). Proof. vring. Qed.
Lemma app3_add m u v : app3 m (add3 u v) = add3 (app3 m u) (app3 m v). Proof. vring. Qed.
Lemma app3_sub m u v : app3 m (sub3 u v) = sub3 (app3 m u) (app3 m v). Proof. vring. Qed.
Lemma app3_scale m k v : app3 m (scale3 k v) = scale3 k (app3 m v). Proof. vring. Qed.
Lemma trans3_trans3 m : trans3 (trans3 m) = m. Proof. vring. Qed.
Lemma trans3_mul m n : trans3 (mul3 m n) = mul3 (trans3 n) (trans3 m). Proof. vring. Qed.
Lemma dot3_app m u v : dot3 (app3 m u) v = dot3 u (app3 (trans3 m) v). Proof. vring. Qed.
Lemma det3_mul m n : det3 (mul3 m n) = det3 m * det3 n. Proof. vring. Qed.
Lemma det3_trans m : det3 (trans3 m) = det3 m. Proof. vring. Qed.
Lemma aff_mul m t n u : mul4 (aff m t) (aff n u) = aff (mul3 m n) (add3 (app3 m u) t). Proof. vring. Qed.
Lemma aff_id : aff id3 zero3 = id4. Proof. reflexivity. Qed.
Lemma det4_aff m t : det4 (aff m t) = det3 m. Proof. vring. Qed.
Lemma affine_aff m : affine m -> m = aff (lin m) (tra m).
Proof. destruct m as [[] [] [] []]. unfold affine. cbn. intros (-> & -> & -> & ->). reflexivity. Qed.
Lemma aff_affine m t : affine (aff m t).
Proof. unfold affine, aff. cbn. auto. Qed.

Lemma m3_eq m n : a0 m = a0 n -> a1 m = a1 n -> a2 m = a2 n -> m = n.
Proof. destruct m, n. cbn. now intros -> -> ->. Qed.
Lemma orthonormal_iff m : orthonormal m <-> mul3 (trans3 m) m = id3.
Proof.
  unfold orthonormal. split.
  - intros (H1 & H2 & H3 & H4 & H5 & H6). apply m3_eq; apply v3_eq; vd; vu; lra.
  - intros H. assert (E : forall f : m3 -> R, f (mul3 (trans3 m) m) = f id3) by (intros f; now rewrite H).
    pose proof (E (fun m => x3 (a0 m))). pose proof (E (fun m => y3 (a1 m))). pose proof (E (fun m => z3 (a2 m))).
    pose proof (E (fun m => x3 (a1 m))). pose proof (E (fun m => x3 (a2 m))). pose proof (E (fun m => y3 (a2 m))).
    clear E H. vd. vu. repeat split; lra.
Qed.
Lemma orthonormal_dot m u v : orthonormal m -> dot3 (app3 m u) (app3 m v) = dot3 u v.
Proof.
  intros H. rewrite dot3_app, <- app3_mul. apply orthonormal_iff in H. rewrite H. now rewrite app3_id.
Qed.
Lemma orthonormal_norm m v : orthonormal m -> norm3 (app3 m v) = norm3 v.
Proof. intros H. unfold norm3. now rewrite orthonormal_dot. Qed.

(** adjugate: for the inverse of a 3x3 matrix *)
Definition adj3 (m : m3) : m3 := trans3 (M3 (cross3 (a1 m) (a2 m)) (cross3 (a2 m) (a0 m)) (cross3 (a0 m) (a1 m))).
Definition mscale3 (k : R) (m : m3) := M3 (scale3 k (a0 m)) (scale3 k (a1 m)) (scale3 k (a2 m)).
Lemma adj3_l m : mul3 (adj3 m) m = mscale3 (det3 m) id3. Proof. unfold adj3, mscale3. vring. Qed.
Lemma adj3_r m : mul3 m (adj3 m) = mscale3 (det3 m) id3. Proof. unfold adj3, mscale3. vring. Qed.
Lemma mscale_mul_l k m n : mul3 (mscale3 k m) n = mscale3 k (mul3 m n). Proof. unfold mscale3. vring. Qed.
Lemma mscale_mul_r k m n : mul3 m (mscale3 k n) = mscale3 k (mul3 m n). Proof. unfold mscale3. vring. Qed.
Lemma mscale_mscale k l m : mscale3 k (mscale3 l m) = mscale3 (k * l) m. Proof. unfold mscale3. vring. Qed.
Lemma mscale_1 m : mscale3 1 m = m. Proof. unfold mscale3. vring. Qed.
Definition inv3 (m : m3) : m3 := mscale3 (/ det3 m) (adj3 m).
Lemma inv3_l m : det3 m <> 0 -> mul3 (inv3 m) m = id3.
Proof. intros H. unfold inv3. rewrite mscale_mul_l, adj3_l, mscale_mscale, Rinv_l by exact H. apply mscale_1. Qed.
Lemma inv3_r m : det3 m <> 0 -> mul3 m (inv3 m) = id3.
Proof. intros H. unfold inv3. rewrite mscale_mul_r, adj3_r, mscale_mscale, Rinv_l by exact H. apply mscale_1. Qed.
Lemma mul3_left_inv_det m n : mul3 m n = id3 -> det3 m <> 0.
Proof.
  intros H E. assert (X : det3 (mul3 m n) = 1) by (rewrite H; vring). rewrite det3_mul, E in X. lra.
Qed.
Lemma mul3_inv_comm m n : mul3 m n = id3 -> mul3 n m = id3.
Proof.
  intros H. pose proof (mul3_left_inv_det _ _ H) as D.
  assert (n = inv3 m) as ->; [|now apply inv3_l].
  rewrite <- (mul3_id_l n), <- (inv3_l m D), mul3_assoc, H. apply mul3_id_r.
Qed.
Lemma orthonormal_rows m : orthonormal m -> mul3 m (trans3 m) = id3.
Proof. intros H. apply mul3_inv_comm. now apply orthonormal_iff. Qed.
Lemma orthonormal_trans m : orthonormal m -> orthonormal (trans3 m).
Proof. intros H. apply orthonormal_iff. rewrite trans3_trans3. now apply orthonormal_rows. Qed.
Lemma orthonormal_det m : orthonormal m -> det3 m * det3 m = 1.
Proof.
  intros H. apply orthonormal_iff in H. rewrite <- (det3_trans m) at 1. rewrite <- det3_mul, H. vring.
Qed.
Lemma orthonormal_mul m n : orthonormal m -> orthonormal n -> orthonormal (mul3 m n).
Proof.
  intros H1 H2. apply orthonormal_iff. apply orthonormal_iff in H1. apply orthonormal_iff in H2.
  rewrite trans3_mul, mul3_assoc, <- (mul3_assoc (trans3 m)), H1, mul3_id_l. exact H2.
Qed.
Lemma rotation_mul m n : rotation m -> rotation n -> rotation (mul3 m n).
Proof. intros [H1 D1] [H2 D2]. split; [now apply orthonormal_mul|]. rewrite det3_mul, D1, D2. ring. Qed.
Lemma rotation_trans m : rotation m -> rotation (trans3 m).
Proof. intros [H D]. split; [now apply orthonormal_trans|]. now rewrite det3_trans. Qed.

(** *** booleans and rounding *)
Lemma Rleb_true a b : Rleb a b = true <-> a <= b.
Proof. unfold Rleb. destruct (Rle_dec a b); split; intros; (lra || discriminate || reflexivity). Qed.
Lemma Rleb_false a b : Rleb a b = false <-> b < a.
Proof. unfold Rleb. destruct (Rle_dec a b); split; intros; (lra || discriminate || reflexivity). Qed.
Lemma Rltb_true a b : Rltb a b = true <-> a < b.
Proof. unfold Rltb. destruct (Rlt_dec a b); split; intros; (lra || discriminate || reflexivity). Qed.
Lemma Rltb_false a b : Rltb a b = false <-> b <= a.
Proof. unfold Rltb. destruct (Rlt_dec a b); split; intros; (lra || discriminate || reflexivity). Qed.
Lemma Reqb_true a b : Reqb a b = true <-> a = b.
Proof. unfold Reqb. destruct (Req_EM_T a b); split; intros; (congruence || discriminate || reflexivity). Qed.
Lemma Reqb_false a b : Reqb a b = false <-> a <> b.
Proof. unfold Reqb. destruct (Req_EM_T a b); split; intros; (congruence || discriminate || reflexivity). Qed.
Lemma isclose_true a b : isclose a b = true <-> Rabs (a - b) <= / 100000000 + / 100000 * Rabs b.
Proof. unfold isclose. destruct (Rle_dec _ _); split; intros; (lra || discriminate || reflexivity). Qed.

Lemma Rfloor_spec a : IZR (Rfloor a) <= a < IZR (Rfloor a) + 1.
Proof. unfold Rfloor. rewrite minus_IZR. destruct (archimed a). lra. Qed.
Lemma Rfloor_unique a n : IZR n <= a < IZR n + 1 -> Rfloor a = n.
Proof.
  intros [H1 H2]. destruct (Rfloor_spec a) as [H3 H4].
  assert (Rfloor a < n + 1)%Z by (apply lt_IZR; rewrite plus_IZR; lra).
  assert (n < Rfloor a + 1)%Z by (apply lt_IZR; rewrite plus_IZR; lra). lia.
Qed.
Lemma Rmod_bound a b : 0 < b -> 0 <= Rmod a b < b.
Proof.
  intros H. unfold Rmod. destruct (Rfloor_spec (a / b)) as [H1 H2].
  assert (E : a = b * (a / b)) by (field; lra). split.
  - rewrite E at 1. nra.
  - rewrite E at 1. nra.
Qed.
Lemma Rmod_eq a b : exists n, Rmod a b = a - b * IZR n.
Proof. unfold Rmod. eauto. Qed.
Lemma Rmod_unique a b r n : 0 < b -> 0 <= r < b -> a = b * IZR n + r -> Rmod a b = r.
Proof.
  intros Hb Hr E. unfold Rmod. rewrite (Rfloor_unique (a / b) n); [lra|]. subst a.
  replace ((b * IZR n + r) / b) with (IZR n + r / b) by (field; lra). split.
  - assert (0 <= r / b) by (apply Rmult_le_pos; [lra|left; apply Rinv_0_lt_compat; lra]). lra.
  - assert (r / b < 1); [|lra]. apply (Rmult_lt_reg_r b); [exact Hb|]. unfold Rdiv. rewrite Rmult_assoc, Rinv_l by lra. lra.
Qed.
Lemma Rmod_small a b : 0 < b -> 0 <= a < b -> Rmod a b = a.
Proof. intros H1 H2. apply (Rmod_unique a b a 0); auto. lra. Qed.
Lemma Rmod_shift a b n : 0 < b -> Rmod (a + b * IZR n) b = Rmod a b.
Proof.
  intros H. destruct (Rmod_eq a b) as [m E].
  apply (Rmod_unique _ b (Rmod a b) (m + n)%Z); [exact H|now apply Rmod_bound|]. rewrite plus_IZR. lra.
Qed.
Lemma Rceil_spec a : IZR (Rceil a) - 1 < a <= IZR (Rceil a).
Proof. unfold Rceil. rewrite opp_IZR. destruct (Rfloor_spec (- a)). lra. Qed.
