(** Lemmas on pictures of extended sources *)
From Verif Require Import Vec_Proofs Plane_Proofs Source_Proofs Source_Props Telescope_Proofs Telescope_Props Chandra_Proofs.
From Verif Require Export Picture_Model.
Open Scope R_scope.

Lemma coordinates v : dot3 v v = 1 -> exists ra dec, skyvec ra dec = v /\ 0 <= ra < 2 * PI /\ - (PI / 2) <= dec <= PI / 2.
Proof.
  intros U. assert (W : dot3 (swap v) (swap v) = 1) by (destruct v; unfold swap in *; vu; cbn in *; lra). destruct (vector2sky_spec (swap v) W) as (E & _ & A & B). rewrite swap_swap in E. do 2 eexists. split; [exact E|]. split; [exact A|exact B].
Qed.
Lemma imaged t ra dec : telescope_ok t -> exists d, photons_dir (t_point t) ra dec = Some (hom d 0) /\ dot3 d d = 1 /\ d = app3 (lin (p_ref (t_point t))) (neg3 (app3 (p_offset (t_point t)) (skyvec ra dec))) /\ imaged_at t ra dec (image (t_lens t) (t_f t) d).
Proof.
  intros (A & O & PA & PL & F). destruct (dir_unit (t_point t) ra dec A O) as (d & D & U & E). exists d. split; [exact D|]. split; [exact U|]. split; [exact E|]. intros u1 u2 r o X H.
  destruct (observe_focus t ra dec u1 u2 r o A O PA PL H X) as (d' & D' & N & K & _). assert (DD : d' = d). { rewrite D in D'. apply (f_equal (fun o => match o with Some v => xyz v | None => zero3 end)) in D'. clear - D'. destruct d, d'. exact (eq_sym D'). } subst d'. auto.
Qed.
Lemma chord m f d d' : dot3 d d = 1 -> dot3 d' d' = 1 -> let w := sub3 (image m f d) (image m f d') in dot3 w w = 2 * (f * f) * (1 - dot3 d d').
Proof.
  intros D D' w. assert (E : w = scale3 f (sub3 d d')) by (unfold w, image; generalize (xyz (center m)); clear; revert d d' f; vring). rewrite E, dot3_scale_l, dot3_scale_r.
  replace (dot3 (sub3 d d') (sub3 d d')) with (dot3 d d + dot3 d' d' - 2 * dot3 d d') by (clear; revert d d'; vring). rewrite D, D'. ring.
Qed.
Lemma chord_le m f d d' a : dot3 d d = 1 -> dot3 d' d' = 1 -> 0 < f -> 0 <= a <= PI -> cos a <= dot3 d d' -> norm3 (sub3 (image m f d) (image m f d')) <= 2 * f * sin (a / 2).
Proof.
  intros D D' F A C. pose proof (chord m f d d' D D') as E. cbv zeta in E. unfold norm3. rewrite E. assert (S : 0 <= sin (a / 2)) by (apply sin_ge_0; lra).
  rewrite <- (sqrt_square (2 * f * sin (a / 2))) by (apply Rmult_le_pos; lra). apply sqrt_le_1_alt. replace a with (2 * (a / 2)) in C by field. rewrite cos_2a_sin in C. nra.
Qed.
(** ** distance from the axis *)
Lemma axis_distance (a d : v3) th : dot3 a a = 1 -> dot3 d d = 1 -> 0 <= th <= PI -> dot3 d a = cos th -> norm3 (sub3 d (scale3 (cos th) a)) = sin th.
Proof.
  intros A D T C. assert (S : 0 <= sin th) by (apply sin_ge_0; lra). unfold norm3. rewrite <- (sqrt_square (sin th)) by exact S. f_equal. pose proof (sin2_cos2 th) as Q. unfold Rsqr in Q.
  transitivity (dot3 d d - 2 * cos th * dot3 d a + cos th * cos th * dot3 a a); [generalize (cos th); clear; revert a d; vring|]. rewrite A, D, C. lra.
Qed.
Lemma images_dot t ra dec : telescope_ok t -> exists F, imaged_at t ra dec F /\ norm3 (sub3 F (xyz (center (t_lens t)))) = t_f t /\ forall ra' dec', exists F', imaged_at t ra' dec' F' /\ norm3 (sub3 F' (xyz (center (t_lens t)))) = t_f t /\
  (let w := sub3 F F' in dot3 w w = 2 * (t_f t * t_f t) * (1 - dot3 (skyvec ra dec) (skyvec ra' dec'))) /\
  forall th, 0 <= th <= PI -> dot3 (skyvec ra dec) (skyvec ra' dec') = cos th -> norm3 (sub3 (sub3 F' (xyz (center (t_lens t)))) (scale3 (cos th) (sub3 F (xyz (center (t_lens t)))))) = t_f t * sin th.
Proof.
  intros T. destruct (imaged t ra dec T) as (d & _ & U & E & I). exists (image (t_lens t) (t_f t) d). assert (F : 0 < t_f t) by apply T. assert (O : orthonormal (lin (p_ref (t_point t)))) by apply T.
  assert (S : forall v, sub3 (image (t_lens t) (t_f t) v) (xyz (center (t_lens t))) = scale3 (t_f t) v) by (intros v; unfold image; generalize (xyz (center (t_lens t))) (t_f t); clear; revert v; vring).
  assert (N : forall v, dot3 v v = 1 -> norm3 (sub3 (image (t_lens t) (t_f t) v) (xyz (center (t_lens t)))) = t_f t) by (intros v V; rewrite S, norm3_scale; unfold norm3; rewrite V, sqrt_1, Rabs_pos_eq by lra; ring).
  split; [exact I|]. split; [apply N, U|]. intros ra' dec'. destruct (imaged t ra' dec' T) as (d' & _ & U' & E' & I'). exists (image (t_lens t) (t_f t) d'). split; [exact I'|]. split; [apply N, U'|].
  assert (DD : dot3 d d' = dot3 (skyvec ra dec) (skyvec ra' dec')) by (rewrite E, E'; apply dir_dot; exact O). split.
  - pose proof (chord (t_lens t) (t_f t) d d' U U') as C. cbv zeta in *. rewrite C, DD. reflexivity.
  - intros th H C. rewrite !S. replace (sub3 (scale3 (t_f t) d') (scale3 (cos th) (scale3 (t_f t) d))) with (scale3 (t_f t) (sub3 d' (scale3 (cos th) d))) by (generalize (t_f t) (cos th); clear; revert d d'; vring).
    rewrite norm3_scale, Rabs_pos_eq by lra. f_equal. apply axis_distance; [exact U|exact U'|exact H|]. rewrite dot3_comm, DD. exact C.
Qed.
Lemma half_angle f a c : 0 < f -> 0 <= a <= PI -> cos a <= c -> sqrt (2 * (f * f) * (1 - c)) <= 2 * f * sin (a / 2).
Proof.
  intros F A C. assert (S : 0 <= sin (a / 2)) by (apply sin_ge_0; lra). rewrite <- (sqrt_square (2 * f * sin (a / 2))) by (apply Rmult_le_pos; lra). apply sqrt_le_1_alt. replace a with (2 * (a / 2)) in C by field. rewrite cos_2a_sin in C. nra.
Qed.
Lemma cos_taylor x : 1 - x * x / 2 <= cos x.
Proof.
  replace x with (2 * (x / 2)) at 3 by field. rewrite cos_2a_sin. assert (S : Rabs (sin (x / 2)) <= Rabs (x / 2)).
  { destruct (Rle_dec 0 (x / 2)) as [P|P].
    - rewrite (Rabs_pos_eq (x / 2)) by exact P. apply Rabs_le. destruct (Rle_lt_or_eq_dec 0 (x / 2) P) as [Q|Q]; [|rewrite <- Q, sin_0; lra]. pose proof (sin_lt_x (x / 2) Q). pose proof (SIN_bound (x / 2)) as B. split; [|lra].
      destruct (Rle_dec 1 (x / 2)) as [L|L]; [lra|]. assert (0 < sin (x / 2)) by (apply sin_gt_0; [exact Q|pose proof PI2_1; lra]). lra.
    - rewrite <- Rabs_Ropp, <- sin_neg, <- (Rabs_Ropp (x / 2)), (Rabs_pos_eq (- (x / 2))) by lra. apply Rabs_le. assert (Q : 0 < - (x / 2)) by lra. pose proof (sin_lt_x _ Q). pose proof (SIN_bound (- (x / 2))) as B. split; [|lra].
      destruct (Rle_dec 1 (- (x / 2))) as [L|L]; [lra|]. assert (0 < sin (- (x / 2))) by (apply sin_gt_0; [exact Q|pose proof PI2_1; lra]). lra. }
  apply Rsqr_le_abs_1 in S. unfold Rsqr in S. lra.
Qed.
Lemma cos_product a b : 1 - (a * a + b * b) / 2 <= cos a * cos b.
Proof. pose proof (cos_taylor (a + b)) as P. pose proof (cos_taylor (a - b)) as Q. rewrite cos_plus in P. rewrite cos_minus in Q. nra. Qed.
(** ** roll *)
Lemma rolled_dir p a ra dec : p_ref p = id4 -> exists d d', photons_dir p ra dec = Some (hom d 0) /\ photons_dir (rolled p a) ra dec = Some (hom d' 0) /\
  x3 d' = x3 d /\ y3 d' = cos a * y3 d - sin a * z3 d /\ z3 d' = sin a * y3 d + cos a * z3 d.
Proof.
  intros R. destruct (C113_dir p ra dec) as [_ E]. destruct (C113_dir (rolled p a) ra dec) as [_ E']. cbv zeta in E, E'. rewrite E, E'. unfold rolled. cbn [p_ra p_dec p_roll p_ref]. rewrite R.
  assert (I : forall x y z, app4 id4 (V4 x y z 0) = hom (V3 x y z) 0) by (intros; apply app4_id). rewrite !I. do 2 eexists. split; [reflexivity|]. split; [reflexivity|]. cbn [x3 y3 z3].
  rewrite cos_plus, sin_plus. split; [reflexivity|]. generalize (skyvec ra dec) (north_at (p_ra p) (p_dec p)) (east_at (p_ra p)) (cos (p_roll p)) (sin (p_roll p)) (cos a) (sin a). clear. intros s n e c1 s1 c2 s2. destruct s, n, e. vu. split; ring.
Qed.
