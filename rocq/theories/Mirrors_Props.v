(** Properties C180 and C181: whole mirrors of Lynx, AXIS, Athena and Arcus. *)
From Verif Require Export Mirrors_Model.
From Verif Require Import Base_Proofs Vec_Proofs Plane_Proofs Placement_Proofs Placement_Props Lens_Proofs Telescope_Proofs ArcusSpo_Proofs ArcusSpo_Props Mirrors_Proofs.
From Coq Require Import Ascii.
Open Scope R_scope.

(** ** C180 *)
(** The mirror is a square, 10 percent larger than the largest shell, one focal length in front of the origin. *)
Theorem C180_geometry : forall f table r, vmax (map sh_out table) = Ok r -> 0 < r -> metashell_mirror f table = Ok (upright f 20 (11 / 10 * r) (11 / 10 * r)).
Proof. intros f table r V P. rewrite (Rmult_comm (11 / 10)). now apply mirror_upright. Qed.
Print Assumptions C180_geometry.
Theorem C180_empty : forall f, metashell_mirror f [] = Err ValueError.
Proof. reflexivity. Qed.
Print Assumptions C180_empty.
(** All photons that enter through the aperture of a shell hit it, if the angle to the axis is not too large: on the way of 200 mm they go sideways by at most a tenth of the largest radius. *)
Theorem C180_hits : forall f table rmax s d u1 u2, vmax (map sh_out table) = Ok rmax -> In s table -> 0 <= sh_in s < sh_out s -> 0 <= u1 < 1 -> 0 <= u2 < 1 -> x3 d < 0 -> 200 * Rabs (y3 d) <= - x3 d * (rmax / 10) -> 200 * Rabs (z3 d) <= - x3 d * (rmax / 10) ->
  exists m r, metashell_mirror f table = Ok m /\ shell_enter f s d u1 u2 = Some r /\ y_dir r = d /\ fst (fst (plane_intersect m (hom (y_dir r) 0) (hom (y_pos r) 1))) = true.
Proof.
  intros f table rmax s d u1 u2 V I S U1 U2 D BY BZ. assert (O : sh_out s <= rmax) by (apply (vmax_ge _ _ _ V); now apply in_map). destruct (shell_enter_on f s d u1 u2 S U1 U2) as (rho & phi & p & RB & E & _).
  exists (upright f 20 (rmax * (11 / 10)) (rmax * (11 / 10))). eexists. split; [apply mirror_upright; [exact V|lra]|]. split; [exact E|]. cbn [y_dir y_pos]. split; [reflexivity|].
  assert (T : forall c v, -1 <= c <= 1 -> 200 * Rabs v <= - x3 d * (rmax / 10) -> Rabs (rho * c + (f + 200 - f) / - x3 d * v) <= rmax * (11 / 10)).
  { clear - RB O S D. intros c v C V. replace (f + 200 - f) with 200 by ring. assert (K : Rabs (200 / - x3 d * v) <= rmax / 10). { rewrite Rabs_mult, Rabs_pos_eq by (unfold Rdiv; apply Rmult_le_pos; [lra|]; apply Rlt_le, Rinv_0_lt_compat; lra). apply (Rmult_le_reg_l (- x3 d)); [lra|]. replace (- x3 d * (200 / - x3 d * Rabs v)) with (200 * Rabs v) by (field; lra). exact V. }
    assert (J : Rabs (rho * c) <= rmax) by (unfold Rabs; destruct Rcase_abs; nra). pose proof (Rabs_triang (rho * c) (200 / - x3 d * v)). lra. }
  rewrite upright_hit; [reflexivity|lra|exact D|cbn; lra| |]; cbn [x3 y3 z3]; apply T; try assumption; [pose proof (COS_bound phi)|pose proof (SIN_bound phi)]; lra.
Qed.
Print Assumptions C180_hits.
(** Where a photon from a source on axis ends in the focal plane: [W] in the direction from the axis to the place on the mirror, [- T] in the direction around the axis. *)
Theorem C180_scatter : forall f R0 x rho phi ip pp pr, 0 < f -> f <= x -> 0 < rho <= R0 -> let al := atan (rho / f) in let A := drawn ip in let B := drawn pp in 0 < cos (al + A) -> 0 < cos B ->
  exists r, shell_mirror (upright f 20 R0 R0) f ip pp (Ray (V3 (-1) 0 0) (V3 x (rho * cos phi) (rho * sin phi)) pr) = Some r /\ y_prob r = pr /\ y_pos r = V3 f (rho * cos phi) (rho * sin phi) /\ norm3 (y_dir r) = 1 /\
  exists k, 0 < k /\ let W := rho - f * tan (al + A) / cos B in let T := f * tan B in add3 (y_pos r) (scale3 k (y_dir r)) = V3 0 (W * cos phi + T * sin phi) (W * sin phi - T * cos phi).
Proof. exact shell_image. Qed.
Print Assumptions C180_scatter.
(** Without scatter all photons of a source on axis come to the origin, through every shell. *)
Theorem C180_focus : forall f table rmax s u1 u2, 0 < f -> vmax (map sh_out table) = Ok rmax -> In s table -> 0 < sh_in s < sh_out s -> 0 <= u1 < 1 -> 0 <= u2 < 1 ->
  exists m r r', metashell_mirror f table = Ok m /\ shell_enter f s (V3 (-1) 0 0) u1 u2 = Some r /\ shell_mirror m f None None r = Some r' /\ y_prob r' = y_prob r /\ exists k, 0 < k /\ add3 (y_pos r') (scale3 k (y_dir r')) = zero3.
Proof.
  intros f table rmax s u1 u2 F V I S U1 U2. assert (O : sh_out s <= rmax) by (apply (vmax_ge _ _ _ V); now apply in_map). destruct (shell_enter_on f s (V3 (-1) 0 0) u1 u2) as (rho & phi & p & RB & E & _); [lra|exact U1|exact U2|].
  assert (C0 : 0 < cos (atan (rho / f) + drawn None)) by (cbn [drawn]; rewrite Rplus_0_r; destruct (atan_bound (rho / f)); apply cos_gt_0; lra). assert (CB : 0 < cos (drawn None)) by (cbn [drawn]; rewrite cos_0; lra).
  destruct (C180_scatter f (rmax * (11 / 10)) (f + 200) rho phi None None p F ltac:(lra) ltac:(lra) C0 CB) as (r' & M & PR & _ & _ & k & K & Q).
  exists (upright f 20 (rmax * (11 / 10)) (rmax * (11 / 10))), (Ray (V3 (-1) 0 0) (V3 (f + 200) (rho * cos phi) (rho * sin phi)) p), r'. split; [apply mirror_upright; [exact V|lra]|]. split; [exact E|]. split; [exact M|]. split; [exact PR|]. exists k. split; [exact K|]. rewrite Q. cbn [drawn]. rewrite Rplus_0_r, tan_atan, cos_0, tan_0. unfold zero3. f_equal; field; lra.
Qed.
Print Assumptions C180_focus.
(** False: that all photons that enter are focussed. At a large angle they miss the mirror and go on, unchanged, to the detectors. *)
Theorem C180_miss_refuted : exists f s d r m, norm3 d = 1 /\ shell_enter f s d (1 / 4) (1 / 2) = Some r /\ metashell_mirror f [s] = Ok m /\ 0 < y_prob r /\ shell_mirror m f None None r = Some r.
Proof.
  set (s := Shell 1 3 4). set (d := V3 (- 3 / 5) (4 / 5) 0). destruct (shell_enter_on 10 s d (1 / 4) (1 / 2)) as (rho & phi & p & RB & E & _); [cbn; lra|lra|lra|].
  exists 10, s, d. eexists. exists (upright 10 20 (4 * (11 / 10)) (4 * (11 / 10))). split; [unfold d, norm3, dot3; cbn; replace (- 3 / 5 * (- 3 / 5) + 4 / 5 * (4 / 5) + 0 * 0) with 1 by field; apply sqrt_1|]. split; [exact E|]. split; [apply mirror_upright; [reflexivity|lra]|]. cbn [y_prob]. split.
  - revert E. unfold shell_enter, projected. cbn [shell_aper ap_pos]. destruct (unit4 _) as [ex|] eqn:U; [|discriminate]. intros H. apply (f_equal (option_map y_prob)) in H. cbn [option_map y_prob] in H. assert (G : forall a b : R, Some a = Some b -> b = a) by congruence. rewrite (G _ _ H).
    assert (X : v_x (compose (V3 (10 + 200) 0 0) id3 (V3 1 (sh_out s) (sh_out s))) = V4 1 0 0 0) by (unfold compose, diag3, v_x; vu; f_equal; ring). rewrite X in U. unfold unit4 in U. assert (N : norm4 (V4 1 0 0 0) = 1) by (unfold norm4, dot4; cbn; replace (1 * 1 + 0 * 0 + 0 * 0 + 0 * 0) with 1 by ring; apply sqrt_1). rewrite N in U. destruct (Req_EM_T 1 0); [discriminate|]. assert (EX : ex = scale4 (/ 1) (V4 1 0 0 0)) by congruence. subst ex.
    unfold clip, d. assert (Q : dot4 (hom (V3 (- 3 / 5) (4 / 5) 0) 0) (scale4 (-1) (scale4 (/ 1) (V4 1 0 0 0))) = 3 / 5) by (unfold dot4, scale4, hom; cbn; field). rewrite Q. rewrite Rmax_left, Rmin_left by lra. lra.
  - unfold shell_mirror. cbn [y_dir y_pos]. assert (P : perpendicular_axes (upright 10 20 (4 * (11 / 10)) (4 * (11 / 10)))) by (apply upright_axes; lra). destruct (plane_intersect _ _ _) as [[h ip] il] eqn:PI. destruct h; [|reflexivity]. exfalso.
    destruct (plane_hit_values _ _ _ _ _ _ P PI) as [_ T]. destruct (T eq_refl) as (k & a & b & q & K & (A & B & Q) & Q' & _). rewrite Q' in Q. unfold d, upright, center, v_y, v_z in Q. pose proof (f_equal x3 Q) as QX. pose proof (f_equal y3 Q) as QY. cbn in QX, QY. clear - QX QY A RB. cbn in RB. pose proof (COS_bound phi) as [C1 C2]. assert (k = 1000 / 3) by lra. subst k. nra.
Qed.
Print Assumptions C180_miss_refuted.
Example C180_example : exists m r r', metashell_mirror 10000 lynx_shells = Ok m /\ shell_enter 10000 (Shell 1 127 231) (V3 (-1) 0 0) (1 / 3) (1 / 2) = Some r /\ shell_mirror m 10000 None None r = Some r' /\ y_prob r' = y_prob r /\ exists k, 0 < k /\ add3 (y_pos r') (scale3 k (y_dir r')) = zero3.
Proof.
  destruct (vmax (map sh_out lynx_shells)) as [rmax|] eqn:V; [|discriminate]. apply (C180_focus 10000 lynx_shells rmax (Shell 1 127 231) (1 / 3) (1 / 2)); try lra; [exact V| |cbn; lra]. unfold lynx_shells. cbn [seq map]. left. change (INR 0) with 0. change (Z.of_nat 1) with 1%Z. f_equal; ring.
Qed.

(** ** C181 *)
(** The aperture of Athena is a disk at z = 12200, 5 percent larger than the largest mirror, around the optical axis. *)
Theorem C181_aperture : forall geom r, vmax (map s_outer geom) = Ok r -> 0 < r -> exists m, athena_aperture geom = Ok m /\ perpendicular_axes m /\ tra m = V3 0 0 12200 /\ xyz (v_x m) = V3 0 0 1 /\ norm3 (xyz (v_y m)) = 105 / 100 * r /\ norm3 (xyz (v_z m)) = 105 / 100 * r.
Proof.
  intros geom r V P. unfold athena_aperture. rewrite V. cbn [bind]. rewrite parse_pzo by lra. cbn [bind fst]. eexists. split; [reflexivity|]. unfold perpendicular_axes, affine, tra, v_x, v_y, v_z, center. cbn [b0 b1 b2 b3 w4]. set (k := r * (105 / 100)). assert (K : 0 < k) by (unfold k; lra).
  assert (NK : forall a b, a * a + b * b = k * k -> sqrt (a * a + b * b + 0 * 0) = 105 / 100 * r). { intros a b E. replace (a * a + b * b + 0 * 0) with (k * k) by lra. rewrite sqrt_square by lra. unfold k. ring. }
  split; [|split; [reflexivity|split; [reflexivity|split; unfold norm3, dot3; cbn; apply NK; ring]]].
  split; [auto|]. split; [intros Z; apply (f_equal z3) in Z; cbn in Z; lra|]. split; [intros Z; apply (f_equal x3) in Z; cbn in Z; lra|]. split; [intros Z; apply (f_equal y3) in Z; cbn in Z; lra|]. unfold dot3. cbn. repeat split; ring.
Qed.
Print Assumptions C181_aperture.
(** Seen along the axis it covers all mirrors that have no plates outside of their outer radius and are not too wide. *)
Theorem C181_covers : forall geom r i g m q, vmax (map s_outer geom) = Ok r -> nth_error geom i = Some g -> nth_error (spo_pos4d geom) i = Some m -> 0 <= s_rmid g -> 0 <= 18 * s_plate g <= s_outer g - s_rmid g -> (s_az g / 2) * (s_az g / 2) <= 1025 / 10000 * (r * r) -> inside m q ->
  x3 q * x3 q + y3 q * y3 q <= (105 / 100 * r) * (105 / 100 * r).
Proof.
  intros geom r i g m q V G M R0 PL AZ (a & b & A & B & Q). assert (O : s_outer g <= r) by (apply (vmax_ge _ _ _ V); apply in_map; now apply nth_error_In in G). rewrite (spo_nth _ _ _ G) in M. assert (m = spo_m g) by congruence. subst m q. unfold spo_m, center, v_y, v_z. cbn [b1 b2 b3]. pose proof (sin2_cos2 (s_clock g)) as H. unfold Rsqr in H. set (s := sin (s_clock g)) in *. set (c := cos (s_clock g)) in *. clearbody s c.
  set (t := s_rmid g + 18 * s_plate g * b). set (w := s_az g / 2 * a). match goal with |- ?L <= _ => assert (E : L = (t * t + w * w) * (s * s + c * c)) by (unfold t, w; vu; cbn; field) end. rewrite E, H.
  assert (T : t * t <= r * r). { assert (- r <= t <= r) by (unfold t; split; nra). nra. } assert (W : w * w <= 1025 / 10000 * (r * r)). { assert (w * w = (s_az g / 2) * (s_az g / 2) * (a * a)) by (unfold w; ring). assert (0 <= a * a <= 1) by nra. assert (0 <= (s_az g / 2) * (s_az g / 2)) by apply Rle_0_sqr. nra. } lra.
Qed.
Print Assumptions C181_covers.
(** All mirrors of Athena are in the plane z = 12000 and their lenses have the optical axis through (0, 0, 12000). Each gets its own radius and focal length. *)
Theorem C181_elements : forall geom fl refl name, List.length fl = List.length geom -> Forall (fun g => s_len g <> 0 /\ 0 < s_az g /\ 0 < s_plate g) geom ->
  exists es, generate_elements (athena_mirror geom fl refl name) = Ok es /\ List.length es = List.length geom /\
  forall i g f, nth_error geom i = Some g -> nth_error fl i = Some f -> exists e m, nth_error es i = Some e /\ e_pos e = Some m /\ e_id e = Z.of_nat i /\ spo_at (V3 0 0 12000) g m /\
    dget "d_center_optical_axis" (e_args e) = Some (Num (s_rmid g)) /\ dget "focallength" (e_args e) = Some (Num f).
Proof.
  intros geom fl refl name L F. set (P := compose (V3 0 0 12000) id3 ones3). assert (NP : no_position (spo_args geom fl refl)) by (unfold no_position; auto).
  destruct (new_parallel_positions P (spo_pos4d geom) (spo_args geom fl refl) 0 name NP) as (es & G & LL & H). { rewrite spo_pos_eq, Forall_map. rewrite Forall_forall in *. intros g Hg. destruct (F g Hg) as (X & Y & Z). apply spo_shear_free; lra. }
  exists es. split; [exact G|]. split; [rewrite LL, spo_pos_eq; apply map_length|]. intros i g f Eg Ef. destruct (H i _ (spo_nth _ _ _ Eg)) as (e & E1 & E2 & E3). exists e, (mul4 P (spo_m g)). split; [exact E1|]. split; [exact E2|]. split; [rewrite E3; apply Z.add_0_l|]. rewrite Forall_forall in F. destruct (F g (nth_error_In _ _ Eg)) as (X & Y & Z). split.
  - apply (spo_at_channel P (V3 0 0 12000) 1); try assumption; [|ring]. unfold P, compose, diag3, ones3. vu. f_equal; f_equal; ring.
  - assert (ND : forall (l : list R) j x, nth_error l j = Some x -> nth j (map Num l) (Obj 0) = Num x). { induction l as [|y l IH]; intros [|j] x J; try discriminate; cbn in *; [congruence|now apply IH]. }
    assert (LP : List.length (spo_pos4d geom) = List.length geom) by (rewrite spo_pos_eq; apply map_length). split.
    + rewrite (C15_distributed _ es i e "d_center_optical_axis" (Lst (map (fun g => Num (s_rmid g)) geom)) G E1) by (discriminate || reflexivity). cbn [p_elem_pos new_parallel]. rewrite map_length, LP, Nat.eqb_refl. f_equal. replace (map (fun g0 => Num (s_rmid g0)) geom) with (map Num (map s_rmid geom)) by apply map_map. apply ND. now apply map_nth_error.
    + rewrite (C15_distributed _ es i e "focallength" (Lst (map Num fl)) G E1) by (discriminate || reflexivity). cbn [p_elem_pos new_parallel]. rewrite map_length, LP, L, Nat.eqb_refl. f_equal. now apply ND.
Qed.
Print Assumptions C181_elements.
(** The same for a channel of Arcus, around the axis of the channel. *)
Theorem C181_channel : forall opt geom args name chan ax par rng, spo_channel opt (spo_pos4d geom) args name chan = Ok (par, rng) -> dget chan opt = Some ax -> no_position args -> Forall (fun g => s_len g <> 0 /\ 0 < s_az g /\ 0 < s_plate g) geom ->
  exists es, generate_elements par = Ok es /\ forall i g, nth_error geom i = Some g -> exists e m, nth_error es i = Some e /\ e_pos e = Some m /\ spo_at (add3 (xyz ax) (V3 0 0 12000)) g m.
Proof.
  intros opt geom args name chan ax par rng C A NP F. unfold spo_channel, lookup in C. rewrite A in C. cbn [bind] in C. destruct (dget chan id_num_offset) as [off|]; [|discriminate]. cbn [bind] in C.
  set (P := compose (add3 (xyz ax) (V3 0 0 12000)) (if has_char "1"%char chan then id3 else rot180) ones3) in C. assert (E : par = new_parallel P (spo_pos4d geom) args off name) by (injection C; auto). subst par.
  destruct (new_parallel_positions P (spo_pos4d geom) args off name NP) as (es & G & LL & H). { rewrite spo_pos_eq, Forall_map. rewrite Forall_forall in *. intros g Hg. destruct (F g Hg) as (X & Y & Z). apply spo_shear_free; lra. }
  exists es. split; [exact G|]. intros i g Eg. destruct (H i _ (spo_nth _ _ _ Eg)) as (e & E1 & E2 & _). exists e, (mul4 P (spo_m g)). split; [exact E1|]. split; [exact E2|]. rewrite Forall_forall in F. destruct (F g (nth_error_In _ _ Eg)) as (X & Y & Z).
  apply (spo_at_channel P _ (if has_char "1"%char chan then 1 else -1)); try assumption; [|destruct (has_char "1"%char chan); ring]. unfold P. destruct ax as [a1 a2 a3 a4]. destruct (has_char "1"%char chan); [|rewrite rot180_eq]; unfold compose, diag3, ones3; vu; f_equal; f_equal; ring.
Qed.
Print Assumptions C181_channel.
(** So all of them focus photons of one direction in one point; on axis and with a focal length of 12000 this is the optical axis at the height of its reference point. *)
Theorem C181_focus : forall ax g m f d, spo_at ax g m -> d <> zero3 -> focuspoint m (s_rmid g) f d = Some (add3 ax (scale3 (f / norm3 d) d)).
Proof. exact spo_focus. Qed.
Print Assumptions C181_focus.
Theorem C181_onaxis : forall ax g m, spo_at (add3 ax (V3 0 0 12000)) g m -> focuspoint m (s_rmid g) 12000 (V3 0 0 (-1)) = Some ax.
Proof.
  intros ax g m S. rewrite (spo_focus _ g m 12000 (V3 0 0 (-1)) S) by (intros Z; apply (f_equal z3) in Z; cbn in Z; lra). assert (N : norm3 (V3 0 0 (-1)) = 1) by (apply norm3_1; vu; ring). rewrite N. f_equal. destruct ax. vu. f_equal; field.
Qed.
Print Assumptions C181_onaxis.
(** A photon that comes to the plane of the mirrors on exactly one of them, number [i], is focussed by this one: position, direction before the scatter, probability and number. *)
Theorem C181_photon : forall refl scatter t ax l r i m g f, let q := add3 (y_pos r) (scale3 ((z3 (y_pos r) - z3 ax) / - z3 (y_dir r)) (y_dir r)) in
  z3 (y_dir r) < 0 -> z3 ax <= z3 (y_pos r) -> 0 <= t <= 1 -> (forall j e, nth_error l j = Some e -> exists gj, spo_at ax gj (fst (fst e))) -> nth_error l i = Some (m, s_rmid g, f) -> spo_at ax g m -> 0 < f ->
  inside m q -> (forall j e, j <> i -> nth_error l j = Some e -> ~ inside (fst (fst e)) q) ->
  exists out a, athena_spos refl scatter (Ok t) l r = Ok (Some (XPh (Ray (if (Z.of_nat i <? 10000)%Z then scatter out else out) q (y_prob r * (refl a * refl a) * (92609 / 100000) * t)) (Z.of_nat i))) /\
  norm3 out = 1 /\ exists k, 0 < k /\ add3 q (scale3 k out) = add3 ax (scale3 (f / norm3 (y_dir r)) (y_dir r)).
Proof.
  intros refl scatter t ax l r i m g f q D P T AL NI Hs F I NO. assert (Q : crossing (z3 ax) r = q) by apply crossing_form. destruct (nth_error_split l i NI) as (l1 & l2 & EL & LI). subst l.
  assert (FA : Forall (fun e => at_height (z3 ax) (fst (fst e)) /\ ~ inside (fst (fst e)) (crossing (z3 ax) r)) (l1 ++ l2)).
  { rewrite Q. apply Forall_forall. intros e IE. assert (J : exists j, j <> i /\ nth_error (l1 ++ (m, s_rmid g, f) :: l2) j = Some e).
    { apply in_app_or in IE. destruct IE as [IE|IE]; apply In_nth_error in IE; destruct IE as [j J].
      - exists j. assert (j < List.length l1)%nat by (apply nth_error_Some; congruence). split; [lia|]. now rewrite nth_error_app1.
      - exists (List.length l1 + S j)%nat. split; [lia|]. rewrite nth_error_app2 by lia. replace (List.length l1 + S j - List.length l1)%nat with (S j) by lia. exact J. }
    destruct J as (j & NJ & J). destruct (AL j e J) as [gj SJ]. split; [now apply spo_at_height in SJ|]. now apply (NO j). }
  rewrite <- Q in I. destruct (spos_one refl (z3 ax) ax r D P eq_refl l1 m g f l2 0 (-1) FA Hs F I) as (out & a & E & N & K). rewrite Q in *. exists out, a. split; [|split; assumption].
  unfold athena_spos. rewrite E, LI, Z.add_0_l. unfold spo_rest. cbn [x_ray x_xou y_dir y_pos y_prob bind]. rewrite (proj2 (Rleb_true 0 t)), (proj2 (Rleb_true t 1)) by lra. cbn [andb bind]. assert (C : in_channel (0, 10000)%Z (Z.of_nat i) = (Z.of_nat i <? 10000)%Z).
  { unfold in_channel. cbn [fst snd]. rewrite (proj2 (Z.leb_le 0 (Z.of_nat i))) by lia. reflexivity. }
  rewrite C. assert (Z0 : (Z.of_nat i <? 0)%Z = false) by (apply Z.ltb_ge; lia). rewrite Z0. reflexivity.
Qed.
Print Assumptions C181_photon.
(** A photon that meets no mirror flies on with probability 0. *)
Theorem C181_missed : forall refl scatter t ax l r, let q := add3 (y_pos r) (scale3 ((z3 (y_pos r) - z3 ax) / - z3 (y_dir r)) (y_dir r)) in
  z3 (y_dir r) < 0 -> z3 ax <= z3 (y_pos r) -> 0 <= t <= 1 -> (forall e, In e l -> (exists g, spo_at ax g (fst (fst e))) /\ ~ inside (fst (fst e)) q) ->
  athena_spos refl scatter (Ok t) l r = Ok (Some (XPh (Ray (y_dir r) (y_pos r) 0) (-1))).
Proof.
  intros refl scatter t ax l r q D P T AL. assert (Q : crossing (z3 ax) r = q) by apply crossing_form. unfold athena_spos. rewrite (spos_none refl (z3 ax)); [|exact D|exact P|].
  - unfold spo_rest. cbn [x_ray x_xou bind]. rewrite (proj2 (Rleb_true 0 t)), (proj2 (Rleb_true t 1)) by lra. cbn [andb bind]. change (in_channel (0, 10000)%Z (-1)) with false. change (-1 <? 0)%Z with true. cbn match. rewrite !Rmult_0_l. reflexivity.
  - cbn [x_ray]. apply Forall_forall. intros e IE. destruct (AL e IE) as [[g S] N]. rewrite Q. split; [now apply spo_at_height in S|exact N].
Qed.
Print Assumptions C181_missed.
(** An energy that the table of losses does not have stops the simulation. *)
Theorem C181_outside : forall refl scatter er l r p, spos refl 0 l (XPh r (-1)) = Some p -> athena_spos refl scatter (Err er) l r = Err er.
Proof. intros refl scatter er l r p E. unfold athena_spos. rewrite E. reflexivity. Qed.
Print Assumptions C181_outside.
Example C181_example : exists m out, spo_at (V3 0 0 12000) (Spo 600 0 40 80 1 620 580) m /\ athena_spos (fun _ => 1 / 2) (fun d => d) (Ok (9 / 10)) [(m, 600, 12000)] (Ray (V3 0 0 (-1)) (V3 1 601 12200) 1) = Ok (Some (XPh (Ray out (V3 1 601 12000) (1 * (1 / 2 * (1 / 2)) * (92609 / 100000) * (9 / 10))) 0)) /\ exists k, 0 < k /\ add3 (V3 1 601 12000) (scale3 k out) = zero3.
Proof.
  set (g := Spo 600 0 40 80 1 620 580). set (m := mul4 (M4 (V4 1 0 0 0) (V4 0 1 0 0) (V4 0 0 1 0) (hom (V3 0 0 12000) 1)) (spo_m g)). assert (S : spo_at (V3 0 0 12000) g m) by (apply (spo_at_channel _ (V3 0 0 12000) 1); [reflexivity|ring|cbn; lra|cbn; lra|cbn; lra]).
  set (r := Ray (V3 0 0 (-1)) (V3 1 601 12200) 1). assert (Q : add3 (y_pos r) (scale3 ((z3 (y_pos r) - z3 (V3 0 0 12000)) / - z3 (y_dir r)) (y_dir r)) = V3 1 601 12000) by (unfold r, add3, scale3; cbn; f_equal; field).
  assert (IN : inside m (V3 1 601 12000)). { unfold inside. exists (1 / (80 / 2)), (1 / 18). unfold in_rectangle. split; [lra|]. split; [lra|]. unfold m, g, spo_m. cbn [s_clock s_rmid s_az s_plate s_len]. rewrite sin_0, cos_0. unfold center, v_y, v_z. vu. f_equal; field. }
  destruct (C181_photon (fun _ => 1 / 2) (fun d => d) (9 / 10) (V3 0 0 12000) [(m, s_rmid g, 12000)] r 0 m g 12000) as (out & a & E & N & K); try (cbn; lra); try reflexivity; try exact S.
  - intros [|[|j]] e J; try discriminate. injection J as <-. now exists g.
  - rewrite Q. exact IN.
  - intros [|[|j]] e NJ J; try discriminate. now contradict NJ.
  - exists m, out. split; [exact S|]. rewrite Q in E, K. split; [exact E|]. destruct K as (k & K & K'). exists k. split; [exact K|]. rewrite K'. unfold r. cbn [y_dir]. assert (NN : norm3 (V3 0 0 (-1)) = 1) by (apply norm3_1; vu; ring). rewrite NN. vu. f_equal; field.
Qed.
