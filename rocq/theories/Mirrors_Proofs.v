(** Proofs for Mirrors_Model. *)
From Verif Require Export Mirrors_Model.
From Verif Require Import Base_Proofs Vec_Proofs Rot_Proofs Plane_Proofs Position_Proofs Placement_Proofs Lens_Proofs Scatter_Proofs Telescope_Proofs ArcusSpo_Proofs.
Open Scope R_scope.

(** ** Positions *)
Lemma parse_pz x y z a b c : 0 < a -> 0 < b -> 0 < c -> parse_position [("position", Arr [x; y; z]); ("zoom", Arr [a; b; c])]%string = Ok (M4 (V4 a 0 0 0) (V4 0 b 0 0) (V4 0 0 c 0) (V4 x y z 1), []).
Proof.
  intros A B C. unfold parse_position. set (kw := [("position", _); ("zoom", _)]%string).
  assert (A1 : dget "pos4d"%string kw = None) by reflexivity. assert (A2 : dget "position"%string kw = Some (Arr [x; y; z])) by reflexivity. assert (A3 : dget "zoom"%string kw = Some (Arr [a; b; c])) by reflexivity.
  assert (A4 : dget "orientation"%string kw = None) by reflexivity. assert (A5 : ddel "zoom"%string (ddel "orientation"%string (ddel "position"%string kw)) = []) by reflexivity. rewrite A1, A2, A3, A4, A5. cbn [as_seq bind].
  rewrite (proj2 (Rleb_false a 0)), (proj2 (Rleb_false b 0)), (proj2 (Rleb_false c 0)) by lra. cbn [orb bind].
  assert (E : compose (V3 x y z) id3 (V3 a b c) = M4 (V4 a 0 0 0) (V4 0 b 0 0) (V4 0 0 c 0) (V4 x y z 1)) by (unfold compose, diag3; vu; f_equal; f_equal; ring).
  rewrite E. unfold check_det. assert (D : det4 (M4 (V4 a 0 0 0) (V4 0 b 0 0) (V4 0 0 c 0) (V4 x y z 1)) = a * b * c) by (vu; ring). rewrite D.
  destruct (Reqb (a * b * c) 0) eqn:Q; [|reflexivity]. apply Reqb_true in Q. assert (0 < a * b * c) by (repeat apply Rmult_lt_0_compat; assumption). lra.
Qed.
Lemma parse_pzo x y z a b c : 0 < a -> 0 < b -> 0 < c -> parse_position [("position", Arr [x; y; z]); ("zoom", Arr [a; b; c]); ("orientation", Mat3 (lin xyz2zxy))]%string = Ok (M4 (V4 0 0 a 0) (V4 b 0 0 0) (V4 0 c 0 0) (V4 x y z 1), []).
Proof.
  intros A B C. unfold parse_position. set (kw := [("position", _); ("zoom", _); ("orientation", _)]%string).
  assert (A1 : dget "pos4d"%string kw = None) by reflexivity. assert (A2 : dget "position"%string kw = Some (Arr [x; y; z])) by reflexivity. assert (A3 : dget "zoom"%string kw = Some (Arr [a; b; c])) by reflexivity.
  assert (A4 : dget "orientation"%string kw = Some (Mat3 (lin xyz2zxy))) by reflexivity. assert (A5 : ddel "zoom"%string (ddel "orientation"%string (ddel "position"%string kw)) = []) by reflexivity. rewrite A1, A2, A3, A4, A5. cbn [as_seq bind].
  rewrite (proj2 (Rleb_false a 0)), (proj2 (Rleb_false b 0)), (proj2 (Rleb_false c 0)) by lra. cbn [orb bind].
  assert (E : compose (V3 x y z) (lin xyz2zxy) (V3 a b c) = M4 (V4 0 0 a 0) (V4 b 0 0 0) (V4 0 c 0 0) (V4 x y z 1)) by (unfold compose, diag3, xyz2zxy; vu; cbn [x3 y3 z3]; f_equal; f_equal; ring).
  rewrite E. unfold check_det. assert (D : det4 (M4 (V4 0 0 a 0) (V4 b 0 0 0) (V4 0 c 0 0) (V4 x y z 1)) = a * b * c) by (vu; ring). rewrite D.
  destruct (Reqb (a * b * c) 0) eqn:Q; [|reflexivity]. apply Reqb_true in Q. assert (0 < a * b * c) by (repeat apply Rmult_lt_0_compat; assumption). lra.
Qed.

(** ** MetaShellMirror *)
Lemma vmax_scale k l m : 0 < k -> vmax l = Ok m -> vmax (map (fun x => x * k) l) = Ok (m * k).
Proof.
  intros K. destruct l as [|x r]; [discriminate|]. cbn [vmax map]. intros H. assert (E : m = fold_right Rmax x r) by congruence. subst m. clear H. f_equal. induction r as [|y r IH]; [reflexivity|]. cbn [map fold_right]. rewrite IH.
  set (z := fold_right Rmax x r). clearbody z. unfold Rmax. repeat destruct Rle_dec; nra.
Qed.
Lemma mirror_upright f table r : vmax (map sh_out table) = Ok r -> 0 < r -> metashell_mirror f table = Ok (upright f 20 (r * (11 / 10)) (r * (11 / 10))).
Proof.
  intros V P. unfold metashell_mirror. assert (E : map (fun s => sh_out s * (11 / 10)) table = map (fun x => x * (11 / 10)) (map sh_out table)) by now rewrite map_map. rewrite E, (vmax_scale (11 / 10) _ r) by (lra || exact V). cbn [bind]. rewrite parse_pz by lra. reflexivity.
Qed.
Lemma upright_hit f R0 d p : 0 < R0 -> x3 d < 0 -> f <= x3 p -> Rabs (y3 p + (x3 p - f) / - x3 d * y3 d) <= R0 -> Rabs (z3 p + (x3 p - f) / - x3 d * z3 d) <= R0 ->
  plane_intersect (upright f 20 R0 R0) (hom d 0) (hom p 1) = (true, Some (hom (V3 f (y3 p + (x3 p - f) / - x3 d * y3 d) (z3 p + (x3 p - f) / - x3 d * z3 d)) 1),
    Some (y3 p + (x3 p - f) / - x3 d * y3 d, z3 p + (x3 p - f) / - x3 d * z3 d)).
Proof.
  intros PR D P BY BZ. set (k := (x3 p - f) / - x3 d) in *. assert (K : 0 <= k) by (unfold k, Rdiv; apply Rmult_le_pos; [lra|]; apply Rlt_le, Rinv_0_lt_compat; lra). set (Y := y3 p + k * y3 d) in *. set (Z := z3 p + k * z3 d) in *.
  assert (U : perpendicular_axes (upright f 20 R0 R0)) by (apply upright_axes; lra). assert (Q : add3 p (scale3 k d) = V3 f Y Z). { assert (X : x3 p + k * x3 d = f) by (unfold k; field; lra). unfold Y, Z. rewrite <- X. clearbody k. clear. vd. vu. reflexivity. }
  assert (IR : in_rectangle (upright f 20 R0 R0) (Y / R0) (Z / R0) (V3 f Y Z)).
  { assert (B : forall v, Rabs v <= R0 -> -1 <= v / R0 <= 1). { intros v V. assert (- R0 <= v <= R0) by (revert V; unfold Rabs; destruct Rcase_abs; lra). assert (E : v = v / R0 * R0) by (field; lra). set (q := v / R0) in *. clearbody q. split; nra. }
    split; [now apply B|]. split; [now apply B|]. unfold upright, center, v_y, v_z. clearbody Y Z. vu. f_equal; field; lra. }
  assert (DN : dot3 d (xyz (v_x (upright f 20 R0 R0))) <> 0) by (unfold upright, v_x; clear - D; vd; vu; cbn in D; lra).
  destruct (plane_intersect (upright f 20 R0 R0) (hom d 0) (hom p 1)) as [[h ip] il] eqn:E. destruct (plane_hit_values _ _ _ _ _ _ U E) as [_ T].
  assert (H : h = true). { pose proof (plane_hit_iff _ d p U) as I. rewrite E in I. cbn [fst] in I. apply I. split; [exact DN|]. exists k, (Y / R0), (Z / R0). split; [exact K|]. now rewrite Q. }
  destruct (T H) as (k' & a' & b' & q & K' & I' & Eq & -> & ->). subst q. rewrite <- Q in IR. destruct (rect_unique _ d p k' a' b' k (Y / R0) (Z / R0) U DN I' IR) as (-> & -> & ->). rewrite Q, H. destruct (upright_norms f 20 R0 R0) as [-> ->]; [lra|lra|]. repeat f_equal; field; lra.
Qed.

(** ** Scatter *)
Lemma drawn_rotate u o d : dot3 u u = 1 -> dot3 u d = 0 -> forall k, 0 < k -> rotate_by (scale3 k u) o d = Some (sub3 (scale3 (cos (drawn o)) d) (scale3 (sin (drawn o)) (cross3 u d))).
Proof.
  intros U P k K. destruct o as [a|]; cbn [rotate_by drawn].
  - unfold axangle2mat. rewrite unit3_scale, unit3_of_unit by assumption. rewrite einsum_rod, rod_perp by exact P. rewrite cos_neg, sin_neg. f_equal. generalize (cos a) (sin a) (cross3 u d). clear. vring.
  - rewrite cos_0, sin_0. f_equal. generalize (cross3 u d). clear. vring.
Qed.
Lemma drawn_rotate_any u o d : dot3 u u = 1 -> forall k, 0 < k -> rotate_by (scale3 k u) o d = Some (rodrigues u (- drawn o) d).
Proof.
  intros U k K. destruct o as [a|]; cbn [rotate_by drawn].
  - unfold axangle2mat. rewrite unit3_scale, unit3_of_unit by assumption. now rewrite einsum_rod.
  - rewrite Ropp_0. unfold rodrigues. rewrite cos_0, sin_0. f_equal. generalize (cross3 u d) (dot3 u d). clear. vring.
Qed.
(** a ray in the plane of the axis and of (0, c, s), at the angle [al] to the axis *)
Definition meridional (al c s : R) : v3 := V3 (- cos al) (- (sin al * c)) (- (sin al * s)).
Lemma scatter_meridional f rho c s al ip pp : c * c + s * s = 1 -> 0 < rho -> 0 < cos al ->
  radial_scatter (V3 f 0 0) (V3 f (rho * c) (rho * s)) (meridional al c s) ip pp =
  Some (let C := cos (al + drawn ip) in let S := sin (al + drawn ip) in let cb := cos (drawn pp) in let sb := sin (drawn pp) in V3 (- (C * cb)) (- (S * c) + C * sb * s) (- (S * s) - C * sb * c)).
Proof.
  intros W P A. unfold radial_scatter. assert (E : sub3 (V3 f (rho * c) (rho * s)) (V3 f 0 0) = scale3 rho (V3 0 c s)) by (clear; vu; f_equal; ring). rewrite E.
  assert (X : cross3 (meridional al c s) (scale3 rho (V3 0 c s)) = scale3 (rho * cos al) (V3 0 s (- c))) by (unfold meridional; clear; vu; f_equal; ring). rewrite X.
  rewrite drawn_rotate; [|clear - W; vu; lra|unfold meridional; clear; vu; ring|nra]. rewrite drawn_rotate_any; [|clear - W; vu; lra|exact P]. f_equal.
  set (a := drawn ip). set (b := drawn pp).
  assert (O : sub3 (scale3 (cos a) (meridional al c s)) (scale3 (sin a) (cross3 (V3 0 s (- c)) (meridional al c s))) = V3 (- cos (al + a)) (- (sin (al + a) * c)) (- (sin (al + a) * s))).
  { rewrite cos_plus, sin_plus. unfold meridional. generalize (cos al) (sin al) (cos a) (sin a). intros ca sa cb sb. clear - W. unfold sub3, scale3, cross3. cbn [x3 y3 z3]. f_equal; [|ring|ring].
    transitivity (- (ca * cb) + sa * sb * (c * c + s * s)); [ring|]. rewrite W. ring. }
  rewrite O. unfold rodrigues. rewrite cos_neg, sin_neg. generalize (cos (al + a)) (sin (al + a)) (cos b) (sin b). intros C S cb sb. clear - W. cbv zeta. unfold add3, scale3, cross3, dot3. cbn [x3 y3 z3].
  f_equal; [ring| |]; [transitivity (- (S * c) * cb + C * sb * s - (1 - cb) * S * c * (c * c + s * s)); [ring|]; rewrite W; ring|transitivity (- (S * s) * cb - C * sb * c - (1 - cb) * S * s * (c * c + s * s)); [ring|]; rewrite W; ring].
Qed.
Lemma polar_atan f rho : 0 < f -> 0 < rho -> let L := sqrt (f * f + rho * rho) in 0 < L /\ L * cos (atan (rho / f)) = f /\ L * sin (atan (rho / f)) = rho /\ 0 < cos (atan (rho / f)).
Proof.
  intros F P L. assert (LL : L * L = f * f + rho * rho) by (apply sqrt_sqrt; nra). assert (L0 : 0 < L) by (apply sqrt_lt_R0; nra). set (al := atan (rho / f)).
  assert (C : 0 < cos al) by (destruct (atan_bound (rho / f)) as [B1 B2]; apply cos_gt_0; unfold al; lra). assert (T : sin al * f = rho * cos al). { assert (H : tan al = rho / f) by apply tan_atan. unfold tan in H. apply (Rmult_eq_reg_r (/ (f * cos al))); [|apply Rinv_neq_0_compat; nra]. transitivity (sin al / cos al); [field; split; lra|]. rewrite H. field. split; lra. }
  pose proof (sin2_cos2 al) as Q. unfold Rsqr in Q. assert (K : (L * cos al) * (L * cos al) = f * f). { apply (Rmult_eq_reg_r (f * f)); [|nra]. transitivity ((L * L) * (cos al * cos al) * (f * f)); [ring|]. rewrite LL. transitivity (f * f * (f * f * (cos al * cos al) + (rho * cos al) * (rho * cos al))); [ring|]. rewrite <- T. transitivity (f * f * (f * f) * (sin al * sin al + cos al * cos al)); [ring|]. rewrite Q. ring. }
  assert (E : L * cos al = f). { apply Rsqr_inj; [nra|lra|exact K]. } split; [exact L0|]. split; [exact E|]. split; [|exact C]. apply (Rmult_eq_reg_r f); [|lra]. transitivity (L * (sin al * f)); [ring|]. rewrite T. transitivity (rho * (L * cos al)); [ring|]. now rewrite E.
Qed.
(** What the lens of the stack does to an on axis photon *)
Lemma lens_meridional f R0 rho c s : 0 < f -> 0 < R0 -> 0 < rho -> c * c + s * s = 1 -> perfect_lens (upright f 20 R0 R0) 0 f (fun _ => 1) (V3 (-1) 0 0) (V3 f (rho * c) (rho * s)) = Some (meridional (atan (rho / f)) c s, 1 * 1).
Proof.
  intros F PR P W. assert (U : perpendicular_axes (upright f 20 R0 R0)) by (apply upright_axes; lra). assert (D : dot3 (V3 (-1) 0 0) (V3 (-1) 0 0) = 1) by (vu; ring).
  unfold perfect_lens. rewrite image_focus, unit3_of_unit by assumption. assert (E : sub3 (image (upright f 20 R0 R0) f (V3 (-1) 0 0)) (V3 f (rho * c) (rho * s)) = V3 (- f) (- (rho * c)) (- (rho * s))) by (unfold image, upright, center; clear; vu; f_equal; ring). rewrite E.
  destruct (polar_atan f rho F P) as (L0 & E1 & E2 & C). set (L := sqrt (f * f + rho * rho)) in *. set (al := atan (rho / f)) in *.
  assert (M : V3 (- f) (- (rho * c)) (- (rho * s)) = scale3 L (meridional al c s)). { clearbody L al. clear - E1 E2. unfold meridional, scale3. cbn [x3 y3 z3]. f_equal; [rewrite <- E1|rewrite <- E2|rewrite <- E2]; ring. }
  rewrite M, unit3_scale, unit3_of_unit; [reflexivity| |exact L0]. unfold meridional. pose proof (sin2_cos2 al) as Q. unfold Rsqr in Q. revert Q. generalize (cos al) (sin al). clear - W. intros ca sa Q. unfold dot3. cbn [x3 y3 z3]. transitivity (ca * ca + sa * sa * (c * c + s * s)); [ring|]. rewrite W. lra.
Qed.
Lemma shell_image f R0 x rho phi ip pp pr : 0 < f -> f <= x -> 0 < rho <= R0 -> let al := atan (rho / f) in let A := drawn ip in let B := drawn pp in 0 < cos (al + A) -> 0 < cos B ->
  exists r, shell_mirror (upright f 20 R0 R0) f ip pp (Ray (V3 (-1) 0 0) (V3 x (rho * cos phi) (rho * sin phi)) pr) = Some r /\ y_prob r = pr /\ y_pos r = V3 f (rho * cos phi) (rho * sin phi) /\ norm3 (y_dir r) = 1 /\
  exists k, 0 < k /\ let W := rho - f * tan (al + A) / cos B in let T := f * tan B in add3 (y_pos r) (scale3 k (y_dir r)) = V3 0 (W * cos phi + T * sin phi) (W * sin phi - T * cos phi).
Proof.
  intros F X P al A B CA CB. pose proof (sin2_cos2 phi) as W0. unfold Rsqr in W0. set (c := cos phi) in *. set (s := sin phi) in *. assert (W : c * c + s * s = 1) by lra.
  assert (BC : Rabs (rho * c) <= R0 /\ Rabs (rho * s) <= R0). { assert (-1 <= c <= 1) by nra. assert (-1 <= s <= 1) by nra. split; unfold Rabs; destruct Rcase_abs; nra. }
  unfold shell_mirror. cbn [y_dir y_pos]. rewrite upright_hit; cbn [x3 y3 z3]; [|lra|lra|exact X|rewrite Rmult_0_r, Rplus_0_r; apply BC|rewrite Rmult_0_r, Rplus_0_r; apply BC]. rewrite !Rmult_0_r, !Rplus_0_r.
  assert (XQ : xyz (hom (V3 f (rho * c) (rho * s)) 1) = V3 f (rho * c) (rho * s)) by reflexivity. rewrite XQ. rewrite lens_meridional by lra. assert (XC : xyz (center (upright f 20 R0 R0)) = V3 f 0 0) by reflexivity. rewrite XC.
  destruct (polar_atan f rho F (proj1 P)) as (_ & _ & _ & C0). rewrite (scatter_meridional f rho c s (atan (rho / f)) ip pp W (proj1 P) C0). fold al A B. eexists. split; [reflexivity|]. cbn [y_prob y_pos y_dir]. split; [ring|]. split; [reflexivity|]. unfold tan. 
  pose proof (sin2_cos2 (al + A)) as Q1. pose proof (sin2_cos2 B) as Q2. unfold Rsqr in Q1, Q2. revert CA CB Q1 Q2. generalize (cos (al + A)) (sin (al + A)) (cos B) (sin B). intros C S cb sb CA CB Q1 Q2. clear - W CA CB Q1 Q2 F. split.
  - apply norm3_1. unfold dot3. cbn [x3 y3 z3]. transitivity (C * C * (cb * cb) + (S * S + C * C * (sb * sb)) * (c * c + s * s)); [ring|]. rewrite W. transitivity (C * C * (sb * sb + cb * cb) + S * S); [ring|]. rewrite Q2. lra.
  - exists (f / (C * cb)). assert (0 < C * cb) by nra. split; [unfold Rdiv; apply Rmult_lt_0_compat; [exact F|now apply Rinv_0_lt_compat]|]. cbv zeta. unfold add3, scale3. cbn [x3 y3 z3]. f_equal; field; lra.
Qed.
Lemma shell_enter_on f s d u1 u2 : 0 <= sh_in s < sh_out s -> 0 <= u1 < 1 -> 0 <= u2 < 1 -> exists rho phi p, sh_in s <= rho <= sh_out s /\ shell_enter f s d u1 u2 = Some (Ray d (V3 (f + 200) (rho * cos phi) (rho * sin phi)) p) /\ 0 <= p <= 1.
Proof.
  intros S U1 U2. unfold shell_enter, shell_aper. cbn [ap_pos ap_in].
  assert (E : compose (V3 (f + 200) 0 0) id3 (V3 1 (sh_out s) (sh_out s)) = upright (f + 200) 1 (sh_out s) (sh_out s)) by (unfold compose, diag3, upright; vu; f_equal; f_equal; ring). rewrite E.
  set (m := upright (f + 200) 1 (sh_out s) (sh_out s)). assert (X4 : unit4 (v_x m) = Some (V4 1 0 0 0)). { unfold m, upright, v_x. cbn [b0]. unfold unit4. assert (N : norm4 (V4 1 0 0 0) = 1) by (unfold norm4, dot4; cbn; replace (1 * 1 + 0 * 0 + 0 * 0 + 0 * 0) with 1 by ring; apply sqrt_1). rewrite N. destruct (Req_EM_T 1 0); [lra|]. f_equal. unfold scale4. cbn. f_equal; field. }
  unfold projected. rewrite X4. unfold circ_xy, place. cbn [fst snd]. set (phi := uniform 0 (2 * PI) u1).
  assert (NY : norm4 (v_y m) = sh_out s). { unfold m, upright, v_y. cbn [b1]. unfold norm4, dot4. cbn. replace (0 * 0 + sh_out s * sh_out s + 0 * 0 + 0 * 0) with (sh_out s * sh_out s) by ring. apply sqrt_square. lra. } rewrite NY.
  set (ri := sh_in s / sh_out s). assert (RI : sh_in s = ri * sh_out s) by (unfold ri; field; lra). assert (RB : 0 <= ri < 1) by (split; [unfold ri, Rdiv; apply Rmult_le_pos; [lra|]; apply Rlt_le, Rinv_0_lt_compat; lra|nra]). set (q := sqrt (uniform (ri * ri) 1 u2)).
  assert (UB : ri * ri <= uniform (ri * ri) 1 u2 <= 1) by (assert (R2 : 0 <= ri * ri <= 1) by (clear - RB; split; nra); unfold uniform; generalize dependent (ri * ri); clear - U2; intros t T; split; nra). assert (Q2 : q * q = uniform (ri * ri) 1 u2) by (apply sqrt_sqrt; nra). assert (Q0 : 0 <= q) by apply sqrt_pos.
  exists (q * sh_out s), phi. eexists. split; [|split].
  - rewrite RI. split; [apply Rmult_le_compat_r; [lra|]|assert (q <= 1) by nra; nra]. destruct (Rle_or_lt ri q); [assumption|nra].
  - f_equal. f_equal. unfold m, upright, center, v_y, v_z. cbn [b1 b2 b3]. clearbody phi q. clear. vu. f_equal; ring.
  - unfold clip. split; [apply Rmin_glb; [apply Rmax_r|lra]|apply Rmin_r].
Qed.

(** ** SPOs *)
Lemma spo_focus ax g m f d : spo_at ax g m -> d <> zero3 -> focuspoint m (s_rmid g) f d = Some (add3 ax (scale3 (f / norm3 d) d)).
Proof.
  intros (P & _ & A) D. destruct (axis_point m (s_rmid g) P) as (q & Q & E). rewrite (focus_point m (s_rmid g) f d q (scale3 (/ norm3 d) d) Q) by now apply unit3_some. f_equal. rewrite E. change (xyz (center m)) with (tra m). rewrite A. generalize (norm3 d). clear. intros n. unfold Rdiv. vd. vu. f_equal; ring.
Qed.
Lemma spo_at_channel (P : m4) (c : v3) (sg : R) g : P = M4 (V4 sg 0 0 0) (V4 0 sg 0 0) (V4 0 0 1 0) (hom c 1) -> sg * sg = 1 -> s_len g <> 0 -> 0 < s_az g -> 0 < s_plate g -> spo_at c g (mul4 P (spo_m g)).
Proof.
  intros -> S L A PL. pose proof (sin2_cos2 (s_clock g)) as H. unfold Rsqr in H. unfold spo_m. set (s := sin (s_clock g)) in *. set (k := cos (s_clock g)) in *. clearbody s k. destruct c as [c1 c2 c3].
  set (m := mul4 _ _). assert (E : m = M4 (V4 0 0 (s_len g) 0) (V4 (sg * (s_az g / 2 * k)) (sg * (s_az g / 2 * - s)) 0 0) (V4 (sg * (36 * s_plate g / 2 * s)) (sg * (36 * s_plate g / 2 * k)) 0 0) (V4 (sg * (s_rmid g * s) + c1) (sg * (s_rmid g * k) + c2) c3 1)) by (unfold m; clear; vu; f_equal; f_equal; ring).
  clearbody m. subst m. unfold spo_at, v_x, v_z, tra. cbn [b0 b2 b3]. assert (SN : sg <> 0) by (intros ->; lra). split; [|split].
  - unfold perpendicular_axes, affine, v_x, v_y, v_z, center. cbn [b0 b1 b2 b3 w4]. split; [auto|]. 
    split; [intros Z; apply (f_equal z3) in Z; cbn in Z; lra|]. split; [|split].
    + intros Z. pose proof (f_equal x3 Z) as Z1. pose proof (f_equal y3 Z) as Z2. cbn in Z1, Z2. assert (Z3 : (sg * sg) * (s_az g / 2 * (s_az g / 2)) * (s * s + k * k) = 0) by nra. rewrite S, H in Z3. nra.
    + intros Z. pose proof (f_equal x3 Z) as Z1. pose proof (f_equal y3 Z) as Z2. cbn in Z1, Z2. assert (Z3 : (sg * sg) * (36 * s_plate g / 2 * (36 * s_plate g / 2)) * (s * s + k * k) = 0) by nra. rewrite S, H in Z3. nra.
    + unfold dot3. cbn. repeat split; ring.
  - reflexivity.
  - assert (N : norm3 (xyz (V4 (sg * (36 * s_plate g / 2 * s)) (sg * (36 * s_plate g / 2 * k)) 0 0)) = 36 * s_plate g / 2).
    { unfold norm3, dot3. cbn [xyz x3 y3 z3 x4 y4 z4]. transitivity (sqrt ((36 * s_plate g / 2) * (36 * s_plate g / 2))); [f_equal|apply sqrt_square; lra]. transitivity ((sg * sg) * (36 * s_plate g / 2 * (36 * s_plate g / 2)) * (s * s + k * k)); [field|]. rewrite S, H. ring. }
    rewrite N. vu. f_equal; field; lra.
Qed.
(** ** Mirrors in one plane *)
Lemma sub_zero a b : sub3 a b = zero3 -> a = b.
Proof. intros E. pose proof (f_equal x3 E) as X. pose proof (f_equal y3 E) as Y. pose proof (f_equal z3 E) as Z. destruct a, b. cbn in X, Y, Z. f_equal; lra. Qed.
Definition at_height (h : R) (m : m4) : Prop := perpendicular_axes m /\ (exists len, v_x m = V4 0 0 len 0) /\ z3 (tra m) = h.
Definition crossing (h : R) (r : ray) : v3 := add3 (y_pos r) (scale3 ((y_pos r).(z3) - h) (scale3 (/ - z3 (y_dir r)) (y_dir r))).
Lemma spo_at_height ax g m : spo_at ax g m -> at_height (z3 ax) m.
Proof.
  intros (P & X & A). split; [exact P|]. split; [eauto|]. assert (Z : z4 (v_z m) = 0).
  { destruct P as (_ & NX & _ & _ & _ & XZ & _). rewrite X in NX, XZ. assert (L : s_len g <> 0) by (intros E; apply NX; rewrite E; reflexivity). destruct (v_z m) as [a b c w]. unfold dot3 in XZ. cbn in XZ |- *. assert (T : s_len g * c = 0) by lra. apply Rmult_integral in T. tauto. }
  rewrite <- A. destruct (v_z m) as [a b c w]. cbn in Z. subst c. generalize (s_rmid g / norm3 (xyz (V4 a b 0 w))). intros t. destruct (tra m). unfold sub3, scale3. cbn. ring.
Qed.
Lemma height_z h m a b q : at_height h m -> in_rectangle m a b q -> z3 q = h.
Proof.
  intros (P & (len & X) & Z) (_ & _ & E). destruct P as (_ & NX & _ & _ & XY & XZ & _). rewrite X in NX, XY, XZ. assert (L : len <> 0) by (intros F; apply NX; rewrite F; reflexivity). subst q. change (xyz (center m)) with (tra m). rewrite <- Z.
  destruct (v_y m) as [a1 b1 c1 w1], (v_z m) as [a2 b2 c2 w2]. unfold dot3 in XY, XZ. cbn in XY, XZ. assert (T1 : len * c1 = 0) by lra. assert (T2 : len * c2 = 0) by lra. apply Rmult_integral in T1, T2. assert (c1 = 0) by tauto. assert (c2 = 0) by tauto. subst c1 c2. destruct (tra m). unfold add3, scale3. cbn. ring.
Qed.
Lemma crossing_z h r : z3 (y_dir r) < 0 -> z3 (crossing h r) = h.
Proof. intros D. unfold crossing. destruct (y_dir r) as [a b c], (y_pos r) as [x y z]. cbn in D |- *. field. lra. Qed.
Lemma crossing_at h r : z3 (y_pos r) = h -> crossing h r = y_pos r.
Proof. intros Z. unfold crossing. rewrite Z. replace (h - h) with 0 by ring. generalize (scale3 (/ - z3 (y_dir r)) (y_dir r)). destruct (y_pos r). clear. vring. Qed.
Lemma crossing_form h r : crossing h r = add3 (y_pos r) (scale3 ((z3 (y_pos r) - h) * / - z3 (y_dir r)) (y_dir r)).
Proof. unfold crossing. generalize (/ - z3 (y_dir r)). intros t. destruct (y_dir r) as [a b c], (y_pos r) as [x y z]. clear. vu. f_equal; ring. Qed.
Lemma height_dot h m r : at_height h m -> z3 (y_dir r) < 0 -> dot3 (y_dir r) (xyz (v_x m)) <> 0.
Proof. intros (P & (len & X) & _) D. destruct P as (_ & NX & _). rewrite X in *. assert (L : len <> 0) by (intros F; apply NX; rewrite F; reflexivity). destruct (y_dir r) as [a b c]. unfold dot3. cbn in *. intros E. assert (T : c * len = 0) by lra. apply Rmult_integral in T. destruct T; [lra|tauto]. Qed.
Lemma height_hit h m r : at_height h m -> z3 (y_dir r) < 0 -> h <= z3 (y_pos r) ->
  (inside m (crossing h r) -> exists il, plane_intersect m (hom (y_dir r) 0) (hom (y_pos r) 1) = (true, Some (hom (crossing h r) 1), il)) /\
  (~ inside m (crossing h r) -> fst (fst (plane_intersect m (hom (y_dir r) 0) (hom (y_pos r) 1))) = false).
Proof.
  intros A D P. pose proof (height_dot h m r A D) as N. set (k0 := (z3 (y_pos r) - h) * / - z3 (y_dir r)). assert (K0 : 0 <= k0) by (unfold k0; apply Rmult_le_pos; [lra|]; apply Rlt_le, Rinv_0_lt_compat; lra).
  assert (U : forall k a b, in_rectangle m a b (add3 (y_pos r) (scale3 k (y_dir r))) -> k = k0).
  { intros k a b I. apply (height_z h m a b _ A) in I. unfold k0. destruct (y_dir r) as [dx dy dz], (y_pos r) as [x y z]. cbn in D, I |- *. rewrite <- I. field. lra. }
  destruct (plane_intersect m (hom (y_dir r) 0) (hom (y_pos r) 1)) as [[hh ip] il] eqn:E. pose proof (plane_hit_iff m (y_dir r) (y_pos r) (proj1 A)) as I. rewrite E in I. cbn [fst] in I. destruct (plane_hit_values _ _ _ _ _ _ (proj1 A) E) as [_ T]. split.
  - intros (a & b & Q). rewrite crossing_form in Q. fold k0 in Q. assert (H : hh = true) by (apply I; split; [exact N|]; exists k0, a, b; auto). destruct (T H) as (k & a' & b' & q & _ & Q' & Eq & -> & _). subst q. rewrite (U k a' b' Q'), H, crossing_form. fold k0. eauto.
  - intros Q. cbn [fst]. destruct hh; [|reflexivity]. exfalso. apply Q. destruct (proj1 I eq_refl) as (_ & k & a & b & _ & R). exists a, b. rewrite crossing_form. fold k0. now rewrite <- (U k a b R).
Qed.
Lemma spos_none refl h p : z3 (y_dir (x_ray p)) < 0 -> h <= z3 (y_pos (x_ray p)) -> forall l k, Forall (fun e => at_height h (fst (fst e)) /\ ~ inside (fst (fst e)) (crossing h (x_ray p))) l -> spos refl k l p = Some p.
Proof.
  intros D P. induction l as [|[[m rm] f] l IH]; intros k F; [reflexivity|]. inversion F as [|? ? [A N] F']; subst. cbn [fst] in A, N. cbn [spos]. unfold one_spo. pose proof (proj2 (height_hit h m (x_ray p) A D P) N) as H. destruct (plane_intersect m _ _) as [[hh ip] il]. cbn [fst] in H. subst hh. now apply IH.
Qed.
Lemma spos_one refl h ax r0 : z3 (y_dir r0) < 0 -> h <= z3 (y_pos r0) -> z3 ax = h -> forall l1 m g f l2 k x,
  Forall (fun e => at_height h (fst (fst e)) /\ ~ inside (fst (fst e)) (crossing h r0)) (l1 ++ l2) -> spo_at ax g m -> 0 < f -> inside m (crossing h r0) ->
  exists out a, spos refl k (l1 ++ (m, s_rmid g, f) :: l2) (XPh r0 x) = Some (XPh (Ray out (crossing h r0) (y_prob r0 * (refl a * refl a))) (k + Z.of_nat (List.length l1))) /\
  norm3 out = 1 /\ exists t, 0 < t /\ add3 (crossing h r0) (scale3 t out) = add3 ax (scale3 (f / norm3 (y_dir r0)) (y_dir r0)).
Proof.
  intros D P AX l1 m g f l2. induction l1 as [|[[m1 rm1] f1] l1 IH]; intros k x F S FP I.
  - cbn [app List.length] in F |- *. cbn [spos]. unfold one_spo. cbn [x_ray]. pose proof (spo_at_height ax g m S) as AH. rewrite AX in AH. destruct (proj1 (height_hit h m r0 AH D P) I) as [il ->]. change (xyz (hom (crossing h r0) 1)) with (let q := crossing h r0 in V3 (x3 q) (y3 q) (z3 q)). cbv zeta. assert (EQ : V3 (x3 (crossing h r0)) (y3 (crossing h r0)) (z3 (crossing h r0)) = crossing h r0) by now destruct (crossing h r0). rewrite EQ.
    assert (DN : y_dir r0 <> zero3) by (intros E; rewrite E in D; cbn in D; lra). assert (ND : 0 < norm3 (y_dir r0)) by now apply norm3_pos. pose proof (spo_focus ax g m f (y_dir r0) S DN) as FO. set (FF := add3 ax (scale3 (f / norm3 (y_dir r0)) (y_dir r0))) in *. assert (ZF : z3 FF < h).
    { assert (Z : z3 FF = h + f / norm3 (y_dir r0) * z3 (y_dir r0)) by (unfold FF; rewrite <- AX; destruct ax, (y_dir r0); reflexivity). rewrite Z. assert (0 < f / norm3 (y_dir r0)) by (unfold Rdiv; apply Rmult_lt_0_compat; [exact FP|now apply Rinv_0_lt_compat]). nra. }
    assert (T : exists out p, perfect_lens m (s_rmid g) f refl (y_dir r0) (crossing h r0) = Some (out, p)). { apply lens_total; [apply S|exact DN|]. rewrite FO. intros E. assert (E' : FF = crossing h r0) by congruence. rewrite E', crossing_z in ZF by exact D. lra. }
    destruct T as (out & p & T). rewrite T. destruct (lens_out _ _ _ _ _ _ _ _ T) as (F0 & FO' & NO & NE & EO). rewrite FO in FO'. assert (F0 = FF) by congruence. subst F0. assert (TP : 0 < norm3 (sub3 FF (crossing h r0))). { apply norm3_pos. intros E. apply NE. symmetry. now apply sub_zero. }
    assert (PR : exists a, p = refl a * refl a). { unfold perfect_lens in T. rewrite FO in T. destruct (unit3 (y_dir r0)); [|discriminate]. destruct (unit3 (sub3 FF (crossing h r0))); [|discriminate]. apply (f_equal (option_map snd)) in T. cbn in T. eexists. assert (G : forall a b : R, Some a = Some b -> b = a) by congruence. exact (G _ _ T). }
    destruct PR as [a ->]. exists out, a. split; [|split; [exact NO|]; eauto]. rewrite Z.add_0_r.
    apply (spos_none refl h); cbn [x_ray y_dir y_pos].
    + assert (Z : z3 (add3 (crossing h r0) (scale3 (norm3 (sub3 FF (crossing h r0))) out)) < h) by now rewrite EO. assert (Z' : z3 (crossing h r0) + norm3 (sub3 FF (crossing h r0)) * z3 out < h) by (destruct (crossing h r0), out; exact Z). rewrite crossing_z in Z' by exact D. nra.
    + rewrite crossing_z by exact D. lra.
    + eapply Forall_impl; [|exact F]. cbn beta. intros e [A N]. split; [exact A|]. rewrite crossing_at; [exact N|]. cbn [y_pos]. now apply crossing_z.
  - cbn [app] in F |- *. inversion F as [|? ? [A N] F']; subst. cbn [fst] in A, N. cbn [spos]. unfold one_spo at 1. cbn [x_ray]. pose proof (proj2 (height_hit _ m1 r0 A D P) N) as H. destruct (plane_intersect m1 _ _) as [[hh ip] il]. cbn [fst] in H. subst hh.
    destruct (IH (k + 1)%Z x F' S FP I) as (out & a & E & R). exists out, a. split; [|exact R]. cbn [List.length]. rewrite Nat2Z.inj_succ. replace (k + Z.succ (Z.of_nat (List.length l1)))%Z with (k + 1 + Z.of_nat (List.length l1))%Z by lia. exact E.
Qed.
