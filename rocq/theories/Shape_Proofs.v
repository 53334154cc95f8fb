(** Proofs for Shape_Model. *)
From Verif Require Export Shape_Model.
From Verif Require Import Base_Proofs Vec_Proofs Angles_Proofs Plane_Proofs Placement_Proofs Viz_Proofs.
Open Scope R_scope.

Lemma twopi_gt0 : 0 < twopi.
Proof. unfold twopi. pose proof PI_RGT_0. lra. Qed.
Lemma wedge_iff phi0 phi1 phi : phi0 <= phi1 <= phi0 + twopi -> (Rltb (Rmod (phi - phi0) twopi) (anglediff phi0 phi1) = true <-> in_wedge phi0 phi1 phi).
Proof.
  intros H. rewrite anglediff_id by lra. rewrite Rltb_true. pose proof twopi_gt0 as T. split.
  - intros L. destruct (Rmod_eq (phi - phi0) twopi) as [n E]. pose proof (Rmod_bound (phi - phi0) twopi T) as B. exists (- n)%Z. rewrite opp_IZR. lra.
  - intros (k & K). rewrite (Rmod_unique (phi - phi0) twopi (phi + IZR k * twopi - phi0) (- k)); [lra|exact T|lra|rewrite opp_IZR; lra].
Qed.
Lemma vertex_in m f phi0 phi1 phi : affine m -> phi0 <= phi1 <= phi0 + twopi -> in_wedge phi0 phi1 phi -> circle_vertex m f phi0 phi1 phi = hom (rim m f phi) 1.
Proof.
  intros A H W. apply (wedge_iff _ _ _ H) in W. unfold circle_vertex, rim, center, v_y, v_z, tra. rewrite W. destruct A as (_ & A1 & A2 & A3). destruct m as [c0 c1 c2 c3]. cbn [b1 b2 b3] in *. destruct c1 as [p1 p2 p3 p4], c2 as [q1 q2 q3 q4], c3 as [r1 r2 r3 r4]. cbn [w4] in *. subst. clear. vring.
Qed.
Lemma vertex_out m f phi0 phi1 phi : affine m -> phi0 <= phi1 <= phi0 + twopi -> ~ in_wedge phi0 phi1 phi -> circle_vertex m f phi0 phi1 phi = hom (tra m) 1.
Proof.
  intros A H W. assert (W' : Rltb (Rmod (phi - phi0) twopi) (anglediff phi0 phi1) = false).
  { destruct (Rltb _ _) eqn:E; [|reflexivity]. exfalso. apply W, (wedge_iff _ _ _ H), E. }
  unfold circle_vertex, center, v_y, v_z, tra. rewrite W'. destruct A as (_ & A1 & A2 & A3). destruct m as [c0 c1 c2 c3]. cbn [b1 b2 b3] in *. destruct c1 as [p1 p2 p3 p4], c2 as [q1 q2 q3 q4], c3 as [r1 r2 r3 r4]. cbn [w4] in *. subst. clear. vring.
Qed.
Lemma vertex_w m f phi0 phi1 phi : affine m -> w4 (circle_vertex m f phi0 phi1 phi) = 1.
Proof.
  intros (_ & A1 & A2 & A3). unfold circle_vertex, center, v_y, v_z. destruct m as [c0 c1 c2 c3]. cbn [b1 b2 b3] in *. destruct c1 as [p1 p2 p3 p4], c2 as [q1 q2 q3 q4], c3 as [r1 r2 r3 r4]. cbn [add4 scale4 w4] in *. subst. ring.
Qed.
Lemma circle_ok m f phi0 phi1 n : affine m -> xyz_circle m f phi0 phi1 n = Ok (map (fun phi => xyz (circle_vertex m f phi0 phi1 phi)) (linspace_open (1 / 2 * PI) (5 / 2 * PI) n)).
Proof.
  intros A. unfold xyz_circle. rewrite h2e_w1; [now rewrite map_map|]. intros v I. apply in_map_iff in I. destruct I as (phi & <- & _). now apply vertex_w.
Qed.
Lemma linspace_nth a b n k : (k < n)%nat -> nth_error (linspace_open a b n) k = Some (a + INR k * ((b - a) / INR n)).
Proof. intros L. unfold linspace_open. rewrite nth_error_map, (nth_error_seq n k 0 L). reflexivity. Qed.
Lemma linspace_len a b n : List.length (linspace_open a b n) = n.
Proof. unfold linspace_open. now rewrite map_length, seq_length. Qed.
Lemma circle_spec m f phi0 phi1 n : affine m -> phi0 <= phi1 <= phi0 + twopi -> exists l, xyz_circle m f phi0 phi1 n = Ok l /\ List.length l = n /\
  forall k, (k < n)%nat -> let phi := PI / 2 + INR k * (twopi / INR n) in
    (in_wedge phi0 phi1 phi -> nth_error l k = Some (rim m f phi)) /\ (~ in_wedge phi0 phi1 phi -> nth_error l k = Some (tra m)).
Proof.
  intros A H. rewrite (circle_ok m f phi0 phi1 n A). eexists. split; [reflexivity|]. split; [now rewrite map_length, linspace_len|]. intros k K phi. rewrite nth_error_map, linspace_nth by exact K. cbn [option_map].
  replace (1 / 2 * PI + INR k * ((5 / 2 * PI - 1 / 2 * PI) / INR n)) with phi by (unfold phi, twopi; replace (5 / 2 * PI - 1 / 2 * PI) with (2 * PI) by lra; lra).
  split; intros W; [rewrite vertex_in|rewrite vertex_out]; try assumption; f_equal; apply xyz_hom.
Qed.
Lemma full_wedge phi0 phi : in_wedge phi0 (phi0 + twopi) phi.
Proof. apply (wedge_iff phi0 (phi0 + twopi) phi); [pose proof twopi_gt0; lra|]. rewrite anglediff_id by (pose proof twopi_gt0; lra). apply Rltb_true. pose proof (Rmod_bound (phi - phi0) twopi twopi_gt0). lra. Qed.
Lemma square_spec m f : affine m -> let y := xyz (v_y m) in let z := xyz (v_z m) in
  xyz_square m f = Ok [add3 (tra m) (scale3 f (add3 y z)); add3 (tra m) (scale3 f (sub3 z y)); sub3 (tra m) (scale3 f (add3 y z)); add3 (tra m) (scale3 f (sub3 y z))].
Proof.
  intros (_ & A1 & A2 & A3) y z. unfold xyz_square, center. rewrite (h2e1_w1 (b3 m) A3). cbn [bind]. unfold v_y, v_z in *. rewrite (h2e1_w0 (b1 m) A1), (h2e1_w0 (b2 m) A2). cbn [bind]. rewrite h2e1_w0 by (destruct (b1 m) as [p1 p2 p3 p4]; cbn [scale4 w4] in *; subst; ring). cbn [bind map].
  unfold y, z, tra. f_equal. generalize (b1 m) (b2 m) (b3 m). clear. intros c1 c2 c3. destruct c1 as [p1 p2 p3 p4], c2 as [q1 q2 q3 q4], c3 as [r1 r2 r3 r4]. cbn [scale4 xyz x4 y4 z4]. repeat apply f_equal2; try reflexivity; vring.
Qed.
(** distances *)
Lemma rim_dist m f phi : perpendicular_axes m -> norm3 (xyz (v_z m)) = norm3 (xyz (v_y m)) -> 0 <= f -> norm3 (sub3 (rim m f phi) (tra m)) = f * norm3 (xyz (v_y m)).
Proof.
  intros P E F. unfold rim. set (y := xyz (v_y m)) in *. set (z := xyz (v_z m)) in *. set (u := add3 (scale3 (cos phi) y) (scale3 (sin phi) z)).
  replace (sub3 (add3 (tra m) (scale3 f u)) (tra m)) with (scale3 f u) by (destruct (tra m), u; vring). rewrite norm3_scale, Rabs_right by lra. f_equal.
  destruct P as (_ & _ & _ & _ & _ & _ & D). fold y z in D. unfold norm3 in *. f_equal. unfold u. rewrite !dot3_add_r, !dot3_add_l, !dot3_scale_r, !dot3_scale_l, D, (dot3_comm z y), D.
  assert (E2 : dot3 z z = dot3 y y). { apply sqrt_inj; [apply dot3_nonneg|apply dot3_nonneg|exact E]. } rewrite E2. pose proof (sin2_cos2 phi) as S. unfold Rsqr in S. transitivity ((sin phi * sin phi + cos phi * cos phi) * dot3 y y); [ring|rewrite S; ring].
Qed.

(** triangles *)
Lemma square_len m f l : xyz_square m f = Ok l -> List.length l = 4%nat.
Proof. unfold xyz_square. destruct (h2e1 (center m)); [|discriminate]. destruct (h2e1 (v_y m)); [|discriminate]. destruct (h2e1 (v_z m)); [|discriminate]. destruct (h2e1 (scale4 (-1) (v_y m))); [|discriminate]. cbn [bind]. intros H. injection H as <-. reflexivity. Qed.
Lemma outline_len h m f n od os : affine m -> outer_display h m f n = Ok od -> outer_shape h m n = Ok os -> List.length od = points_of h n /\ List.length os = points_of h n.
Proof.
  intros A H1 H2. destruct h as [|p0 p1]; cbn [outer_display outer_shape points_of] in *.
  - split; eapply square_len; eassumption.
  - rewrite circle_ok in H1 by exact A. rewrite circle_ok in H2 by exact A. injection H1 as <-. injection H2 as <-. now rewrite !map_length, !linspace_len.
Qed.
Lemma outline_ok h m f n : affine m -> exists od os, outer_display h m f n = Ok od /\ outer_shape h m n = Ok os.
Proof.
  intros A. destruct h as [|p0 p1]; cbn [outer_display outer_shape].
  - rewrite !square_spec by exact A. do 2 eexists. split; reflexivity.
  - rewrite !circle_ok by exact A. do 2 eexists. split; reflexivity.
Qed.
Lemma hole_ring ge (a b : list v3) k : good_ge ge -> (0 < k)%nat -> List.length a = k -> List.length b = k -> exists t, plane_with_hole (ge (List.length a) (List.length b)) a b = (a ++ b, t) /\ List.length t = (2 * k)%nat /\ Forall (tri_ok (List.length (a ++ b))) t.
Proof.
  intros G K A B. unfold plane_with_hole. eexists. split; [reflexivity|]. rewrite app_length, A, B. destruct (ring (ge k k) k k K K (G k k K K)) as (L & F & _). split; [rewrite L; lia|exact F].
Qed.
Lemma triangulate_plain ge h m ri fo fi n : good_ge ge -> affine m -> (0 < n)%nat -> ri <= 0 -> exists od os tris, outer_display h m fo n = Ok od /\ outer_shape h m n = Ok os /\
  triangulate ge h m ri fo fi n = Ok (od ++ os, tris) /\ List.length tris = (2 * points_of h n)%nat /\ Forall (tri_ok (List.length (od ++ os))) tris.
Proof.
  intros G A N R. destruct (outline_ok h m fo n A) as (od & os & E1 & E2). destruct (outline_len h m fo n od os A E1 E2) as [L1 L2]. exists od, os. unfold triangulate. rewrite E1, E2. cbn [bind].
  destruct (hole_ring ge od os (points_of h n) G ltac:(destruct h; cbn; lia) L1 L2) as (t & E & LT & F). rewrite E. rewrite (proj2 (Rltb_false 0 ri)) by lra. exists t. auto.
Qed.
Lemma triangulate_ring ge p0 p1 m ri fo fi n : good_ge ge -> affine m -> (0 < n)%nat -> 0 < ri -> let h := Circ p0 p1 in exists od os ish idp t1 t2 tris,
  outer_display h m fo n = Ok od /\ outer_shape h m n = Ok os /\ inner_shape h m ri n = Ok ish /\ inner_display h m ri fi n = Ok idp /\
  plane_with_hole (ge n n) od os = (od ++ os, t1) /\ plane_with_hole (ge n n) ish idp = (ish ++ idp, t2) /\
  triangulate ge h m ri fo fi n = Ok (od ++ os ++ ish ++ idp, tris) /\ map (corners (od ++ os ++ ish ++ idp)) tris = map (corners (od ++ os)) t1 ++ map (corners (ish ++ idp)) t2.
Proof.
  intros G A N R h. destruct (outline_ok h m fo n A) as (od & os & E1 & E2). destruct (outline_len h m fo n od os A E1 E2) as [L1 L2]. cbn [points_of h] in L1, L2.
  assert (E3 : exists ish, inner_shape h m ri n = Ok ish /\ List.length ish = n) by (cbn [inner_shape h]; rewrite circle_ok by exact A; eexists; split; [reflexivity|now rewrite map_length, linspace_len]).
  assert (E4 : exists idp, inner_display h m ri fi n = Ok idp /\ List.length idp = n) by (cbn [inner_display h]; rewrite circle_ok by exact A; eexists; split; [reflexivity|now rewrite map_length, linspace_len]).
  destruct E3 as (ish & E3 & L3). destruct E4 as (idp & E4 & L4).
  destruct (hole_ring ge od os n G N L1 L2) as (t1 & P1 & T1 & F1). destruct (hole_ring ge ish idp n G N L3 L4) as (t2 & P2 & T2 & F2). exists od, os, ish, idp, t1, t2.
  destruct (combine_ok [od ++ os; ish ++ idp] [t1; t2] (n + n) ltac:(discriminate) eq_refl) as (tris & C & M).
  { repeat constructor; rewrite app_length; lia. }
  { repeat constructor; assumption. }
  exists tris. cbn [concat] in C, M. rewrite app_nil_r, <- app_assoc in C, M. cbn [combine map fst snd concat] in M. rewrite app_nil_r in M. cbn [app] in M.
  split; [exact E1|]. split; [exact E2|]. split; [exact E3|]. split; [exact E4|]. split; [rewrite <- P1; now rewrite L1, L2|]. split; [rewrite <- P2; now rewrite L3, L4|]. split; [|exact M].
  unfold triangulate. rewrite E1, E2. cbn [bind]. rewrite P1. rewrite (proj2 (Rltb_true 0 ri)) by lra. rewrite E3, E4. cbn [bind]. rewrite P2. exact C.
Qed.
(** attributes *)
Lemma make_own cls op inst cls' : make cls op = (inst, cls') -> match op with MkHole r => attribute inst "r_inner" = Ok (or0 r) | MkGrating g => attribute inst "groove_angle" = Ok (or0 g) | MkPlain => inst = cls end.
Proof.
  unfold attribute. destruct op as [|r|g]; cbn [make]; intros H; injection H as <- <-; [reflexivity| |]; now rewrite dget_dset_eq.
Qed.
Lemma make_all_own : forall ops cls i op, nth_error ops i = Some op -> exists inst, nth_error (make_all cls ops) i = Some inst /\
  match op with MkHole r => attribute inst "r_inner" = Ok (or0 r) | MkGrating g => attribute inst "groove_angle" = Ok (or0 g) | MkPlain => True end.
Proof.
  induction ops as [|o ops IH]; intros cls i op E; [destruct i; discriminate|]. cbn [make_all]. destruct (make cls o) as [inst cls'] eqn:M. destruct i as [|i]; cbn [nth_error] in *.
  - injection E as ->. exists inst. split; [reflexivity|]. pose proof (make_own _ _ _ _ M) as H. destruct op; auto.
  - apply (IH cls' i op E).
Qed.
Lemma make_groove : forall ops cls i op inst, dget "groove_angle" cls = None -> nth_error ops i = Some op -> nth_error (make_all cls ops) i = Some inst -> (forall g, op <> MkGrating g) -> attribute inst "groove_angle" = Err KeyError.
Proof.
  induction ops as [|o ops IH]; intros cls i op inst N E1 E2 NG; [destruct i; discriminate|]. cbn [make_all] in E2. destruct (make cls o) as [inst0 cls'] eqn:M. destruct i as [|i]; cbn [nth_error] in *.
  - injection E1 as ->. injection E2 as ->. unfold attribute. destruct op as [|r|g]; cbn [make] in M; injection M as <- <-; [now rewrite N| |exfalso; now apply (NG g)]. rewrite dget_dset_neq by discriminate. now rewrite N.
  - apply (IH cls' i op inst); try assumption. destruct o as [|r|g]; cbn [make] in M; injection M as <- <-; try assumption. now rewrite dget_dset_neq by discriminate.
Qed.
Lemma make_plain : forall ops cls i inst, nth_error ops i = Some MkPlain -> nth_error (make_all cls ops) i = Some inst ->
  dget "r_inner" inst = fold_left (fun acc op => match op with MkHole r => Some (or0 r) | _ => acc end) (firstn i ops) (dget "r_inner" cls).
Proof.
  induction ops as [|o ops IH]; intros cls i inst E1 E2; [destruct i; discriminate|]. cbn [make_all] in E2. destruct (make cls o) as [inst0 cls'] eqn:M. destruct i as [|i]; cbn [nth_error firstn fold_left] in *.
  - injection E1 as ->. injection E2 as ->. cbn [make] in M. injection M as <- _. reflexivity.
  - rewrite (IH cls' i inst E1 E2). f_equal. destruct o as [|r|g]; cbn [make] in M; injection M as <- <-; try reflexivity. now rewrite dget_dset_eq.
Qed.
(** shapes of a round hole *)
Lemma perp_norm4 m : perpendicular_axes m -> norm4 (v_y m) = norm3 (xyz (v_y m)).
Proof. intros ((_ & A & _) & _). unfold v_y. destruct (b1 m) as [p1 p2 p3 p4]. cbn [w4] in A. subst p4. apply (norm4_hom0 (V3 p1 p2 p3)). Qed.
Lemma perp_pos m : perpendicular_axes m -> 0 < norm3 (xyz (v_y m)).
Proof. intros (_ & _ & N & _). apply norm3_pos. exact N. Qed.
Lemma ring_shapes : forall m phi0 phi1 r_inner n, perpendicular_axes m -> norm3 (xyz (v_z m)) = norm3 (xyz (v_y m)) -> 0 <= r_inner -> phi0 <= phi1 <= phi0 + twopi ->
  exists lo li, outer_shape (Circ phi0 phi1) m n = Ok lo /\ inner_shape (Circ phi0 phi1) m r_inner n = Ok li /\
  forall k, (k < n)%nat -> in_wedge phi0 phi1 (PI / 2 + INR k * (twopi / INR n)) -> exists po pi,
    nth_error lo k = Some po /\ nth_error li k = Some pi /\ norm3 (sub3 po (tra m)) = norm3 (xyz (v_y m)) /\ norm3 (sub3 pi (tra m)) = r_inner.
Proof.
  intros m p0 p1 ri n P E R H. pose proof (perp_pos m P) as Y. assert (A : affine m) by apply P. cbn [outer_shape inner_shape]. rewrite (perp_norm4 m P).
  destruct (circle_spec m 1 p0 p1 n A H) as (lo & E1 & _ & S1). destruct (circle_spec m (ri / norm3 (xyz (v_y m))) p0 p1 n A H) as (li & E2 & _ & S2). exists lo, li. split; [exact E1|]. split; [exact E2|].
  intros k K W. exists (rim m 1 (PI / 2 + INR k * (twopi / INR n))), (rim m (ri / norm3 (xyz (v_y m))) (PI / 2 + INR k * (twopi / INR n))). split; [apply (S1 k K); exact W|]. split; [apply (S2 k K); exact W|].
  rewrite !rim_dist; try assumption; [|apply Rmult_le_pos; [exact R|left; apply Rinv_0_lt_compat; exact Y]|lra]. split; [ring|field; lra].
Qed.
Lemma ring_displays : forall m phi0 phi1 r_inner fo fi n, perpendicular_axes m -> norm3 (xyz (v_z m)) = norm3 (xyz (v_y m)) -> 0 <= r_inner -> 0 <= fo -> 0 <= fi -> phi0 <= phi1 <= phi0 + twopi ->
  exists lo li, outer_display (Circ phi0 phi1) m fo n = Ok lo /\ inner_display (Circ phi0 phi1) m r_inner fi n = Ok li /\
  forall k, (k < n)%nat -> (exists po, nth_error lo k = Some po /\ norm3 (sub3 po (tra m)) = fo * norm3 (xyz (v_y m))) /\
    (in_wedge phi0 phi1 (PI / 2 + INR k * (twopi / INR n)) -> exists pi, nth_error li k = Some pi /\ norm3 (sub3 pi (tra m)) = fi * r_inner).
Proof.
  intros m p0 p1 ri fo fi n P E R FO FI H. pose proof (perp_pos m P) as Y. assert (A : affine m) by apply P. cbn [outer_display inner_display]. rewrite (perp_norm4 m P).
  assert (T : 0 <= 2 * PI <= 0 + twopi) by (unfold twopi; pose proof PI_RGT_0; lra).
  destruct (circle_spec m fo 0 (2 * PI) n A T) as (lo & E1 & _ & S1). destruct (circle_spec m (fi * ri / norm3 (xyz (v_y m))) p0 p1 n A H) as (li & E2 & _ & S2). exists lo, li. split; [exact E1|]. split; [exact E2|].
  intros k K. split.
  - exists (rim m fo (PI / 2 + INR k * (twopi / INR n))). split; [apply (S1 k K)|now apply rim_dist]. replace (2 * PI) with (0 + twopi) by (unfold twopi; ring). apply full_wedge.
  - intros W. exists (rim m (fi * ri / norm3 (xyz (v_y m))) (PI / 2 + INR k * (twopi / INR n))). split; [apply (S2 k K); exact W|]. rewrite rim_dist; try assumption; [field; lra|].
    apply Rmult_le_pos; [apply Rmult_le_pos; assumption|left; apply Rinv_0_lt_compat; exact Y].
Qed.
Lemma photon_rim : forall m phi0 phi1 r_inner u1 u2, perpendicular_axes m -> 0 <= r_inner <= norm3 (xyz (v_y m)) -> phi0 < phi1 -> 0 <= u1 < 1 -> 0 <= u2 < 1 ->
  exists f phi, xyz (place m (circ_xy m phi0 phi1 r_inner u1 u2)) = rim m f phi /\ phi0 <= phi < phi1 /\ r_inner / norm3 (xyz (v_y m)) <= f <= 1.
Proof.
  intros m p0 p1 ri u1 u2 P R H U1 U2. pose proof (perp_pos m P) as Y. unfold circ_xy. rewrite (perp_norm4 m P). set (q := ri / norm3 (xyz (v_y m))). exists (sqrt (uniform (q * q) 1 u2)), (uniform p0 p1 u1).
  assert (Q : 0 <= q <= 1). { unfold q. split; [apply Rmult_le_pos; [lra|left; apply Rinv_0_lt_compat; exact Y]|]. apply Rmult_le_reg_r with (norm3 (xyz (v_y m))); [exact Y|]. unfold Rdiv. rewrite Rmult_assoc, Rinv_l by lra. lra. }
  assert (U : q * q <= uniform (q * q) 1 u2 <= 1) by (clearbody q; assert (Q2 : 0 <= 1 - q * q) by nra; unfold uniform; nra). split; [|split].
  - unfold place, rim, center, tra. cbn [fst snd]. generalize (sqrt (uniform (q * q) 1 u2)). intros f. generalize (cos (uniform p0 p1 u1)) (sin (uniform p0 p1 u1)). intros c s. unfold v_y, v_z. clear. destruct m as [c0 c1 c2 c3]. cbn [b1 b2 b3]. destruct c1 as [p1 p2 p3 p4], c2 as [q1 q2 q3 q4], c3 as [r1 r2 r3 r4]. vring.
  - unfold uniform. nra.
  - split.
    + apply Rle_trans with (sqrt (q * q)); [rewrite sqrt_square by lra; lra|]. apply sqrt_le_1_alt. lra.
    + apply Rle_trans with (sqrt 1); [apply sqrt_le_1_alt; lra|rewrite sqrt_1; lra].
Qed.
Lemma rectangle_fails : forall ge m ri fo fi n, affine m -> 0 < ri -> triangulate ge Rect m ri fo fi n = Err NotImplementedError.
Proof.
  intros ge m ri fo fi n A R. unfold triangulate. cbn [outer_display outer_shape inner_shape]. rewrite !square_spec by exact A. cbn [bind]. unfold plane_with_hole at 1. rewrite (proj2 (Rltb_true 0 ri)) by lra. reflexivity.
Qed.
Lemma axes_id : perpendicular_axes id4.
Proof. unfold perpendicular_axes, affine. cbn. repeat split; try (intros H; first [apply (f_equal x3) in H; cbn in H; lra | apply (f_equal y3) in H; cbn in H; lra | apply (f_equal z3) in H; cbn in H; lra]); vu; ring. Qed.
Lemma rim_id f phi : rim id4 f phi = V3 0 (f * cos phi) (f * sin phi).
Proof. unfold rim, tra, v_y, v_z, id4. cbn [b1 b2 b3]. vring. Qed.
Lemma axis_id_norm : norm4 (v_y id4) = 1 /\ norm4 (v_z id4) = 1.
Proof. unfold norm4, v_y, v_z, id4. cbn [b1 b2]. split; (match goal with |- sqrt ?x = _ => replace x with 1 by (unfold dot4; cbn [x4 y4 z4 w4]; ring) end); exact sqrt_1. Qed.
Lemma init_id p0 p1 : Rabs p0 <= 10 -> Rabs p1 <= 10 -> p0 <= p1 -> p1 - p0 <= 2 * PI + / 1000000 -> circ_init id4 p0 p1 0 = Ok tt.
Proof.
  intros A B C D. unfold circ_init. destruct axis_id_norm as [-> ->]. rewrite (proj2 (Rltb_false 10 _)) by (apply Rmax_lub; assumption). rewrite (proj2 (Rltb_false p1 p0)) by exact C. rewrite (proj2 (Rltb_false _ _)) by exact D. rewrite (proj2 (Rltb_false 1 0)) by lra.
  replace (isclose 1 1) with true; [reflexivity|]. symmetry. apply isclose_true. replace (1 - 1) with 0 by ring. rewrite Rabs_R0, Rabs_R1. lra.
Qed.

Lemma range_closed : ~ forall m phi0 phi1 n l k, perpendicular_axes m -> circ_init m phi0 phi1 0 = Ok tt -> outer_shape (Circ phi0 phi1) m n = Ok l -> (k < n)%nat ->
  in_wedge phi0 phi1 (PI / 2 + INR k * (twopi / INR n)) -> nth_error l k = Some (rim m 1 (PI / 2 + INR k * (twopi / INR n))).
Proof.
  intros H. pose proof PI_RGT_0 as P0. pose proof PI_4 as P4. pose proof PI2_3_2 as P3. set (e := / 10000000). assert (E : 0 < e < / 1000000) by (unfold e; lra). clearbody e.
  assert (I : circ_init id4 (- PI) (PI + e) 0 = Ok tt) by (apply init_id; [rewrite Rabs_left; lra|rewrite Rabs_right; lra|lra|lra]).
  pose proof (circle_ok id4 1 (- PI) (PI + e) 1 (proj1 axes_id)) as O. specialize (H id4 (- PI) (PI + e) 1%nat _ 0%nat axes_id I O ltac:(lia)).
  cbn [INR] in H. replace (PI / 2 + 0 * (twopi / 1)) with (PI / 2) in H by lra. specialize (H ltac:(exists 0%Z; lra)). rewrite nth_error_map, linspace_nth in H by lia. cbn [option_map INR] in H. rewrite rim_id in H.
  replace (1 / 2 * PI + 0 * ((5 / 2 * PI - 1 / 2 * PI) / 1)) with (PI / 2) in H by lra. unfold circle_vertex in H.
  assert (D : anglediff (- PI) (PI + e) = e). { unfold anglediff. cbn zeta. rewrite (proj2 (Rltb_false _ _)) by lra. rewrite (proj2 (Rltb_true _ _)) by (unfold twopi; lra). cbn [orb]. apply (Rmod_unique _ _ _ 1); unfold twopi; lra. }
  assert (M : Rmod (PI / 2 - - PI) twopi = 3 / 2 * PI) by (apply (Rmod_unique _ _ _ 0); unfold twopi; lra).
  rewrite D, M in H. rewrite (proj2 (Rltb_false _ _)) in H by lra. apply (f_equal (fun o : option v3 => match o with Some v => z3 v | None => 0 end)) in H. rewrite sin_PI2 in H. unfold center, v_y, v_z, id4 in H. cbn [b1 b2 b3 add4 scale4 xyz z3 x4 y4 z4] in H. lra.
Qed.
Lemma narrow_closed : ~ forall m phi0 phi1 n l, perpendicular_axes m -> circ_init m phi0 phi1 0 = Ok tt -> phi0 < phi1 -> (2 < n)%nat -> outer_shape (Circ phi0 phi1) m n = Ok l -> exists p, In p l /\ p <> tra m.
Proof.
  intros H. pose proof PI_RGT_0 as P0. pose proof PI_4 as P4. pose proof PI2_3_2 as P3.
  assert (I : circ_init id4 0 (1 / 2) 0 = Ok tt) by (apply init_id; [rewrite Rabs_R0; lra|rewrite Rabs_right; lra|lra|lra]).
  destruct (H id4 0 (1 / 2) 3%nat _ axes_id I ltac:(lra) ltac:(lia) (circle_ok id4 1 0 (1 / 2) 3 (proj1 axes_id))) as (p & IN & N). apply N. apply in_map_iff in IN. destruct IN as (phi & <- & IN).
  unfold circle_vertex. rewrite anglediff_id by (unfold twopi; lra). assert (B : 1 / 2 <= phi < twopi). { unfold linspace_open in IN. cbn [seq map In INR] in IN. unfold twopi. destruct IN as [<-|[<-|[<-|[]]]]; lra. }
  rewrite (proj2 (Rltb_false _ _)); [unfold tra, center, v_y, v_z, id4; cbn [b1 b2 b3]; clear; vring|]. rewrite (Rmod_unique (phi - 0) twopi phi 0); lra.
Qed.
Lemma shape_example : perpendicular_axes id4 /\ norm3 (xyz (v_z id4)) = norm3 (xyz (v_y id4)) /\ good_ge ge_exact /\ circ_init id4 0 PI (1 / 2) = Ok tt /\
  in_wedge 0 PI (PI / 2 + INR 0 * (twopi / INR 4)) /\ ~ in_wedge 0 PI (PI / 2 + INR 2 * (twopi / INR 4)).
Proof.
  pose proof PI_RGT_0 as P0. pose proof PI_4 as P4. pose proof PI2_3_2 as P3. split; [exact axes_id|]. split; [unfold norm3; f_equal; unfold v_y, v_z, id4; cbn [b1 b2]; vring|]. split; [intros a b A B; now apply exact_sound|]. split; [|split].
  - unfold circ_init. destruct axis_id_norm as [-> ->]. rewrite Rabs_R0, (Rabs_right PI) by lra. rewrite (proj2 (Rltb_false _ _)) by (apply Rmax_lub; lra). rewrite !(proj2 (Rltb_false _ _)) by lra. replace (isclose 1 1) with true; [reflexivity|]. symmetry. apply isclose_true. replace (1 - 1) with 0 by ring. rewrite Rabs_R0, Rabs_R1. lra.
  - exists 0%Z. cbn [INR]. lra.
  - intros (k & K). cbn [INR] in K. unfold twopi in K. replace (PI / 2 + (1 + 1) * (2 * PI / (1 + 1 + 1 + 1))) with (3 / 2 * PI) in K by field.
    assert (K1 : (k <= -1)%Z). { apply Z.lt_succ_r. apply lt_IZR. rewrite succ_IZR. nra. } apply IZR_le in K1. nra.
Qed.
Lemma order_matters : ~ forall before inst inst', nth_error (make_all [] (before ++ [MkPlain])) (List.length before) = Some inst -> nth_error (make_all [] [MkPlain]) 0 = Some inst' -> attribute inst "r_inner" = attribute inst' "r_inner".
Proof. intros H. specialize (H [MkHole (Some 1)] _ _ eq_refl eq_refl). cbn in H. discriminate. Qed.
