(** Lemmas about the mirrors, windows and gratings of Arcus *)
From Coq Require Import String Ascii Permutation.
From Verif Require Import Base_Proofs Vec_Proofs Rot_Proofs Position_Proofs Placement_Proofs Rowland_Proofs Arcus_Proofs.
From Verif Require Export ArcusSpo_Model.
From Coq Require Import List Lra Lia.
Open Scope R_scope.

(** *** mirrors *)
Lemma axangle_zero u : axangle2mat_n u 0 = id3.
Proof. destruct u as [ux uy uz]. unfold axangle2mat_n, id3. rewrite sin_0, cos_0. f_equal; f_equal; ring. Qed.
Lemma euler_x a : euler2mat (V3 a 0 0) = M3 (V3 1 0 0) (V3 0 (cos a) (sin a)) (V3 0 (- sin a) (cos a)).
Proof.
  unfold euler2mat. cbn [x3 y3 z3]. rewrite !axangle_zero, !mul3_id_l. unfold axangle2mat_n. f_equal; f_equal; ring.
Qed.
Definition spo_m (g : spo_row) : m4 := M4 (V4 0 0 (s_len g) 0)
  (V4 (s_az g / 2 * cos (s_clock g)) (s_az g / 2 * - sin (s_clock g)) 0 0)
  (V4 (36 * s_plate g / 2 * sin (s_clock g)) (36 * s_plate g / 2 * cos (s_clock g)) 0 0)
  (V4 (s_rmid g * sin (s_clock g)) (s_rmid g * cos (s_clock g)) 0 1).
Lemma spo_pos_eq geom : spo_pos4d geom = map spo_m geom.
Proof.
  unfold spo_pos4d, spogeom2pos4d. rewrite map_map. apply map_ext. intros g. rewrite euler_x, cos_neg, sin_neg.
  unfold compose, diag3, xyz2zxy, spo_m. set (s := sin (s_clock g)). set (c := cos (s_clock g)). clearbody s c. vu. f_equal; f_equal; ring.
Qed.
Lemma spo_nth geom i g : nth_error geom i = Some g -> nth_error (spo_pos4d geom) i = Some (spo_m g).
Proof. intros E. rewrite spo_pos_eq. now apply map_nth_error. Qed.
Lemma spo_axes geom i g : nth_error geom i = Some g -> exists m, nth_error (spo_pos4d geom) i = Some m /\
  center m = V4 (s_rmid g * sin (s_clock g)) (s_rmid g * cos (s_clock g)) 0 1 /\
  v_x m = scale4 (s_len g) (V4 0 0 1 0) /\
  v_y m = scale4 (s_az g / 2) (V4 (cos (s_clock g)) (- sin (s_clock g)) 0 0) /\
  v_z m = scale4 (36 * s_plate g / 2) (V4 (sin (s_clock g)) (cos (s_clock g)) 0 0).
Proof.
  intros E. exists (spo_m g). split; [now apply spo_nth|]. unfold spo_m, center, v_x, v_y, v_z, scale4. cbn.
  repeat split; f_equal; ring.
Qed.
Lemma spo_radius geom i g m : nth_error geom i = Some g -> nth_error (spo_pos4d geom) i = Some m ->
  norm3 (tra m) = Rabs (s_rmid g) /\ dot3 (tra m) (xyz (v_y m)) = 0.
Proof.
  intros E M. rewrite (spo_nth _ _ _ E) in M. assert (m = spo_m g) by congruence. subst m. unfold spo_m, tra, v_y. cbn [b3 b1 xyz x4 y4 z4].
  pose proof (sin2_cos2 (s_clock g)) as H. unfold Rsqr in H. unfold norm3, dot3, v_y, xyz. cbn. split; [|ring].
  rewrite <- sqrt_Rsqr_abs. f_equal. unfold Rsqr. transitivity (s_rmid g * s_rmid g * (sin (s_clock g) * sin (s_clock g) + cos (s_clock g) * cos (s_clock g))); [ring|rewrite H; ring].
Qed.
Lemma spo_shear_free g : s_len g <> 0 -> s_az g <> 0 -> s_plate g <> 0 -> shear_free (spo_m g).
Proof.
  intros L A P. pose proof (sin2_cos2 (s_clock g)) as H. unfold Rsqr in H. unfold shear_free, spo_m. cbn [b0 b1 b2 b3 xyz x4 y4 z4].
  set (s := sin (s_clock g)) in *. set (c := cos (s_clock g)) in *. clearbody s c.
  split; [unfold affine; cbn; auto|]. repeat split; try (vu; ring); intros Z.
  - apply (f_equal z3) in Z. cbn in Z. lra.
  - pose proof (f_equal x3 Z) as Z1. pose proof (f_equal y3 Z) as Z2. cbn in Z1, Z2.
    assert (c = 0) by (apply Rmult_integral in Z1; lra). assert (s = 0) by (apply Rmult_integral in Z2; lra). subst. lra.
  - pose proof (f_equal x3 Z) as Z1. pose proof (f_equal y3 Z) as Z2. cbn in Z1, Z2.
    assert (36 * s_plate g / 2 <> 0) by lra. assert (s = 0) by (apply Rmult_integral in Z1; tauto). assert (c = 0) by (apply Rmult_integral in Z2; tauto). subst. lra.
Qed.
Lemma rot180_eq : rot180 = M3 (V3 (-1) 0 0) (V3 0 (-1) 0) (V3 0 0 1).
Proof. unfold rot180, axangle2mat_n. rewrite sin_PI, cos_PI. f_equal; f_equal; ring. Qed.
Lemma spo_placed opt geom args name chan ax par rng :
  spo_channel opt (spo_pos4d geom) args name chan = Ok (par, rng) -> dget chan opt = Some ax ->
  no_position args -> Forall (fun g => s_len g <> 0 /\ s_az g <> 0 /\ s_plate g <> 0) geom ->
  exists es, generate_elements par = Ok es /\ List.length es = List.length geom /\
  forall i g, nth_error geom i = Some g -> exists e m, nth_error es i = Some e /\ e_pos e = Some m /\
    e_id e = (fst rng + Z.of_nat i)%Z /\
    tra m = add3 (xyz ax) (V3 (chan_sign chan * (s_rmid g * sin (s_clock g))) (chan_sign chan * (s_rmid g * cos (s_clock g))) 12000).
Proof.
  intros C A NP F. unfold spo_channel, lookup in C. rewrite A in C. cbn [bind] in C.
  destruct (dget chan id_num_offset) as [off|]; [|discriminate]. cbn [bind] in C.
  set (P := compose (add3 (xyz ax) (V3 0 0 12000)) (if has_char "1" chan then id3 else rot180) ones3) in C.
  assert (E : par = new_parallel P (spo_pos4d geom) args off name /\ rng = (off, (off + 1000)%Z)) by (injection C; auto).
  destruct E as [-> ->]. cbn [fst].
  destruct (new_parallel_positions P (spo_pos4d geom) args off name NP) as (es & G & L & H).
  { rewrite spo_pos_eq, Forall_map. rewrite Forall_forall in *. intros g Hg. destruct (F g Hg) as (X & Y & Z). now apply spo_shear_free. }
  exists es. split; [exact G|]. split; [rewrite L, spo_pos_eq; apply map_length|].
  intros i g Eg. destruct (H i _ (spo_nth _ _ _ Eg)) as (e & E1 & E2 & E3). exists e, (mul4 P (spo_m g)). repeat split; auto.
  unfold P, spo_m, chan_sign. destruct (has_char "1" chan); unfold tra; [|rewrite rot180_eq]; unfold compose, diag3, ones3;
    generalize (sin (s_clock g)) (cos (s_clock g)); intros s c; destruct ax as [px py pz pw]; vu; f_equal; ring.
Qed.

(** *** rectangles *)
Lemma fold_Rmax_ge x r : x <= fold_right Rmax x r /\ forall y, In y r -> y <= fold_right Rmax x r.
Proof.
  induction r as [|z r [IH1 IH2]]; cbn; [split; [lra|tauto]|]. pose proof (Rmax_l z (fold_right Rmax x r)). pose proof (Rmax_r z (fold_right Rmax x r)).
  split; [lra|]. intros y [<-|H1]; [lra|]. specialize (IH2 y H1). lra.
Qed.
Lemma fold_Rmin_le x r : fold_right Rmin x r <= x /\ forall y, In y r -> fold_right Rmin x r <= y.
Proof.
  induction r as [|z r [IH1 IH2]]; cbn; [split; [lra|tauto]|]. pose proof (Rmin_l z (fold_right Rmin x r)). pose proof (Rmin_r z (fold_right Rmin x r)).
  split; [lra|]. intros y [<-|H1]; [lra|]. specialize (IH2 y H1). lra.
Qed.
Lemma vmax_ge l m y : vmax l = Ok m -> In y l -> y <= m.
Proof. destruct l as [|x r]; [discriminate|]. intros E. assert (m = fold_right Rmax x r) by (cbn in E; congruence). subst m. destruct (fold_Rmax_ge x r) as [A B]. intros [<-|H]; auto. Qed.
Lemma vmin_le l m y : vmin l = Ok m -> In y l -> m <= y.
Proof. destruct l as [|x r]; [discriminate|]. intros E. assert (m = fold_right Rmin x r) by (cbn in E; congruence). subst m. destruct (fold_Rmin_le x r) as [A B]. intros [<-|H]; auto. Qed.
Lemma fold_Rmax_in x r : In (fold_right Rmax x r) (x :: r).
Proof. induction r as [|z r IH]; cbn; [auto|]. apply Rmax_case; [auto|]. cbn in IH. tauto. Qed.
Lemma fold_Rmin_in x r : In (fold_right Rmin x r) (x :: r).
Proof. induction r as [|z r IH]; cbn; [auto|]. apply Rmin_case; [auto|]. cbn in IH. tauto. Qed.
Lemma vmax_in l m : vmax l = Ok m -> In m l.
Proof. destruct l as [|x r]; [discriminate|]. intros E. assert (m = fold_right Rmax x r) by (cbn in E; congruence). subst m. apply fold_Rmax_in. Qed.
Lemma vmin_in l m : vmin l = Ok m -> In m l.
Proof. destruct l as [|x r]; [discriminate|]. intros E. assert (m = fold_right Rmin x r) by (cbn in E; congruence). subst m. apply fold_Rmin_in. Qed.

(** the numbers behind the zoom *)
Lemma zoom_spec pos geom sa sr z : zoom_to_cover_all_spos pos geom sa sr = Ok z -> exists xhi xlo yhi ylo daz dr,
  vmax (map (fun p => x3 (tra p)) pos) = Ok xhi /\ vmin (map (fun p => x3 (tra p)) pos) = Ok xlo /\
  vmax (map (fun p => y3 (tra p)) pos) = Ok yhi /\ vmin (map (fun p => y3 (tra p)) pos) = Ok ylo /\
  vmax (map s_az geom) = Ok daz /\ vmax (map (fun g => s_outer g - s_inner g) geom) = Ok dr /\
  rmid_spo pos = Ok ((yhi + ylo) / 2) /\ z = V3 1 ((xhi - xlo) / 2 + sa * daz) ((yhi - ylo) / 2 + sr * dr).
Proof.
  unfold zoom_to_cover_all_spos, rmid_spo.
  destruct (vmax (map (fun p => x3 (tra p)) pos)) as [xhi|]; [|discriminate]. destruct (vmin (map (fun p => x3 (tra p)) pos)) as [xlo|]; [|discriminate].
  destruct (vmax (map (fun p => y3 (tra p)) pos)) as [yhi|]; [|discriminate]. destruct (vmin (map (fun p => y3 (tra p)) pos)) as [ylo|]; [|discriminate].
  cbn [bind]. destruct (vmax (map s_az geom)) as [daz|]; [|discriminate]. destruct (vmax (map (fun g => s_outer g - s_inner g) geom)) as [dr|]; [|discriminate].
  cbn [bind]. intros E. exists xhi, xlo, yhi, ylo, daz, dr. repeat split; auto; [f_equal; lra|].
  transitivity (V3 1 (xhi - 1 / 2 * (xhi + xlo) + sa * daz) (yhi - 1 / 2 * (yhi + ylo) + sr * dr)); [congruence|]. f_equal; lra.
Qed.
Lemma Rabs_le_between x y : Rabs x <= y -> - y <= x <= y.
Proof. unfold Rabs. destruct (Rcase_abs x); lra. Qed.
Lemma collectr_nth {A B} (f : A -> result B) l bs : collectr f l = Ok bs ->
  List.length bs = List.length l /\ forall i a, nth_error l i = Some a -> exists b, nth_error bs i = Some b /\ f a = Ok b.
Proof.
  revert bs. induction l as [|a l IH]; intros bs E; cbn in E.
  - injection E as <-. split; [reflexivity|]. intros [|i] a; discriminate.
  - destruct (f a) as [b|] eqn:Fa; [|discriminate]. cbn in E. destruct (collectr f l) as [r|]; [|discriminate]. cbn in E. injection E as <-.
    destruct (IH r eq_refl) as [L N]. split; [cbn; congruence|]. intros [|i] x X; cbn in *; [injection X as <-; eauto|eauto].
Qed.
Lemma scaled_between z d : 0 < z -> - z <= d <= z -> exists a, -1 <= a <= 1 /\ d = a * z.
Proof. intros Z D. exists (d / z). split; [|field; lra]. split; [apply Rmult_le_reg_r with z|apply Rmult_le_reg_r with z]; try lra; unfold Rdiv; rewrite Rmult_assoc, Rinv_l; lra. Qed.
Lemma aperture_covers opt pos geom channels aps k chan ax rect i m q g :
  apertures opt pos geom channels = Ok aps -> nth_error channels k = Some chan -> dget chan opt = Some ax -> nth_error aps k = Some rect ->
  (exists xhi, vmax (map (fun p => x3 (tra p)) pos) = Ok xhi /\ vmin (map (fun p => x3 (tra p)) pos) = Ok (- xhi)) ->
  nth_error pos i = Some m -> In g geom -> 0 < s_az g -> s_inner g < s_outer g ->
  Rabs (x3 q - (x4 ax + chan_sign chan * x3 (tra m))) <= 11 / 10 * s_az g ->
  Rabs (y3 q - (y4 ax + chan_sign chan * y3 (tra m))) <= 8 / 10 * (s_outer g - s_inner g) ->
  covers rect q.
Proof.
  intros AP K A R S M G Z0 R0 QX QY. unfold apertures in AP.
  destruct (zoom_to_cover_all_spos pos geom (11 / 10) (8 / 10)) as [z|] eqn:Z; [|discriminate]. cbn [bind] in AP.
  destruct (zoom_spec _ _ _ _ _ Z) as (xhi & xlo & yhi & ylo & daz & dr & X1 & X2 & Y1 & Y2 & D1 & D2 & RM & ZE).
  destruct S as (xh & S1 & S2). assert (xh = xhi) by congruence. subst xh. assert (xlo = - xhi) by congruence. subst xlo.
  destruct (collectr_nth _ _ _ AP) as [_ N]. destruct (N k chan K) as (b & B1 & B2). assert (b = rect) by congruence. subst b.
  unfold lookup in B2. rewrite A in B2. cbn [bind] in B2. rewrite RM in B2. cbn [bind] in B2.
  assert (IM : In m pos) by (now apply nth_error_In in M).
  assert (MX1 : x3 (tra m) <= xhi) by (apply (vmax_ge _ _ _ X1); apply in_map_iff; eauto).
  assert (MX2 : - xhi <= x3 (tra m)) by (apply (vmin_le _ _ _ X2); apply in_map_iff; eauto).
  assert (MY1 : y3 (tra m) <= yhi) by (apply (vmax_ge _ _ _ Y1); apply in_map_iff; eexists; split; [|exact IM]; reflexivity).
  assert (MY2 : ylo <= y3 (tra m)) by (apply (vmin_le _ _ _ Y2); apply in_map_iff; eexists; split; [|exact IM]; reflexivity).
  assert (MA : s_az g <= daz) by (apply (vmax_ge _ _ _ D1); apply in_map_iff; eauto).
  assert (MR : s_outer g - s_inner g <= dr) by (apply (vmax_ge _ _ _ D2); apply in_map_iff; eexists; split; [|exact G]; reflexivity).
  assert (P : exists p, aperture_position ((yhi + ylo) / 2) chan ax = Ok p /\ rect = compose p (lin xyz2zxy) z /\ x3 p = x4 ax /\ y3 p = y4 ax + chan_sign chan * ((yhi + ylo) / 2)).
  { destruct (aperture_position ((yhi + ylo) / 2) chan ax) as [p|] eqn:AE; [|discriminate]. cbn [bind] in B2. exists p. split; [reflexivity|]. split; [congruence|].
    unfold aperture_position in AE. unfold chan_sign. destruct ax as [ax ay az aw]. destruct (has_char "1" chan).
    - cbn in AE. injection AE as <-. cbn. split; ring.
    - destruct (has_char "2" chan); [|discriminate]. cbn in AE. injection AE as <-. cbn. split; ring. }
  destruct P as (p & _ & RE & PX & PY).
  apply Rabs_le_between in QX. apply Rabs_le_between in QY.
  assert (SG : chan_sign chan = 1 \/ chan_sign chan = -1) by (unfold chan_sign; destruct (has_char "1" chan); auto).
  set (wx := xhi + 11 / 10 * daz). set (wy := (yhi - ylo) / 2 + 8 / 10 * dr).
  assert (WX : 0 < wx) by (unfold wx; lra). assert (WY : 0 < wy) by (unfold wy; lra).
  destruct (scaled_between wx (x3 q - x3 p) WX) as (a & A1 & A2). { unfold wx. destruct SG as [E|E]; rewrite E in *; lra. }
  destruct (scaled_between wy (y3 q - y3 p) WY) as (b & E1 & E2). { unfold wy. destruct SG as [E|E]; rewrite E in *; lra. }
  assert (ZE' : z = V3 1 wx wy) by (rewrite ZE; unfold wx, wy; f_equal; lra).
  exists a, b. split; [exact A1|]. split; [exact E1|]. rewrite RE, ZE'. unfold center, v_y, v_z, compose, lin, xyz2zxy, diag3, aff. destruct p as [px py pz]. vu. cbn in *. lra.
Qed.
Lemma aperture_unknown opt pos geom z rmid chan rest ax : zoom_to_cover_all_spos pos geom (11 / 10) (8 / 10) = Ok z -> rmid_spo pos = Ok rmid -> dget chan opt = Some ax ->
  has_char "1" chan = false -> has_char "2" chan = false -> apertures opt pos geom (chan :: rest) = Err ValueError.
Proof. intros Z R A H1 H2. unfold apertures. rewrite Z. cbn [bind collectr]. unfold lookup. rewrite A. cbn [bind]. rewrite R. cbn [bind]. unfold aperture_position. rewrite H1, H2. reflexivity. Qed.
Lemma grid_ranges_spec pos geom chan yr zr : grid_ranges pos geom chan = Ok (yr, zr) ->
  fst yr = - snd yr /\ fst zr <= snd zr /\
  (exists xhi xlo yhi ylo daz dr, vmax (map (fun p => x3 (tra p)) pos) = Ok xhi /\ vmin (map (fun p => x3 (tra p)) pos) = Ok xlo /\
    vmax (map (fun p => y3 (tra p)) pos) = Ok yhi /\ vmin (map (fun p => y3 (tra p)) pos) = Ok ylo /\
    vmax (map s_az geom) = Ok daz /\ vmax (map (fun g => s_outer g - s_inner g) geom) = Ok dr /\
    snd yr = (xhi - xlo) / 2 + daz / 2 /\
    (0 <= dr -> chan_sign chan = 1 -> zr = (ylo - dr / 2, yhi + dr / 2)) /\
    (0 <= dr -> chan_sign chan = -1 -> zr = (- yhi - dr / 2, - ylo + dr / 2))).
Proof.
  unfold grid_ranges. destruct (zoom_to_cover_all_spos pos geom (1 / 2) (1 / 2)) as [z|] eqn:Z; [|discriminate]. cbn [bind].
  destruct (zoom_spec _ _ _ _ _ Z) as (xhi & xlo & yhi & ylo & daz & dr & X1 & X2 & Y1 & Y2 & D1 & D2 & RM & ZE). rewrite RM. cbn [bind].
  intros E. fold (chan_sign chan) in E. set (s := chan_sign chan) in *. set (u := s * ((yhi + ylo) / 2 - z3 z)) in *. set (v := s * ((yhi + ylo) / 2 + z3 z)) in *.
  assert (EY : yr = (- y3 z, y3 z)) by congruence. assert (EZ : zr = sort2 u v) by congruence. subst yr zr. cbn [fst snd].
  split; [reflexivity|]. assert (LY : ylo <= yhi) by (apply (vmax_ge _ _ _ Y1), (vmin_in _ _ Y2)).
  split; [unfold sort2; destruct (Rltb v u) eqn:B; [apply Rltb_true in B|apply Rltb_false in B]; cbn; lra|].
  exists xhi, xlo, yhi, ylo, daz, dr. repeat split; auto.
  - subst z. cbn. lra.
  - intros D S1. unfold u, v. rewrite S1. subst z. cbn [z3]. unfold sort2. rewrite (proj2 (Rltb_false _ _)) by lra. f_equal; lra.
  - intros D S1. unfold u, v. rewrite S1. subst z. cbn [z3]. unfold sort2.
    destruct (Rltb (-1 * ((yhi + ylo) / 2 + ((yhi - ylo) / 2 + 1 / 2 * dr))) (-1 * ((yhi + ylo) / 2 - ((yhi - ylo) / 2 + 1 / 2 * dr)))) eqn:B.
    + f_equal; lra.
    + apply Rltb_false in B. f_equal; lra.
Qed.

(** *** numbers of mirrors *)
Lemma offset_cases chan off : dget chan id_num_offset = Some off ->
  (chan = "1"%string /\ off = 0%Z) \/ (chan = "2"%string /\ off = 1000%Z) \/ (chan = "1m"%string /\ off = 10000%Z) \/ (chan = "2m"%string /\ off = 11000%Z).
Proof.
  unfold id_num_offset. cbn [dget].
  destruct (String.eqb_spec chan "1"); [intros [= <-]; tauto|]. destruct (String.eqb_spec chan "2"); [intros [= <-]; tauto|].
  destruct (String.eqb_spec chan "1m"); [intros [= <-]; tauto|]. destruct (String.eqb_spec chan "2m"); [intros [= <-]; tauto|]. discriminate.
Qed.
Lemma range_own c d oc od n : dget c id_num_offset = Some oc -> dget d id_num_offset = Some od -> (0 <= n < 1000)%Z ->
  in_channel (od, (od + 1000)%Z) (oc + n) = true <-> c = d.
Proof.
  intros C D N. unfold in_channel. cbn [fst snd]. rewrite Bool.andb_true_iff, Z.leb_le, Z.ltb_lt.
  destruct (offset_cases _ _ C) as [[-> ->]|[[-> ->]|[[-> ->]|[-> ->]]]], (offset_cases _ _ D) as [[-> ->]|[[-> ->]|[[-> ->]|[-> ->]]]];
    split; intros H; try reflexivity; try discriminate; lia.
Qed.
Lemma simple_spos_ranges opt pos args name channels l : simple_spos opt pos args name channels = Ok l ->
  forall k chan, nth_error channels k = Some chan -> exists par off, nth_error l k = Some (par, (off, (off + 1000)%Z)) /\
    dget chan id_num_offset = Some off /\ p_offset par = off /\ p_elem_pos par = pos.
Proof.
  intros E k chan K. destruct (collectr_nth _ _ _ E) as [_ N]. destruct (N k chan K) as (b & B1 & B2).
  unfold spo_channel, lookup in B2. destruct (dget chan opt) as [ax|]; [|discriminate]. cbn [bind] in B2.
  destruct (dget chan id_num_offset) as [off|]; [|discriminate]. cbn [bind] in B2.
  set (P := compose _ _ _) in B2. assert (b = (new_parallel P pos args off name, (off, (off + 1000)%Z))) by congruence. subst b. eexists _, off. split; [exact B1|]. auto.
Qed.
Lemma scatter_keeps s r p : sp_pos (scatter_channel s r p) = sp_pos p /\ sp_xou (scatter_channel s r p) = sp_xou p /\ sp_prob (scatter_channel s r p) = sp_prob p.
Proof. unfold scatter_channel. destruct (in_channel r (sp_xou p)); cbn; auto. Qed.
Lemma scatter_nobody s l p : (forall r, In r l -> in_channel r (sp_xou p) = false) -> scatter_all s l p = p.
Proof.
  revert p. induction l as [|r l IH]; intros p H; [reflexivity|]. unfold scatter_all. cbn [fold_left].
  assert (E : scatter_channel (s r) r p = p) by (unfold scatter_channel; rewrite H; cbn; auto). rewrite E. apply IH. intros r' Hr. apply H. cbn. auto.
Qed.
Lemma scatter_one s l1 r l2 p : (forall x, In x (l1 ++ l2) -> in_channel x (sp_xou p) = false) -> in_channel r (sp_xou p) = true ->
  scatter_all s (l1 ++ r :: l2) p = SPh (sp_pos p) (s r (sp_dir p)) (sp_xou p) (sp_prob p).
Proof.
  intros N T. unfold scatter_all. rewrite fold_left_app. cbn [fold_left].
  fold (scatter_all s l1 p). rewrite scatter_nobody by (intros x X; apply N, in_or_app; auto).
  assert (E : scatter_channel (s r) r p = SPh (sp_pos p) (s r (sp_dir p)) (sp_xou p) (sp_prob p)) by (unfold scatter_channel; now rewrite T). rewrite E.
  apply (scatter_nobody s l2). cbn [sp_xou]. intros x X. apply N, in_or_app. auto.
Qed.
Lemma nth_split_at {A} (l : list A) k x : nth_error l k = Some x -> exists l1 l2, l = l1 ++ x :: l2 /\ List.length l1 = k.
Proof. intros H. now apply nth_error_split. Qed.
Lemma spo_once opt pos args name channels l s k chan par rng n ph :
  simple_spos opt pos args name channels = Ok l -> NoDup channels -> nth_error channels k = Some chan -> nth_error l k = Some (par, rng) ->
  (n < List.length pos)%nat -> (n < 1000)%nat -> sp_xou ph = (p_offset par + Z.of_nat n)%Z ->
  takers (map snd l) (sp_xou ph) = 1%nat /\
  scatter_all s (map snd l) ph = SPh (sp_pos ph) (s rng (sp_dir ph)) (sp_xou ph) (sp_prob ph).
Proof.
  intros E ND K L NL N X. destruct (collectr_nth _ _ _ E) as [LL _].
  destruct (simple_spos_ranges _ _ _ _ _ _ E k chan K) as (par' & off & L' & D & O & _).
  rewrite L in L'. assert (P1 : par' = par) by congruence. assert (P2 : rng = (off, (off + 1000)%Z)) by congruence. subst par' rng. rewrite O in X.
  destruct (nth_split_at _ _ _ L) as (l1 & l2 & EL & K1).
  assert (OT : forall r, In r (map snd l1 ++ map snd l2) -> in_channel r (sp_xou ph) = false).
  { intros r R. apply in_app_or in R. assert (exists k', k' <> k /\ nth_error (map snd l) k' = Some r) as (k' & NK & R').
    { rewrite EL, map_app. cbn [map]. destruct R as [R|R]; apply In_nth_error in R as [j J].
      - exists j. assert (LJ : (j < List.length (map snd l1))%nat) by (apply nth_error_Some; congruence). rewrite nth_error_app1 by exact LJ. rewrite map_length in LJ. split; [lia|exact J].
      - exists (S k + j)%nat. split; [lia|]. rewrite nth_error_app2; rewrite map_length; [|lia]. replace (S k + j - List.length l1)%nat with (S j) by lia. exact J. }
    assert (LK : (k' < List.length channels)%nat) by (rewrite <- LL, <- (map_length snd l); apply nth_error_Some; congruence).
    destruct (nth_error channels k') as [c'|] eqn:C'; [|apply nth_error_None in C'; lia].
    destruct (simple_spos_ranges _ _ _ _ _ _ E k' c' C') as (p' & o' & LL' & D' & _). rewrite (map_nth_error snd _ _ LL') in R'. cbn in R'.
    assert (r = (o', (o' + 1000)%Z)) by congruence. subst r. destruct (in_channel (o', (o' + 1000)%Z) (sp_xou ph)) eqn:B; [|reflexivity]. exfalso.
    rewrite X in B. apply (range_own chan c' off o' (Z.of_nat n) D D') in B; [|lia]. subst c'. apply NK.
    apply (proj1 (NoDup_nth_error channels) ND); [exact LK|congruence]. }
  assert (IN : in_channel (off, (off + 1000)%Z) (sp_xou ph) = true) by (rewrite X; apply (range_own chan chan off off (Z.of_nat n) D D); [lia|reflexivity]).
  rewrite EL, map_app. cbn [map snd]. split; [|now apply scatter_one].
  unfold takers. rewrite filter_app, app_length. cbn [filter]. rewrite IN.
  assert (FN : forall q, (forall r, In r q -> in_channel r (sp_xou ph) = false) -> filter (fun r => in_channel r (sp_xou ph)) q = []).
  { induction q as [|r q IH]; intros H; [reflexivity|]. cbn. rewrite H by (cbn; auto). apply IH. intros r' Hr. apply H. cbn. auto. }
  rewrite !FN; [reflexivity| |]; intros r R; apply OT, in_or_app; auto.
Qed.
Lemma spo_missed opt pos args name channels l s ph :
  simple_spos opt pos args name channels = Ok l -> (sp_xou ph < 0)%Z -> scatter_all s (map snd l) ph = ph.
Proof.
  intros E X. apply scatter_nobody. intros r R. apply In_nth_error in R as [k K]. destruct (collectr_nth _ _ _ E) as [LL _].
  assert (LK : (k < List.length channels)%nat) by (rewrite <- LL, <- (map_length snd l); apply nth_error_Some; congruence).
  destruct (nth_error channels k) as [c|] eqn:C; [|apply nth_error_None in C; lia].
  destruct (simple_spos_ranges _ _ _ _ _ _ E k c C) as (p' & o' & L' & D' & _). rewrite (map_nth_error snd _ _ L') in K. assert (r = (o', (o' + 1000)%Z)) by (cbn in K; congruence). subst r.
  destruct (in_channel (o', (o' + 1000)%Z) (sp_xou ph)) eqn:B; [|reflexivity]. unfold in_channel in B. cbn [fst snd] in B. apply Bool.andb_true_iff in B as [B _]. apply Z.leb_le in B.
  destruct (offset_cases _ _ D') as [[_ ->]|[[_ ->]|[[_ ->]|[_ ->]]]]; lia.
Qed.

(** *** gratings *)
Lemma shift3_mul a b : mul4 (shift3 a) (shift3 b) = shift3 (add3 a b).
Proof. unfold shift3, shift_matrix. destruct a, b. unfold id4. vu. f_equal; f_equal; ring. Qed.
Lemma shift3_zero : shift3 zero3 = id4.
Proof. unfold shift3, shift_matrix, id4. reflexivity. Qed.
Lemma add_neg3 a : add3 a (neg3 a) = zero3.
Proof. destruct a. unfold zero3. vu. f_equal; ring. Qed.
Lemma shift3_cancel c m : mul4 (shift3 c) (mul4 (shift3_inv c) m) = m.
Proof. unfold shift3_inv. rewrite <- mul4_assoc, shift3_mul, add_neg3, shift3_zero. apply mul4_id_l. Qed.
Lemma shift3_app c m : affine m -> mul4 (shift3 c) m = M4 (b0 m) (b1 m) (b2 m) (hom (add3 c (tra m)) 1).
Proof.
  intros (W0 & W1 & W2 & W3). destruct m as [m0 m1 m2 m3]. destruct m0, m1, m2, m3, c. cbn in W0, W1, W2, W3. subst. unfold shift3, shift_matrix, id4, tra. vu. f_equal; f_equal; ring.
Qed.
Lemma shear_free_shift c m : shear_free m -> shear_free (mul4 (shift3 c) m).
Proof.
  intros (A & H). rewrite shift3_app by exact A. unfold shear_free. cbn [b0 b1 b2]. split; [|exact H].
  destruct A as (W0 & W1 & W2 & W3). unfold affine. cbn [b0 b1 b2 b3]. auto.
Qed.
Lemma shear_free_shift3 c : shear_free (shift3 c).
Proof. rewrite <- (mul4_id_r (shift3 c)). apply shear_free_shift, shear_free_id. Qed.
Lemma mirr_facet chan f : mul4 (mirr chan) (facet_pos4d f) =
  M4 (hom (flip chan (f_norm f)) 0) (hom (scale3 (f_x f / 2) (flip chan (f_disp f))) 0) (hom (scale3 (f_y f / 2) (flip chan (f_gbar f))) 0) (hom (flip chan (f_pos f)) 1).
Proof.
  destruct f as [[p1 p2 p3] [n1 n2 n3] [d1 d2 d3] [g1 g2 g3] fx fy mm num pd]. unfold mirr. fold (sx chan) (sy chan). unfold facet_pos4d, flip, compose, diag3. cbn [f_pos f_norm f_disp f_gbar f_x f_y].
  generalize (sx chan) (sy chan). intros a b. unfold zero3. vu. f_equal; f_equal; field.
Qed.
Lemma flip_dot chan a b : dot3 (flip chan a) (flip chan b) = dot3 a b.
Proof. unfold flip, sx, sy. destruct (has_char "m" chan), (has_char "2" chan); destruct a, b; vu; ring. Qed.
Lemma shear_free_facet chan f : good_facet f -> shear_free (mul4 (mirr chan) (facet_pos4d f)).
Proof.
  intros ((H0 & H1 & H2 & H01 & H02 & H12) & X & Y). cbn [a0 a1 a2] in *. rewrite mirr_facet. unfold shear_free. cbn [b0 b1 b2]. rewrite !xyz_hom.
  assert (N : forall v, dot3 v v = 1 -> flip chan v <> zero3). { intros v Hv E. rewrite <- (flip_dot chan) in Hv. rewrite E in Hv. unfold zero3 in Hv. vu. lra. }
  assert (N' : forall k v, k <> 0 -> dot3 v v = 1 -> scale3 k (flip chan v) <> zero3).
  { intros k v K Hv E. rewrite <- (flip_dot chan) in Hv. assert (Z : dot3 (scale3 k (flip chan v)) (scale3 k (flip chan v)) = k * k) by (transitivity (k * k * dot3 (flip chan v) (flip chan v)); [generalize (flip chan v); intros [x y z]; vu; ring|rewrite Hv; ring]).
    rewrite E in Z. unfold zero3 in Z. vu. assert (k * k = 0) by lra. apply Rmult_integral in H. tauto. }
  assert (D1 : forall k a b, dot3 a (scale3 k b) = k * dot3 a b) by (intros k [] []; vu; ring).
  assert (D2 : forall k a b, dot3 (scale3 k a) b = k * dot3 a b) by (intros k [] []; vu; ring).
  split; [unfold affine, hom; cbn; auto|]. split; [now apply N|]. split; [apply N'; [lra|auto]|]. split; [apply N'; [lra|auto]|].
  rewrite !D1, !D2, !flip_dot, H01, H02, H12. repeat split; ring.
Qed.

Lemma filter_map_pair {A B} (f : A -> bool) (g : A -> B) l : filter (fun d => f (fst d)) (combine l (map g l)) = map (fun a => (a, g a)) (filter f l).
Proof. induction l as [|a l IH]; [reflexivity|]. cbn. rewrite IH. destruct (f a); reflexivity. Qed.
Lemma window_eq offset data g i : make_window offset (combine data (map g data)) i =
  let fs := facets_of i data in let c := mean_pos (map g fs) in
  Window (shift3 c) (offset + match fs with [] => 0 | f :: _ => f_num f end) (map f_period fs) (map (fun f => mul4 (shift3_inv c) (g f)) fs).
Proof.
  unfold make_window. rewrite (filter_map_pair (fun f => Z.eqb (f_mm f) i) g). fold (facets_of i data). cbn zeta. set (fs := facets_of i data).
  rewrite !map_map. cbn [fst snd]. f_equal. destruct fs; reflexivity.
Qed.
Lemma cat_windows P offset chan data k i w : nth_error (sorted_set (map f_mm data)) k = Some i ->
  nth_error (snd (cat_from_mechanical P offset chan data)) k = Some w ->
  exists c, w_pos w = shift3 c /\ w_id w = (offset + match facets_of i data with [] => 0 | f :: _ => f_num f end)%Z /\ w_d w = map f_period (facets_of i data) /\
    w_grat w = map (fun f => mul4 (shift3_inv c) (mul4 (shift3_inv (petal_shift chan data)) (mul4 (mirr chan) (facet_pos4d f)))) (facets_of i data).
Proof.
  intros K W. unfold cat_from_mechanical in W. cbn [snd] in W. rewrite map_map in W. fold (petal_shift chan data) in W. rewrite (map_nth_error _ _ _ K) in W.
  rewrite window_eq in W. cbn zeta in W. set (c := mean_pos _) in W. exists c. assert (E : w = Window (shift3 c) (offset + match facets_of i data with [] => 0 | f :: _ => f_num f end) (map f_period (facets_of i data)) (map (fun f => mul4 (shift3_inv c) (mul4 (shift3_inv (petal_shift chan data)) (mul4 (mirr chan) (facet_pos4d f)))) (facets_of i data))) by congruence.
  rewrite E. auto.
Qed.
Lemma cat_positions P offset chan data wargs wname gargs gname : no_position wargs -> no_position gargs -> Forall good_facet data ->
  let pw := cat_from_mechanical P offset chan data in
  exists wes, generate_elements (petal_windows pw offset wargs wname) = Ok wes /\ List.length wes = List.length (snd pw) /\
  forall k i w, nth_error (sorted_set (map f_mm data)) k = Some i -> nth_error (snd pw) k = Some w ->
  exists we wp ges, nth_error wes k = Some we /\ e_pos we = Some wp /\ e_id we = (offset + Z.of_nat k)%Z /\
    generate_elements (window_gratings wp w gargs gname) = Ok ges /\ List.length ges = List.length (facets_of i data) /\
    forall j f, nth_error (facets_of i data) j = Some f -> exists ge, nth_error ges j = Some ge /\ nth_error (w_d w) j = Some (f_period f) /\
      e_id ge = (w_id w + Z.of_nat j)%Z /\
      e_pos ge = Some (mul4 (mul4 (mul4 (shift3 (petal_shift chan data)) P) (shift3_inv (petal_shift chan data))) (mul4 (mirr chan) (facet_pos4d f))).
Proof.
  intros NW NG GF pw.
  destruct (new_parallel_positions (fst pw) (map w_pos (snd pw)) wargs offset wname NW) as (wes & G & L & H).
  { rewrite Forall_map, Forall_forall. intros w W. apply In_nth_error in W as [k K].
    assert (LK : (k < List.length (snd pw))%nat) by (apply nth_error_Some; congruence). unfold pw, cat_from_mechanical in LK. cbn [snd] in LK. rewrite map_length in LK.
    destruct (nth_error (sorted_set (map f_mm data)) k) as [i|] eqn:I; [|apply nth_error_None in I; lia].
    destruct (cat_windows _ _ _ _ _ _ _ I K) as (c & -> & _). apply shear_free_shift3. }
  exists wes. split; [exact G|]. split; [rewrite L; apply map_length|]. intros k i w K W.
  destruct (cat_windows _ _ _ _ _ _ _ K W) as (c & WP & WI & WD & WG).
  destruct (H k (w_pos w) (map_nth_error _ _ _ W)) as (we & E1 & E2 & E3).
  set (wp := mul4 (fst pw) (w_pos w)) in *.
  destruct (new_parallel_positions wp (w_grat w) gargs (w_id w) gname NG) as (ges & G' & L' & H').
  { rewrite WG, Forall_map, Forall_forall. intros f F. apply filter_In in F as [F _]. rewrite Forall_forall in GF. do 2 apply shear_free_shift. apply shear_free_facet, GF, F. }
  exists we, wp, ges. split; [exact E1|]. split; [exact E2|]. split; [exact E3|]. split; [exact G'|]. split; [rewrite L', WG; apply map_length|].
  intros j f F. destruct (H' j (mul4 (shift3_inv c) (mul4 (shift3_inv (petal_shift chan data)) (mul4 (mirr chan) (facet_pos4d f))))) as (ge & A & B & C).
  { rewrite WG. apply (map_nth_error (fun f => mul4 (shift3_inv c) (mul4 (shift3_inv (petal_shift chan data)) (mul4 (mirr chan) (facet_pos4d f)))) _ _ F). }
  exists ge. split; [exact A|]. split; [rewrite WD; now apply map_nth_error|]. split; [exact C|]. rewrite B. unfold wp. rewrite WP. f_equal.
  rewrite mul4_assoc, shift3_cancel. unfold pw, cat_from_mechanical. cbn [fst]. fold (petal_shift chan data). now rewrite !mul4_assoc.
Qed.
Lemma shift_conj c s : mul4 (mul4 (shift3 c) (shift3 s)) (shift3_inv c) = shift3 s.
Proof. unfold shift3_inv. rewrite !shift3_mul. f_equal. destruct c, s. vu. f_equal; ring. Qed.

(** *** windows *)
Lemma ins_uniq_in z l x : In x (ins_uniq z l) <-> x = z \/ In x l.
Proof.
  induction l as [|y l IH]; cbn; [intuition|]. destruct (Z.ltb_spec z y); cbn; [intuition|]. destruct (Z.eqb_spec z y); cbn; [subst; intuition|]. rewrite IH. intuition.
Qed.
Lemma sorted_set_in l x : In x (sorted_set l) <-> In x l.
Proof. induction l as [|y l IH]; cbn; [tauto|]. rewrite ins_uniq_in, IH. intuition. Qed.
Inductive strict : list Z -> Prop := st_nil : strict [] | st_cons x l : (forall y, In y l -> (x < y)%Z) -> strict l -> strict (x :: l).
Lemma ins_uniq_strict z l : strict l -> strict (ins_uniq z l).
Proof.
  induction 1 as [|y l H S IH]; cbn; [constructor; [cbn; tauto|constructor]|].
  destruct (Z.ltb_spec z y); [constructor; [|now constructor]; intros x [<-|X]; [lia|specialize (H x X); lia]|].
  destruct (Z.eqb_spec z y); [now constructor|]. constructor; [|exact IH]. intros x X. apply ins_uniq_in in X as [->|X]; [lia|auto].
Qed.
Lemma sorted_set_strict l : strict (sorted_set l).
Proof. induction l; cbn; [constructor|]. now apply ins_uniq_strict. Qed.
Lemma strict_nth l : strict l -> forall i j a b, nth_error l i = Some a -> nth_error l j = Some b -> (i < j)%nat -> (a < b)%Z.
Proof.
  induction 1 as [|x l H S IH]; intros i j a b A B L; [destruct i; discriminate|]. destruct j as [|j]; [lia|]. cbn in B. destruct i as [|i]; cbn in A.
  - injection A as <-. apply H. now apply nth_error_In in B.
  - apply (IH i j); auto. lia.
Qed.
Lemma strict_NoDup l : strict l -> NoDup l.
Proof. induction 1 as [|x l H S IH]; constructor; auto. intros X. specialize (H x X). lia. Qed.
Lemma partition_keys {A} (key : A -> Z) ks l : NoDup ks -> (forall a, In a l -> In (key a) ks) ->
  Permutation (concat (map (fun k => filter (fun a => Z.eqb (key a) k) l) ks)) l.
Proof.
  intros ND. induction l as [|a l IH]; intros C.
  - cbn. induction ks as [|k ks IH]; [constructor|]. cbn. apply IH; [now inversion ND|cbn; tauto].
  - specialize (IH (fun x X => C x (or_intror X))). destruct (in_split (key a) ks (C a (or_introl eq_refl))) as (k1 & k2 & ->).
    assert (Q : forall ks', ~ In (key a) ks' -> map (fun k => filter (fun a => Z.eqb (key a) k) (a :: l)) ks' = map (fun k => filter (fun a => Z.eqb (key a) k) l) ks').
    { intros ks' N. apply map_ext_in. intros k K. cbn. destruct (Z.eqb_spec (key a) k); [subst; tauto|reflexivity]. }
    pose proof (NoDup_remove_2 _ _ _ ND) as N. rewrite map_app in *. cbn [map] in *. rewrite !Q by (intros X; apply N, in_or_app; auto).
    cbn [filter]. rewrite Z.eqb_refl. rewrite concat_app in *. cbn [concat] in *. rewrite <- app_comm_cons. apply Permutation_sym, Permutation_cons_app, Permutation_sym. exact IH.
Qed.
Lemma window_partition data : Permutation (concat (map (fun i => facets_of i data) (sorted_set (map f_mm data)))) data.
Proof. apply partition_keys; [apply strict_NoDup, sorted_set_strict|]. intros a A. apply sorted_set_in. now apply in_map. Qed.

Lemma aperture_height opt pos geom channels aps rect : apertures opt pos geom channels = Ok aps -> In rect aps -> z4 (center rect) = 12200.
Proof.
  unfold apertures. intros H I. destruct (zoom_to_cover_all_spos pos geom (11 / 10) (8 / 10)) as [z|]; [|discriminate]. cbn [bind] in H.
  destruct (collectr_nth _ _ _ H) as [L N]. apply In_nth_error in I. destruct I as [k K].
  destruct (nth_error channels k) as [chan|] eqn:C. 2:{ apply nth_error_None in C. assert (k < List.length aps)%nat by (apply nth_error_Some; congruence). lia. }
  destruct (N k chan C) as (b & B1 & B2). assert (b = rect) by congruence. subst b.
  destruct (lookup chan opt) as [ax|]; [|discriminate]. cbn [bind] in B2. destruct (rmid_spo pos) as [rm|]; [|discriminate]. cbn [bind] in B2.
  destruct (aperture_position rm chan ax) as [p|] eqn:A; [|discriminate]. cbn [bind] in B2. injection B2 as <-.
  assert (z3 p = 12200). { unfold aperture_position in A. destruct (if has_char "1" chan then _ else _) as [q|]; [|discriminate]. cbn [bind] in A. injection A as <-. reflexivity. }
  destruct p. cbn in *. exact H0.
Qed.
(** ** centers *)
Lemma sum_shift c l : fold_right add3 zero3 (map (fun v => add3 c v) l) = add3 (scale3 (INR (List.length l)) c) (fold_right add3 zero3 l).
Proof. induction l as [|v l IH]; [cbn; vring|]. cbn [map fold_right]. rewrite IH. change (List.length (v :: l)) with (S (List.length l)). rewrite S_INR. generalize (INR (List.length l)) (fold_right add3 zero3 l). clear. intros. vring. Qed.
Lemma mean_total l : l <> [] -> scale3 (INR (List.length l)) (mean_pos l) = sum3 (map tra l).
Proof.
  intros N. unfold mean_pos. assert (Z : INR (List.length l) <> 0) by (apply not_0_INR; destruct l; [congruence|cbn; lia]). generalize dependent (INR (List.length l)). intros r Z. generalize (sum3 (map tra l)). intros [x y z]. vu. f_equal; field; exact Z.
Qed.
Lemma centered l : Forall affine l -> sum3 (map (fun m => tra (mul4 (shift3_inv (mean_pos l)) m)) l) = zero3.
Proof.
  intros A. destruct l as [|m0 r]; [reflexivity|]. set (l := m0 :: r) in *.
  assert (E : map (fun m => tra (mul4 (shift3_inv (mean_pos l)) m)) l = map (fun v => add3 (neg3 (mean_pos l)) v) (map tra l)).
  { rewrite map_map. apply map_ext_in. intros m I. rewrite Forall_forall in A. unfold shift3_inv. rewrite (shift3_app _ m (A m I)). reflexivity. }
  rewrite E. unfold sum3. rewrite sum_shift, map_length. change (fold_right add3 zero3 (map tra l)) with (sum3 (map tra l)). rewrite <- (mean_total l) by discriminate. generalize (mean_pos l) (INR (List.length l)). clear. intros. vring.
Qed.
Lemma mirr_affine chan m : affine m -> affine (mul4 (mirr chan) m).
Proof. intros (A & B & C & D). destruct m as [[? ? ? ?] [? ? ? ?] [? ? ? ?] [? ? ? ?]]. cbn in A, B, C, D. subst. unfold mirr, affine. vu. cbn. repeat split; ring. Qed.
Lemma shift3_affine c m : affine m -> affine (mul4 (shift3 c) m).
Proof. intros A. rewrite (shift3_app c m A). destruct A as (A & B & C & _). repeat split; assumption. Qed.
Lemma facet_affine f : affine (facet_pos4d f). Proof. repeat split. Qed.
Lemma flip_center chan f : tra (mul4 (mirr chan) (facet_pos4d f)) = flip chan (f_pos f).
Proof. rewrite mirr_facet. destruct (flip chan (f_pos f)). reflexivity. Qed.
