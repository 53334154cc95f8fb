(** Properties C136 to C139: mirrors, windows and gratings of Arcus *)
From Coq Require Import String Ascii Permutation.
From Verif Require Import Base_Proofs Vec_Proofs Position_Proofs Placement_Proofs Rowland_Proofs Arcus_Proofs ArcusSpo_Proofs.
From Verif Require Import ArcusSpo_Model.
From Coq Require Import List Lra Lia.
Open Scope R_scope.

(** ** C136: every mirror is at its radius and clocking angle and its axes are along the optical axis, tangential and radial *)
Theorem C136_axes : forall geom i g, nth_error geom i = Some g -> exists m, nth_error (spo_pos4d geom) i = Some m /\
  center m = V4 (s_rmid g * sin (s_clock g)) (s_rmid g * cos (s_clock g)) 0 1 /\
  v_x m = scale4 (s_len g) (V4 0 0 1 0) /\
  v_y m = scale4 (s_az g / 2) (V4 (cos (s_clock g)) (- sin (s_clock g)) 0 0) /\
  v_z m = scale4 (36 * s_plate g / 2) (V4 (sin (s_clock g)) (cos (s_clock g)) 0 0).
Proof. exact spo_axes. Qed.
Print Assumptions C136_axes.
Theorem C136_radius : forall geom i g m, nth_error geom i = Some g -> nth_error (spo_pos4d geom) i = Some m ->
  norm3 (tra m) = Rabs (s_rmid g) /\ dot3 (tra m) (xyz (v_y m)) = 0.
Proof. exact spo_radius. Qed.
Print Assumptions C136_radius.
(** In each channel the mirrors are around the optical axis of the channel; channels without a 1 in the name are turned by 180 degrees. *)
Theorem C136_channel : forall opt geom args name chan ax par rng,
  spo_channel opt (spo_pos4d geom) args name chan = Ok (par, rng) -> dget chan opt = Some ax ->
  no_position args -> Forall (fun g => s_len g <> 0 /\ s_az g <> 0 /\ s_plate g <> 0) geom ->
  exists es, generate_elements par = Ok es /\ List.length es = List.length geom /\
  forall i g, nth_error geom i = Some g -> exists e m, nth_error es i = Some e /\ e_pos e = Some m /\
    e_id e = (fst rng + Z.of_nat i)%Z /\
    tra m = add3 (xyz ax) (V3 (chan_sign chan * (s_rmid g * sin (s_clock g))) (chan_sign chan * (s_rmid g * cos (s_clock g))) 12000).
Proof. exact spo_placed. Qed.
Print Assumptions C136_channel.
(** A mirror at radius 600 on the y axis: in channel 2 it is at negative y. *)
Definition spo1 := Spo 600 0 40 80 1 620 580.
Definition opt1 : dict v4 := [("1"%string, V4 5 300 0 1); ("2m"%string, V4 5 300 0 1)].
Example C136_example : exists par rng es e m, spo_channel opt1 (spo_pos4d [spo1]) [] (fun i => Obj i) "2m" = Ok (par, rng) /\
  generate_elements par = Ok es /\ nth_error es 0 = Some e /\ e_pos e = Some m /\ e_id e = 11000%Z /\ tra m = V3 5 (-300) 12000.
Proof.
  assert (C : exists par, spo_channel opt1 (spo_pos4d [spo1]) [] (fun i => Obj i) "2m" = Ok (par, (11000, 12000)%Z)) by (eexists; reflexivity).
  destruct C as [par C]. destruct (C136_channel opt1 [spo1] [] (fun i => Obj i) "2m" (V4 5 300 0 1) par _ C eq_refl) as (es & G & L & H).
  - unfold no_position. auto.
  - repeat constructor; cbn; lra.
  - destruct (H 0%nat spo1 eq_refl) as (e & m & E1 & E2 & E3 & E4). do 5 eexists. split; [exact C|]. split; [exact G|]. split; [exact E1|]. split; [exact E2|]. split; [exact E3|].
    rewrite E4. unfold chan_sign, add3. cbn. rewrite sin_0, cos_0. f_equal; ring.
Qed.

(** ** C137: the entrance window of a channel covers its mirrors *)
(** Partial: the centers of the mirrors have to be symmetric in x (code: the rectangle is centered on the optical axis). *)
Theorem C137_covers_partial : forall opt pos geom channels aps k chan ax rect i m q g,
  apertures opt pos geom channels = Ok aps -> nth_error channels k = Some chan -> dget chan opt = Some ax -> nth_error aps k = Some rect ->
  (exists xhi, vmax (map (fun p => x3 (tra p)) pos) = Ok xhi /\ vmin (map (fun p => x3 (tra p)) pos) = Ok (- xhi)) ->
  nth_error pos i = Some m -> In g geom -> 0 < s_az g -> s_inner g < s_outer g ->
  Rabs (x3 q - (x4 ax + chan_sign chan * x3 (tra m))) <= 11 / 10 * s_az g ->
  Rabs (y3 q - (y4 ax + chan_sign chan * y3 (tra m))) <= 8 / 10 * (s_outer g - s_inner g) ->
  covers rect q.
Proof. exact aperture_covers. Qed.
Print Assumptions C137_covers_partial.
Theorem C137_unknown : forall opt pos geom z rmid chan rest ax, zoom_to_cover_all_spos pos geom (11 / 10) (8 / 10) = Ok z ->
  rmid_spo pos = Ok rmid -> dget chan opt = Some ax ->
  has_char "1" chan = false -> has_char "2" chan = false -> apertures opt pos geom (chan :: rest) = Err ValueError.
Proof. exact aperture_unknown. Qed.
Print Assumptions C137_unknown.
(** All windows are at the same height above the focal plane, whatever the height of the optical axis in the configuration. *)
Theorem C137_height : forall opt pos geom channels aps rect, apertures opt pos geom channels = Ok aps -> In rect aps -> z4 (center rect) = 12200.
Proof. exact aperture_height. Qed.
Print Assumptions C137_height.
(** The largest and the smallest value are members of the list that bound all others. *)
Theorem C137_max : forall l m, vmax l = Ok m -> In m l /\ forall y, In y l -> y <= m.
Proof. intros l m H. split; [exact (vmax_in l m H)|intros y Y; exact (vmax_ge l m y H Y)]. Qed.
Theorem C137_min : forall l m, vmin l = Ok m -> In m l /\ forall y, In y l -> m <= y.
Proof. intros l m H. split; [exact (vmin_in l m H)|intros y Y; exact (vmin_le l m y H Y)]. Qed.
Print Assumptions C137_max.
Print Assumptions C137_min.
(** The ranges of the regular grid of gratings: symmetric in y, sorted in z, and half a mirror more than the centers. *)
Theorem C137_grid : forall pos geom chan yr zr, grid_ranges pos geom chan = Ok (yr, zr) ->
  fst yr = - snd yr /\ fst zr <= snd zr /\
  (exists xhi xlo yhi ylo daz dr, vmax (map (fun p => x3 (tra p)) pos) = Ok xhi /\ vmin (map (fun p => x3 (tra p)) pos) = Ok xlo /\
    vmax (map (fun p => y3 (tra p)) pos) = Ok yhi /\ vmin (map (fun p => y3 (tra p)) pos) = Ok ylo /\
    vmax (map s_az geom) = Ok daz /\ vmax (map (fun g => s_outer g - s_inner g) geom) = Ok dr /\
    snd yr = (xhi - xlo) / 2 + daz / 2 /\
    (0 <= dr -> chan_sign chan = 1 -> zr = (ylo - dr / 2, yhi + dr / 2)) /\
    (0 <= dr -> chan_sign chan = -1 -> zr = (- yhi - dr / 2, - ylo + dr / 2))).
Proof. exact grid_ranges_spec. Qed.
Print Assumptions C137_grid.
Definition at3 (x y : R) : m4 := translation2aff (V3 x y 0).
Lemma tra_at3 x y : tra (at3 x y) = V3 x y 0.
Proof. reflexivity. Qed.
Definition mirrors2 := [at3 (-100) 500; at3 100 600].
Lemma mirrors2_x : vmax (map (fun p => x3 (tra p)) mirrors2) = Ok 100 /\ vmin (map (fun p => x3 (tra p)) mirrors2) = Ok (- (100)).
Proof. cbn. rewrite Rmax_left, Rmin_right by lra. split; f_equal; lra. Qed.
Lemma mirrors2_y : vmax (map (fun p => y3 (tra p)) mirrors2) = Ok 600 /\ vmin (map (fun p => y3 (tra p)) mirrors2) = Ok 500.
Proof. cbn. rewrite Rmax_left, Rmin_right by lra. split; reflexivity. Qed.
Example C137_example : exists aps rect, apertures opt1 mirrors2 [spo1] ["1"%string; "2m"%string] = Ok aps /\ nth_error aps 1 = Some rect /\
  covers rect (V3 (5 - 100 - 88) (300 - 600) 0).
Proof.
  assert (Z : exists z, zoom_to_cover_all_spos mirrors2 [spo1] (11 / 10) (8 / 10) = Ok z) by (eexists; reflexivity). destruct Z as [z Z].
  assert (A : exists a b, apertures opt1 mirrors2 [spo1] ["1"%string; "2m"%string] = Ok [a; b]) by (unfold apertures; rewrite Z; do 2 eexists; reflexivity).
  destruct A as (a & b & A). exists [a; b], b. split; [exact A|]. split; [reflexivity|].
  apply (C137_covers_partial opt1 mirrors2 [spo1] _ _ 1 "2m" (V4 5 300 0 1) b 1 (at3 100 600) _ spo1 A eq_refl eq_refl eq_refl).
  - exists 100. exact mirrors2_x.
  - reflexivity.
  - cbn. auto.
  - cbn. lra.
  - cbn. lra.
  - unfold chan_sign. cbn. unfold Rabs. destruct (Rcase_abs _); lra.
  - unfold chan_sign. cbn. unfold Rabs. destruct (Rcase_abs _); lra.
Qed.
Example C137_grid_example : exists yr, grid_ranges mirrors2 [spo1] "2m" = Ok (yr, (-620, -480)).
Proof.
  assert (G : exists yr zr, grid_ranges mirrors2 [spo1] "2m" = Ok (yr, zr)) by (do 2 eexists; reflexivity). destruct G as (yr & zr & G). exists yr. rewrite G.
  destruct (C137_grid _ _ _ _ _ G) as (_ & _ & xhi & xlo & yhi & ylo & daz & dr & X1 & X2 & Y1 & Y2 & D1 & D2 & _ & _ & Z).
  destruct mirrors2_y as [M1 M2]. assert (yhi = 600) by congruence. assert (ylo = 500) by congruence. subst.
  assert (dr = 40) by (cbn in D2; injection D2 as <-; lra). subst. rewrite Z by (unfold chan_sign; cbn; lra). do 2 f_equal. f_equal; lra.
Qed.
(** Without the symmetry the mirrors can be outside: one mirror 100 mm from the axis, 80 mm wide. *)
Theorem C137_offset_refuted : exists aps rect, apertures opt1 [at3 100 500] [spo1] ["1"%string] = Ok aps /\ nth_error aps 0 = Some rect /\
  ~ covers rect (add3 (xyz (V4 5 300 0 1)) (tra (at3 100 500))).
Proof.
  assert (E : exists z, zoom_to_cover_all_spos [at3 100 500] [spo1] (11 / 10) (8 / 10) = Ok z /\ y3 z = 88).
  { eexists. split; [reflexivity|]. cbn. lra. }
  destruct E as (z & Z & Y). assert (Q : exists a, apertures opt1 [at3 100 500] [spo1] ["1"%string] = Ok [a] /\ x4 (center a) = 5 /\ x4 (v_y a) = y3 z /\ x4 (v_z a) = 0).
  { unfold apertures. rewrite Z. eexists. split; [reflexivity|]. unfold center, v_y, v_z, compose, lin, xyz2zxy, diag3. destruct z. vu. cbn. lra. }
  destruct Q as (a & A & C & V & W). exists [a], a. split; [exact A|]. split; [reflexivity|]. intros (p & q & P1 & P2 & P3 & _).
  rewrite C, V, W, Y in P3. cbn in P3. lra.
Qed.
Print Assumptions C137_offset_refuted.

(** ** C138: the scatter of a channel takes the photons from the mirrors of that channel and nothing else *)
(** Partial: for up to 1000 mirrors in a channel. *)
Theorem C138_once_partial : forall opt pos args name channels l s k chan par rng n ph,
  simple_spos opt pos args name channels = Ok l -> NoDup channels -> nth_error channels k = Some chan -> nth_error l k = Some (par, rng) ->
  (n < List.length pos)%nat -> (n < 1000)%nat -> sp_xou ph = (p_offset par + Z.of_nat n)%Z ->
  takers (map snd l) (sp_xou ph) = 1%nat /\
  scatter_all s (map snd l) ph = SPh (sp_pos ph) (s rng (sp_dir ph)) (sp_xou ph) (sp_prob ph).
Proof. exact spo_once. Qed.
Print Assumptions C138_once_partial.
(** Photons that miss all mirrors are not scattered, and the mounting absorbs exactly these. *)
Theorem C138_missed : forall opt pos args name channels l s ph,
  simple_spos opt pos args name channels = Ok l -> (sp_xou ph < 0)%Z -> scatter_all s (map snd l) ph = ph.
Proof. exact spo_missed. Qed.
Print Assumptions C138_missed.
Theorem C138_mounting : forall ph, sp_prob (spomounting ph) = (if (sp_xou ph <? 0)%Z then 0 else sp_prob ph) /\
  sp_pos (spomounting ph) = sp_pos ph /\ sp_dir (spomounting ph) = sp_dir ph /\ sp_xou (spomounting ph) = sp_xou ph.
Proof. intros ph. repeat split. Qed.
Print Assumptions C138_mounting.
Definition halfdir : Z * Z -> v4 -> v4 := fun r d => scale4 (IZR (fst r)) d.
Example C138_example : exists l, simple_spos opt1 mirrors2 [] (fun i => Obj i) ["1"%string; "2m"%string] = Ok l /\
  scatter_all halfdir (map snd l) (SPh (V4 0 0 0 1) (V4 0 0 1 0) 11001 1) = SPh (V4 0 0 0 1) (halfdir (11000, 12000)%Z (V4 0 0 1 0)) 11001 1.
Proof.
  assert (E : exists p q, simple_spos opt1 mirrors2 [] (fun i => Obj i) ["1"%string; "2m"%string] = Ok [(p, (0, 1000)%Z); (q, (11000, 12000)%Z)] /\ p_offset q = 11000%Z) by (do 2 eexists; split; reflexivity).
  destruct E as (p & q & E & O). eexists. split; [exact E|].
  apply (C138_once_partial opt1 mirrors2 [] (fun i => Obj i) _ _ halfdir 1 "2m" q (11000, 12000)%Z 1 (SPh (V4 0 0 0 1) (V4 0 0 1 0) 11001 1) E); try reflexivity.
  - repeat constructor; cbn; intuition discriminate.
  - cbn. lia.
  - lia.
  - rewrite O. reflexivity.
Qed.
(** With more mirrors the numbers of two channels are the same: mirror 1000 of channel 1 counts as mirror 0 of channel 2. *)
Theorem C138_many_refuted : forall opt ax1 ax2 pos args name, dget "1"%string opt = Some ax1 -> dget "2"%string opt = Some ax2 ->
  exists l p q, simple_spos opt pos args name ["1"%string; "2"%string] = Ok l /\ map snd l = [p; q] /\
  forall s ph, sp_xou ph = (0 + 1000)%Z -> sp_dir (scatter_all s (map snd l) ph) = s q (sp_dir ph).
Proof.
  intros opt ax1 ax2 pos args name E1 E2. unfold simple_spos. cbn [collectr]. unfold spo_channel, lookup. rewrite E1, E2. cbn [bind dget id_num_offset String.eqb Ascii.eqb Bool.eqb].
  do 3 eexists. split; [reflexivity|]. cbn [map snd]. split; [reflexivity|]. intros s ph X. unfold scatter_all. cbn [fold_left]. unfold scatter_channel, in_channel. cbn [fst snd]. rewrite X. cbn.
  rewrite X. reflexivity.
Qed.
Print Assumptions C138_many_refuted.

(** ** C139: gratings from the mechanical model *)
Theorem C139_general : forall P offset chan data wargs wname gargs gname, no_position wargs -> no_position gargs -> Forall good_facet data ->
  let pw := cat_from_mechanical P offset chan data in
  exists wes, generate_elements (petal_windows pw offset wargs wname) = Ok wes /\ List.length wes = List.length (snd pw) /\
  forall k i w, nth_error (sorted_set (map f_mm data)) k = Some i -> nth_error (snd pw) k = Some w ->
  exists we wp ges, nth_error wes k = Some we /\ e_pos we = Some wp /\ e_id we = (offset + Z.of_nat k)%Z /\
    generate_elements (window_gratings wp w gargs gname) = Ok ges /\ List.length ges = List.length (facets_of i data) /\
    forall j f, nth_error (facets_of i data) j = Some f -> exists ge, nth_error ges j = Some ge /\ nth_error (w_d w) j = Some (f_period f) /\
      e_id ge = (w_id w + Z.of_nat j)%Z /\
      e_pos ge = Some (mul4 (mul4 (mul4 (shift3 (petal_shift chan data)) P) (shift3_inv (petal_shift chan data))) (mul4 (mirr chan) (facet_pos4d f))).
Proof. exact cat_positions. Qed.
Print Assumptions C139_general.
(** For the petals of Arcus: each grating is at the place and has the axes of the mechanical model, mirrored in x and y as the channel needs,
    relative to the optical axis of the channel. *)
Theorem C139_placed : forall ax offset chan data wargs wname gargs gname, w4 ax = 1 -> no_position wargs -> no_position gargs -> Forall good_facet data ->
  let pw := cat_from_mechanical (cat_gratings_pos ax) offset chan data in
  exists wes, generate_elements (petal_windows pw offset wargs wname) = Ok wes /\
  forall k i w, nth_error (sorted_set (map f_mm data)) k = Some i -> nth_error (snd pw) k = Some w ->
  exists we wp ges, nth_error wes k = Some we /\ e_pos we = Some wp /\ generate_elements (window_gratings wp w gargs gname) = Ok ges /\
    forall j f, nth_error (facets_of i data) j = Some f -> exists ge, nth_error ges j = Some ge /\
      e_pos ge = Some (M4 (hom (flip chan (f_norm f)) 0) (hom (scale3 (f_x f / 2) (flip chan (f_disp f))) 0)
        (hom (scale3 (f_y f / 2) (flip chan (f_gbar f))) 0) (hom (add3 (xyz ax) (flip chan (f_pos f))) 1)).
Proof.
  intros ax offset chan data wargs wname gargs gname W NW NG GF pw.
  destruct (C139_general (cat_gratings_pos ax) offset chan data wargs wname gargs gname NW NG GF) as (wes & G & _ & H). exists wes. split; [exact G|].
  intros k i w K Wk. destruct (H k i w K Wk) as (we & wp & ges & A & B & _ & C & _ & D). exists we, wp, ges. repeat split; auto. intros j f F.
  destruct (D j f F) as (ge & E1 & _ & _ & E2). exists ge. split; [exact E1|]. rewrite E2. f_equal.
  assert (S : cat_gratings_pos ax = shift3 (xyz ax)) by (destruct ax as [x y z w']; cbn in W; subst; reflexivity). rewrite S, shift_conj.
  rewrite shift3_app; rewrite mirr_facet; [reflexivity|unfold affine, hom; cbn; auto].
Qed.
Print Assumptions C139_placed.
(** Each grating is in exactly one window; windows are in order of the mirror module they belong to. *)
Theorem C139_partition : forall data, Permutation (concat (map (fun i => facets_of i data) (sorted_set (map f_mm data)))) data.
Proof. exact window_partition. Qed.
Print Assumptions C139_partition.
Theorem C139_windows_sorted : forall l i j a b, nth_error (sorted_set l) i = Some a -> nth_error (sorted_set l) j = Some b -> (i < j)%nat -> (a < b)%Z.
Proof. intros l. exact (strict_nth _ (sorted_set_strict l)). Qed.
Print Assumptions C139_windows_sorted.
(** Windows and petals are placed in the middle: the places of the gratings relative to their window add up to zero, and the petal is shifted to the mean of the places of all its gratings in the mechanical model. *)
Theorem C139_centers : forall P offset chan data, let pw := cat_from_mechanical P offset chan data in
  (forall w, In w (snd pw) -> fold_right add3 zero3 (map tra (w_grat w)) = zero3) /\
  (data <> [] -> exists c, fst pw = mul4 (aff id3 c) P /\ scale3 (INR (List.length data)) c = fold_right add3 zero3 (map (fun f => flip chan (f_pos f)) data)).
Proof.
  intros P offset chan data pw. split.
  - intros w I. unfold pw, cat_from_mechanical in I. cbn [snd] in I. rewrite map_map in I. apply in_map_iff in I. destruct I as (i & <- & _). rewrite window_eq. cbn zeta. cbn [w_grat]. rewrite map_map.
    set (g := fun f => mul4 (shift3_inv _) (mul4 (mirr chan) (facet_pos4d f))). rewrite <- (map_map g (fun m => tra (mul4 (shift3_inv (mean_pos (map g (facets_of i data)))) m))). apply centered.
    apply Forall_map, Forall_forall. intros f _. apply shift3_affine, mirr_affine, facet_affine.
  - intros N. exists (petal_shift chan data). split; [unfold pw, cat_from_mechanical; cbn [fst]; f_equal; unfold shift3, shift_matrix, petal_shift; generalize (mean_pos (map (fun f => mul4 (mirr chan) (facet_pos4d f)) data)); clear; intros [? ? ?]; reflexivity|].
    unfold petal_shift. replace (List.length data) with (List.length (map (fun f => mul4 (mirr chan) (facet_pos4d f)) data)) by apply map_length. rewrite mean_total by (destruct data; [congruence|discriminate]).
    unfold sum3. rewrite map_map. f_equal. apply map_ext. intros f. apply flip_center.
Qed.
Print Assumptions C139_centers.
(** The number of a grating is right if the gratings in a window are numbered without gaps. *)
Theorem C139_ids_partial : forall P offset chan data k i w first j f, nth_error (sorted_set (map f_mm data)) k = Some i ->
  nth_error (snd (cat_from_mechanical P offset chan data)) k = Some w -> nth_error (facets_of i data) 0 = Some first ->
  f_num f = (f_num first + Z.of_nat j)%Z -> (w_id w + Z.of_nat j)%Z = (offset + f_num f)%Z.
Proof.
  intros P offset chan data k i w first j f K W F N. destruct (cat_windows _ _ _ _ _ _ _ K W) as (c & _ & -> & _). destruct (facets_of i data) as [|g r]; [discriminate|].
  cbn in F. injection F as <-. lia.
Qed.
Print Assumptions C139_ids_partial.
Definition facet1 (mm num : Z) (x : R) : facet := Facet (V3 x 400 11800) (V3 0 0 1) (V3 1 0 0) (V3 0 1 0) 27 28 mm num (1 / 5000).
Lemma good_facet1 mm num x : good_facet (facet1 mm num x).
Proof. unfold good_facet, orthonormal. cbn. unfold dot3. cbn. repeat split; lra. Qed.
Example C139_example : exists wes, generate_elements (petal_windows (cat_from_mechanical (cat_gratings_pos (V4 300 0 0 1)) 1000 "2" [facet1 7 3 10; facet1 5 1 20; facet1 7 4 30]) 1000 [] (fun i => Obj i)) = Ok wes /\
  exists we wp w ges ge, nth_error wes 1 = Some we /\ e_pos we = Some wp /\ generate_elements (window_gratings wp w [] (fun i => Obj i)) = Ok ges /\
  nth_error ges 1 = Some ge /\ e_pos ge = Some (M4 (V4 0 0 1 0) (V4 (-27 / 2) 0 0 0) (V4 0 (-28 / 2) 0 0) (V4 270 (-400) 11800 1)).
Proof.
  set (data := [facet1 7 3 10; facet1 5 1 20; facet1 7 4 30]).
  destruct (C139_placed (V4 300 0 0 1) 1000 "2" data [] (fun i => Obj i) [] (fun i => Obj i) eq_refl) as (wes & G & H).
  1, 2: unfold no_position; auto. { repeat constructor; apply good_facet1. }
  exists wes. split; [exact G|]. assert (W : exists w, nth_error (snd (cat_from_mechanical (cat_gratings_pos (V4 300 0 0 1)) 1000 "2" data)) 1 = Some w) by (eexists; reflexivity).
  destruct W as [w W]. destruct (H 1%nat 7%Z w eq_refl W) as (we & wp & ges & A & B & C & D). destruct (D 1%nat (facet1 7 4 30) eq_refl) as (ge & E1 & E2).
  exists we, wp, w, ges, ge. repeat split; auto. rewrite E2. f_equal. unfold flip, sx, sy. cbn. unfold hom, scale3, add3. cbn. f_equal; f_equal; lra.
Qed.
(** A gap in the numbers: the second grating in a window has number 7 but gets 6. *)
Theorem C139_ids_refuted : exists wes we wp w ges ge, let data := [facet1 2 5 10; facet1 2 7 40] in
  generate_elements (petal_windows (cat_from_mechanical id4 0 "1m" data) 0 [] (fun i => Obj i)) = Ok wes /\ nth_error wes 0 = Some we /\
  nth_error (snd (cat_from_mechanical id4 0 "1m" data)) 0 = Some w /\ e_pos we = Some wp /\
  generate_elements (window_gratings wp w [] (fun i => Obj i)) = Ok ges /\ nth_error ges 1 = Some ge /\ e_id ge = 6%Z.
Proof.
  set (data := [facet1 2 5 10; facet1 2 7 40]).
  destruct (C139_general id4 0 "1m" data [] (fun i => Obj i) [] (fun i => Obj i)) as (wes & G & _ & H).
  1, 2: unfold no_position; auto. { repeat constructor; apply good_facet1. }
  assert (W : exists w, nth_error (snd (cat_from_mechanical id4 0 "1m" data)) 0 = Some w /\ w_id w = 5%Z) by (eexists; split; reflexivity).
  destruct W as (w & W & I). destruct (H 0%nat 2%Z w eq_refl W) as (we & wp & ges & A & B & _ & C & _ & D). destruct (D 1%nat (facet1 2 7 40) eq_refl) as (ge & E1 & _ & E2 & _).
  exists wes, we, wp, w, ges, ge. cbv zeta. repeat split; auto. rewrite E2, I. reflexivity.
Qed.
Print Assumptions C139_ids_refuted.
