(** Theorems about the HETG and the simple mirror of Chandra: C153 - C155 *)
From Coq Require Import Ascii.
From Verif Require Import Base_Proofs Vec_Proofs Coords_Proofs Plane_Proofs Position_Proofs Cylinder_Proofs Placement_Proofs Placement_Props Grating_Proofs Grating_Props Aperture_Proofs Lens_Proofs Bend_Proofs Hetg_Proofs.
Open Scope R_scope.
Open Scope string_scope.

(** ** C153: positions of the facets *)
(** The structure can be made exactly when every location in the table starts with a digit. *)
Theorem C153_total : forall pos4d name table, (exists p, hetg pos4d name table = Ok p) <-> forall f, In f table -> exists n, ring f = Ok n.
Proof.
  intros pos4d name table. rewrite <- facet_positions_total. unfold hetg. destruct (facet_positions table) as [ps|e]; cbn [bind]; split; intros (p & H); try discriminate; eauto.
Qed.
Print Assumptions C153_total.
(** Facet i is element i of the structure. Its center is the center in the file, shifted along the optical axis by 338.209 inch and by the
    position [u] of the structure as a whole; its axes are the normal and the two edges in the file, and its half sizes are half of 1.035 inch
    for rings 1 to 3 and half of 0.92 inch for all other rings. The hinge has no influence. *)
(** the ring is the number that the first character of the location stands for; other characters, or an empty location, are errors *)
Theorem C153_ring : forall f c rest, f_loc f = String c rest ->
  (forall k, (k <= 9)%nat -> c = ascii_of_nat (48 + k) -> ring f = Ok (Z.of_nat k)) /\ ((forall k, (k <= 9)%nat -> c <> ascii_of_nat (48 + k)) -> ring f = Err ValueError).
Proof. exact ring_digit. Qed.
Print Assumptions C153_ring.
Theorem C153_ring_empty : forall f, f_loc f = EmptyString -> ring f = Err IndexError.
Proof. intros f E. unfold ring. now rewrite E. Qed.
Print Assumptions C153_ring_empty.
(** the hinge, around which the gratings are turned in and out, is 650 mm from the optical axis, 8618 mm before the focus, and 60 degrees away from the z axis towards negative y *)
Theorem C153_hinge : x3 hinge = 8618 /\ y3 hinge * y3 hinge + z3 hinge * z3 hinge = 650 * 650 /\ z3 hinge = 325 /\ y3 hinge < 0.
Proof. exact hinge_spec. Qed.
Print Assumptions C153_hinge.
(** ... it is where the origin of the structure is mapped to *)
Theorem C153_hinge_origin : forall u name table p, hetg (translation2aff u) name table = Ok p -> app4 (p_pos4d p) (V4 0 0 0 1) = V4 (x3 hinge + x3 u) (y3 hinge + y3 u) (z3 hinge + z3 u) 1.
Proof.
  intros u name table p H. unfold hetg in H. destruct (facet_positions table) as [ps|]; [|discriminate]. cbn [bind] in H. injection H as <-. unfold move_center, new_parallel. cbn [p_pos4d].
  generalize hinge. intros h. unfold translation2aff, aff. destruct h, u. vu. cbn. f_equal; ring.
Qed.
Print Assumptions C153_hinge_origin.
Theorem C153_facets_partial : forall u name table p, Forall good_row table -> hetg (translation2aff u) name table = Ok p ->
  exists es, generate_elements p = Ok es /\ List.length es = List.length table /\
  forall i f, nth_error table i = Some f -> exists e m n, nth_error es i = Some e /\ e_id e = Z.of_nat i /\ e_pos e = Some m /\ ring f = Ok n /\
    center m = hom (add3 (add3 u (f_c f)) (V3 (338209 / 1000 * 254 / 10) 0 0)) 1 /\
    plane_bases m = Some (hom (f_uxf f) 0, hom (f_uyf f) 0, hom (f_u f) 0) /\
    let half := (if (n <=? 3)%Z then 1035 / 1000 else 920 / 1000) * 254 / 10 / 2 in
    norm3 (xyz (v_y m)) = half /\ norm3 (xyz (v_z m)) = half.
Proof.
  intros u name table p G H. destruct (hetg_elements u name table p G H) as (es & ES & L & _ & _ & P). exists es. split; [exact ES|]. split; [exact L|].
  intros i f F. destruct (P i f F) as (e & z & E & I & FZ & Z & Po). assert (Gf : good_row f) by (rewrite Forall_forall in G; apply G; eapply nth_error_In; eauto).
  destruct Gf as (O & _). unfold facet_zoom in FZ. destruct (ring f) as [n|] eqn:R; [|discriminate]. cbn [bind] in FZ.
  assert (HZ : exists h, z = V3 1 h h /\ h = (if (n <=? 3)%Z then 1035 / 1000 else 920 / 1000) * 254 / 10 / 2).
  { destruct (n <=? 3)%Z; [exists meg_size|exists heg_size]; (split; [congruence|unfold meg_size, heg_size; lra]). }
  destruct HZ as (h & -> & Eh). assert (Ph : 0 < h) by (rewrite Eh; destruct (n <=? 3)%Z; lra).
  exists e, (compose (add3 u (add3 (f_c f) hess_offset)) (M3 (f_u f) (f_uxf f) (f_uyf f)) (V3 1 h h)), n. repeat (split; [assumption || reflexivity|]).
  split; [rewrite compose_cols; unfold center; cbn [b3]; f_equal; unfold hess_offset; destruct u, (f_c f); vu; f_equal; lra|].
  split; [now apply compose_axes; try lra|]. cbv zeta. rewrite <- Eh. rewrite compose_cols. unfold v_y, v_z. cbn [b1 b2]. rewrite !xyz_hom, !norm3_scale, Rabs_pos_eq by lra.
  destruct O as (_ & X & Y & _). apply norm3_1 in X. apply norm3_1 in Y. cbn [a1 a2] in *. rewrite X, Y. split; ring.
Qed.
Print Assumptions C153_facets_partial.
(** At any position of the structure the facets are those of the structure in the origin, moved by the position around the hinge: first from the hinge to the origin, then by the position, then back. *)
Theorem C153_position : forall P name table p p0, Forall good_row table -> hetg P name table = Ok p -> hetg id4 name table = Ok p0 ->
  exists es es0, generate_elements p = Ok es /\ generate_elements p0 = Ok es0 /\ List.length es = List.length table /\ List.length es0 = List.length table /\
  forall i, (i < List.length table)%nat -> exists e e0 m m0, nth_error es i = Some e /\ nth_error es0 i = Some e0 /\ e_pos e = Some m /\ e_pos e0 = Some m0 /\
    m = mul4 (translation2aff hinge) (mul4 P (mul4 (translation2aff (neg3 hinge)) m0)).
Proof. exact hetg_moved. Qed.
Print Assumptions C153_position.
(** So a structure that is turned, but not shifted, has its facets somewhere else than the elements of any other structure would be. *)
Theorem C153_hinge_refuted : ~ (forall P name table p p0 es es0 i e e0 m m0, Forall good_row table -> hetg P name table = Ok p -> hetg id4 name table = Ok p0 -> generate_elements p = Ok es -> generate_elements p0 = Ok es0 ->
  nth_error es i = Some e -> nth_error es0 i = Some e0 -> e_pos e = Some m -> e_pos e0 = Some m0 -> m = mul4 P m0).
Proof.
  intros H. set (f := Facet "3A1"%string zero3 (V3 1 0 0) (V3 0 1 0) (V3 0 0 1) (V3 0 0 1)).
  assert (G : Forall good_row [f]) by (constructor; [|constructor]; unfold good_row, f, orthonormal, rotation; cbn; repeat split; vu; try (f_equal; ring); ring).
  set (P := M4 (V4 (-1) 0 0 0) (V4 0 (-1) 0 0) (V4 0 0 1 0) (V4 0 0 0 1)).
  assert (T : forall Q, exists p, hetg Q (fun _ => Num 0) [f] = Ok p) by (intros Q; apply C153_total; intros g [<- |[]]; exists 3%Z; reflexivity).
  destruct (T P) as (p & Hp). destruct (T id4) as (p0 & Hp0). destruct (C153_position P (fun _ => Num 0) [f] p p0 G Hp Hp0) as (es & es0 & E & E0 & _ & _ & N).
  destruct (N 0%nat) as (e & e0 & m & m0 & Ne & Ne0 & M & M0 & Q); [cbn; lia|]. pose proof (H _ _ _ _ _ _ _ _ _ _ _ _ G Hp Hp0 E E0 Ne Ne0 M M0) as K.
  assert (A : w4 (b3 m0) = 1).
  { destruct (hetg_elements_any id4 _ _ _ G Hp0) as (es' & E' & _ & _ & _ & N'). assert (es' = es0) by congruence. subst es'. destruct (N' 0%nat f eq_refl) as (e' & z & Ne' & _ & _ & _ & M'). assert (e' = e0) by congruence. subst e'.
    rewrite M' in M0. injection M0 as <-. unfold compose, translation2aff. rewrite mul4_id_r, !aff_mul. reflexivity. }
  rewrite K in Q. apply (f_equal (fun q => x4 (b3 q))) in Q. revert Q A. generalize C153_hinge. intros (Hx & _). revert Hx. destruct hinge as [h1 h2 h3]. unfold P, translation2aff, aff, id3, neg3, hom. cbn. destruct m0 as [? ? ? []]. unfold mul4; vu; cbn. intros -> Q A. lra.
Qed.
Print Assumptions C153_hinge_refuted.
(** Every facet has its own groove angle and name; it has the period of its row if the table has 336 rows. *)
Theorem C153_arguments_partial : forall P name table p es i f e, Forall good_row table -> hetg P name table = Ok p -> generate_elements p = Ok es ->
  nth_error table i = Some f -> nth_error es i = Some e ->
  dget "groove_angle" (e_args e) = Some (Num (groove_angle f)) /\ dget "name" (e_args e) = Some (Obj i) /\
  (List.length table = 336%nat -> dget "d" (e_args e) = Some (Num (if (i <? 192)%nat then 400195 / 100 / 10000000 else 200081 / 100 / 10000000))) /\
  (List.length table <> 336%nat -> dget "d" (e_args e) = Some (Lst (map Num periods))).
Proof.
  intros P name table p es i f e G H ES F E. destruct (hetg_elements_any P name table p G H) as (es' & ES' & L & PA & PL & _). assert (es' = es) by congruence. subst es'.
  assert (Hi : (i < List.length table)%nat) by (apply nth_error_Some; congruence).
  split; [|split; [|split]].
  - rewrite (C15_distributed p es i e "groove_angle" (Lst (map (fun f => Num (groove_angle f)) table)) ES E); try discriminate; [|rewrite PA; reflexivity].
    rewrite map_length, PL, Nat.eqb_refl. f_equal. apply nth_error_nth. rewrite nth_error_map, F. reflexivity.
  - rewrite (C15_distributed p es i e "name" (Lst (map Obj (seq 0 (List.length table)))) ES E); try discriminate; [|rewrite PA; reflexivity].
    rewrite map_length, seq_length, PL, Nat.eqb_refl. f_equal. apply nth_error_nth. rewrite nth_error_map, (nth_error_seq _ _ 0 Hi). reflexivity.
  - intros T. rewrite (C15_distributed p es i e "d" (Lst (map Num periods)) ES E); try discriminate; [|rewrite PA; reflexivity].
    rewrite map_length, PL, periods_length, T. change (Nat.eqb 336 336) with true. cbv iota. f_equal. apply nth_error_nth. rewrite nth_error_map. destruct (periods_nth i) as [A B].
    destruct (i <? 192)%nat eqn:C; [apply Nat.ltb_lt in C; rewrite (A C); reflexivity|apply Nat.ltb_ge in C; rewrite B by lia; reflexivity].
  - intros T. rewrite (C15_distributed p es i e "d" (Lst (map Num periods)) ES E); try discriminate; [|rewrite PA; reflexivity].
    rewrite map_length, PL, periods_length. destruct (Nat.eqb_spec 336 (List.length table)); [congruence|reflexivity].
Qed.
Print Assumptions C153_arguments_partial.
(** For a table with the rings of the file the large facets have the long period and the small facets the short one. *)
Theorem C153_period_of_size : forall table i f n, like_file table -> nth_error table i = Some f -> ring f = Ok n ->
  List.length table = 336%nat /\ ((n <=? 3)%Z = (i <? 192)%nat).
Proof.
  intros table i f n L F R. unfold like_file in L. assert (LL : List.length table = 336%nat) by (rewrite <- (map_length ring), L, map_length; apply rings_length). split; [exact LL|].
  assert (N : nth_error hess_rings i = Some n).
  { assert (X : nth_error (map ring table) i = Some (Ok n)) by (rewrite nth_error_map, F; cbn; congruence). rewrite L, nth_error_map in X. destruct (nth_error hess_rings i) as [k|]; cbn in X; congruence. }
  destruct (rings_nth i n N) as [[A B]|[A B]].
  - rewrite (proj2 (Z.leb_le n 3) B). symmetry. now apply Nat.ltb_lt.
  - rewrite (proj2 (Z.leb_gt n 3) B). symmetry. apply Nat.ltb_ge. lia.
Qed.
Print Assumptions C153_period_of_size.
(** A facet of ring [n] with lines at an angle *)
Definition demo_row (n : nat) : facet := Facet (String (ascii_of_nat (48 + n)) "A1") (V3 0 (100 * INR n) 0) (V3 1 0 0) (V3 0 1 0) (V3 0 0 1) (V3 0 (3 / 5) (4 / 5)).
Definition demo_table : list facet := (repeat (demo_row 1) 108 ++ repeat (demo_row 3) 84 ++ repeat (demo_row 4) 84 ++ repeat (demo_row 6) 60)%list.
Lemma map_rep {A B} (f : A -> B) x n : map f (repeat x n) = repeat (f x) n.
Proof. induction n; cbn; congruence. Qed.
Lemma demo_good n : good_row (demo_row n).
Proof. unfold good_row, demo_row; cbn. unfold orthonormal; vu; repeat split; try lra. f_equal; ring. Qed.
Example C153_example : like_file demo_table /\ Forall good_row demo_table /\ (exists p, hetg (translation2aff (V3 0 0 5)) Obj demo_table = Ok p).
Proof.
  split; [|split].
  - unfold like_file, demo_table, hess_rings. rewrite !map_app, !map_rep. reflexivity.
  - unfold demo_table. rewrite !Forall_app. repeat split; apply Forall_forall; intros f F; apply repeat_spec in F; rewrite F; apply demo_good.
  - apply C153_total. unfold demo_table. intros f F. rewrite !in_app_iff in F.
    destruct F as [F|[F|[F|F]]]; apply repeat_spec in F; rewrite F; eexists; reflexivity.
Qed.
(** The size goes by the ring, the period by the row: in a table sorted in another way large facets have the short period. *)
Theorem C153_sorted_refuted : ~ (forall table i f n, List.length table = 336%nat -> Forall good_row table -> nth_error table i = Some f -> ring f = Ok n ->
  (n <=? 3)%Z = (i <? 192)%nat).
Proof.
  intros H. specialize (H (repeat (demo_row 4) 336) 0%nat (demo_row 4) 4%Z (repeat_length _ _)).
  assert (G : Forall good_row (repeat (demo_row 4) 336)) by (apply Forall_forall; intros f F; apply repeat_spec in F; rewrite F; apply demo_good).
  specialize (H G eq_refl eq_refl). discriminate.
Qed.
Print Assumptions C153_sorted_refuted.

(** ** C154: grooves and dispersion *)
(** The grooves of facet f run along [f_ul] and photons are dispersed along the direction ul x u of the file. *)
Theorem C154_grooves : forall f, good_row f -> e_groove (f_uxf f) (f_uyf f) (groove_angle f) = f_ul f /\ e_perp_groove (f_uxf f) (f_uyf f) (groove_angle f) = dispersion f.
Proof. exact groove_ok. Qed.
Print Assumptions C154_grooves.
(** The angle is in (-pi, pi) (or pi), its tangent is the slope of the lines. *)
Theorem C154_angle : forall f, good_row f -> cos (groove_angle f) = dot3 (f_ul f) (f_uyf f) /\ sin (groove_angle f) = - dot3 (f_ul f) (f_uxf f) /\ - PI <= groove_angle f <= PI.
Proof.
  intros f (O & C & N & V). pose proof (lines_unit _ _ _ _ O V N) as L. unfold groove_angle. rewrite cos_neg, sin_neg. destruct (atan2_unit _ _ L) as (-> & -> & R). repeat split; lra.
Qed.
Print Assumptions C154_angle.
(** Photon with direction [p] that goes through a facet placed as in C153: the component along the lines stays, the one along the dispersion
    direction changes by m lambda / P. *)
Theorem C154_dispersion : forall f t h dir p m wave per out bl, good_row f -> 0 < h -> dir <> zero3 -> p = scale3 (/ norm3 dir) dir -> dot3 p (f_u f) <> 0 ->
  grating FlatSign true (compose t (M3 (f_u f) (f_uxf f) (f_uyf f)) (V3 1 h h)) (groove_angle f) dir m wave per = Some (out, bl) ->
  norm3 out = 1 /\ dot3 out (f_ul f) = dot3 p (f_ul f) /\ dot3 out (dispersion f) = dot3 p (dispersion f) + IZR m * wave / per /\ 0 <= dot3 out (f_u f) * dot3 p (f_u f).
Proof.
  intros f t h dir p m wave per out bl G Hh D P N E. pose proof G as (O & _). destruct (compose_axes t _ 1 h h O Rlt_0_1 Hh Hh) as [A B]. cbn [a0 a1 a2] in B.
  destruct (groove_ok f G) as [L DI]. assert (N' : dot3 p (xyz (hom (f_u f) 0)) <> 0) by (rewrite xyz_hom; exact N).
  pose proof (C35_equation FlatSign true _ _ dir m wave per out bl _ _ _ p A D B P N' E) as X. cbv zeta in X. rewrite !xyz_hom, L, DI in X. destruct X as (X1 & X2 & X3 & X4).
  repeat split; [exact X1|exact X2|rewrite X3; ring|lra].
Qed.
Print Assumptions C154_dispersion.
Example C154_example : good_row (demo_row 1) /\ dispersion (demo_row 1) = V3 0 (4 / 5) (- (3 / 5)) /\ cos (groove_angle (demo_row 1)) = 4 / 5.
Proof.
  split; [apply demo_good|]. split; [unfold dispersion, demo_row; cbn; vu; f_equal; lra|]. destruct (C154_angle _ (demo_good 1)) as (-> & _). unfold demo_row; cbn; vu. lra.
Qed.

(** ** C155: aperture and mirror *)
(** The four rings are numbered from the offset and do not overlap. *)
Theorem C155_numbers : forall offset, hrma_aperture None None offset =
  ("mirror_shell", [((offset + 0)%Z, shell_aperture (598, 610)); ((offset + 1)%Z, shell_aperture (481, 491)); ((offset + 2)%Z, shell_aperture (424, 433)); ((offset + 3)%Z, shell_aperture (315, 322))]).
Proof. reflexivity. Qed.
Print Assumptions C155_numbers.
Lemma radii_ok r : In r mirror_radii -> 315 <= fst r < snd r /\ snd r <= 610.
Proof. unfold mirror_radii. intros [<-|[<-|[<-|[<-|[]]]]]; cbn; lra. Qed.
(** A photon of ring r starts at x = focal length, at a distance from the axis within the ring; the ring passes the checks of the aperture. *)
Theorem C155_rings : forall r u1 u2, In r mirror_radii -> 0 <= u1 < 1 -> 0 <= u2 < 1 ->
  circ_init (fst (shell_aperture r)) 0 (2 * PI) (snd (shell_aperture r)) = Ok tt /\
  exists y z, place (fst (shell_aperture r)) (circ_xy (fst (shell_aperture r)) 0 (2 * PI) (snd (shell_aperture r)) u1 u2) = hom (V3 (1006165 / 100) y z) 1 /\
    fst r * fst r <= y * y + z * z <= snd r * snd r.
Proof. intros r u1 u2 I U1 U2. destruct (radii_ok r I) as [A B]. split; [apply shell_init; lra|apply shell_place; lra]. Qed.
Print Assumptions C155_rings.
Theorem C155_disjoint : forall i j r s, nth_error mirror_radii i = Some r -> nth_error mirror_radii j = Some s -> (i < j)%nat -> snd s < fst r.
Proof.
  intros i j r s I J L. destruct i as [|[|[|[|i]]]]; destruct j as [|[|[|[|j]]]]; cbn in I, J; try lia; try (destruct i; discriminate); try (destruct j; discriminate);
    injection I as <-; injection J as <-; cbn; lra.
Qed.
Print Assumptions C155_disjoint.
(** The open area is 36388 pi square mm (1143 square cm), a third of it in ring 0 and more. *)
Theorem C155_area : multi_area (map (fun a => circ_area (fst a) 0 (2 * PI) (snd a)) (map shell_aperture mirror_radii)) = 36388 * PI.
Proof.
  unfold mirror_radii, multi_area. cbn [map Rsum]. rewrite !shell_area by (cbn; lra). unfold Rsum. cbn. ring.
Qed.
Print Assumptions C155_area.
(** A photon parallel to the axis that starts in one of the rings hits the mirror there. *)
Theorem C155_hit : forall r y z, In r mirror_radii -> fst r * fst r <= y * y + z * z <= snd r * snd r ->
  plane_intersect hrma_m (hom (V3 (-1) 0 0) 0) (hom (V3 (1006165 / 100) y z) 1) = (true, Some (hom (V3 (1006165 / 100) y z) 1), Some (y, z)).
Proof.
  intros r y z I B. destruct (radii_ok r I). replace (V3 (1006165 / 100) y z) with (V3 (focallength + 0) y z) at 1 by (f_equal; unfold focallength; lra). apply hrma_hit; [nra|lra].
Qed.
Print Assumptions C155_hit.
(** Mirror without scatter: photons with direction [u] meet in one point, on the axis for photons parallel to the axis; the probability is multiplied by 0.66. *)
Theorem C155_focus : forall u pos prob, norm3 u = 1 -> pos <> add3 (V3 focallength 0 0) (scale3 focallength u) ->
  exists out k, hrma hrma_m (fun d => d) u pos prob = Some (out, prob * (66 / 100)) /\ norm3 out = 1 /\ 0 < k /\
    add3 pos (scale3 k out) = add3 (V3 focallength 0 0) (scale3 focallength u).
Proof. intros u pos prob N NE. destruct (hrma_focus (fun d => d) u pos prob N NE) as (out & H & O & k & K & E). exists out, k. auto. Qed.
Print Assumptions C155_focus.
Theorem C155_on_axis : forall y z prob, exists out k, hrma hrma_m (fun d => d) (V3 (-1) 0 0) (V3 focallength y z) prob = Some (out, prob * (66 / 100)) /\ norm3 out = 1 /\ 0 < k /\
    add3 (V3 focallength y z) (scale3 k out) = zero3.
Proof.
  intros y z prob. assert (Z : add3 (V3 focallength 0 0) (scale3 focallength (V3 (-1) 0 0)) = zero3) by (unfold zero3; vu; f_equal; ring).
  destruct (C155_focus (V3 (-1) 0 0) (V3 focallength y z) prob) as (out & k & H & O & K & E); [apply norm3_1; vu; ring| |].
  - rewrite Z. intros X. injection X as X _ _. unfold focallength in X. lra.
  - exists out, k. rewrite E. auto.
Qed.
Print Assumptions C155_on_axis.
(** The mirror is always at the same place: position and zoom given by the user are replaced, and pos4d is not accepted. *)
Theorem C155_position_partial : forall kwargs, dget "orientation" kwargs = None ->
  (dget "pos4d" kwargs = None -> hrma_pos4d kwargs = Ok hrma_m) /\ (forall m, dget "pos4d" kwargs = Some (Mat4 m) -> hrma_pos4d kwargs = Err ValueError).
Proof. intros kwargs O. split; [intros P; now apply hrma_pos|intros m P; now apply (hrma_pos_twice kwargs m)]. Qed.
Print Assumptions C155_position_partial.
Theorem C155_position_refuted : ~ (forall x m, hrma_pos4d [("position", Arr [x; 0; 0])] = Ok m -> xyz (center m) = V3 x 0 0).
Proof.
  intros H. specialize (H 0 hrma_m (hrma_pos [("position", Arr [0; 0; 0])] eq_refl eq_refl)). destruct hrma_center as (C & _). rewrite C in H. injection H as H. unfold focallength in H. lra.
Qed.
Print Assumptions C155_position_refuted.
Example C155_example : In (481, 491) mirror_radii /\ 481 * 481 <= 291 * 291 + 388 * 388 <= 491 * 491 /\
  hrma hrma_m (fun d => d) (V3 (-1) 0 0) (V3 focallength 291 388) 1 <> None.
Proof.
  split; [unfold mirror_radii; cbn; auto|]. split; [lra|]. destruct (C155_on_axis 291 388 1) as (out & k & H & _). rewrite H. discriminate.
Qed.
