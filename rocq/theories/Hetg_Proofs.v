(** Proofs about the HETG and the simple mirror of Chandra *)
From Coq Require Import Ascii.
From Verif Require Import Base_Proofs Vec_Proofs Coords_Proofs Plane_Proofs Position_Proofs Cylinder_Proofs Placement_Proofs Grating_Proofs Aperture_Proofs Lens_Proofs Chandra_Proofs Bend_Proofs.
From Verif Require Export Hetg_Model.
Open Scope R_scope.

Lemma facet_positions_ok table : forall ps, facet_positions table = Ok ps -> List.length ps = List.length table /\
  forall i f, nth_error table i = Some f -> exists p, nth_error ps i = Some p /\ facet_pos f = Ok p.
Proof.
  induction table as [|f table IH]; intros ps H; cbn in H.
  - assert (ps = []) by congruence. subst. split; [reflexivity|]. intros [|i]; discriminate.
  - destruct (facet_pos f) as [p|] eqn:E; [|discriminate]. cbn [bind] in H. destruct (facet_positions table) as [ps'|]; [|discriminate]. cbn [bind] in H.
    assert (ps = p :: ps') by congruence. subst. destruct (IH ps' eq_refl) as [L N]. split; [cbn; congruence|].
    intros [|i] g G; cbn in G |- *; [exists p; split; congruence|]. now apply N.
Qed.
Lemma facet_positions_total table : (exists ps, facet_positions table = Ok ps) <-> forall f, In f table -> exists n, ring f = Ok n.
Proof.
  induction table as [|f table IH]; cbn.
  - split; [intros _ f []|]. eauto.
  - split.
    + intros (ps & H). destruct (facet_pos f) as [p|] eqn:E; [|discriminate]. cbn [bind] in H. destruct (facet_positions table) as [ps'|]; [|discriminate].
      intros g [<-|G]; [|now apply IH; eauto]. unfold facet_pos, facet_zoom in E. destruct (ring f); [eauto|discriminate].
    + intros H. destruct (H f (or_introl eq_refl)) as (n & N). unfold facet_pos, facet_zoom. rewrite N. cbn [bind]. destruct (proj2 IH) as (ps & ->); [auto|]. cbn. eauto.
Qed.
Lemma facet_pos_inv f p : facet_pos f = Ok p -> exists z, facet_zoom f = Ok z /\ p = compose (add3 (f_c f) hess_offset) (M3 (f_u f) (f_uxf f) (f_uyf f)) z /\
  (z = V3 1 meg_size meg_size \/ z = V3 1 heg_size heg_size).
Proof.
  unfold facet_pos. destruct (facet_zoom f) as [z|] eqn:E; [|discriminate]. cbn [bind]. intros H. exists z. split; [reflexivity|]. split; [congruence|].
  unfold facet_zoom in E. destruct (ring f) as [n|]; [|discriminate]. cbn [bind] in E. destruct (n <=? 3)%Z; [left|right]; congruence.
Qed.
Lemma sizes_pos : 0 < meg_size /\ 0 < heg_size.
Proof. unfold meg_size, heg_size. lra. Qed.
Lemma compose_axes t r a b c : orthonormal r -> 0 < a -> 0 < b -> 0 < c ->
  perpendicular_axes (compose t r (V3 a b c)) /\ plane_bases (compose t r (V3 a b c)) = Some (hom (a1 r) 0, hom (a2 r) 0, hom (a0 r) 0).
Proof.
  intros O A B C. rewrite compose_cols. destruct O as (X & Y & Z & XY & XZ & YZ).
  assert (N0 : norm3 (a0 r) = 1) by now apply norm3_1. assert (N1 : norm3 (a1 r) = 1) by now apply norm3_1. assert (N2 : norm3 (a2 r) = 1) by now apply norm3_1.
  assert (ZN : forall k v, 0 < k -> norm3 v = 1 -> scale3 k v <> zero3).
  { intros k v K N E. apply (f_equal norm3) in E. rewrite norm3_scale, N, Rabs_pos_eq in E by lra. assert (norm3 zero3 = 0) by now apply norm3_zero. lra. }
  assert (P : perpendicular_axes (M4 (hom (scale3 a (a0 r)) 0) (hom (scale3 b (a1 r)) 0) (hom (scale3 c (a2 r)) 0) (hom t 1))).
  { unfold perpendicular_axes, v_x, v_y, v_z. cbn [b0 b1 b2]. rewrite !xyz_hom, !dot3_scale_l, !dot3_scale_r, XY, XZ, YZ. repeat split; try ring; apply ZN; assumption. }
  split; [exact P|]. rewrite plane_bases_val by exact P. unfold v_x, v_y, v_z. cbn [b0 b1 b2]. rewrite !xyz_hom.
  assert (NS : forall k v, 0 < k -> norm3 v = 1 -> nrm (scale3 k v) = v).
  { intros k v K N. unfold nrm. rewrite norm3_scale, N, Rabs_pos_eq, scale3_scale3 by lra. replace (/ (k * 1) * k) with 1 by (field; lra). apply scale3_1. }
  now rewrite !NS by assumption.
Qed.
Lemma compose_shear_free t r a b c : orthonormal r -> 0 < a -> 0 < b -> 0 < c -> shear_free (compose t r (V3 a b c)).
Proof. intros O A B C. destruct (compose_axes t r a b c O A B C) as [P _]. exact P. Qed.
Lemma shift_compose t u r z : mul4 (translation2aff t) (compose u r z) = compose (add3 t u) r z.
Proof. unfold translation2aff, compose. rewrite aff_mul, mul3_id_l. f_equal. destruct t, u. unfold app3, id3; vu; cbn. f_equal; ring. Qed.
Lemma no_pos table : no_position (hetg_args table).
Proof. unfold no_position. repeat split; reflexivity. Qed.
(** at any position: the structure is turned around the hinge *)
Lemma hetg_elements_any P0 name table p : Forall good_row table -> hetg P0 name table = Ok p ->
  exists es, generate_elements p = Ok es /\ List.length es = List.length table /\ p_args p = hetg_args table /\ List.length (p_elem_pos p) = List.length table /\
  forall i f, nth_error table i = Some f -> exists e z, nth_error es i = Some e /\ e_id e = Z.of_nat i /\ facet_zoom f = Ok z /\ (z = V3 1 meg_size meg_size \/ z = V3 1 heg_size heg_size) /\
    e_pos e = Some (mul4 (mul4 (translation2aff hinge) P0) (mul4 (translation2aff (neg3 hinge)) (compose (add3 (f_c f) hess_offset) (M3 (f_u f) (f_uxf f) (f_uyf f)) z))).
Proof.
  intros G H. unfold hetg in H. destruct (facet_positions table) as [ps|] eqn:E; [|discriminate]. cbn [bind] in H. destruct (facet_positions_ok _ _ E) as [L N].
  set (C := translation2aff hinge) in *. set (Ci := translation2aff (neg3 hinge)) in *.
  assert (Ep : p = new_parallel (mul4 C P0) (map (mul4 Ci) ps) (hetg_args table) 0 name).
  { assert (X : forall a b : parallel, Ok a = Ok b -> a = b) by congruence. apply X in H. rewrite <- H. unfold move_center, new_parallel. cbn [p_pos4d p_unc p_elem_pos p_elem_unc p_args p_offset p_name]. now rewrite map_length. }
  assert (SF : Forall shear_free (map (mul4 Ci) ps)).
  { apply Forall_forall. intros m M. apply in_map_iff in M as (q & <- & Q). apply In_nth_error in Q as (i & Q).
    assert (Hi : (i < List.length table)%nat) by (rewrite <- L; apply nth_error_Some; congruence). destruct (nth_error table i) as [f|] eqn:F; [|apply nth_error_None in F; lia].
    destruct (N i f F) as (q' & Q' & FP). assert (q' = q) by congruence. subst q'. destruct (facet_pos_inv _ _ FP) as (z & _ & -> & Z).
    assert (Gf : good_row f) by (rewrite Forall_forall in G; apply G; eapply nth_error_In; eauto). destruct Gf as (O & _). pose proof sizes_pos as [S1 S2].
    unfold Ci. rewrite shift_compose. destruct Z as [-> | ->]; apply compose_shear_free; try assumption; lra. }
  destruct (new_parallel_positions (mul4 C P0) (map (mul4 Ci) ps) (hetg_args table) 0 name (no_pos table) SF) as (es & ES & LE & P).
  exists es. rewrite Ep. split; [exact ES|]. rewrite map_length in LE. split; [congruence|]. split; [reflexivity|]. split; [cbn; rewrite map_length; exact L|].
  intros i f F. destruct (N i f F) as (q & Q & FP). destruct (facet_pos_inv _ _ FP) as (z & FZ & Eq & Z).
  destruct (P i (mul4 Ci q)) as (e & Ee & Epos & Eid); [rewrite nth_error_map, Q; reflexivity|].
  exists e, z. split; [exact Ee|]. split; [rewrite Eid; reflexivity|]. split; [exact FZ|]. split; [exact Z|]. rewrite Epos, Eq. reflexivity.
Qed.
Lemma hetg_elements u name table p : Forall good_row table -> hetg (translation2aff u) name table = Ok p ->
  exists es, generate_elements p = Ok es /\ List.length es = List.length table /\ p_args p = hetg_args table /\ List.length (p_elem_pos p) = List.length table /\
  forall i f, nth_error table i = Some f -> exists e z, nth_error es i = Some e /\ e_id e = Z.of_nat i /\ facet_zoom f = Ok z /\ (z = V3 1 meg_size meg_size \/ z = V3 1 heg_size heg_size) /\
    e_pos e = Some (compose (add3 u (add3 (f_c f) hess_offset)) (M3 (f_u f) (f_uxf f) (f_uyf f)) z).
Proof.
  intros G H. destruct (hetg_elements_any _ name table p G H) as (es & ES & L & PA & PL & N). exists es. repeat (split; [assumption|]).
  intros i f F. destruct (N i f F) as (e & z & Ee & Eid & FZ & Z & Epos). exists e, z. repeat (split; [assumption|]). rewrite Epos. f_equal. rewrite mul4_assoc.
  rewrite <- (mul4_assoc (translation2aff u)).
  assert (T : forall a b, mul4 (translation2aff a) (translation2aff b) = translation2aff (add3 a b)).
  { intros a b. unfold translation2aff. rewrite aff_mul, mul3_id_l. f_equal. destruct a, b. unfold app3, id3; vu; cbn. f_equal; ring. }
  rewrite T. rewrite shift_compose, shift_compose. f_equal. destruct u, hinge, (add3 (f_c f) hess_offset). vu. f_equal; ring.
Qed.
Lemma hetg_moved P name table p p0 : Forall good_row table -> hetg P name table = Ok p -> hetg id4 name table = Ok p0 ->
  exists es es0, generate_elements p = Ok es /\ generate_elements p0 = Ok es0 /\ List.length es = List.length table /\ List.length es0 = List.length table /\
  forall i, (i < List.length table)%nat -> exists e e0 m m0, nth_error es i = Some e /\ nth_error es0 i = Some e0 /\ e_pos e = Some m /\ e_pos e0 = Some m0 /\
    m = mul4 (translation2aff hinge) (mul4 P (mul4 (translation2aff (neg3 hinge)) m0)).
Proof.
  intros G H H0. destruct (hetg_elements_any P name table p G H) as (es & ES & L & _ & _ & N). destruct (hetg_elements_any id4 name table p0 G H0) as (es0 & ES0 & L0 & _ & _ & N0).
  exists es, es0. repeat (split; [assumption|]). intros i I. destruct (nth_error table i) as [f|] eqn:F; [|apply nth_error_None in F; lia].
  destruct (N i f F) as (e & z & E & _ & Z & _ & M). destruct (N0 i f F) as (e0 & z0 & E0 & _ & Z0 & _ & M0). assert (z0 = z) by congruence. subst z0.
  eexists e, e0, _, _. repeat (split; [eassumption|]). rewrite mul4_id_r, !mul4_assoc. f_equal. f_equal.
  assert (T : mul4 (translation2aff (neg3 hinge)) (mul4 (translation2aff hinge) (mul4 (translation2aff (neg3 hinge)) (compose (add3 (f_c f) hess_offset) (M3 (f_u f) (f_uxf f) (f_uyf f)) z))) =
    mul4 (translation2aff (neg3 hinge)) (compose (add3 (f_c f) hess_offset) (M3 (f_u f) (f_uxf f) (f_uyf f)) z)).
  { rewrite !shift_compose. f_equal. destruct hinge, (add3 (f_c f) hess_offset). vu. f_equal; ring. }
  now rewrite T.
Qed.
(** ** Grooves *)
Lemma plane_decompose u x y v : orthonormal (M3 u x y) -> dot3 v u = 0 -> v = add3 (scale3 (dot3 v x) x) (scale3 (dot3 v y) y).
Proof.
  intros O V. pose proof (frame_decompose u x y v O) as D. rewrite V in D. rewrite D at 1. generalize (dot3 v x) (dot3 v y). destruct u, x, y. intros. vu. f_equal; ring.
Qed.
Lemma lines_unit u x y v : orthonormal (M3 u x y) -> dot3 v u = 0 -> dot3 v v = 1 -> dot3 v y * dot3 v y + dot3 v x * dot3 v x = 1.
Proof.
  intros O V N. pose proof (plane_decompose u x y v O V) as D. destruct O as (_ & X & Y & _ & _ & XY). cbn [a0 a1 a2] in *.
  assert (K : forall a b, dot3 (add3 (scale3 a x) (scale3 b y)) (add3 (scale3 a x) (scale3 b y)) = a * a * dot3 x x + 2 * (a * b) * dot3 x y + b * b * dot3 y y).
  { intros a b. destruct x, y. vu. ring. }
  rewrite D in N at 1. rewrite D in N at 3. rewrite K, X, Y, XY in N. lra.
Qed.
Lemma perp_cross u x y a b : orthonormal (M3 u x y) -> cross3 u x = y -> sub3 (scale3 b x) (scale3 a y) = cross3 (add3 (scale3 a x) (scale3 b y)) u.
Proof.
  intros (U & X & _ & UX & _ & _) <-. cbn [a0 a1 a2] in *. destruct u as [u1 u2 u3], x as [x1 x2 x3]. revert U X UX. vu. intros U X UX. f_equal.
  - transitivity (b * (x1 * (u1 * u1 + u2 * u2 + u3 * u3) - u1 * (u1 * x1 + u2 * x2 + u3 * x3)) - a * (u2 * x3 - u3 * x2)); [rewrite U, UX; ring|ring].
  - transitivity (b * (x2 * (u1 * u1 + u2 * u2 + u3 * u3) - u2 * (u1 * x1 + u2 * x2 + u3 * x3)) - a * (u3 * x1 - u1 * x3)); [rewrite U, UX; ring|ring].
  - transitivity (b * (x3 * (u1 * u1 + u2 * u2 + u3 * u3) - u3 * (u1 * x1 + u2 * x2 + u3 * x3)) - a * (u1 * x2 - u2 * x1)); [rewrite U, UX; ring|ring].
Qed.
Lemma groove_ok f : good_row f -> e_groove (f_uxf f) (f_uyf f) (groove_angle f) = f_ul f /\ e_perp_groove (f_uxf f) (f_uyf f) (groove_angle f) = dispersion f.
Proof.
  intros (O & C & N & V). pose proof (plane_decompose _ _ _ _ O V) as D. pose proof (lines_unit _ _ _ _ O V N) as L.
  unfold e_groove, e_perp_groove, groove_angle. rewrite Ropp_involutive. destruct (atan2_unit _ _ L) as (-> & -> & _). split; [symmetry; exact D|].
  unfold dispersion. rewrite D at 3. apply (perp_cross (f_u f)); [exact O|exact C].
Qed.
(** ** The table of the file *)
Lemma rings_nth i n : nth_error hess_rings i = Some n -> ((i < 192)%nat /\ (n <= 3)%Z) \/ ((192 <= i < 336)%nat /\ (3 < n)%Z).
Proof.
  unfold hess_rings. intros H. destruct (Nat.lt_ge_cases i 108) as [A|A]; [rewrite nth_error_app1 in H by (rewrite repeat_length; lia); apply nth_error_In, repeat_spec in H; left; lia|].
  rewrite nth_error_app2 in H by (rewrite repeat_length; lia). rewrite repeat_length in H.
  destruct (Nat.lt_ge_cases (i - 108) 84) as [B|B]; [rewrite nth_error_app1 in H by (rewrite repeat_length; lia); apply nth_error_In, repeat_spec in H; left; lia|].
  rewrite nth_error_app2 in H by (rewrite repeat_length; lia). rewrite repeat_length in H.
  destruct (Nat.lt_ge_cases (i - 108 - 84) 84) as [C|C]; [rewrite nth_error_app1 in H by (rewrite repeat_length; lia); apply nth_error_In, repeat_spec in H; right; lia|].
  rewrite nth_error_app2 in H by (rewrite repeat_length; lia). rewrite repeat_length in H.
  assert (K : nth_error (repeat 6%Z 60) (i - 108 - 84 - 84) <> None) by (rewrite H; discriminate). apply nth_error_Some in K. rewrite repeat_length in K. apply nth_error_In, repeat_spec in H. right. lia.
Qed.
Lemma rings_length : List.length hess_rings = 336%nat.
Proof. unfold hess_rings. now rewrite !app_length, !repeat_length. Qed.
Lemma periods_length : List.length periods = 336%nat.
Proof. unfold periods. now rewrite !app_length, !repeat_length. Qed.
Lemma periods_nth i : ((i < 192)%nat -> nth_error periods i = Some meg_period) /\ ((192 <= i < 336)%nat -> nth_error periods i = Some heg_period).
Proof.
  unfold periods. split; intros H; [rewrite nth_error_app1 by (rewrite repeat_length; lia)|rewrite nth_error_app2 by (rewrite repeat_length; lia)]; apply nth_error_repeat; rewrite ?repeat_length; lia.
Qed.

(** ** HRMA *)
Lemma hrma_pos kwargs : dget "pos4d"%string kwargs = None -> dget "orientation"%string kwargs = None -> hrma_pos4d kwargs = Ok hrma_m.
Proof.
  intros P O. unfold hrma_pos4d, hrma_position, parse_position, hrma_m.
  rewrite (dget_dset_neq "pos4d"%string) by discriminate. rewrite (dget_dset_neq "pos4d"%string) by discriminate. rewrite P.
  rewrite dget_dset_eq. cbn [as_seq bind]. replace (Rleb 1 0) with false by (symmetry; unfold Rleb; destruct (Rle_dec 1 0); [lra|reflexivity]).
  replace (Rleb 650 0) with false by (symmetry; unfold Rleb; destruct (Rle_dec 650 0); [lra|reflexivity]). cbn [orb].
  rewrite (dget_dset_neq "position"%string "zoom"%string) by discriminate. rewrite dget_dset_eq. cbn [as_seq bind].
  rewrite (dget_dset_neq "orientation"%string) by discriminate. rewrite (dget_dset_neq "orientation"%string) by discriminate. rewrite O. cbn [bind].
  unfold check_det. match goal with |- context [Reqb ?x 0] => replace (Reqb x 0) with false; [reflexivity|] end.
  symmetry. unfold Reqb. destruct (Req_EM_T _ 0) as [E|]; [|reflexivity]. exfalso. revert E. rewrite compose_cols. unfold det4, det3, hom, id3; vu; cbn. lra.
Qed.
Lemma hrma_pos_twice kwargs m : dget "pos4d"%string kwargs = Some (Mat4 m) -> hrma_pos4d kwargs = Err ValueError.
Proof.
  intros P. unfold hrma_pos4d, hrma_position, parse_position.
  rewrite (dget_dset_neq "pos4d"%string) by discriminate. rewrite (dget_dset_neq "pos4d"%string) by discriminate. rewrite P.
  assert (Z : forall v (d : dict pyv), din "zoom"%string (dset "zoom"%string v d) = true) by (intros; apply din_dget; rewrite dget_dset_eq; eauto).
  rewrite Z, !Bool.orb_true_r. reflexivity.
Qed.
Lemma orthonormal_id : orthonormal id3.
Proof. unfold orthonormal, id3; vu; repeat split; ring. Qed.
Lemma hrma_axes : perpendicular_axes hrma_m.
Proof. apply compose_axes; try lra. apply orthonormal_id. Qed.
Lemma hrma_center : xyz (center hrma_m) = V3 focallength 0 0 /\ xyz (v_x hrma_m) = V3 1 0 0 /\ xyz (v_y hrma_m) = V3 0 650 0 /\ xyz (v_z hrma_m) = V3 0 0 650.
Proof. unfold hrma_m. rewrite compose_cols. unfold center, v_x, v_y, v_z, hom, xyz, id3; vu; cbn. repeat split; f_equal; ring. Qed.
Lemma shell_axes r : 0 < snd r -> perpendicular_axes (fst (shell_aperture r)) /\ xyz (center (fst (shell_aperture r))) = V3 focallength 0 0 /\
  xyz (v_y (fst (shell_aperture r))) = V3 0 (snd r) 0 /\ xyz (v_z (fst (shell_aperture r))) = V3 0 0 (snd r) /\
  norm3 (xyz (v_y (fst (shell_aperture r)))) = snd r /\ norm3 (xyz (v_z (fst (shell_aperture r)))) = snd r.
Proof.
  intros P. unfold shell_aperture. cbn [fst]. split; [apply compose_axes; try lra; apply orthonormal_id|]. rewrite compose_cols. unfold center, v_y, v_z. cbn [b1 b2 b3]. rewrite !xyz_hom.
  cbn [id3 a1 a2]. split; [reflexivity|]. split; [vu; f_equal; ring|]. split; [vu; f_equal; ring|].
  rewrite !norm3_scale, Rabs_pos_eq by lra. assert (N : norm3 (V3 0 1 0) = 1 /\ norm3 (V3 0 0 1) = 1) by (split; apply norm3_1; vu; ring). unfold id3. cbn [a1 a2]. destruct N as [-> ->]. lra.
Qed.
Lemma norm4_shell r : 0 < snd r -> norm4 (v_y (fst (shell_aperture r))) = snd r /\ norm4 (v_z (fst (shell_aperture r))) = snd r.
Proof.
  intros P. destruct (shell_axes r P) as (_ & _ & _ & _ & Y & Z). revert Y Z. unfold shell_aperture. cbn [fst]. rewrite compose_cols. unfold v_y, v_z. cbn [b1 b2].
  rewrite !norm4_hom0, !xyz_hom. auto.
Qed.
Lemma shell_area r : 0 < snd r -> circ_area (fst (shell_aperture r)) 0 (2 * PI) (snd (shell_aperture r)) = PI * (snd r * snd r - fst r * fst r).
Proof. intros P. unfold circ_area. destruct (norm4_shell r P) as [-> _]. unfold shell_aperture. cbn [snd]. pose proof PI_RGT_0. field. lra. Qed.
Lemma shell_init r : 0 < snd r -> fst r <= snd r -> circ_init (fst (shell_aperture r)) 0 (2 * PI) (snd (shell_aperture r)) = Ok tt.
Proof.
  intros P Q. pose proof PI_RGT_0. pose proof PI_4. unfold circ_init. destruct (norm4_shell r P) as [-> ->]. unfold shell_aperture. cbn [snd].
  assert (L : forall a b, a <= b -> Rltb b a = false) by (intros; unfold Rltb; destruct (Rlt_dec b a); [lra|reflexivity]).
  rewrite (L _ 10); [|rewrite Rabs_R0, Rabs_pos_eq, Rmax_right by lra; lra]. rewrite !L by lra. rewrite Chandra_Proofs.isclose_refl. reflexivity.
Qed.
Lemma shell_place r u1 u2 : 0 <= fst r <= snd r -> 0 < snd r -> 0 <= u1 < 1 -> 0 <= u2 < 1 ->
  exists y z, place (fst (shell_aperture r)) (circ_xy (fst (shell_aperture r)) 0 (2 * PI) (snd (shell_aperture r)) u1 u2) = hom (V3 focallength y z) 1 /\
    fst r * fst r <= y * y + z * z <= snd r * snd r.
Proof.
  intros R P U1 U2. destruct (shell_axes r P) as (A & C & Y & Z & NY & NZ). pose proof PI_RGT_0 as PP.
  destruct (circ_inside (fst (shell_aperture r)) 0 (2 * PI) (fst r) u1 u2 A) as (phi & rad & d & _ & Rd & Nd & D & E); try congruence; try lra.
  rewrite NY in *. rewrite Y, Z in D. rewrite C in E.
  assert (Ed : d = V3 0 (cos phi) (sin phi)).
  { replace d with (scale3 (/ snd r) (scale3 (snd r) d)); [|rewrite scale3_scale3; replace (/ snd r * snd r) with 1 by (field; lra); apply scale3_1].
    rewrite D. vu. f_equal; field; lra. }
  exists (rad * cos phi), (rad * sin phi). split.
  - change (snd (shell_aperture r)) with (fst r). rewrite E, Ed. f_equal. vu. f_equal; ring.
  - replace (rad * cos phi * (rad * cos phi) + rad * sin phi * (rad * sin phi)) with (rad * rad * (sin phi * sin phi + cos phi * cos phi)) by ring.
    rewrite sc1. destruct R. split; nra.
Qed.
Lemma hrma_hit y z : y * y + z * z <= 610 * 610 -> forall k, 0 <= k -> 
  plane_intersect hrma_m (hom (V3 (-1) 0 0) 0) (hom (V3 (focallength + k) y z) 1) = (true, Some (hom (V3 focallength y z) 1), Some (y, z)).
Proof.
  intros R k K. destruct hrma_center as (C & X & Y & Z). destruct (plane_intersect hrma_m _ _) as [[h ip] il] eqn:E.
  assert (H : h = true).
  { pose proof (plane_hit_iff hrma_m (V3 (-1) 0 0) (V3 (focallength + k) y z) hrma_axes) as I. rewrite E in I. cbn [fst] in I. apply I. rewrite X. split; [vu; lra|].
    exists k, (y / 650), (z / 650). split; [exact K|]. assert (B : forall t, t * t <= 610 * 610 -> -1 <= t / 650 <= 1) by (intros t T; assert (-610 <= t <= 610) by nra; lra).
    split; [apply B; nra|]. split; [apply B; nra|]. rewrite C, Y, Z. vu. f_equal; field. }
  subst h. destruct (plane_hit_values hrma_m _ _ _ _ _ hrma_axes E) as [_ V]. destruct (V eq_refl) as (t & a & b & q & T & (A & B & Q) & Q' & -> & ->).
  rewrite C, Y, Z in Q. rewrite Q in Q'. rewrite Y, Z. assert (N : norm3 (V3 0 650 0) = 650 /\ norm3 (V3 0 0 650) = 650).
  { split; [replace (V3 0 650 0) with (scale3 650 (V3 0 1 0)) by (vu; f_equal; ring)|replace (V3 0 0 650) with (scale3 650 (V3 0 0 1)) by (vu; f_equal; ring)];
    rewrite norm3_scale, Rabs_pos_eq by lra; [replace (norm3 (V3 0 1 0)) with 1|replace (norm3 (V3 0 0 1)) with 1]; try ring; symmetry; apply norm3_1; vu; ring. }
  destruct N as [-> ->]. revert Q'. vu. intros Q'. injection Q' as Q1 Q2 Q3. assert (a * 650 = y) by lra. assert (b * 650 = z) by lra. subst q.
  repeat f_equal; try lra.
Qed.
Lemma hrma_axis_point : optical_axis_point hrma_m 0 = Some (V3 focallength 0 0).
Proof.
  unfold optical_axis_point, e_z. destruct hrma_axes as ((W0 & W1 & W2 & W3) & Nx & Ny & Nz & _). rewrite unit4_hom0 by assumption.
  f_equal. destruct hrma_center as (C & _). revert C. generalize (center hrma_m). intros [a b c d]. generalize (scale3 (/ norm3 (xyz (v_z hrma_m))) (xyz (v_z hrma_m))). intros [p q r].
  unfold xyz, hom; vu; cbn. intros C. injection C as -> -> ->. f_equal; ring.
Qed.
Lemma hrma_focus scatter u pos prob : norm3 u = 1 -> pos <> add3 (V3 focallength 0 0) (scale3 focallength u) ->
  exists out, hrma hrma_m scatter u pos prob = Some (scatter out, prob * (66 / 100)) /\ norm3 out = 1 /\
    exists k, 0 < k /\ add3 pos (scale3 k out) = add3 (V3 focallength 0 0) (scale3 focallength u).
Proof.
  intros N NE. assert (U : unit3 u = Some u).
  { unfold unit3. rewrite N. destruct (Req_EM_T 1 0); [lra|]. f_equal. rewrite Rinv_1. apply scale3_1. }
  set (F := add3 (V3 focallength 0 0) (scale3 focallength u)) in *.
  assert (Fo : focuspoint hrma_m 0 focallength u = Some F) by (apply focus_point; [apply hrma_axis_point|exact U]).
  assert (ND : norm3 (sub3 F pos) <> 0).
  { intros Z. apply norm3_zero in Z. apply NE. destruct pos, F. unfold sub3, zero3 in Z. injection Z as Z1 Z2 Z3. f_equal; cbn in *; lra. }
  unfold hrma, perfect_lens. rewrite Fo, U. destruct (unit3 (sub3 F pos)) as [out|] eqn:O.
  - destruct (unit3_spec _ _ O) as (_ & E & UU & _). exists out. split; [f_equal; f_equal; ring|]. split; [now apply norm3_1|]. exists (norm3 (sub3 F pos)).
    split; [pose proof (norm3_nonneg (sub3 F pos)); lra|]. rewrite E, scale3_scale3. replace (norm3 (sub3 F pos) * / norm3 (sub3 F pos)) with 1 by (field; exact ND).
    rewrite scale3_1. destruct pos, F. vu. f_equal; ring.
  - exfalso. unfold unit3 in O. destruct (Req_EM_T _ 0); [contradiction|discriminate].
Qed.

Lemma ring_digit f c rest : f_loc f = String c rest ->
  (forall k, (k <= 9)%nat -> c = ascii_of_nat (48 + k) -> ring f = Ok (Z.of_nat k)) /\ ((forall k, (k <= 9)%nat -> c <> ascii_of_nat (48 + k)) -> ring f = Err ValueError).
Proof.
  intros E. unfold ring. rewrite E. split.
  - intros k K ->. do 10 (destruct k as [|k]; [reflexivity|]). lia.
  - intros N. destruct (digit c) eqn:D; [|reflexivity]. exfalso. unfold digit in D. destruct ((48 <=? Z.of_nat (nat_of_ascii c)) && (Z.of_nat (nat_of_ascii c) <=? 57))%Z%bool eqn:B; [|discriminate].
    apply andb_true_iff in B as [B1 B2]. apply Z.leb_le in B1, B2. apply (N (nat_of_ascii c - 48)%nat); [lia|]. replace (48 + (nat_of_ascii c - 48))%nat with (nat_of_ascii c) by lia. now rewrite ascii_nat_embedding.
Qed.
Lemma hinge_spec : x3 hinge = 8618 /\ y3 hinge * y3 hinge + z3 hinge * z3 hinge = 650 * 650 /\ z3 hinge = 325 /\ y3 hinge < 0.
Proof.
  unfold hinge. cbn [x3 y3 z3]. replace (60 * PI / 180) with (PI / 3) by field. pose proof (sin2_cos2 (PI / 3)) as Q. unfold Rsqr in Q. rewrite cos_PI3 in *. pose proof PI_RGT_0.
  assert (0 < sin (PI / 3)) by (apply sin_gt_0; lra). split; [reflexivity|]. split; [|split; [field|lra]].
  replace (- 650 * sin (PI / 3) * (- 650 * sin (PI / 3)) + 650 * (1 / 2) * (650 * (1 / 2))) with (650 * 650 * (sin (PI / 3) * sin (PI / 3) + 1 / 2 * (1 / 2))) by ring. rewrite Q. ring.
Qed.
