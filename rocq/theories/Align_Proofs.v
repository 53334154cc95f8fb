(** Lemmas on elements moved by [moveelem] *)
From Verif Require Import Base_Proofs Vec_Proofs Coords_Proofs Rot_Proofs Plane_Proofs Placement_Proofs Lens_Proofs Grating_Proofs Bend_Proofs Brewster_Proofs Instrument_Proofs Instrument_Proofs2 Layers_Proofs Whole_Proofs Whole_Proofs2.
From Verif Require Import Align_Model.
Local Notation shift := Whole_Model.shift.
Local Notation turn := Whole_Model.turn.
Local Notation rigid := Whole_Model.rigid.
Open Scope R_scope.
Open Scope list_scope.

Lemma diag_ones : diag3 ones3 = id3. Proof. reflexivity. Qed.
Lemma move6_aff t a : move6 t a = aff (euler2mat a) t.
Proof. unfold move6, compose. now rewrite diag_ones, mul3_id_r. Qed.
Lemma lin_aff3 m t : lin (aff m t) = m. Proof. vring. Qed.
Lemma rigid_aff m t : rotation m -> rigid (aff m t).
Proof. intros H. split; [repeat split|]. now rewrite lin_aff3. Qed.
Lemma move6_rigid t a : rigid (move6 t a).
Proof. rewrite move6_aff. apply rigid_aff, euler_rotation. Qed.
Lemma back6_rigid t a : rigid (back6 t a).
Proof. apply rigid_aff, rotation_trans, euler_rotation. Qed.
Lemma aff_mul3 m t m' t' : mul4 (aff m t) (aff m' t') = aff (mul3 m m') (add3 (app3 m t') t).
Proof. vring. Qed.
Lemma aff_id : aff id3 zero3 = id4. Proof. reflexivity. Qed.
Lemma neg_add v : add3 v (neg3 v) = zero3. Proof. vring. Qed.
Lemma back_move t a : mul4 (back6 t a) (move6 t a) = id4.
Proof. rewrite move6_aff. unfold back6. rewrite aff_mul3. rewrite (proj1 (orthonormal_iff _) (proj1 (euler_rotation a))), neg_add. apply aff_id. Qed.
Lemma neg_app m v : app3 m (neg3 v) = neg3 (app3 m v). Proof. vring. Qed.
Lemma app_mul m n v : app3 m (app3 n v) = app3 (mul3 m n) v. Proof. vring. Qed.
Lemma app_id v : app3 id3 v = v. Proof. vring. Qed.
Lemma neg_add2 v : add3 (neg3 v) v = zero3. Proof. vring. Qed.
Lemma move_back t a : mul4 (move6 t a) (back6 t a) = id4.
Proof.
  rewrite move6_aff. unfold back6. rewrite aff_mul3, neg_app, app_mul, (orthonormal_rows _ (proj1 (euler_rotation a))), app_id, neg_add2. apply aff_id.
Qed.
Lemma move_shift t a v : shift (move6 t a) v = add3 (app3 (euler2mat a) v) t.
Proof. rewrite move6_aff. unfold shift, Whole_Model.shift, turn. rewrite lin_aff3. reflexivity. Qed.

Lemma part_back g ginv p : mul4 g ginv = id4 -> displace_part g ginv (displace_part ginv g p) = p.
Proof.
  intros E. destruct p; cbn [displace_part]; rewrite <- ?mul4_assoc, ?E, ?mul4_id_l; try reflexivity.
  - rewrite (mul4_assoc minv g ginv), E, mul4_id_r. reflexivity.
  - rewrite (mul4_assoc minv g ginv), E, mul4_id_r. reflexivity.
Qed.
Lemma affine_mul m n : affine m -> affine n -> affine (mul4 m n).
Proof.
  intros (A & B & C & D) (A' & B' & C' & D'). destruct m as [[? ? ? ?] [? ? ? ?] [? ? ? ?] [? ? ? ?]], n as [[? ? ? ?] [? ? ? ?] [? ? ? ?] [? ? ? ?]]. unfold affine. vu. cbn in *. subst. repeat split; ring.
Qed.
Lemma made_moved g ginv p : rigid g -> rigid ginv -> mul4 ginv g = id4 -> mul4 g ginv = id4 -> well_made p -> well_made (displace_part g ginv p).
Proof.
  intros G G' I J (WA & WB & WC). split; [|split].
  - intros m E. destruct p; cbn [displace_part geometry] in E; try discriminate; assert (m = mul4 g m0) as -> by congruence; apply (m_axes g G), WA; reflexivity.
  - intros m minv E. destruct p; cbn [displace_part] in E; try discriminate. assert (m = mul4 g m0) as -> by congruence. assert (minv = mul4 minv0 ginv) as -> by congruence.
    apply (m_inv g); [exact I|]. now apply WB.
  - intros m minv u v E. destruct p; cbn [displace_part] in E; try discriminate. assert (m = mul4 g m0) as -> by congruence. assert (minv = mul4 minv0 ginv) as -> by congruence.
    destruct (WC _ _ _ _ eq_refl) as (A & B & C & D). repeat match goal with |- _ /\ _ => split end.
    + now apply (m_inv g).
    + rewrite mul4_assoc, <- (mul4_assoc m0), B, mul4_id_l. exact J.
    + apply affine_mul; [exact C|exact (proj1 G')].
    + now apply (m_axes g G).
Qed.
Lemma random_moved g ginv p : no_random p -> no_random (displace_part g ginv p).
Proof. destruct p; exact (fun H => H). Qed.
Lemma id_apply v : app4 id4 v = v. Proof. vring. Qed.
Lemma turn_back g ginv v : rigid g -> rigid ginv -> mul4 g ginv = id4 -> turn g (turn ginv v) = v.
Proof.
  intros A A' E. assert (H : app4 (mul4 g ginv) (hom v 0) = hom v 0) by (rewrite E; apply id_apply). rewrite app4_mul, (m_dir ginv A' (hom v 0) eq_refl), (m_dir g A (hom _ 0) eq_refl), !Coords_Proofs.xyz_hom in H.
  pose proof (f_equal xyz H) as Z. now rewrite !Coords_Proofs.xyz_hom in Z.
Qed.
Lemma shift_back g ginv v : rigid g -> rigid ginv -> mul4 g ginv = id4 -> shift g (shift ginv v) = v.
Proof.
  intros A A' E. assert (H : app4 (mul4 g ginv) (hom v 1) = hom v 1) by (rewrite E; apply id_apply). rewrite app4_mul, (m_pos ginv A' (hom v 1) eq_refl), (m_pos g A (hom _ 1) eq_refl), !Coords_Proofs.xyz_hom in H.
  pose proof (f_equal xyz H) as Z. now rewrite !Coords_Proofs.xyz_hom in Z.
Qed.
Lemma photon_back g ginv ph : rigid g -> rigid ginv -> mul4 g ginv = id4 -> displace g (displace ginv ph) = ph.
Proof.
  intros A A' E. destruct ph as [d x v e f]. unfold displace. cbn [l_dir l_pos l_pol l_energy l_prob].
  f_equal; [destruct d as [d|]|destruct x as [x|]|destruct v as [v|]]; cbn [option_map]; try reflexivity; f_equal; now (apply turn_back || apply shift_back).
Qed.
Lemma relative t a ps1 p ps2 drs ph : Forall well_made (ps1 ++ p :: ps2) -> Forall no_random (ps1 ++ p :: ps2) ->
  through (ps1 ++ moved t a p :: ps2) drs ph =
  result_map (displace (move6 t a)) (through (map (moved_back t a) ps1 ++ p :: map (moved_back t a) ps2) drs (displace (back6 t a) ph)).
Proof.
  intros W N. set (qs := map (moved_back t a) ps1 ++ p :: map (moved_back t a) ps2).
  pose proof (move6_rigid t a) as G. pose proof (back6_rigid t a) as G'. pose proof (back_move t a) as I. pose proof (move_back t a) as J.
  assert (E : ps1 ++ moved t a p :: ps2 = map (displace_part (move6 t a) (back6 t a)) qs).
  { unfold qs. rewrite map_app. cbn [map]. rewrite !map_map. f_equal; [|f_equal]; rewrite <- (map_id _) at 1; apply map_ext; intros x; symmetry; apply part_back, J. }
  rewrite Forall_app in W, N. destruct W as [W1 W2], N as [N1 N2]. inversion W2; subst. inversion N2; subst.
  rewrite E, <- (photon_back (move6 t a) (back6 t a) ph G G' J) at 1. apply through_moved; try assumption; unfold qs.
  - apply Forall_app. split; [|constructor; [assumption|]]; apply Forall_map; (apply (Forall_impl (P := well_made)); [|assumption]); intros x X; exact (made_moved (back6 t a) (move6 t a) x G' G J I X).
  - apply Forall_app. split; [|constructor; [assumption|]]; apply Forall_map; (apply (Forall_impl (P := no_random)); [|assumption]); intros x X; exact (random_moved (back6 t a) (move6 t a) x X).
Qed.
(** ** shifts *)
Lemma euler_none : euler2mat zero3 = id3. Proof. exact euler_0. Qed.
Lemma shift_lin t : lin (move6 t zero3) = id3. Proof. now rewrite move6_aff, euler_0, lin_aff3. Qed.
Lemma shift_turn t v : turn (move6 t zero3) v = v. Proof. unfold Whole_Model.turn. rewrite shift_lin. apply app_id. Qed.
Lemma shift_shift t v : shift (move6 t zero3) v = add3 v t. Proof. now rewrite move_shift, euler_0, app_id. Qed.
Lemma uniform_effect p dr ph ph' d q q' loc loc' : uniform p -> l_pol ph' = l_pol ph -> l_energy ph' = l_energy ph -> effect p dr ph' d q' loc' = effect p dr ph d q loc.
Proof. intros U A B. destruct p; cbn [uniform] in U; try contradiction; cbn [effect]; rewrite ?A, ?B; try reflexivity. now rewrite (U loc' loc). Qed.
Lemma uniform_geometry g ginv p : uniform p -> exists m, geometry p = Some m /\ geometry (displace_part g ginv p) = Some (mul4 g m) /\ surface p = Some (meets m) /\ surface (displace_part g ginv p) = Some (meets (mul4 g m)) /\
  (forall dr ph, one p dr ph = match meets m ph with None => Ok ph | Some (d, q, loc) => bind (effect p dr ph d q loc) (fun o => if bad_factor (snd o) then Err ValueError else Ok (LPhoton (fst (fst o)) (Some q) (snd (fst o)) (l_energy ph) (times (l_prob ph) (snd o)))) end) /\
  (forall dr ph, one (displace_part g ginv p) dr ph = match meets (mul4 g m) ph with None => Ok ph | Some (d, q, loc) => bind (effect (displace_part g ginv p) dr ph d q loc) (fun o => if bad_factor (snd o) then Err ValueError else Ok (LPhoton (fst (fst o)) (Some q) (snd (fst o)) (l_energy ph) (times (l_prob ph) (snd o)))) end).
Proof. intros U. destruct p; cbn [uniform] in U; try contradiction; eexists; repeat split; reflexivity. Qed.
Lemma same_effect t p dr ph d q loc q' loc' : well_made p -> uniform p -> d <> zero3 -> effect (moved t zero3 p) dr ph d q' loc' = effect p dr ph d q loc.
Proof.
  intros W U D. assert (NR : no_random p \/ exists m on, p = PRandom m on) by (destruct p; cbn; eauto). destruct NR as [NR|(m & on & ->)]; [|reflexivity].
  pose proof (effect_moved (move6 t zero3) (back6 t zero3) p dr ph d q loc (move6_rigid t zero3) (back_move t zero3) W NR D) as H. rewrite !shift_turn in H. change (displace_part (move6 t zero3) (back6 t zero3) p) with (moved t zero3 p) in H.
  rewrite <- (uniform_effect (moved t zero3 p) dr (displace (move6 t zero3) ph) ph d (shift (move6 t zero3) q) q' loc loc') in H.
  - rewrite H. destruct (effect p dr ph d q loc) as [[[o w] f]|e]; [|reflexivity]. cbn [result_map]. unfold moved_effect, brewster_turned. cbn [fst snd].
    destruct o as [o|], w as [w|]; cbn [option_map]; rewrite ?shift_turn; reflexivity.
  - destruct p; exact U.
  - unfold displace. cbn [l_pol]. destruct (l_pol ph); cbn [option_map]; now rewrite ?shift_turn.
  - reflexivity.
Qed.
Lemma dot_addl u v w : dot3 (add3 u v) w = dot3 u w + dot3 v w. Proof. vring. Qed.
Lemma dot_scl k v w : dot3 (scale3 k v) w = k * dot3 v w. Proof. vring. Qed.
Lemma rect_rel m a b q n : affine m -> in_rectangle m a b q -> dot3 q n = dot3 (xyz (center m)) n + (a * dot3 (xyz (v_y m)) n + b * dot3 (xyz (v_z m)) n).
Proof. intros _ (_ & _ & ->). now rewrite !dot_addl, !dot_scl. Qed.
Lemma dot_nrm v : v <> zero3 -> dot3 v (nrm v) = norm3 v.
Proof. intros N. unfold nrm. assert (P := norm3_pos v N). assert (E : dot3 v v = norm3 v * norm3 v) by (unfold norm3; rewrite sqrt_sqrt; [reflexivity|apply dot3_nonneg]). rewrite dot3_comm, dot_scl, E. field. lra. Qed.
Lemma nrm_dot0 u v : dot3 u v = 0 -> dot3 u (nrm v) = 0.
Proof. intros H. unfold nrm. rewrite dot3_comm, dot_scl, dot3_comm, H. ring. Qed.
(** Where a photon meets a shifted surface *)
Lemma shifted_meets m t ph d q loc q' loc' : perpendicular_axes m -> meets m ph = Some (d, q, loc) -> meets (mul4 (move6 t zero3) m) ph = Some (d, q', loc') ->
  let k := dot3 t (xyz (v_x m)) / dot3 d (xyz (v_x m)) in
  q' = add3 q (scale3 k d) /\
  loc' = (fst loc + k * dot3 d (nrm (xyz (v_y m))) - dot3 t (nrm (xyz (v_y m))), snd loc + k * dot3 d (nrm (xyz (v_z m))) - dot3 t (nrm (xyz (v_z m)))).
Proof.
  intros P H H' k. pose proof (move6_rigid t zero3) as G. pose proof (m_axes _ G m P) as P'. pose proof P as (A & Nx & Ny & Nz & XY & XZ & YZ).
  apply (meets_iff m ph d q loc P) in H. apply (meets_iff _ ph d q' loc' P') in H'. destruct H as (D & N & x & c & u & v & X & _ & Q & R & L). destruct H' as (_ & _ & x' & c' & u' & v' & X' & _ & Q' & R' & L').
  assert (x' = x) as -> by congruence.
  assert (R2 : q' = add3 (add3 (xyz (center m)) t) (add3 (scale3 u' (xyz (v_y m))) (scale3 v' (xyz (v_z m))))).
  { destruct R' as (_ & _ & E). rewrite (m_c _ G m A), (m_y _ G m A), (m_z _ G m A), shift_shift, !shift_turn in E. exact E. }
  assert (R1 : q = add3 (xyz (center m)) (add3 (scale3 u (xyz (v_y m))) (scale3 v (xyz (v_z m))))) by exact (proj2 (proj2 R)).
  rewrite (m_y _ G m A), (m_z _ G m A), !shift_turn in L'.
  assert (YX : dot3 (xyz (v_y m)) (xyz (v_x m)) = 0) by (now rewrite dot3_comm). assert (ZX : dot3 (xyz (v_z m)) (xyz (v_x m)) = 0) by (now rewrite dot3_comm).
  assert (E : (c' - c) * dot3 d (xyz (v_x m)) = dot3 t (xyz (v_x m))).
  { pose proof (f_equal (fun w => dot3 w (xyz (v_x m))) R2) as Z2. pose proof (f_equal (fun w => dot3 w (xyz (v_x m))) R1) as Z1. cbv beta in Z1, Z2. rewrite Q' in Z2. rewrite Q in Z1.
    repeat rewrite dot_addl in Z1. repeat rewrite dot_addl in Z2. repeat rewrite dot_scl in Z1. repeat rewrite dot_scl in Z2. rewrite YX, ZX in Z1. rewrite YX, ZX in Z2. lra. }
  assert (K : c' = c + k) by (unfold k; rewrite <- E; field; exact N).
  assert (QK : q' = add3 q (scale3 k d)) by (rewrite Q', Q, K; clear; destruct x, d; vring).
  split; [exact QK|].
  assert (F : forall e, dot3 q' e = dot3 q e + k * dot3 d e) by (intros e; now rewrite QK, dot_addl, dot_scl).
  subst loc loc'. cbn [fst snd]. f_equal.
  - pose proof (F (nrm (xyz (v_y m)))) as Z. rewrite R1, R2, !dot_addl, !dot_scl, !(nrm_dot0 (xyz (v_z m)) (xyz (v_y m))), !dot_nrm in Z by (assumption || (now rewrite dot3_comm)). lra.
  - pose proof (F (nrm (xyz (v_z m)))) as Z. rewrite R1, R2, !dot_addl, !dot_scl, !(nrm_dot0 (xyz (v_y m)) (xyz (v_z m))), !dot_nrm in Z by assumption. lra.
Qed.
Lemma shifted_one t p m dr ph d q loc q' loc' : well_made p -> uniform p -> geometry p = Some m -> meets m ph = Some (d, q, loc) -> meets (mul4 (move6 t zero3) m) ph = Some (d, q', loc') ->
  one (moved t zero3 p) dr ph = result_map (at_point (add3 q (scale3 (dot3 t (xyz (v_x m)) / dot3 d (xyz (v_x m))) d))) (one p dr ph).
Proof.
  intros W U GM H H'. pose proof (proj1 W m GM) as P. destruct (shifted_meets m t ph d q loc q' loc' P H H') as [E _]. rewrite <- E. clear E.
  destruct (uniform_geometry (move6 t zero3) (back6 t zero3) p U) as (m' & GM' & _ & _ & _ & O & O'). assert (m' = m) as -> by congruence.
  unfold moved. rewrite O, O', H, H'. change (displace_part (move6 t zero3) (back6 t zero3) p) with (moved t zero3 p). rewrite (same_effect t p dr ph d q loc q' loc' W U (hit_dir m ph d q loc P H)).
  destruct (effect p dr ph d q loc) as [o|e]; [|reflexivity]. cbn [bind]. destruct (bad_factor (snd o)); reflexivity.
Qed.
Lemma at_self q p m dr ph d loc : uniform p -> geometry p = Some m -> meets m ph = Some (d, q, loc) -> result_map (at_point q) (one p dr ph) = one p dr ph.
Proof.
  intros U GM H. destruct (uniform_geometry id4 id4 p U) as (m' & GM' & _ & _ & _ & O & _). assert (m' = m) as -> by congruence. rewrite O, H.
  destruct (effect p dr ph d q loc) as [o|e]; [|reflexivity]. cbn [bind]. destruct (bad_factor (snd o)); reflexivity.
Qed.
Lemma add_scale0 q d : add3 q (scale3 0 d) = q. Proof. vring. Qed.
(** ** lenses *)
Lemma foot_moved g m off : rigid g -> affine m -> axis_foot (mul4 g m) off = shift g (axis_foot m off).
Proof.
  intros G A. unfold axis_foot. rewrite (m_c g G m A), (m_z g G m A), (t_norm g G). unfold Whole_Model.shift at 2. rewrite t_sub, t_scale by exact G.
  unfold Whole_Model.shift. generalize (turn g (xyz (center m))) (turn g (xyz (v_z m))) (xyz (center g)) (off / norm3 (xyz (v_z m))). clear. intros. vring.
Qed.
(** ** rolls *)
Lemma rolled_bases n ey ez u : dot3 n n = 1 -> dot3 n ey = 0 -> cross3 n ey = ez ->
  rodrigues n u ey = add3 (scale3 (cos u) ey) (scale3 (sin u) ez) /\ rodrigues n u ez = sub3 (scale3 (cos u) ez) (scale3 (sin u) ey) /\ rodrigues n u n = n.
Proof.
  intros N E <-. unfold rodrigues. assert (X : cross3 n (cross3 n ey) = neg3 ey).
  { assert (Z : cross3 n (cross3 n ey) = sub3 (scale3 (dot3 n ey) n) (scale3 (dot3 n n) ey)) by vring. rewrite Z, N, E. vring. }
  rewrite X. assert (Y : dot3 n (cross3 n ey) = 0) by vring. rewrite Y, E, N. assert (W : cross3 n n = zero3) by vring. rewrite W. generalize (cross3 n ey) (cos u) (sin u). clear. intros. repeat split; vring.
Qed.
Lemma groove_rolled ey ez u g :
  e_groove (add3 (scale3 (cos u) ey) (scale3 (sin u) ez)) (sub3 (scale3 (cos u) ez) (scale3 (sin u) ey)) g = e_groove ey ez (g + u) /\
  e_perp_groove (add3 (scale3 (cos u) ey) (scale3 (sin u) ez)) (sub3 (scale3 (cos u) ez) (scale3 (sin u) ey)) g = e_perp_groove ey ez (g + u).
Proof.
  unfold e_groove, e_perp_groove. rewrite !cos_neg, !sin_neg, cos_plus, sin_plus. generalize (cos u) (sin u) (cos g) (sin g). clear. intros. split; vring.
Qed.
Lemma right_frame m r : perpendicular_axes m -> 0 < r -> cross3 (xyz (v_x m)) (xyz (v_y m)) = scale3 r (xyz (v_z m)) -> cross3 (nrm (xyz (v_x m))) (nrm (xyz (v_y m))) = nrm (xyz (v_z m)).
Proof.
  intros (_ & Nx & Ny & Nz & XY & _) R E. assert (A := norm3_pos _ Nx). assert (B := norm3_pos _ Ny). assert (C := norm3_pos _ Nz).
  assert (L : norm3 (xyz (v_x m)) * norm3 (xyz (v_y m)) = r * norm3 (xyz (v_z m))).
  { assert (S : forall v, norm3 v * norm3 v = dot3 v v) by (intros v; unfold norm3; apply sqrt_sqrt, dot3_nonneg).
    assert (Q : dot3 (cross3 (xyz (v_x m)) (xyz (v_y m))) (cross3 (xyz (v_x m)) (xyz (v_y m))) = dot3 (xyz (v_x m)) (xyz (v_x m)) * dot3 (xyz (v_y m)) (xyz (v_y m)) - dot3 (xyz (v_x m)) (xyz (v_y m)) * dot3 (xyz (v_x m)) (xyz (v_y m))) by (generalize (xyz (v_x m)) (xyz (v_y m)); clear; vring).
    rewrite E, XY, <- !S, norm3_scale, (Rabs_pos_eq r) in Q by lra.
    assert (Z : (norm3 (xyz (v_x m)) * norm3 (xyz (v_y m)) - r * norm3 (xyz (v_z m))) * (norm3 (xyz (v_x m)) * norm3 (xyz (v_y m)) + r * norm3 (xyz (v_z m))) = 0) by nra.
    apply Rmult_integral in Z. destruct Z as [Z|Z]; [lra|]. assert (0 < norm3 (xyz (v_x m)) * norm3 (xyz (v_y m))) by now apply Rmult_lt_0_compat. assert (0 < r * norm3 (xyz (v_z m))) by now apply Rmult_lt_0_compat. lra. }
  unfold nrm. assert (T : forall k l u v, cross3 (scale3 k u) (scale3 l v) = scale3 (k * l) (cross3 u v)) by (clear; intros; vring). rewrite T, E.
  assert (V : forall k l u, scale3 k (scale3 l u) = scale3 (k * l) u) by (clear; intros; vring). rewrite V. f_equal. apply (Rmult_eq_reg_l (norm3 (xyz (v_x m)) * norm3 (xyz (v_y m)))); [|nra]. rewrite L at 2. field. repeat split; lra.
Qed.
Lemma rolled_grating c tr n m g u t d o w per r : perpendicular_axes m -> n = nrm (xyz (v_x m)) -> 0 < r -> cross3 (xyz (v_x m)) (xyz (v_y m)) = scale3 r (xyz (v_z m)) ->
  grating c tr (mul4 (aff (axangle2mat_n n u) t) m) g d o w per = grating c tr m (g + u) d o w per.
Proof.
  intros P -> R E. pose proof (right_frame m r P R E) as F. assert (U : dot3 (nrm (xyz (v_x m))) (nrm (xyz (v_x m))) = 1) by (apply nrm_unit, P).
  assert (G : rigid (aff (axangle2mat_n (nrm (xyz (v_x m))) u) t)) by (apply rigid_aff, axangle_rotation; exact U).
  set (h := aff (axangle2mat_n (nrm (xyz (v_x m))) u) t) in *. pose proof (m_axes h G m P) as P'.
  unfold grating. rewrite (plane_bases_val m P), (plane_bases_val _ P'), (m_x h G m (proj1 P)), (m_y h G m (proj1 P)), (m_z h G m (proj1 P)), !(t_nrm h G), !Coords_Proofs.xyz_hom.
  assert (TR : forall v, turn h v = rodrigues (nrm (xyz (v_x m))) u v) by (intros v; unfold h, Whole_Model.turn; rewrite lin_aff3; apply axangle_rodrigues).
  assert (Z : dot3 (nrm (xyz (v_x m))) (nrm (xyz (v_y m))) = 0) by (apply nrm_dot0; rewrite dot3_comm; apply nrm_dot0; rewrite dot3_comm; apply P).
  rewrite !TR. destruct (rolled_bases _ _ _ u U Z F) as (-> & -> & ->). unfold diffract. destruct (groove_rolled (nrm (xyz (v_y m))) (nrm (xyz (v_z m))) u g) as [-> ->]. reflexivity.
Qed.
Lemma euler_x u : euler2mat (V3 u 0 0) = axangle2mat_n (V3 1 0 0) u.
Proof. unfold euler2mat. cbn [x3 y3 z3]. assert (Z : forall v, axangle2mat_n v 0 = id3) by (intros v; unfold axangle2mat_n; rewrite cos_0, sin_0; vring). rewrite !Z, !mul3_id_l. reflexivity. Qed.
Lemma nrm_x s : 0 < s -> nrm (V3 s 0 0) = V3 1 0 0.
Proof. intros S. unfold nrm. assert (N : norm3 (V3 s 0 0) = s) by (unfold norm3; vu; replace (s * s + 0 * 0 + 0 * 0) with (s * s) by ring; apply sqrt_square; lra). rewrite N. vu. f_equal; field; lra. Qed.
Lemma rolled_one c tr m g u t s r per dr ph d q loc q' loc' : perpendicular_axes m -> (forall l l', per l = per l') -> 0 < s -> xyz (v_x m) = V3 s 0 0 -> 0 < r -> cross3 (xyz (v_x m)) (xyz (v_y m)) = scale3 r (xyz (v_z m)) ->
  meets m ph = Some (d, q, loc) -> meets (mul4 (move6 t (V3 u 0 0)) m) ph = Some (d, q', loc') ->
  one (moved t (V3 u 0 0) (PGrating c tr m g per)) dr ph = result_map (at_point q') (one (PGrating c tr m (g + u) per) dr ph).
Proof.
  intros P C S X R E H H'. unfold moved. cbn [displace_part one surface]. rewrite H, H'. cbn [effect]. rewrite move6_aff, euler_x.
  rewrite (rolled_grating c tr (V3 1 0 0) m g u t d _ _ _ r P) by (assumption || (now rewrite X, nrm_x)). rewrite (C loc' loc). cbn [bind fst snd]. destruct (bad_factor _); reflexivity.
Qed.
