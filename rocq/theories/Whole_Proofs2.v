(** Lemmas on whole instruments: other coordinate systems *)
From Verif Require Import Base_Proofs Vec_Proofs Coords_Proofs Rot_Proofs Source_Proofs Plane_Proofs Bend_Proofs Lens_Proofs Cylinder_Proofs Grating_Proofs Scatter_Proofs Brewster_Proofs Instrument_Proofs Instrument_Proofs2 Layers_Proofs.
From Verif Require Import Whole_Model Whole_Proofs Rowland_Proofs.
Local Notation shift := Whole_Model.shift.
Local Notation turn := Whole_Model.turn.
Local Notation rigid := Whole_Model.rigid.
Open Scope R_scope.
Open Scope list_scope.

Lemma app3_neg m v : app3 m (neg3 v) = neg3 (app3 m v). Proof. vring. Qed.
Lemma dot_00 : dot3 zero3 zero3 = 0. Proof. vring. Qed.
Lemma sub_self v : dot3 (sub3 v v) (sub3 v v) = 0. Proof. vring. Qed.
Lemma axis_off off c e : xyz (sub4 c (scale4 off (hom e 0))) = add3 (xyz c) (scale3 (- off) e). Proof. vring. Qed.
Lemma frame_apply s p d s' p' d' v : app3 (mul3 (M3 s' p' d') (mul3 (jones3 eye2) (trans3 (M3 s p d)))) v = add3 (add3 (scale3 (dot3 s v) s') (scale3 (dot3 p v) p')) (scale3 (dot3 d v) d').
Proof. unfold jones3, eye2. cbn [j11 j12 j21 j22]. vring. Qed.
Section Turn.
Variables (g : m4). Hypothesis (G : rigid g).
Lemma G_ortho : orthonormal (lin g). Proof. exact (proj1 (proj2 G)). Qed.
Lemma t_dot u v : dot3 (turn g u) (turn g v) = dot3 u v. Proof. apply orthonormal_dot, G_ortho. Qed.
Lemma t_cross u v : cross3 (turn g u) (turn g v) = turn g (cross3 u v). Proof. apply rotation_cross, (proj2 G). Qed.
Lemma t_add u v : turn g (add3 u v) = add3 (turn g u) (turn g v). Proof. apply app3_add. Qed.
Lemma t_sub u v : turn g (sub3 u v) = sub3 (turn g u) (turn g v). Proof. apply app3_sub. Qed.
Lemma t_scale k v : turn g (scale3 k v) = scale3 k (turn g v). Proof. apply app3_scale. Qed.
Lemma t_neg v : turn g (neg3 v) = neg3 (turn g v). Proof. apply app3_neg. Qed.
Lemma t_norm v : norm3 (turn g v) = norm3 v. Proof. unfold norm3. now rewrite t_dot. Qed.
Lemma t_inj u v : turn g u = turn g v -> u = v.
Proof.
  intros H. assert (Z : sub3 u v = zero3). { apply dot3_zero. rewrite <- t_dot, t_sub, H. apply sub_self. }
  revert Z. clear. destruct u as [a b c], v as [a' b' c']. intros Z. pose proof (f_equal x3 Z) as A. pose proof (f_equal y3 Z) as B. pose proof (f_equal z3 Z) as C. vu. f_equal; lra.
Qed.
Lemma t_zero v : turn g v <> zero3 <-> v <> zero3.
Proof. split; intros H E; apply H. - subst v. unfold turn. generalize (lin g). clear. vring. - apply dot3_zero. rewrite <- t_dot, E. apply dot_00. Qed.
Lemma t_unit v : unit3 (turn g v) = option_map (turn g) (unit3 v).
Proof. unfold unit3. rewrite t_norm. destruct (Req_EM_T (norm3 v) 0); [reflexivity|]. cbn [option_map]. f_equal. now rewrite t_scale. Qed.
Lemma t_nrm v : nrm (turn g v) = turn g (nrm v).
Proof. unfold nrm. now rewrite t_norm, t_scale. Qed.
Lemma s_sub x y : sub3 (shift g x) (shift g y) = turn g (sub3 x y).
Proof. rewrite t_sub. unfold shift. generalize (turn g x) (turn g y) (xyz (center g)). clear. vring. Qed.
Lemma s_add x v : shift g (add3 x v) = add3 (shift g x) (turn g v).
Proof. unfold shift. rewrite t_add. generalize (turn g x) (turn g v) (xyz (center g)). clear. vring. Qed.
Lemma s_inj x y : shift g x = shift g y -> x = y.
Proof. intros H. apply t_inj. unfold shift in H. revert H. generalize (turn g x) (turn g y) (xyz (center g)). clear. intros [a b c] [a' b' c'] [p q s] H. pose proof (f_equal x3 H) as A. pose proof (f_equal y3 H) as B. pose proof (f_equal z3 H) as C. vu. f_equal; lra. Qed.
(** matrices *)
Lemma m_dir v : w4 v = 0 -> app4 g v = hom (turn g (xyz v)) 0.
Proof. destruct G as ((W0 & W1 & W2 & W3) & _). unfold turn. revert W0 W1 W2 W3. generalize g. clear. intros [[? ? ? n0] [? ? ? n1] [? ? ? n2] [? ? ? n3]] W0 W1 W2 W3. destruct v as [a b c w]. intros W. cbn in W0, W1, W2, W3, W. subst. apply v4_eq; vu; ring. Qed.
Lemma m_pos v : w4 v = 1 -> app4 g v = hom (shift g (xyz v)) 1.
Proof. destruct G as ((W0 & W1 & W2 & W3) & _). unfold shift, turn, center. revert W0 W1 W2 W3. generalize g. clear. intros [[? ? ? n0] [? ? ? n1] [? ? ? n2] [? ? ? n3]] W0 W1 W2 W3. destruct v as [a b c w]. intros W. cbn in W0, W1, W2, W3, W. subst. apply v4_eq; vu; ring. Qed.
Lemma m_cols m : v_x (mul4 g m) = app4 g (v_x m) /\ v_y (mul4 g m) = app4 g (v_y m) /\ v_z (mul4 g m) = app4 g (v_z m) /\ center (mul4 g m) = app4 g (center m).
Proof. repeat split. Qed.
Lemma m_x m : affine m -> xyz (v_x (mul4 g m)) = turn g (xyz (v_x m)). Proof. intros (W & _). rewrite (proj1 (m_cols m)), m_dir by exact W. apply Coords_Proofs.xyz_hom. Qed.
Lemma m_y m : affine m -> xyz (v_y (mul4 g m)) = turn g (xyz (v_y m)). Proof. intros (_ & W & _). rewrite (proj1 (proj2 (m_cols m))), m_dir by exact W. apply Coords_Proofs.xyz_hom. Qed.
Lemma m_z m : affine m -> xyz (v_z (mul4 g m)) = turn g (xyz (v_z m)). Proof. intros (_ & _ & W & _). rewrite (proj1 (proj2 (proj2 (m_cols m)))), m_dir by exact W. apply Coords_Proofs.xyz_hom. Qed.
Lemma m_c m : affine m -> xyz (center (mul4 g m)) = shift g (xyz (center m)). Proof. intros (_ & _ & _ & W). rewrite (proj2 (proj2 (proj2 (m_cols m)))), m_pos by exact W. apply Coords_Proofs.xyz_hom. Qed.
Lemma m_affine m : affine m -> affine (mul4 g m).
Proof. intros (W0 & W1 & W2 & W3). unfold affine, mul4. cbn [b0 b1 b2 b3]. rewrite !m_dir, m_pos by assumption. repeat split. Qed.
Lemma m_axes m : perpendicular_axes m -> perpendicular_axes (mul4 g m).
Proof.
  intros (A & NX & NY & NZ & XY & XZ & YZ). split; [now apply m_affine|]. rewrite m_x, m_y, m_z by exact A. rewrite !t_dot.
  split; [now apply t_zero|]. split; [now apply t_zero|]. split; [now apply t_zero|]. auto.
Qed.
(** hits *)
Lemma m_rect m a b q : affine m -> in_rectangle m a b q <-> in_rectangle (mul4 g m) a b (shift g q).
Proof.
  intros A. unfold in_rectangle. rewrite m_c, m_y, m_z by exact A.
  assert (E : add3 (shift g (xyz (center m))) (add3 (scale3 a (turn g (xyz (v_y m)))) (scale3 b (turn g (xyz (v_z m))))) = shift g (add3 (xyz (center m)) (add3 (scale3 a (xyz (v_y m))) (scale3 b (xyz (v_z m)))))).
  { now rewrite s_add, t_add, !t_scale. }
  rewrite E. split; intros (X & Y & Z); (split; [exact X|]); (split; [exact Y|]); [now rewrite Z|now apply s_inj].
Qed.
Definition displaced_hit (h : v3 * v3 * (R * R)) : v3 * v3 * (R * R) := (turn g (fst (fst h)), shift g (snd (fst h)), snd h).
Lemma m_meets_some m ph d q loc : perpendicular_axes m -> (meets m ph = Some (d, q, loc) <-> meets (mul4 g m) (displace g ph) = Some (turn g d, shift g q, loc)).
Proof.
  intros P. pose proof (proj1 P) as A. rewrite (meets_iff m ph d q loc P), (meets_iff (mul4 g m) (displace g ph) _ _ loc (m_axes m P)). unfold displace. cbn [l_dir l_pos].
  rewrite m_x, m_y, m_z, t_dot, !t_norm by exact A. split.
  - intros (D & N & x & k & a & b & X & K & Q & Z & L). split; [now rewrite D|]. split; [exact N|]. exists (shift g x), k, a, b. split; [now rewrite X|]. split; [exact K|]. split; [|split; [exact (proj1 (m_rect m a b q A) Z)|exact L]].
    now rewrite Q, s_add, t_scale.
  - intros (D & N & x' & k & a & b & X & K & Q & Z & L). destruct (l_dir ph) as [d'|]; [|discriminate]. cbn [option_map] in D.
    assert (d' = d) as ->. { apply t_inj. congruence. }
    split; [reflexivity|]. split; [exact N|]. destruct (l_pos ph) as [x|]; [|discriminate]. cbn [option_map] in X. assert (x' = shift g x) as -> by congruence. exists x, k, a, b. split; [reflexivity|]. split; [exact K|].
    split; [|split; [exact (proj2 (m_rect m a b q A) Z)|exact L]]. apply s_inj. now rewrite Q, s_add, t_scale.
Qed.
Lemma m_meets m ph : perpendicular_axes m -> meets (mul4 g m) (displace g ph) = option_map displaced_hit (meets m ph).
Proof.
  intros P. destruct (meets m ph) as [[[d q] loc]|] eqn:H.
  - now apply (m_meets_some m ph d q loc P).
  - destruct (meets (mul4 g m) (displace g ph)) as [[[d' q'] loc]|] eqn:K; [|reflexivity]. exfalso.
    pose proof (proj1 (meets_iff _ _ _ _ _ (m_axes m P)) K) as (D & N & x' & k & a & b & X & _ & Q & _). unfold displace in D, X. cbn [l_dir l_pos] in D, X.
    destruct (l_dir ph) as [d|] eqn:LD; [|discriminate]. destruct (l_pos ph) as [x|] eqn:LX; [|discriminate]. cbn [option_map] in D, X.
    assert (d' = turn g d) as -> by congruence. assert (x' = shift g x) as -> by congruence. rewrite <- t_scale, <- s_add in Q. rewrite Q in K.
    apply (m_meets_some m ph d _ loc P) in K. congruence.
Qed.
Lemma m_tube ginv m minv a b ph : mul4 ginv g = id4 -> perpendicular_axes m -> meets_tube (mul4 g m) (mul4 minv ginv) a b (displace g ph) = option_map displaced_hit (meets_tube m minv a b ph).
Proof.
  intros I P. unfold meets_tube, displace. cbn [l_dir l_pos]. destruct (l_dir ph) as [d|]; [|reflexivity]. destruct (l_pos ph) as [x|]; [|reflexivity]. cbn [option_map].
  assert (E : forall v, app4 (mul4 minv ginv) (app4 g v) = app4 minv v) by (intros v; rewrite <- app4_mul, mul4_assoc, I, mul4_id_r; reflexivity).
  assert (ED : app4 (mul4 minv ginv) (hom (turn g d) 0) = app4 minv (hom d 0)) by (rewrite <- (E (hom d 0)), (m_dir (hom d 0) eq_refl), Coords_Proofs.xyz_hom; reflexivity).
  assert (EX : app4 (mul4 minv ginv) (hom (shift g x) 1) = app4 minv (hom x 1)) by (rewrite <- (E (hom x 1)), (m_pos (hom x 1) eq_refl), Coords_Proofs.xyz_hom; reflexivity).
  unfold cylinder_intersect. cbv zeta. rewrite ED, EX. change (w4 (hom (turn g d) 0)) with 0. change (w4 (hom d 0)) with 0. rewrite (proj2 (Reqb_true 0 0) eq_refl). cbn [negb].
  destruct (tube_crossing a b _ _) as [k|]; [|reflexivity].
  destruct (decompose44_perp_zoom m P) as (r & zx & zy & ->). destruct (decompose44_perp_zoom _ (m_axes m P)) as (r' & zx' & zy' & ->). cbn [z3].
  change (xyz (b2 (mul4 g m))) with (xyz (v_z (mul4 g m))). rewrite (m_z m (proj1 P)), t_norm. unfold displaced_hit. cbn [option_map fst snd].
  rewrite app4_mul, m_pos, Coords_Proofs.xyz_hom by (rewrite app4_aff_w by exact (proj1 P); reflexivity). reflexivity.
Qed.
(** rotations *)
Lemma t_axangle u t v : app3 (axangle2mat_n (turn g u) t) (turn g v) = turn g (app3 (axangle2mat_n u t) v).
Proof. rewrite !axangle_rodrigues. unfold rodrigues. now rewrite !t_add, !t_scale, t_cross, t_dot. Qed.
Lemma t_axangle_trans u t v : app3 (trans3 (axangle2mat_n (turn g u) t)) (turn g v) = turn g (app3 (trans3 (axangle2mat_n u t)) v).
Proof. rewrite !axangle_trans. apply t_axangle. Qed.
Lemma t_rotate_by u t v : rotate_by (turn g u) t (turn g v) = option_map (turn g) (rotate_by u t v).
Proof. destruct t as [t|]; [|reflexivity]. unfold rotate_by, axangle2mat. rewrite t_unit. destruct (unit3 u) as [e|]; [|reflexivity]. cbn [option_map]. unfold einsum_ij_i. now rewrite t_axangle_trans. Qed.
Lemma t_radial c x d a b : radial_scatter (shift g c) (shift g x) (turn g d) a b = option_map (turn g) (radial_scatter c x d a b).
Proof.
  unfold radial_scatter. cbv zeta. rewrite s_sub, t_cross, t_rotate_by. destruct (rotate_by (cross3 d (sub3 x c)) a d) as [o|]; [|reflexivity]. cbn [option_map]. apply t_rotate_by.
Qed.
Lemma t_thin c f d h pol : thin_lens (shift g c) f (turn g d) (shift g h) (turn g pol) = option_map (fun p => (turn g (fst p), turn g (snd p))) (thin_lens c f d h pol).
Proof.
  unfold thin_lens. cbv zeta. rewrite s_sub, t_norm, t_cross. destruct (Reqb (norm3 (sub3 h c)) 0); [reflexivity|]. unfold axangle2mat. rewrite t_unit.
  destruct (unit3 (cross3 d (sub3 h c))) as [u|]; [|reflexivity]. cbn [option_map fst snd]. now rewrite !t_axangle.
Qed.
(** polarization *)
Lemma t_transported d o pol : transported (turn g d) (turn g o) (option_map (turn g) pol) = option_map (turn g) (transported d o pol).
Proof.
  destruct pol as [v|]; [|reflexivity]. unfold transported. cbn [option_map]. unfold parallel_transport. rewrite !Coords_Proofs.xyz_hom. unfold paralleltransport_matrix. rewrite !t_unit.
  destruct (unit3 d) as [d1|]; [|reflexivity]. destruct (unit3 o) as [d2|]; [|reflexivity]. cbn [option_map]. rewrite t_cross, t_norm.
  destruct (isclose (norm3 (cross3 d1 d2)) 0).
  - cbn [option_map]. now rewrite !app3_id, !Coords_Proofs.xyz_hom.
  - cbv zeta. cbn [option_map]. rewrite !Coords_Proofs.xyz_hom, !frame_apply. rewrite <- t_scale, !t_cross, !t_dot, !t_add, !t_scale. reflexivity.
Qed.
Definition turned (p : option v3 * option v3) : option v3 * option v3 := (option_map (turn g) (fst p), option_map (turn g) (snd p)).
Lemma t_bent d o pol : bent (turn g d) (option_map (turn g) o) (option_map (turn g) pol) = turned (bent d o pol).
Proof. destruct o as [o|]; [|reflexivity]. unfold bent, turned. cbn [option_map fst snd]. now rewrite t_transported. Qed.
(** lens *)
Lemma m_ez m : perpendicular_axes m -> e_z m = Some (hom (nrm (xyz (v_z m))) 0).
Proof. intros ((_ & _ & W & _) & _ & _ & N & _). unfold e_z. now rewrite (unit4_hom0 (v_z m)). Qed.
Lemma m_axis m off : perpendicular_axes m -> optical_axis_point (mul4 g m) off = option_map (shift g) (optical_axis_point m off).
Proof.
  intros P. unfold optical_axis_point. rewrite (m_ez m P), (m_ez _ (m_axes m P)), (m_z m (proj1 P)), t_nrm. cbn [option_map]. f_equal.
  now rewrite !axis_off, s_add, t_scale, (m_c m (proj1 P)).
Qed.
Lemma m_lens m off f refl d q : perpendicular_axes m -> perfect_lens (mul4 g m) off f refl (turn g d) (shift g q) = option_map (fun p => (turn g (fst p), snd p)) (perfect_lens m off f refl d q).
Proof.
  intros P. unfold perfect_lens, focuspoint. rewrite (m_axis m off P), t_unit. destruct (optical_axis_point m off) as [p|]; [|reflexivity]. destruct (unit3 d) as [u|]; [|reflexivity]. cbn [option_map].
  rewrite <- t_scale, <- s_add, s_sub, t_unit. destruct (unit3 (sub3 (add3 p (scale3 f u)) q)) as [o|]; [|reflexivity]. cbn [option_map fst snd]. cbv zeta. now rewrite t_dot.
Qed.
(** grating *)
Lemma t_dln c tr d l n p o w per : diffract_dln c tr (turn g d) (turn g l) (turn g n) (turn g p) o w per = option_map (turn g) (diffract_dln c tr d l n p o w per).
Proof.
  unfold diffract_dln. cbv zeta. assert (S : order_sign c (turn g p) (turn g d) = order_sign c p d). { unfold order_sign. now rewrite t_dot. }
  rewrite S, !t_dot. destruct (Rltb _ 0); [reflexivity|]. cbn [option_map]. now rewrite !t_add, !t_scale.
Qed.
Lemma m_grating c tr m gr d o w per : perpendicular_axes m -> option_map fst (grating c tr (mul4 g m) gr (turn g d) o w per) = option_map (turn g) (option_map fst (grating c tr m gr d o w per)).
Proof.
  intros P. unfold grating. rewrite (plane_bases_val m P), (plane_bases_val _ (m_axes m P)), (m_x m (proj1 P)), (m_y m (proj1 P)), (m_z m (proj1 P)), !Coords_Proofs.xyz_hom, !t_nrm. unfold diffract. rewrite t_unit.
  destruct (unit3 d) as [p|]; [|reflexivity]. cbn [option_map]. cbv zeta. set (a := nrm (xyz (v_y m))). set (b := nrm (xyz (v_z m))). set (n := nrm (xyz (v_x m))).
  assert (E1 : e_groove (turn g a) (turn g b) gr = turn g (e_groove a b gr)). { unfold e_groove. now rewrite t_add, !t_scale. }
  assert (E2 : neg3 (e_perp_groove (turn g a) (turn g b) gr) = turn g (neg3 (e_perp_groove a b gr))). { unfold e_perp_groove. now rewrite t_neg, t_sub, !t_scale. }
  rewrite E1, E2, t_dln. destruct (diffract_dln c tr _ _ n p o w per); reflexivity.
Qed.
(** multi layer mirror *)
Lemma m_inv ginv m minv : mul4 ginv g = id4 -> mul4 minv m = id4 -> mul4 (mul4 minv ginv) (mul4 g m) = id4.
Proof. intros I J. now rewrite mul4_assoc, <- (mul4_assoc ginv g m), I, mul4_id_l. Qed.
Lemma m_reflect ginv m minv d : mul4 ginv g = id4 -> mul4 minv m = id4 -> perpendicular_axes m -> d <> zero3 ->
  option_map xyz (Brewster_Model.reflect (mul4 g m) (mul4 minv ginv) (hom (turn g d) 0)) = option_map (turn g) (option_map xyz (Brewster_Model.reflect m minv (hom d 0))).
Proof.
  intros I J P D. rewrite (reflect_spec m minv d P J D), (reflect_spec (mul4 g m) (mul4 minv ginv) (turn g d) (m_axes m P) (m_inv _ _ _ I J) (proj2 (t_zero d) D)).
  cbn [option_map]. now rewrite !Coords_Proofs.xyz_hom, (m_x m (proj1 P)), !t_nrm, t_dot, t_sub, t_scale.
Qed.
Definition brewster_turned (b : option v3 * option v3 * option R) : option v3 * option v3 * option R := (option_map (turn g) (fst (fst b)), option_map (turn g) (snd (fst b)), snd b).
Lemma m_brewster ginv m minv rs rp d v : mul4 ginv g = id4 -> mul4 minv m = id4 -> perpendicular_axes m -> d <> zero3 ->
  bind (brewster (mul4 g m) (mul4 minv ginv) rs rp (hom (turn g d) 0) (hom (turn g v) 0)) (fun r => Ok (option_map xyz (fst (fst r)), snd r, snd (fst r))) =
  result_map brewster_turned (bind (brewster m minv rs rp (hom d 0) (hom v 0)) (fun r => Ok (option_map xyz (fst (fst r)), snd r, snd (fst r)))).
Proof.
  intros I J P D. rewrite (brewster_unfold m minv rs rp d _ P J D), (brewster_unfold (mul4 g m) (mul4 minv ginv) rs rp (turn g d) _ (m_axes m P) (m_inv _ _ _ I J) (proj2 (t_zero d) D)).
  cbv zeta. rewrite (m_x m (proj1 P)), !t_nrm, t_cross, t_unit. set (u := nrm d). set (e := nrm (xyz (v_x m))).
  assert (N : sub3 (turn g u) (scale3 (2 * dot3 (turn g u) (turn g e)) (turn g e)) = turn g (sub3 u (scale3 (2 * dot3 u e) e))) by now rewrite t_dot, t_sub, t_scale.
  rewrite N. destruct (unit3 (cross3 u e)) as [vs|]; cbn [option_map]; [|cbn [bind result_map brewster_turned fst snd option_map]; unfold brewster_turned; cbn [fst snd option_map]; now rewrite !Coords_Proofs.xyz_hom].
  rewrite ?Coords_Proofs.xyz_hom, !t_cross, !t_dot. destruct (Rltb (1001 / 1000) _); [reflexivity|]. cbn [bind result_map fst snd option_map]. unfold brewster_turned. cbn [fst snd option_map].
  rewrite ?Coords_Proofs.xyz_hom, ?t_cross, <- !t_scale, <- t_add, t_unit. reflexivity.
Qed.
End Turn.

(** ** one element *)
Definition moved_effect (g : m4) (o : option v3 * option v3 * option R) : option v3 * option v3 * option R := brewster_turned g o.
Lemma effect_moved g ginv p dr ph d q loc : rigid g -> mul4 ginv g = id4 -> well_made p -> no_random p -> d <> zero3 ->
  effect (displace_part g ginv p) dr (displace g ph) (turn g d) (shift g q) loc = result_map (moved_effect g) (effect p dr ph d q loc).
Proof.
  intros G I (WA & WB & _) NR D. destruct p; cbn [displace_part effect]; unfold displace at 1; cbn [l_dir l_pos l_pol l_energy].
  - pose proof (WA _ eq_refl) as P. rewrite (m_lens g G m off f _ d q P). destruct (perfect_lens m off f (refl (l_energy ph)) d q) as [[o pr]|]; cbn [option_map fst snd result_map]; unfold moved_effect, brewster_turned; cbn [fst snd]; f_equal; f_equal.
    change (Some (turn g o)) with (option_map (turn g) (Some o)). unfold displace. cbn [l_pol]. rewrite (t_bent g G). reflexivity.
  - pose proof (WA _ eq_refl) as P. rewrite (m_c g G m (proj1 P)). unfold displace. cbn [l_pol]. destruct (l_pol ph) as [v|]; cbn [option_map].
    + rewrite (t_thin g G). destruct (thin_lens (xyz (center m)) f d q v) as [[o w]|]; reflexivity.
    + assert (Z : zero3 = turn g zero3) by (unfold turn; generalize (lin g); clear; vring). rewrite Z at 1. rewrite (t_thin g G). destruct (thin_lens (xyz (center m)) f d q zero3) as [[o w]|]; reflexivity.
  - pose proof (WA _ eq_refl) as P. rewrite (m_grating g G) by exact P. unfold displace. cbn [l_pol l_energy]. rewrite (t_bent g G). reflexivity.
  - pose proof (WA _ eq_refl) as P. rewrite (m_c g G m (proj1 P)). destruct (l_pos ph) as [x|]; cbn [option_map]; [|reflexivity]. rewrite (t_radial g G). unfold displace. cbn [l_pol]. rewrite (t_bent g G). reflexivity.
  - cbn in NR. subst on. reflexivity.
  - unfold displace; cbn [l_energy]. destruct (Rltb (f (l_energy ph)) 0 || Rltb 1 (f (l_energy ph))); reflexivity.
  - pose proof (WA _ eq_refl) as P. pose proof (WB _ _ eq_refl) as J. unfold displace. cbn [l_pol]. destruct (l_pol ph) as [v|]; cbn [option_map].
    + rewrite (m_brewster g G ginv m minv _ _ d v I J P D). reflexivity.
    + rewrite (m_reflect g G ginv m minv d I J P D). reflexivity.
  - reflexivity.
  - reflexivity.
  - reflexivity.
  - reflexivity.
  - reflexivity.
Qed.
Lemma hit_dir m ph d q loc : perpendicular_axes m -> meets m ph = Some (d, q, loc) -> d <> zero3.
Proof. intros P H. apply (meets_iff m ph d q loc P) in H. destruct H as (_ & N & _). intros ->. apply N. generalize (xyz (v_x m)). clear. vring. Qed.
Lemma one_moved g ginv p dr ph : rigid g -> mul4 ginv g = id4 -> well_made p -> no_random p ->
  one (displace_part g ginv p) dr (displace g ph) = result_map (displace g) (one p dr ph).
Proof.
  intros G I W NR.
  assert (K : forall m, geometry p = Some m -> (forall b, p <> PBaffle b) -> geometry (displace_part g ginv p) = Some (mul4 g m) ->
    match meets (mul4 g m) (displace g ph) with
    | None => Ok (displace g ph)
    | Some (d, q, loc) => bind (effect (displace_part g ginv p) dr (displace g ph) d q loc) (fun o => if bad_factor (snd o) then Err ValueError else Ok (LPhoton (fst (fst o)) (Some q) (snd (fst o)) (l_energy (displace g ph)) (times (l_prob (displace g ph)) (snd o))))
    end = result_map (displace g) match meets m ph with
    | None => Ok ph
    | Some (d, q, loc) => bind (effect p dr ph d q loc) (fun o => if bad_factor (snd o) then Err ValueError else Ok (LPhoton (fst (fst o)) (Some q) (snd (fst o)) (l_energy ph) (times (l_prob ph) (snd o))))
    end).
  { intros m GM NB _. pose proof (proj1 W m GM) as P. rewrite (m_meets g G m ph P). destruct (meets m ph) as [[[d q] loc]|] eqn:H; [|reflexivity]. cbn [option_map displaced_hit]. unfold displaced_hit. cbn [fst snd].
    rewrite (effect_moved g ginv p dr ph d q loc G I W NR (hit_dir m ph d q loc P H)). destruct (effect p dr ph d q loc) as [[[o w] f]|e]; [|reflexivity].
    cbn [result_map bind moved_effect brewster_turned fst snd]. unfold moved_effect, brewster_turned. cbn [fst snd]. destruct (bad_factor f); reflexivity. }
  destruct p; try (apply (K _ eq_refl); [congruence|reflexivity]).
  - cbn [displace_part one result_map]. pose proof (proj1 W m eq_refl) as P. rewrite (m_meets g G m ph P). destruct (meets m ph) as [[[d q] loc]|]; reflexivity.
  - cbn [displace_part one]. change (l_energy (displace g ph)) with (l_energy ph). destruct (Rltb (f (l_energy ph)) 0 || Rltb 1 (f (l_energy ph))); reflexivity.
  - cbn [displace_part one result_map]. f_equal. unfold displace. cbn [l_dir l_pos l_pol l_energy l_prob]. f_equal. destruct (l_pos ph) as [x|]; [|reflexivity]. destruct (l_dir ph) as [v|]; [|reflexivity].
    cbn [option_map]. now rewrite (s_add g), (t_scale g).
  - destruct W as (_ & _ & W). destruct (W _ _ _ _ eq_refl) as (_ & _ & _ & P). cbn [displace_part one surface]. rewrite (m_tube g G ginv m minv lim0 lim1 ph I P).
    destruct (meets_tube m minv lim0 lim1 ph) as [[[d q] loc]|]; [|reflexivity]. cbn [option_map effect bind snd fst]. unfold displaced_hit. cbn [fst snd]. destruct (bad_factor _); reflexivity.
Qed.
Lemma through_moved g ginv : rigid g -> mul4 ginv g = id4 -> forall ps drs ph, Forall well_made ps -> Forall no_random ps ->
  through (map (displace_part g ginv) ps) drs (displace g ph) = result_map (displace g) (through ps drs ph).
Proof.
  intros G I. induction ps as [|p ps IH]; intros drs ph W N; [reflexivity|]. inversion W; subst. inversion N; subst. cbn [map through].
  rewrite (one_moved g ginv p _ ph) by assumption. destruct (one p _ ph) as [ph1|e]; [|reflexivity]. cbn [result_map bind]. now apply IH.
Qed.
(** ** photon lists *)
Lemma displace_of_rows g rows : displace_table g (of_rows rows) = of_rows (map (displace g) rows).
Proof. unfold displace_table, of_rows. cbn [c_dir c_pos c_pol c_energy c_prob]. rewrite !map_map. reflexivity. Qed.
Lemma displace_draws g ginv p ph : rigid g -> mul4 ginv g = id4 -> well_made p -> draws_for (displace_part g ginv p) (displace g ph) = draws_for p ph.
Proof.
  intros G I (W & _ & T). destruct p; cbn [displace_part draws_for surface geometry] in *; try reflexivity; try (rewrite (m_meets g G _ ph (W _ eq_refl)); now destruct (meets m ph)).
  destruct (T _ _ _ _ eq_refl) as (_ & _ & _ & P). rewrite (m_tube g G ginv m minv lim0 lim1 ph I P). now destruct (meets_tube m minv lim0 lim1 ph).
Qed.
Lemma displace_hits g ginv p rows : rigid g -> mul4 ginv g = id4 -> well_made p -> hits_of (displace_part g ginv p) (map (displace g) rows) = hits_of p rows.
Proof.
  intros G I W. unfold hits_of. induction rows as [|ph rows IH]; [reflexivity|]. cbn [map filter]. rewrite (displace_draws g ginv p ph G I W). destruct (draws_for p ph); cbn [length]; now rewrite IH.
Qed.
Lemma displace_each g ginv p : rigid g -> mul4 ginv g = id4 -> well_made p -> no_random p -> forall rows drs,
  each_row (displace_part g ginv p) drs (map (displace g) rows) = result_map (map (displace g)) (each_row p drs rows).
Proof.
  intros G I W N. induction rows as [|ph rows IH]; intros drs; cbn [map each_row]; [reflexivity|]. rewrite (displace_draws g ginv p ph G I W). destruct (draws_for p ph).
  - destruct drs as [|dr drs]; [reflexivity|]. rewrite (one_moved g ginv p dr ph G I W N). destruct (one p dr ph) as [a|]; cbn [result_map bind]; [|reflexivity]. rewrite IH. now destruct (each_row p drs rows).
  - rewrite (one_moved g ginv p dr0 ph G I W N). destruct (one p dr0 ph) as [a|]; cbn [result_map bind]; [|reflexivity]. rewrite IH. now destruct (each_row p drs rows).
Qed.
Lemma displace_process g ginv p drs t : rigid g -> mul4 ginv g = id4 -> well_made p -> no_random p -> rectangular t -> length drs = hits_of p (crows t) ->
  process (displace_part g ginv p) drs (displace_table g t) = result_map (displace_table g) (process p drs t).
Proof.
  intros G I W N R L. rewrite <- (of_rows_rows t R) at 1. rewrite displace_of_rows. rewrite process_table by (try apply of_rows_rect; rewrite rows_of_rows, (displace_hits g ginv p _ G I W); exact L).
  rewrite rows_of_rows, (displace_each g ginv p G I W N), (process_table p drs t R L). destruct (each_row p drs (crows t)) as [r|]; cbn [result_map bind]; [|reflexivity]. now rewrite displace_of_rows.
Qed.
Lemma displace_run g ginv : rigid g -> mul4 ginv g = id4 -> forall ps drs t, Forall well_made ps -> Forall no_random ps -> rectangular t -> fits ps drs t ->
  run (map (displace_part g ginv) ps) drs (displace_table g t) = result_map (displace_table g) (run ps drs t).
Proof.
  intros G I. induction ps as [|p ps IH]; intros drs t W N R F; cbn [map run]; [reflexivity|]. inversion W; subst. inversion N; subst. destruct F as [L F].
  rewrite (displace_process g ginv p _ t) by assumption. destruct (process p (hd [] drs) t) as [t1|] eqn:E; cbn [result_map bind]; [|reflexivity]. apply IH; try assumption. - exact (process_rect _ _ _ _ R E). - exact (F t1 eq_refl).
Qed.
(** ** random scatter: another number for the azimuth *)
Lemma frame_of p e : dot3 p p = 1 -> dot3 e e = 1 -> dot3 p e = 0 -> orthonormal (M3 p (cross3 p e) e).
Proof.
  intros P E Z. unfold orthonormal. cbn [a0 a1 a2]. rewrite lagrange, P, E, Z, dot3_cross_l, (dot3_comm (cross3 p e) e), dot3_cross_r. repeat split; ring.
Qed.
Lemma random_turn g d p : rigid g -> unit3 d = Some p -> exists c, forall a u, random_scatter (turn g d) (Some (a, u)) = option_map (turn g) (random_scatter d (Some (a, u + c))).
Proof.
  intros G U. destruct (random_form d p U) as (e & E1 & E2 & F). destruct (unit3_spec _ _ U) as (_ & _ & P & _).
  assert (U' : unit3 (turn g d) = Some (turn g p)) by now rewrite (t_unit g G), U. destruct (random_form _ _ U') as (e' & E1' & E2' & F').
  assert (P' : dot3 (turn g p) (turn g p) = 1) by now rewrite (t_dot g G). set (p' := turn g p) in *. set (t := turn g e).
  assert (T1 : dot3 t t = 1) by (unfold t; now rewrite (t_dot g G)). assert (T2 : dot3 p' t = 0) by (unfold p', t; now rewrite (t_dot g G)).
  pose proof (frame_decompose _ _ _ e' (frame_of p' t P' T1 T2)) as D. rewrite (dot3_comm e' p'), E2' in D. set (B := dot3 e' (cross3 p' t)) in *. set (A := dot3 e' t) in *.
  assert (DE : e' = add3 (scale3 B (cross3 p' t)) (scale3 A t)). { rewrite D. generalize (cross3 p' t) p' t A B. clear. vring. }
  assert (CE : cross3 p' e' = sub3 (scale3 A (cross3 p' t)) (scale3 B t)).
  { rewrite DE. transitivity (add3 (scale3 B (sub3 (scale3 (dot3 p' t) p') (scale3 (dot3 p' p') t))) (scale3 A (cross3 p' t))); [generalize p' t A B; clear; vring|]. rewrite T2, P'. generalize (cross3 p' t) p' t A B. clear. vring. }
  assert (AB : A * A + B * B = 1).
  { rewrite <- E1', DE. transitivity (B * B * dot3 (cross3 p' t) (cross3 p' t) + A * A * dot3 t t + 2 * (A * B) * dot3 (cross3 p' t) t); [|generalize (cross3 p' t) t A B; clear; vring].
    rewrite lagrange, P', T1, T2, (dot3_comm (cross3 p' t) t), dot3_cross_r. ring. }
  destruct (cs_exists A (- B)) as (f & CF & SF); [lra|]. assert (TP : twopi <> 0) by (unfold twopi; pose proof PI_RGT_0; lra).
  exists (f / twopi). intros a u. rewrite F', F. cbn [option_map]. f_equal. replace ((u + f / twopi) * twopi) with (u * twopi + f) by (field; exact TP). rewrite cos_plus, sin_plus, CF, SF.
  rewrite !(t_add g), !(t_scale g), (t_add g), !(t_scale g), <- (t_cross g G). fold p' t. rewrite CE, DE at 1. generalize (cross3 p' t) p' t A B (cos a) (sin a) (cos (u * twopi)) (sin (u * twopi)). clear. vring.
Qed.
