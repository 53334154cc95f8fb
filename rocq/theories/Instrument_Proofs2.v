(** Lemmas for photons in any instrument: direction and polarization. *)
From Verif Require Import Instrument_Model.
From Verif Require Import Base_Proofs Vec_Proofs Coords_Proofs Aperture_Proofs Placement_Proofs Rot_Proofs Plane_Proofs Lens_Proofs Grating_Proofs Scatter_Proofs Brewster_Proofs Instrument_Proofs.
Open Scope R_scope.

Definition tiny : R := / 100000000.
Lemma tiny_pos : 0 < tiny. Proof. unfold tiny. lra. Qed.
Lemma unit_dot d : norm3 d = 1 -> dot3 d d = 1.
Proof. intros H. rewrite <- norm3_sqr, H. ring. Qed.
Lemma abs_cs v w : Rabs (dot3 v w) <= norm3 v * norm3 w.
Proof.
  pose proof (cauchy v w) as C. rewrite <- !norm3_sqr in C.
  assert (0 <= norm3 v * norm3 w) by (apply Rmult_le_pos; apply norm3_nonneg).
  rewrite <- (Rabs_pos_eq (norm3 v * norm3 w)) by assumption. apply Rsqr_le_abs_0. unfold Rsqr. nra.
Qed.
Lemma transport_bound d1 d2 v : dot3 d1 d1 = 1 -> dot3 d2 d2 = 1 -> dot3 v v = 1 ->
  exists v', transported d1 d2 (Some v) = Some v' /\ dot3 v' v' = 1 /\ Rabs (dot3 v' d2) <= Rabs (dot3 v d1) + tiny.
Proof.
  intros U1 U2 V. pose proof (unit3_unit _ U1) as E1. pose proof (unit3_unit _ U2) as E2. pose proof tiny_pos as TP.
  unfold transported, parallel_transport. rewrite !xyz_hom. destruct (isclose (norm3 (cross3 d1 d2)) 0) eqn:C.
  - destruct (transport_parallel _ _ d1 d2 eye2 v E1 E2 C) as [-> _]. cbn [option_map]. rewrite xyz_hom. exists v.
    assert (I : app3 id3 v = v) by (clear; vring). rewrite I. split; [reflexivity|]. split; [exact V|].
    apply isclose_true in C. rewrite Rminus_0_r, Rabs_R0, Rmult_0_r, Rplus_0_r in C. rewrite Rabs_pos_eq in C by apply norm3_nonneg.
    set (q := sub3 d2 (scale3 (dot3 d1 d2) d1)).
    assert (Q1 : dot3 v d2 = dot3 d1 d2 * dot3 v d1 + dot3 v q) by (unfold q; rewrite dot3_sub_r, dot3_scale_r; ring).
    assert (Q2 : dot3 q q = dot3 (cross3 d1 d2) (cross3 d1 d2)).
    { unfold q. rewrite lagrange, dot3_sub_l, !dot3_sub_r, !dot3_scale_l, !dot3_scale_r, U1, U2, (dot3_comm d2 d1). ring. }
    assert (NQ : norm3 q = norm3 (cross3 d1 d2)) by (unfold norm3; now rewrite Q2).
    assert (NV : norm3 v = 1) by (unfold norm3; rewrite V; apply sqrt_1).
    pose proof (abs_cs v q) as A. rewrite NV, NQ in A. rewrite Q1. eapply Rle_trans; [apply Rabs_triang|]. rewrite Rabs_mult.
    pose proof (unit_dot_bound d1 d2 U1 U2) as B. assert (B' : Rabs (dot3 d1 d2) <= 1) by (apply Rabs_le; lra).
    pose proof (Rabs_pos (dot3 v d1)). pose proof (Rabs_pos (dot3 d1 d2)). unfold tiny in *. nra.
  - destruct (transport_spec _ _ d1 d2 eye2 true E1 E2 C) as (s & m & M & _ & _ & _ & _ & A & O & _). rewrite M. cbn [option_map]. rewrite xyz_hom.
    specialize (O eq_refl). exists (app3 m v). split; [reflexivity|]. split; [now rewrite (orthonormal_dot _ _ _ O)|]. rewrite <- A, (orthonormal_dot _ _ _ O). lra.
Qed.

(** a hit *)
Lemma meets_hit m ph d q loc : perpendicular_axes m -> meets m ph = Some (d, q, loc) ->
  exists x, l_dir ph = Some d /\ l_pos ph = Some x /\ dot3 d (xyz (v_x m)) <> 0 /\ exists k, 0 <= k /\ q = add3 x (scale3 k d).
Proof.
  intros P H. unfold meets in H. destruct (l_dir ph) as [d'|]; [|discriminate]. destruct (l_pos ph) as [x|]; [|discriminate].
  destruct (plane_intersect m (hom d' 0) (hom x 1)) as [[h ip] il] eqn:E. destruct h; [|discriminate]. destruct ip as [q'|]; [|discriminate]. destruct il as [l|]; [|discriminate].
  assert (d' = d) as -> by congruence. assert (Q : xyz q' = q) by congruence. exists x. split; [reflexivity|]. split; [reflexivity|].
  pose proof (plane_hit_iff m d x P) as I. rewrite E in I. cbn [fst] in I. destruct (proj1 I eq_refl) as (N & _). split; [exact N|].
  destruct (plane_hit_values m d x _ _ _ P E) as [_ V]. destruct (V eq_refl) as (k & a & b & q2 & K & _ & Q2 & IP & _). exists k. split; [exact K|].
  assert (SI : forall x y : v4, Some x = Some y -> x = y) by congruence. apply SI in IP. rewrite <- Q, IP, xyz_hom. exact Q2.
Qed.
Definition good (eps : R) (o : option v3 * option v3) : Prop :=
  (forall d, fst o = Some d -> dot3 d d = 1) /\ (forall v, snd o = Some v -> dot3 v v = 1) /\
  (forall d v, fst o = Some d -> snd o = Some v -> Rabs (dot3 v d) <= eps).
Lemma good_none eps : good eps (None, None).
Proof. repeat split; discriminate. Qed.
Lemma good_more eps eps' o : eps <= eps' -> good eps o -> good eps' o.
Proof. intros L (A & B & C). split; [exact A|]. split; [exact B|]. intros d v D V. specialize (C d v D V). lra. Qed.
Lemma bent_good eps d out pol : dot3 d d = 1 -> (forall o, out = Some o -> dot3 o o = 1) -> good eps (Some d, pol) -> good (eps + tiny) (bent d out pol).
Proof.
  intros D O (_ & V & E). cbn [fst snd] in *. destruct out as [o|]; [|apply good_none]. cbn [bent]. specialize (O o eq_refl).
  destruct pol as [v|]; [|cbn [transported]; repeat split; cbn [fst snd]; intros; congruence].
  destruct (transport_bound d o v D O (V v eq_refl)) as (v' & T & U & B). rewrite T.
  repeat split; cbn [fst snd]; [congruence|congruence|]. intros d' w H1 H2. assert (d' = o) as -> by congruence. assert (w = v') as -> by congruence.
  specialize (E d v eq_refl eq_refl). lra.
Qed.
Lemma unit_ne d : dot3 d d = 1 -> d <> zero3.
Proof. intros U E. subst d. revert U. vu. lra. Qed.
Lemma e_x_of m : perpendicular_axes m -> exists ey ez ex, plane_bases m = Some (ey, ez, ex) /\ xyz ex = scale3 (/ norm3 (xyz (v_x m))) (xyz (v_x m)) /\ xyz (v_x m) <> zero3.
Proof.
  intros ((W0 & W1 & W2 & _) & Nx & Ny & Nz & _). unfold plane_bases, e_x, e_y, e_z.
  rewrite (unit4_hom0 (v_x m)), (unit4_hom0 (v_y m)), (unit4_hom0 (v_z m)) by assumption. do 3 eexists. split; [reflexivity|]. rewrite xyz_hom. now split.
Qed.
Lemma grating_unit c tr m g d o w per out : perpendicular_axes m -> dot3 d d = 1 -> dot3 d (xyz (v_x m)) <> 0 ->
  option_map fst (grating c tr m g d o w per) = Some out -> dot3 out out = 1.
Proof.
  intros P U N H. destruct (grating c tr m g d o w per) as [[x bl]|] eqn:G; [|discriminate]. cbn [option_map fst] in H. assert (x = out) as -> by congruence.
  destruct (e_x_of m P) as (ey & ez & ex & B & X & Z). apply unit_dot.
  assert (ND : norm3 d = 1) by (unfold norm3; rewrite U; apply sqrt_1).
  refine (proj1 (grating_main c tr m g d o w per out bl ey ez ex (scale3 (/ norm3 d) d) P (unit_ne d U) B eq_refl _ G)).
  rewrite X, dot3_scale_l, dot3_scale_r, ND. intros E. apply N. pose proof (norm3_pos _ Z) as NZ.
  assert (/ norm3 (xyz (v_x m)) <> 0) by (apply Rinv_neq_0_compat; lra). rewrite Rinv_1, Rmult_1_l in E. apply Rmult_integral in E. tauto.
Qed.
Lemma mirror_unit u ex : dot3 u u = 1 -> dot3 ex ex = 1 -> dot3 (sub3 u (scale3 (2 * dot3 u ex) ex)) (sub3 u (scale3 (2 * dot3 u ex) ex)) = 1.
Proof. intros U E. rewrite dot3_sub_l, !dot3_sub_r, !dot3_scale_l, !dot3_scale_r, U, E, (dot3_comm ex u). ring. Qed.
Lemma brewster_good m minv rs rp d v r : perpendicular_axes m -> mul4 minv m = id4 -> dot3 d d = 1 -> brewster m minv rs rp (hom d 0) (hom v 0) = Ok r ->
  good 0 (option_map xyz (fst (fst r)), snd r) /\ forall f, snd (fst r) = Some f -> 0 <= f <= 1.
Proof.
  intros P I U H. rewrite (brewster_unfold m minv rs rp d (hom v 0) P I (unit_ne d U)) in H. cbv zeta in H. rewrite xyz_hom in H.
  set (ex := nrm (xyz (v_x m))) in *. set (u := nrm d) in *. set (new := sub3 u (scale3 (2 * dot3 u ex) ex)) in *.
  assert (X : dot3 ex ex = 1) by (apply nrm_unit, P). assert (UU : dot3 u u = 1) by (now apply nrm_unit, unit_ne).
  assert (N : dot3 new new = 1) by (now apply mirror_unit).
  destruct (unit3 (cross3 u ex)) as [vs|] eqn:VS.
  - destruct (Rltb _ _); [discriminate|]. injection H as <-. cbn [fst snd option_map].
    assert (UV : dot3 vs u = 0 /\ dot3 vs ex = 0).
    { destruct (unit3_spec _ _ VS) as (_ & E & _). apply (unit3_spec) in VS. destruct VS as (NZ & EQ & _). rewrite EQ, !dot3_scale_l.
      rewrite (dot3_comm _ u), (dot3_comm _ ex), dot3_cross_l, dot3_cross_r. split; ring. }
    split.
    + rewrite xyz_hom. split; [cbn [fst snd]; congruence|]. split; [cbn [fst snd]; intros w W; apply (unit3_spec _ _ W)|]. cbn [fst snd]. intros d' w D W.
      assert (d' = new) as -> by congruence. destruct (unit3_spec _ _ W) as (_ & EQ & _). rewrite EQ, dot3_scale_l, dot3_add_l, !dot3_scale_l.
      assert (Z1 : dot3 vs new = 0) by (unfold new; rewrite dot3_sub_r, dot3_scale_r; destruct UV as [-> ->]; ring).
      assert (Z2 : dot3 (cross3 new vs) new = 0) by (generalize new vs; clear; intros; vd; vu; ring).
      rewrite Z1, Z2, !Rmult_0_r, Rplus_0_r, Rmult_0_r, Rabs_R0. lra.
    + intros f F. assert (SI : forall a b : R, Some a = Some b -> a = b) by congruence. apply SI in F. rewrite <- F. apply clip_range. lra.
  - injection H as <-. cbn [fst snd option_map]. split; [|discriminate]. rewrite xyz_hom. split; [cbn [fst snd]; congruence|]. split; cbn [fst snd]; intros; discriminate.
Qed.
Lemma tube_dir m minv a b ph d q loc : meets_tube m minv a b ph = Some (d, q, loc) -> l_dir ph = Some d.
Proof.
  unfold meets_tube. destruct (l_dir ph) as [d'|]; [|discriminate]. destruct (l_pos ph) as [x|]; [|discriminate].
  destruct (cylinder_intersect _ _ _ _ _ _ _) as [[[[|] [q'|]] [l|]]|]; try discriminate. intros H. congruence.
Qed.
Lemma effect_good p dr ph m d q loc o eps : well_made p -> geometry p = Some m -> meets m ph = Some (d, q, loc) -> 0 <= eps -> physical eps ph ->
  effect p dr ph d q loc = Ok o -> good (eps + tiny) (fst o).
Proof.
  intros (WM & WI & _) GM M EP (PD & PV & PE & _) H. specialize (WM m GM). destruct (meets_hit m ph d q loc WM M) as (x & D & X & N & _).
  pose proof (PD d D) as U. assert (G0 : good eps (Some d, l_pol ph)).
  { split; [cbn [fst]; congruence|]. split; [exact PV|]. cbn [fst snd]. intros d' v E V. apply PE; congruence. }
  pose proof tiny_pos as TP. assert (G1 : good (eps + tiny) (Some d, l_pol ph)) by (apply (good_more eps); [lra|exact G0]).
  destruct p as [m' off f refl rn|m' f|c tr m' g per|m' ip pp|m' on|m' f|m' minv|m'|m'|f|dist|m' minv la lb]; cbn [effect geometry] in *; try discriminate GM; (assert (m' = m) as -> by congruence); clear GM;
    try (assert (o = (Some d, l_pol ph, Some 1)) as -> by congruence; exact G1).
  - destruct (perfect_lens m off f (refl (l_energy ph)) d q) as [[out pr]|] eqn:L.
    + assert (o = (bent d (Some out) (l_pol ph), Some pr)) as -> by congruence. cbn [fst]. apply bent_good; [exact U| |exact G0].
      intros o' E. assert (o' = out) as -> by congruence. apply unit_dot. destruct (lens_out _ _ _ _ _ _ _ _ L) as (F & _ & NO & _). exact NO.
    + assert (o = (bent d None (l_pol ph), rn (l_energy ph))) as -> by congruence. apply good_none.
  - destruct (thin_lens (xyz (center m)) f d q (match l_pol ph with Some v => v | None => zero3 end)) as [[out pol]|] eqn:T.
    + assert (o = (Some out, match l_pol ph with Some _ => Some pol | None => None end, Some 1)) as -> by congruence. cbn [fst].
      destruct (thin_rotates _ _ _ _ _ _ _ T) as (rot & [O _] & E1 & E2). apply (good_more eps); [lra|].
      split; [cbn [fst snd]; intros d' E; assert (d' = out) as -> by congruence; rewrite E1, (orthonormal_dot _ _ _ O); exact U|].
      destruct (l_pol ph) as [v|] eqn:V; [|split; cbn [fst snd]; discriminate].
      split; cbn [fst snd]; [intros w E; assert (w = pol) as -> by congruence; rewrite E2, (orthonormal_dot _ _ _ O); now apply PV|].
      intros d' w E E'. assert (d' = out) as -> by congruence. assert (w = pol) as -> by congruence. rewrite E1, E2, (orthonormal_dot _ _ _ O). now apply PE.
    + assert (o = (None, None, Some 1)) as -> by congruence. apply good_none.
  - assert (E : fst o = bent d (option_map fst (grating c tr m g d (dr_order dr) (energy2wave / l_energy ph) (per loc))) (l_pol ph)) by (apply (f_equal (fun r => match r with Ok a => a | Err _ => o end)) in H; now rewrite <- H).
    rewrite E. apply bent_good; [exact U| |exact G0]. intros o' E'. eapply grating_unit; eassumption.
  - rewrite X in H. assert (E : fst o = bent d (radial_scatter (xyz (center m)) x d (if ip then Some (dr_a dr) else None) (if pp then Some (dr_b dr) else None)) (l_pol ph)) by (apply (f_equal (fun r => match r with Ok a => a | Err _ => o end)) in H; now rewrite <- H).
    rewrite E. apply bent_good; [exact U| |exact G0]. intros o' E'. apply radial_norm in E'. apply unit_dot. rewrite E'. unfold norm3. rewrite U. apply sqrt_1.
  - destruct on; [|assert (o = (Some d, l_pol ph, Some 1)) as -> by congruence; exact G1].
    assert (E : fst o = bent d (random_scatter d (Some (dr_a dr, dr_u dr))) (l_pol ph)) by (apply (f_equal (fun r => match r with Ok a => a | Err _ => o end)) in H; now rewrite <- H).
    rewrite E. apply bent_good; [exact U| |exact G0]. intros o' E'. destruct (random_spec d (dr_a dr) (dr_u dr) d (unit3_unit d U)) as (out & R & NO & _).
    rewrite R in E'. assert (o' = out) as -> by congruence. now apply unit_dot.
  - destruct (_ || _); [discriminate|]. assert (fst o = (Some d, l_pol ph)) as -> by (apply (f_equal (fun r => match r with Ok a => a | Err _ => o end)) in H; now rewrite <- H). exact G1.
  - specialize (WI m minv eq_refl). destruct (l_pol ph) as [v|] eqn:V.
    + destruct (brewster m minv (dr_rs dr) (dr_rp dr) (hom d 0) (hom v 0)) as [r|] eqn:B; cbn [bind] in H; [|discriminate].
      assert (fst o = (option_map xyz (fst (fst r)), snd r)) as -> by (apply (f_equal (fun r => match r with Ok a => a | Err _ => o end)) in H; now rewrite <- H).
      apply (good_more 0); [lra|]. now apply (brewster_good m minv (dr_rs dr) (dr_rp dr) d v r WM WI U).
    + assert (fst o = (option_map xyz (Brewster_Model.reflect m minv (hom d 0)), None)) as -> by (apply (f_equal (fun r => match r with Ok a => a | Err _ => o end)) in H; now rewrite <- H).
      rewrite (reflect_spec m minv d WM WI (unit_ne d U)). cbn [option_map]. rewrite xyz_hom. split; [|split; cbn [fst snd]; intros; discriminate].
      cbn [fst snd]. intros d' E. assert (SI : forall a b : v3, Some a = Some b -> a = b) by congruence. apply SI in E. rewrite <- E. apply mirror_unit; apply nrm_unit; [now apply unit_ne|apply WM].
Qed.
Lemma factor_ok f : bad_factor (Some f) = false -> 0 <= f <= 1.
Proof. cbn [bad_factor]. intros H. apply orb_false_iff in H. destruct H as [A B]. apply Rltb_false in A. apply Rltb_false in B. lra. Qed.
Lemma times_some a b c : times a b = Some c -> exists x y, a = Some x /\ b = Some y /\ c = x * y.
Proof. destruct a, b; cbn [times]; try discriminate. intros H. do 2 eexists. split; [reflexivity|]. split; [reflexivity|]. congruence. Qed.
(** one element *)
Lemma one_physical p dr ph ph' eps : well_made p -> 0 <= eps -> physical eps ph -> one p dr ph = Ok ph' ->
  physical (eps + tiny) ph' /\ l_energy ph' = l_energy ph /\ (forall f', l_prob ph' = Some f' -> f' = 0 \/ exists f, l_prob ph = Some f /\ f' <= f) /\
  (l_dir ph = None -> l_dir ph' = None).
Proof.
  intros W EP P H. pose proof tiny_pos as TP. assert (P1 : physical (eps + tiny) ph).
  { destruct P as (A & B & C & D). split; [exact A|]. split; [exact B|]. split; [|exact D]. intros d v E V. specialize (C d v E V). lra. }
  assert (KEEP : ph' = ph -> physical (eps + tiny) ph' /\ l_energy ph' = l_energy ph /\ (forall f', l_prob ph' = Some f' -> f' = 0 \/ exists f, l_prob ph = Some f /\ f' <= f) /\ (l_dir ph = None -> l_dir ph' = None)).
  { intros ->. split; [exact P1|]. split; [reflexivity|]. split; [|auto]. intros f F. right. exists f. split; [exact F|lra]. }
  assert (PR : forall f0, l_prob ph = Some f0 -> 0 <= f0 <= 1) by apply P.
  assert (G : forall hit : lphoton -> option (v3 * v3 * (R * R)), (forall d q loc o, hit ph = Some (d, q, loc) -> effect p dr ph d q loc = Ok o -> good (eps + tiny) (fst o)) ->
    (l_dir ph = None -> hit ph = None) -> match hit ph with None => Ok ph | Some (d, q, loc) => bind (effect p dr ph d q loc) (fun o =>
    if bad_factor (snd o) then Err ValueError else Ok (LPhoton (fst (fst o)) (Some q) (snd (fst o)) (l_energy ph) (times (l_prob ph) (snd o)))) end = Ok ph' ->
    physical (eps + tiny) ph' /\ l_energy ph' = l_energy ph /\ (forall f', l_prob ph' = Some f' -> f' = 0 \/ exists f, l_prob ph = Some f /\ f' <= f) /\ (l_dir ph = None -> l_dir ph' = None)).
  { intros hit GH GN. destruct (hit ph) as [[[d q] loc]|] eqn:M; [|intros E; apply KEEP; congruence].
    destruct (effect p dr ph d q loc) as [o|] eqn:E; cbn [bind]; [|discriminate]. destruct (bad_factor (snd o)) eqn:B; [discriminate|]. intros E'.
    assert (ph' = LPhoton (fst (fst o)) (Some q) (snd (fst o)) (l_energy ph) (times (l_prob ph) (snd o))) as -> by congruence.
    destruct (GH d q loc o eq_refl E) as (A1 & A2 & A3). unfold physical. cbn [l_dir l_pol l_energy l_prob].
    assert (T : forall f', times (l_prob ph) (snd o) = Some f' -> exists f0 k, l_prob ph = Some f0 /\ f' = f0 * k /\ 0 <= k <= 1 /\ 0 <= f0 <= 1).
    { intros f' F. apply times_some in F. destruct F as (a & b & F1 & F2 & ->). rewrite F2 in B. apply factor_ok in B. exists a, b. auto. }
    split; [|split; [reflexivity|split]].
    - split; [exact A1|]. split; [exact A2|]. split; [exact A3|]. intros f' F. destruct (T f' F) as (f0 & k & _ & -> & K & F0). nra.
    - intros f' F. destruct (T f' F) as (f0 & k & L & -> & K & F0). right. exists f0. split; [exact L|]. nra.
    - intros D. now specialize (GN D). }
  assert (GF : forall m, geometry p = Some m -> (forall d q loc o, meets m ph = Some (d, q, loc) -> effect p dr ph d q loc = Ok o -> good (eps + tiny) (fst o)) /\ (l_dir ph = None -> meets m ph = None)).
  { intros m GM. split; [intros d q loc o M E; exact (effect_good p dr ph m d q loc o eps W GM M EP P E)|]. intros D. unfold meets. now rewrite D. }
  destruct p as [m off f refl rn|m f|c tr m g per|m ip pp|m on|m f|m minv|m|m|f|dist|m minv la lb]; cbn [one surface geometry] in *; try (destruct (GF m eq_refl) as [G1 G2]; apply (G (meets m) G1 G2 H)).
  - (* baffle *) destruct (meets m ph) as [[[d q] loc]|]; assert (SI : forall a b : lphoton, Ok a = Ok b -> a = b) by congruence; apply SI in H; subst ph'; unfold physical; cbn [l_dir l_pol l_energy l_prob].
    + destruct P1 as (A & B & C & D). split; [auto|]. split; [reflexivity|]. split; [|auto]. intros f F. right. exists f. split; [exact F|lra].
    + destruct P1 as (A & B & C & D). split; [split; [exact A|]; split; [exact B|]; split; [exact C|]; intros f F; assert (f = 0) as -> by congruence; lra|]. split; [reflexivity|]. split; [|auto]. intros f F. left. congruence.
  - (* filter *) destruct (_ || _) eqn:B; [discriminate|]. assert (SI : forall a b : lphoton, Ok a = Ok b -> a = b) by congruence. apply SI in H. subst ph'. unfold physical. cbn [l_dir l_pol l_energy l_prob].
    assert (K : 0 <= f (l_energy ph) <= 1) by (apply factor_ok; exact B).
    assert (T : forall f', times (l_prob ph) (Some (f (l_energy ph))) = Some f' -> exists f0, l_prob ph = Some f0 /\ f' = f0 * f (l_energy ph) /\ 0 <= f0 <= 1).
    { intros f' F. apply times_some in F. destruct F as (a & b & F1 & F2 & ->). exists a. split; [exact F1|]. split; [congruence|auto]. }
    destruct P1 as (A1 & A2 & A3 & _). split; [|split; [reflexivity|split; [|auto]]].
    + split; [exact A1|]. split; [exact A2|]. split; [exact A3|]. intros f' F. destruct (T f' F) as (f0 & _ & -> & F0). nra.
    + intros f' F. destruct (T f' F) as (f0 & L & -> & F0). right. exists f0. split; [exact L|]. nra.
  - (* propagator *) assert (SI : forall a b : lphoton, Ok a = Ok b -> a = b) by congruence. apply SI in H. subst ph'. unfold physical in *. cbn [l_dir l_pol l_energy l_prob].
    split; [exact P1|]. split; [reflexivity|]. split; [|auto]. intros f F. right. exists f. split; [exact F|lra].
  - (* tube *) apply (G (meets_tube m minv la lb)); [|intros D; unfold meets_tube; now rewrite D|exact H]. intros d q loc o M E. cbn [effect] in E. apply tube_dir in M.
    assert (o = (Some d, l_pol ph, Some 1)) as -> by congruence. cbn [fst]. destruct P1 as (A & B & C & _). split; [cbn [fst]; intros d' D; apply A; congruence|]. split; [exact B|].
    cbn [fst snd]. intros d' v D V. apply C; congruence.
Qed.
Lemma physical_more eps eps' ph : eps <= eps' -> physical eps ph -> physical eps' ph.
Proof. intros L (A & B & C & D). split; [exact A|]. split; [exact B|]. split; [|exact D]. intros d v E V. specialize (C d v E V). lra. Qed.

(** ** tables and sequences *)
Lemma process_ok_rows p drs t t' : rectangular t -> process p drs t = Ok t' -> exists drs' rows', length drs' = hits_of p (crows t) /\ each_row p drs' (crows t) = Ok rows' /\ t' = of_rows rows'.
Proof.
  intros R H.
  assert (G : forall drs', length drs' = hits_of p (crows t) -> process p drs' t = Ok t' -> exists drs' rows', length drs' = hits_of p (crows t) /\ each_row p drs' (crows t) = Ok rows' /\ t' = of_rows rows').
  { intros drs' L E. rewrite (process_table p drs' t R L) in E. destruct (each_row p drs' (crows t)) as [r|] eqn:Q; cbn [bind] in E; [|discriminate]. exists drs', r. split; [exact L|]. split; [exact Q|congruence]. }
  assert (NH : forall hit, surface p = Some hit -> (forall m', p <> PBaffle m') -> hits_of p (crows t) = length (select (map is_some (map hit (crows t))) (map hit (crows t)))).
  { intros hit GM NB. symmetry. exact (select_hits p hit GM NB (crows t)). }
  assert (V : forall hit, surface p = Some hit -> (forall m', p <> PBaffle m') ->
    (process p drs t = if negb (existsb (fun b => b) (map is_some (map hit (crows t)))) then Ok t else if negb (Nat.eqb (length drs) (hits_of p (crows t))) then Err ValueError else process p drs t) ->
    (process p [] t = if negb (existsb (fun b => b) (map is_some (map hit (crows t)))) then Ok t else process p [] t) ->
    exists drs' rows', length drs' = hits_of p (crows t) /\ each_row p drs' (crows t) = Ok rows' /\ t' = of_rows rows').
  { intros hit GM NB E E0. destruct (Nat.eqb (length drs) (hits_of p (crows t))) eqn:L; [apply Nat.eqb_eq in L; now apply (G drs)|].
    destruct (existsb (fun b => b) (map is_some (map hit (crows t)))) eqn:X; cbn [negb] in *; [congruence|].
    apply (G []); [|congruence]. rewrite (NH hit GM NB). clear - X. induction (map hit (crows t)) as [|a l IH]; [reflexivity|]. cbn [map existsb select] in *. apply orb_false_iff in X. destruct X as [-> X]. now apply IH. }
  destruct p as [m off f refl rn|m f|c tr m g per|m ip pp|m on|m f|m minv|m|m|f|dist|m minv la lb];
    try (apply (V (meets m)); [reflexivity|discriminate| |]; [pose proof (NH (meets m) eq_refl ltac:(discriminate)) as N; rewrite N|];
         unfold process; cbn [surface]; cbv zeta; destruct (existsb (fun b => b) (map is_some (map (meets m) (crows t)))); cbn [negb]; try reflexivity;
         destruct (Nat.eqb (length drs) (length (select (map is_some (map (meets m) (crows t))) (map (meets m) (crows t))))); reflexivity).
  - apply (G []); [|exact H]. clear. unfold hits_of. induction (crows t); [reflexivity|assumption].
  - apply (G []); [|exact H]. clear. unfold hits_of. induction (crows t); [reflexivity|assumption].
  - apply (G []); [|exact H]. clear. unfold hits_of. induction (crows t); [reflexivity|assumption].
  - apply (V (meets_tube m minv la lb)); [reflexivity|discriminate| |]; [pose proof (NH (meets_tube m minv la lb) eq_refl ltac:(discriminate)) as N; rewrite N|];
         unfold process; cbn [surface]; cbv zeta; destruct (existsb (fun b => b) (map is_some (map (meets_tube m minv la lb) (crows t)))); cbn [negb]; try reflexivity;
         destruct (Nat.eqb (length drs) (length (select (map is_some (map (meets_tube m minv la lb) (crows t))) (map (meets_tube m minv la lb) (crows t))))); reflexivity.
Qed.
(** from one photon in the table to the next *)
Definition follows (n : nat) (eps : R) (ph ph' : lphoton) : Prop :=
  physical (eps + INR n * tiny) ph' /\ l_energy ph' = l_energy ph /\ (forall f', l_prob ph' = Some f' -> f' = 0 \/ exists f, l_prob ph = Some f /\ f' <= f) /\
  (l_dir ph = None -> l_dir ph' = None).
Lemma each_follows p eps : well_made p -> 0 <= eps -> forall rows drs rows', Forall (physical eps) rows -> each_row p drs rows = Ok rows' -> Forall2 (follows 1 eps) rows rows'.
Proof.
  intros W EP rows drs rows' P E. destruct (each_nth p rows drs rows' E) as [L N].
  assert (K : forall i ph ph', nth_error rows i = Some ph -> nth_error rows' i = Some ph' -> follows 1 eps ph ph').
  { intros i ph ph' H H'. destruct (N i ph H) as (x & X & A & B). assert (x = ph') as -> by congruence. rewrite Forall_forall in P. specialize (P ph (nth_error_In _ _ H)).
    unfold follows. cbn [INR]. rewrite Rmult_1_l. destruct (draws_for p ph).
    - destruct (B eq_refl) as (dr & _ & O). exact (one_physical p dr ph ph' eps W EP P O).
    - exact (one_physical p dr0 ph ph' eps W EP P (A eq_refl dr0)). }
  clear - L K. revert rows' L K. induction rows as [|a rows IH]; intros [|b rows'] L K; try discriminate; constructor.
  - exact (K 0%nat a b eq_refl eq_refl).
  - apply IH; [now injection L|]. intros i ph ph' H H'. exact (K (S i) ph ph' H H').
Qed.
Lemma follows_trans n eps a b c : physical eps a -> follows 1 eps a b -> follows n (eps + tiny) b c -> follows (S n) eps a c.
Proof.
  intros PA (P1 & E1 & F1 & D1) (P2 & E2 & F2 & D2). unfold follows. split; [|split; [congruence|split; [|auto]]].
  - apply (physical_more (eps + tiny + INR n * tiny)); [rewrite S_INR; lra|exact P2].
  - intros f H. destruct (F2 f H) as [Z|(g & G & L)]; [now left|]. destruct (F1 g G) as [Z|(h & Hh & L')].
    + left. destruct P2 as (_ & _ & _ & Q). specialize (Q f H). lra.
    + right. exists h. split; [exact Hh|lra].
Qed.
Lemma Forall2_trans3 {A} (P : A -> Prop) (Q1 Q2 Q3 : A -> A -> Prop) : (forall a b c, P a -> Q1 a b -> Q2 b c -> Q3 a c) ->
  forall l1 l2 l3, Forall P l1 -> Forall2 Q1 l1 l2 -> Forall2 Q2 l2 l3 -> Forall2 Q3 l1 l3.
Proof.
  intros T l1 l2 l3 F H. revert l3 F. induction H as [|a b l1 l2 Hab H IH]; intros l3 F H'; inversion H'; subst; constructor; inversion F; subst; eauto.
Qed.
Lemma run_physical : forall ps drs t t' eps, Forall well_made ps -> 0 <= eps -> rectangular t -> Forall (physical eps) (crows t) -> run ps drs t = Ok t' ->
  rectangular t' /\ Forall2 (follows (length ps) eps) (crows t) (crows t').
Proof.
  induction ps as [|p ps IH]; intros drs t t' eps W EP R P H; cbn [run] in H.
  - assert (t = t') as <- by congruence. split; [exact R|]. cbn [length]. induction P as [|ph l P1 P IH]; constructor; [|exact IH].
    unfold follows. cbn [INR]. rewrite Rmult_0_l, Rplus_0_r. split; [exact P1|]. split; [reflexivity|]. split; [|auto]. intros f F. right. exists f. split; [exact F|lra].
  - inversion W as [|? ? W1 W2]; subst. destruct (process p (hd [] drs) t) as [t1|] eqn:E; cbn [bind] in H; [|discriminate].
    destruct (process_ok_rows p _ t t1 R E) as (drs' & rows' & L & ER & ->). pose proof (each_follows p eps W1 EP _ _ _ P ER) as F1.
    assert (P1 : Forall (physical (eps + tiny)) rows').
    { clear - F1. induction F1 as [|a b la lb (X & _) F IH]; constructor; [|exact IH]. cbn [INR] in X. now rewrite Rmult_1_l in X. }
    pose proof tiny_pos. destruct (IH (tl drs) (of_rows rows') t' (eps + tiny) W2 ltac:(lra) (of_rows_rect rows')) as [R' F2]; [now rewrite rows_of_rows|exact H|].
    split; [exact R'|]. rewrite rows_of_rows in F2. cbn [length]. exact (Forall2_trans3 (physical eps) _ _ _ (follows_trans (length ps) eps) _ _ _ P F1 F2).
Qed.
Lemma process_split p d1 d2 t1 t2 : rectangular t1 -> rectangular t2 -> length d1 = hits_of p (crows t1) -> length d2 = hits_of p (crows t2) ->
  process p (d1 ++ d2) (stack t1 t2) = bind (process p d1 t1) (fun a => bind (process p d2 t2) (fun b => Ok (stack a b))).
Proof.
  intros R1 R2 L1 L2. destruct (crows_stack t1 t2 R1 R2) as [E R]. rewrite process_table; [|exact R|rewrite E, hits_app, app_length; congruence].
  rewrite E, each_app by exact L1. rewrite (process_table p d1 t1 R1 L1), (process_table p d2 t2 R2 L2).
  destruct (each_row p d1 (crows t1)); cbn [bind]; [|reflexivity]. destruct (each_row p d2 (crows t2)); cbn [bind]; [|reflexivity]. now rewrite stack_rows.
Qed.
Lemma process_rect p drs t t' : rectangular t -> process p drs t = Ok t' -> rectangular t'.
Proof. intros R H. destruct (process_ok_rows p drs t t' R H) as (_ & rows & _ & _ & ->). apply of_rows_rect. Qed.
Lemma hd_zip {A} : forall (d1 d2 : list (list A)), length d1 = length d2 -> hd [] (zip2 (@app A) d1 d2) = hd [] d1 ++ hd [] d2 /\ tl (zip2 (@app A) d1 d2) = zip2 (@app A) (tl d1) (tl d2) /\ length (tl d1) = length (tl d2).
Proof. intros [|a d1] [|b d2] H; try discriminate; cbn; auto. Qed.
Lemma run_split : forall ps d1 d2 t1 t2 u1 u2, length d1 = length d2 -> rectangular t1 -> rectangular t2 -> fits ps d1 t1 -> fits ps d2 t2 ->
  run ps d1 t1 = Ok u1 -> run ps d2 t2 = Ok u2 -> run ps (zip2 (@app draw) d1 d2) (stack t1 t2) = Ok (stack u1 u2).
Proof.
  induction ps as [|p ps IH]; intros d1 d2 t1 t2 u1 u2 L R1 R2 F1 F2 H1 H2; cbn [run fits] in *; [congruence|].
  destruct (hd_zip d1 d2 L) as (E1 & E2 & L'). rewrite E1, E2. destruct F1 as [N1 F1]. destruct F2 as [N2 F2]. rewrite (process_split p _ _ t1 t2 R1 R2 N1 N2).
  destruct (process p (hd [] d1) t1) as [a|] eqn:A; [|discriminate]. destruct (process p (hd [] d2) t2) as [b|] eqn:B; [|discriminate]. cbn [bind] in *.
  apply IH; try assumption; [exact (process_rect p _ t1 a R1 A)|exact (process_rect p _ t2 b R2 B)|now apply F1|now apply F2].
Qed.
(** ** failures *)
Lemma each_fail p : forall rows drs e, length drs = hits_of p rows -> each_row p drs rows = Err e -> e = ValueError /\
  exists i ph, nth_error rows i = Some ph /\
    ((draws_for p ph = false /\ forall dr, one p dr ph = Err ValueError) \/
     (draws_for p ph = true /\ exists dr, nth_error drs (hits_of p (firstn i rows)) = Some dr /\ one p dr ph = Err ValueError)).
Proof.
  unfold hits_of. induction rows as [|a rows IH]; intros drs e L H; cbn [each_row filter length] in *; [discriminate|].
  destruct (draws_for p a) eqn:D.
  - cbn [length] in L. destruct drs as [|dr drs]; [discriminate|]. assert (L' : length drs = length (filter (draws_for p) rows)) by (cbn in L; congruence).
    destruct (one p dr a) as [b|x] eqn:O; cbn [bind] in H.
    + destruct (each_row p drs rows) as [r|y] eqn:R; cbn [bind] in H; [discriminate|]. destruct (IH drs y L' R) as (-> & i & ph & N & K). split; [congruence|].
      exists (S i), ph. split; [exact N|]. destruct K as [K|(K1 & dr' & K2 & K3)]; [now left|]. right. split; [exact K1|]. exists dr'. cbn [firstn filter]. rewrite D. now split.
    + pose proof (one_err _ _ _ _ O) as ->. split; [congruence|]. exists 0%nat, a. split; [reflexivity|]. right. split; [exact D|]. exists dr. now split.
  - destruct (one p dr0 a) as [b|x] eqn:O; cbn [bind] in H.
    + destruct (each_row p drs rows) as [r|y] eqn:R; cbn [bind] in H; [discriminate|]. destruct (IH drs y L R) as (-> & i & ph & N & K). split; [congruence|].
      exists (S i), ph. split; [exact N|]. destruct K as [K|(K1 & dr' & K2 & K3)]; [now left|]. right. split; [exact K1|]. exists dr'. cbn [firstn filter]. rewrite D. now split.
    + pose proof (one_err _ _ _ _ O) as ->. split; [congruence|]. exists 0%nat, a. split; [reflexivity|]. left. split; [exact D|]. intros dr. now rewrite (one_dr p dr dr0 a D).
Qed.
Lemma process_rows p drs t t' : rectangular t -> length drs = hits_of p (crows t) -> process p drs t = Ok t' ->
  rectangular t' /\ length (crows t') = length (crows t) /\ forall i ph, nth_error (crows t) i = Some ph -> exists ph', nth_error (crows t') i = Some ph' /\
    (draws_for p ph = false -> forall dr, one p dr ph = Ok ph') /\
    (draws_for p ph = true -> exists dr, nth_error drs (hits_of p (firstn i (crows t))) = Some dr /\ one p dr ph = Ok ph').
Proof.
  intros R L H. rewrite (process_table p drs t R L) in H. destruct (each_row p drs (crows t)) as [r|] eqn:E; [|discriminate]. cbn [bind] in H.
  assert (t' = of_rows r) as -> by congruence. split; [apply of_rows_rect|]. rewrite rows_of_rows. exact (each_nth p _ _ _ E).
Qed.
Lemma process_fail p drs t e : rectangular t -> length drs = hits_of p (crows t) -> process p drs t = Err e -> e = ValueError /\
  exists i ph, nth_error (crows t) i = Some ph /\
    ((draws_for p ph = false /\ forall dr, one p dr ph = Err ValueError) \/
     (draws_for p ph = true /\ exists dr, nth_error drs (hits_of p (firstn i (crows t))) = Some dr /\ one p dr ph = Err ValueError)).
Proof.
  intros R L H. rewrite (process_table p drs t R L) in H. destruct (each_row p drs (crows t)) as [r|x] eqn:E; cbn [bind] in H; [discriminate|].
  assert (x = e) as -> by congruence. exact (each_fail p _ _ _ L E).
Qed.

(** ** photons without direction *)
Lemma nan_misses m ph : l_dir ph = None -> meets m ph = None.
Proof. intros H. unfold meets. now rewrite H. Qed.
Lemma nan_tube m minv a b ph : l_dir ph = None -> meets_tube m minv a b ph = None.
Proof. intros H. unfold meets_tube. now rewrite H. Qed.
Lemma nan_one p dr ph : l_dir ph = None -> (forall m, p <> PBaffle m) -> surface p <> None -> one p dr ph = Ok ph.
Proof. intros H B G. destruct p; cbn [one surface] in *; rewrite ?(nan_misses _ _ H), ?(nan_tube _ _ _ _ _ H); try reflexivity; try (now exfalso; apply G). now exfalso; apply (B m). Qed.
Lemma nan_dir p dr ph ph' : l_dir ph = None -> one p dr ph = Ok ph' -> l_dir ph' = None /\ l_pol ph' = l_pol ph /\ l_energy ph' = l_energy ph.
Proof.
  intros H O. destruct p; cbn [one surface] in O; rewrite ?(nan_misses _ _ H), ?(nan_tube _ _ _ _ _ H) in O; try (assert (ph' = ph) as -> by congruence; now rewrite H).
  - assert (ph' = LPhoton (l_dir ph) (l_pos ph) (l_pol ph) (l_energy ph) (Some 0)) as -> by congruence. cbn. now rewrite H.
  - destruct (_ || _); [discriminate|]. match type of O with Ok ?x = _ => assert (ph' = x) as -> by congruence end. cbn. now rewrite H.
  - match type of O with Ok ?x = _ => assert (ph' = x) as -> by congruence end. cbn. now rewrite H.
Qed.
Lemma run_nan : forall ps drs t t', rectangular t -> run ps drs t = Ok t' -> forall i ph, nth_error (crows t) i = Some ph -> l_dir ph = None ->
  exists ph', nth_error (crows t') i = Some ph' /\ l_dir ph' = None /\ l_pol ph' = l_pol ph /\ l_energy ph' = l_energy ph /\
    ((forall p, In p ps -> surface p <> None /\ forall m, p <> PBaffle m) -> ph' = ph).
Proof.
  induction ps as [|p ps IH]; intros drs t t' R H i ph N D; cbn [run] in H.
  - assert (t' = t) as -> by congruence. exists ph. auto.
  - destruct (process p (hd [] drs) t) as [u|] eqn:U; [|discriminate]. cbn [bind] in H. pose proof (process_rect p _ t u R U) as RU.
    destruct (process_ok_rows p _ t u R U) as (drs' & rows' & L & E & ->). destruct (each_nth p _ _ _ E) as [_ K]. destruct (K i ph N) as (x & X & A & B).
    assert (O : exists dr, one p dr ph = Ok x). { destruct (draws_for p ph); [destruct (B eq_refl) as (dr & _ & O); now exists dr|exists dr0; now apply A]. }
    destruct O as [dr O]. destruct (nan_dir p dr ph x D O) as (D1 & D2 & D3).
    destruct (IH (tl drs) _ t' RU H i x) as (y & Y & Y1 & Y2 & Y3 & Y4); [now rewrite rows_of_rows|exact D1|]. exists y. split; [exact Y|]. split; [exact Y1|].
    split; [congruence|]. split; [congruence|]. intros Q. rewrite Y4 by (intros p' P'; apply Q; now right).
    destruct (Q p (or_introl eq_refl)) as [G F]. rewrite (nan_one p dr ph D F G) in O. congruence.
Qed.
Lemma grating_photon c tr m g per dr ph d q loc ex ey en : perpendicular_axes m -> meets m ph = Some (d, q, loc) -> dot3 d d = 1 -> plane_bases m = Some (ex, ey, en) -> 0 <= dr_p dr <= 1 ->
  let l := e_groove (xyz ex) (xyz ey) g in let disp := e_perp_groove (xyz ex) (xyz ey) g in
  let t := dot3 d disp + (match c with FlatSign => 1 | CATSign => if Rleb (dot3 d disp) 0 then -1 else 1 end) * (IZR (dr_order dr) * (energy2wave / l_energy ph) / per loc) in
  exists ph', one (PGrating c tr m g per) dr ph = Ok ph' /\ l_pos ph' = Some q /\ l_prob ph' = times (l_prob ph) (Some (dr_p dr)) /\
    (l_dir ph' = None <-> 1 < t * t + dot3 d l * dot3 d l) /\ (l_dir ph' = None -> l_pol ph' = None).
Proof.
  intros A M U B P l disp t. assert (D0 : d <> zero3) by now apply unit_ne. assert (UE : d = scale3 (/ norm3 d) d) by (rewrite (proj2 (norm3_1 d) U), Rinv_1; now rewrite scale3_1).
  pose proof (grating_exists c tr m g d (dr_order dr) (energy2wave / l_energy ph) (per loc) ex ey en d A D0 B UE) as X. cbv zeta in X. fold l disp in X. fold t in X.
  cbn [one surface]. rewrite M. cbn [effect bind]. set (o := grating _ _ _ _ _ _ _ _) in *. cbn [snd bad_factor].
  assert (F : Rltb (dr_p dr) 0 || Rltb 1 (dr_p dr) = false) by (apply orb_false_iff; split; apply Rltb_false; lra). rewrite F.
  eexists. split; [reflexivity|]. cbn [l_pos l_prob l_dir l_pol fst snd]. split; [reflexivity|]. split; [reflexivity|].
  destruct o as [r|]; cbn [option_map bent fst snd].
  - split; [|discriminate]. split; [discriminate|]. intros Q. assert (t * t + dot3 d l * dot3 d l <= 1) by (apply X; now exists r). lra.
  - split; [|reflexivity]. split; [|reflexivity]. intros _. apply Rnot_le_lt. intros Q. apply X in Q. destruct Q as [r Q]. discriminate.
Qed.

(** ** elements that do not bend the path *)
Lemma straight_elements m f dr ph d q loc pr : meets m ph = Some (d, q, loc) -> l_prob ph = Some pr ->
  (0 <= f (l_energy ph) <= 1 -> one (PFilter m f) dr ph = Ok (LPhoton (l_dir ph) (Some q) (l_pol ph) (l_energy ph) (Some (pr * f (l_energy ph))))) /\
  (~ 0 <= f (l_energy ph) <= 1 -> one (PFilter m f) dr ph = Err ValueError) /\
  one (PDetector m) dr ph = Ok (LPhoton (l_dir ph) (Some q) (l_pol ph) (l_energy ph) (Some pr)).
Proof.
  intros M P. assert (D : l_dir ph = Some d).
  { unfold meets in M. destruct (l_dir ph) as [d'|], (l_pos ph) as [x|]; try discriminate. destruct (plane_intersect m _ _) as [[[|] [q'|]] [l'|]]; try discriminate. congruence. }
  unfold one, surface, effect. rewrite M. repeat split.
  - intros [A B]. rewrite (proj2 (Rltb_false _ 0)), (proj2 (Rltb_false 1 _)) by lra. cbn [orb bind fst snd bad_factor]. rewrite (proj2 (Rltb_false _ 0)), (proj2 (Rltb_false 1 _)) by lra. cbn [orb]. now rewrite P, D.
  - intros N. destruct (Rltb (f (l_energy ph)) 0) eqn:A; [reflexivity|]. destruct (Rltb 1 (f (l_energy ph))) eqn:B; [reflexivity|]. apply Rltb_false in A, B. lra.
  - cbn [bind fst snd bad_factor]. rewrite (proj2 (Rltb_false _ 0)), (proj2 (Rltb_false 1 _)) by lra. cbn [orb]. rewrite P, D. unfold times. now rewrite Rmult_1_r.
Qed.
