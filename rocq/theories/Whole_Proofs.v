(** Lemmas on whole instruments *)
From Verif Require Import Whole_Model.
From Verif Require Import Base_Proofs Vec_Proofs Coords_Proofs Rot_Proofs Plane_Proofs Lens_Proofs Cylinder_Proofs Grating_Proofs Scatter_Proofs Instrument_Proofs Instrument_Proofs2 Layers_Proofs.
Open Scope R_scope.
Open Scope list_scope.

(** ** tubes *)
Lemma tube_ray m minv a b ph d q loc : mul4 m minv = id4 -> affine minv -> meets_tube m minv a b ph = Some (d, q, loc) -> exists x k, l_pos ph = Some x /\ q = add3 x (scale3 k d).
Proof.
  intros I A H. pose proof (tube_dir m minv a b ph d q loc H) as D. unfold meets_tube in H. rewrite D in H. destruct (l_pos ph) as [x|]; [|discriminate]. exists x.
  rewrite (cylinder_unfold m minv a b d x I A) in H. destruct (tube_crossing _ _ _ _) as [k|]; [|discriminate]. exists k. split; [reflexivity|].
  destruct (decompose44 m) as [[[[? ?] z] ?]|]; [|discriminate]. rewrite Coords_Proofs.xyz_hom in H. congruence.
Qed.
(** ** rays *)
Definition same_ray (ph ph' : lphoton) : Prop := l_dir ph' = l_dir ph /\ forall d x, l_dir ph = Some d -> l_pos ph = Some x -> exists k, l_pos ph' = Some (add3 x (scale3 k d)).
Lemma same_refl ph : same_ray ph ph.
Proof. split; [reflexivity|]. intros d x D X. exists 0. rewrite X. f_equal. clear. vring. Qed.
Lemma same_trans a b c : same_ray a b -> same_ray b c -> same_ray a c.
Proof.
  intros [A1 A2] [B1 B2]. split; [congruence|]. intros d x D X. destruct (A2 d x D X) as [k K]. rewrite <- A1 in D. destruct (B2 d _ D K) as [k' K']. exists (k + k'). rewrite K'. f_equal. clear. vring.
Qed.
Lemma same_on a b q : same_ray a b -> on_ray a q -> on_ray b q.
Proof.
  intros [A1 A2] (d & x & k & D & X & ->). destruct (A2 d x D X) as [k' K]. exists d, (add3 x (scale3 k' d)), (k - k'). split; [congruence|]. split; [exact K|]. clear. vring.
Qed.
Lemma effect_straight p m dr ph d q loc o : well_made p -> straight p dr -> geometry p = Some m -> meets m ph = Some (d, q, loc) -> dot3 d d = 1 -> effect p dr ph d q loc = Ok o -> fst (fst o) = Some d.
Proof.
  intros [W _] S G M U E. specialize (W m G). destruct p; cbn [straight surface geometry effect] in *; try contradiction; try discriminate.
  - destruct S as [-> Z]. rewrite Z in E. assert (m0 = m) as -> by congruence. destruct (proj1 (meets_iff m ph d q loc W) M) as (_ & N & _).
    assert (D0 : d <> zero3) by now apply unit_ne. assert (UE : d = scale3 (/ norm3 d) d) by (rewrite (proj2 (norm3_1 d) U), Rinv_1; now rewrite scale3_1).
    destruct (plane_bases_spec m W) as (ex & ey & en & B & _ & _ & _ & _ & EN & _).
    apply (f_equal (fun r => match r with Ok o => fst (fst o) | Err _ => None end)) in E. cbn [fst] in E. rewrite <- E. 
    assert (NE : dot3 d (xyz en) <> 0).
    { intros K. apply N. rewrite EN, dot3_scale_r, K. ring. }
    destruct (grating_zero c m groove d (energy2wave / l_energy ph) (period loc) ex ey en d W D0 B UE NE) as [X _]. rewrite X. reflexivity.
  - destruct S as [-> ->]. destruct (proj1 (meets_iff m ph d q loc W) M) as (_ & _ & x & _ & _ & _ & X & _). rewrite X in E. apply (f_equal (fun r => match r with Ok o => fst (fst o) | Err _ => None end)) in E. now rewrite <- E.
  - subst on. apply (f_equal (fun r => match r with Ok o => fst (fst o) | Err _ => None end)) in E. now rewrite <- E.
  - destruct (_ || _) in E; [discriminate|]. apply (f_equal (fun r => match r with Ok o => fst (fst o) | Err _ => None end)) in E. now rewrite <- E.
  - apply (f_equal (fun r => match r with Ok o => fst (fst o) | Err _ => None end)) in E. now rewrite <- E.
  - apply (f_equal (fun r => match r with Ok o => fst (fst o) | Err _ => None end)) in E. now rewrite <- E.
Qed.

Lemma straight_one p dr ph ph' : well_made p -> straight p dr -> (forall d, l_dir ph = Some d -> dot3 d d = 1) -> one p dr ph = Ok ph' -> same_ray ph ph'.
Proof.
  intros W S U H.
  assert (T : forall m minv a b, p = PTube m minv a b -> same_ray ph ph').
  { intros m minv a b ->. destruct W as (_ & _ & W). destruct (W m minv a b eq_refl) as (_ & I & A & _). cbn [one surface] in H. destruct (meets_tube m minv a b ph) as [[[d q] loc]|] eqn:M; [|assert (ph' = ph) as -> by congruence; apply same_refl].
    cbn [effect bind snd] in H. destruct (bad_factor _); [discriminate|]. destruct (tube_ray m minv a b ph d q loc I A M) as (x & k & X & Q). apply tube_dir in M.
    apply (f_equal (fun r => match r with Ok a => a | Err _ => ph end)) in H. subst ph'. split; cbn [l_dir l_pos fst snd]; [congruence|]. intros d' x' D' X'. exists k. assert (d' = d) as -> by congruence. assert (x' = x) as -> by congruence. now rewrite Q. }
  assert (G : forall m, geometry p = Some m -> match meets m ph with None => Ok ph | Some (d, q, loc) => bind (effect p dr ph d q loc) (fun o =>
    if bad_factor (snd o) then Err ValueError else Ok (LPhoton (fst (fst o)) (Some q) (snd (fst o)) (l_energy ph) (times (l_prob ph) (snd o)))) end = Ok ph' -> same_ray ph ph').
  { intros m G E. destruct (meets m ph) as [[[d q] loc]|] eqn:M; [|assert (ph' = ph) as -> by congruence; apply same_refl].
    destruct (proj1 (meets_iff m ph d q loc (proj1 W m G)) M) as (D & _ & x & k & a & b & X & _ & Q & _).
    destruct (effect p dr ph d q loc) as [o|] eqn:F; cbn [bind] in E; [|discriminate]. pose proof (effect_straight p m dr ph d q loc o W S G M (U d D) F) as K. destruct (bad_factor (snd o)); [discriminate|].
    apply (f_equal (fun r => match r with Ok a => a | Err _ => ph end)) in E. subst ph'. split; cbn [l_dir l_pos]; [congruence|]. intros d' x' D' X'. exists k. assert (d' = d) as -> by congruence. assert (x' = x) as -> by congruence. now rewrite Q. }
  destruct p; cbn [straight] in S; try contradiction; cbn [one surface geometry] in H; try (apply (G m); [reflexivity|exact H]).
  - destruct (meets m ph) as [[[d q] loc]|] eqn:M; assert (SI : forall x y : lphoton, Ok x = Ok y -> x = y) by congruence; apply SI in H; subst ph'.
    + destruct (proj1 (meets_iff m ph d q loc (proj1 W m eq_refl)) M) as (D & _ & x & k & a & b & X & _ & Q & _). split; cbn [l_dir l_pos]; [reflexivity|]. intros d' x' D' X'. exists k. assert (d' = d) as -> by congruence. assert (x' = x) as -> by congruence. now rewrite Q.
    + split; cbn [l_dir l_pos]; [reflexivity|]. intros d x D X. exists 0. rewrite X. f_equal. clear. vring.
  - destruct (_ || _) in H; [discriminate|]. assert (SI : forall x y : lphoton, Ok x = Ok y -> x = y) by congruence. apply SI in H. subst ph'. split; cbn [l_dir l_pos]; [reflexivity|]. intros d' x D X. exists 0. rewrite X. f_equal. clear. vring.
  - assert (SI : forall x y : lphoton, Ok x = Ok y -> x = y) by congruence. apply SI in H. subst ph'. split; cbn [l_dir l_pos]; [reflexivity|]. intros d' x D X. exists d. now rewrite X, D.
  - now apply (T m minv lim0 lim1).
Qed.
Lemma straight_through : forall ps drs ph ph', Forall well_made ps -> all_straight ps drs -> (forall d, l_dir ph = Some d -> dot3 d d = 1) -> through ps drs ph = Ok ph' -> same_ray ph ph'.
Proof.
  induction ps as [|p ps IH]; intros drs ph ph' W S U H; cbn [through] in H; [assert (ph' = ph) as -> by congruence; apply same_refl|].
  inversion W as [|? ? W1 W2]; subst. destruct S as [S1 S2]. destruct (one p _ ph) as [ph1|] eqn:O; cbn [bind] in H; [|discriminate].
  pose proof (straight_one p _ ph ph1 W1 S1 U O) as K. apply (same_trans ph ph1 ph'); [exact K|]. apply (IH (tl drs)); try assumption. intros d D. apply U. destruct K as [K _]. congruence.
Qed.
(** ** the image of a point *)
Lemma lens_ray m off f refl rn dr ph ph' d q loc : perpendicular_axes m -> meets m ph = Some (d, q, loc) -> dot3 d d = 1 -> one (PLens m off f refl rn) dr ph = Ok ph' ->
  let F := add3 (sub3 (xyz (center m)) (scale3 (off / norm3 (xyz (v_z m))) (xyz (v_z m)))) (scale3 f d) in
  (q <> F -> on_ray ph' F /\ exists d', l_dir ph' = Some d' /\ dot3 d' d' = 1) /\ (q = F -> l_dir ph' = None).
Proof.
  intros P M U H F. cbn [one surface geometry] in H. rewrite M in H. cbn [effect] in H. destruct (axis_point m off P) as (a & A & AE).
  assert (D0 : d <> zero3) by now apply unit_ne. assert (FP : focuspoint m off f d = Some F) by (unfold F; rewrite <- AE; apply focus_point; [exact A|now apply unit3_of_unit]).
  pose proof (lens_total m off f (refl (l_energy ph)) d q P D0) as T. destruct (perfect_lens m off f (refl (l_energy ph)) d q) as [[out pr]|] eqn:L.
  - destruct (lens_out _ _ _ _ _ _ _ _ L) as (F' & FP' & N & NE & E). assert (F' = F) as -> by congruence. cbn [bind snd] in H. destruct (bad_factor (Some pr)); [discriminate|]. cbn [bent fst snd] in H.
    assert (SI : forall x y : lphoton, Ok x = Ok y -> x = y) by congruence. apply SI in H. subst ph'. split; [|contradiction]. intros _. split.
    + exists out, q, (norm3 (sub3 F q)). cbn [l_dir l_pos]. split; [reflexivity|]. split; [reflexivity|]. now symmetry.
    + exists out. split; [reflexivity|]. now apply norm3_1.
  - cbn [bind snd] in H. destruct (bad_factor _); [discriminate|]. cbn [bent fst snd] in H. assert (SI : forall x y : lphoton, Ok x = Ok y -> x = y) by congruence. apply SI in H. subst ph'. split; [|reflexivity].
    intros NE. exfalso. assert (X : exists out p, @None (v3 * R) = Some (out, p)) by (apply T; congruence). destruct X as (? & ? & X). discriminate.
Qed.
Lemma hits_point m ph d q loc F : perpendicular_axes m -> meets m ph = Some (d, q, loc) -> on_ray ph F -> dot3 (sub3 F (xyz (center m))) (xyz (v_x m)) = 0 -> q = F.
Proof.
  intros P M (d' & x' & k' & D' & X' & ->) Z. destruct (proj1 (meets_iff m ph d q loc P) M) as (D & N & x & k & a & b & X & _ & Q & R & _). assert (d' = d) as -> by congruence. assert (x' = x) as -> by congruence.
  pose proof (rect_plane m a b q P R) as Z'. rewrite Q in Z'. assert (E : (k - k') * dot3 d (xyz (v_x m)) = 0).
  { transitivity (dot3 (sub3 (add3 x (scale3 k d)) (xyz (center m))) (xyz (v_x m)) - dot3 (sub3 (add3 x (scale3 k' d)) (xyz (center m))) (xyz (v_x m))); [|rewrite Z, Z'; ring]. generalize (xyz (v_x m)) (xyz (center m)). clear. intros v c. vring. }
  apply Rmult_integral in E. destruct E as [E|E]; [|contradiction]. rewrite Q. now replace k with k' by lra.
Qed.

(** ** weights *)
Lemma times_assoc a b c : times a (times b c) = times (times a b) c.
Proof. destruct a, b, c; cbn; try reflexivity. f_equal. ring. Qed.
Lemma weigh_meets m c ph : meets m (weigh c ph) = meets m ph.
Proof. reflexivity. Qed.
Lemma weigh_effect p dr c ph d q loc : effect p dr (weigh c ph) d q loc = effect p dr ph d q loc.
Proof. destruct p; reflexivity. Qed.
Lemma weigh_one p dr c ph : one p dr (weigh c ph) = result_map (weigh c) (one p dr ph).
Proof.
  assert (G : forall hit : lphoton -> option (v3 * v3 * (R * R)), hit (weigh c ph) = hit ph -> match hit (weigh c ph) with None => Ok (weigh c ph) | Some (d, q, loc) => bind (effect p dr (weigh c ph) d q loc) (fun o =>
    if bad_factor (snd o) then Err ValueError else Ok (LPhoton (fst (fst o)) (Some q) (snd (fst o)) (l_energy (weigh c ph)) (times (l_prob (weigh c ph)) (snd o)))) end =
    result_map (weigh c) (match hit ph with None => Ok ph | Some (d, q, loc) => bind (effect p dr ph d q loc) (fun o =>
    if bad_factor (snd o) then Err ValueError else Ok (LPhoton (fst (fst o)) (Some q) (snd (fst o)) (l_energy ph) (times (l_prob ph) (snd o)))) end)).
  { intros hit E. rewrite E. destruct (hit ph) as [[[d q] loc]|]; [|reflexivity]. rewrite weigh_effect. destruct (effect p dr ph d q loc) as [o|]; [|reflexivity]. cbn [bind].
    destruct (bad_factor (snd o)); [reflexivity|]. cbn [result_map]. unfold weigh. cbn [l_dir l_pos l_pol l_energy l_prob]. now rewrite times_assoc. }
  destruct p; cbn [one surface]; try exact (G (meets m) eq_refl); try exact (G (meets_tube m minv lim0 lim1) eq_refl).
  - rewrite weigh_meets. destruct (meets m ph) as [[[d q] loc]|]; cbn [result_map]; unfold weigh; cbn [l_dir l_pos l_pol l_energy l_prob times]; [reflexivity|]. f_equal. f_equal. f_equal. ring.
  - unfold weigh at 1. cbn [l_energy]. destruct (_ || _); [reflexivity|]. cbn [result_map]. unfold weigh. cbn [l_dir l_pos l_pol l_energy l_prob]. now rewrite times_assoc.
  - reflexivity.
Qed.
Lemma weigh_through c : forall ps drs ph, through ps drs (weigh c ph) = result_map (weigh c) (through ps drs ph).
Proof.
  induction ps as [|p ps IH]; intros drs ph; cbn [through]; [reflexivity|]. rewrite weigh_one. destruct (one p _ ph) as [ph1|]; cbn [result_map bind]; [apply IH|reflexivity].
Qed.
Lemma weigh_draws p c ph : draws_for p (weigh c ph) = draws_for p ph.
Proof. destruct p; reflexivity. Qed.
Lemma weigh_each c p : forall rows drs, each_row p drs (map (weigh c) rows) = result_map (map (weigh c)) (each_row p drs rows).
Proof.
  induction rows as [|ph rows IH]; intros drs; cbn [map each_row]; [reflexivity|]. rewrite weigh_draws. destruct (draws_for p ph).
  - destruct drs as [|dr drs]; [reflexivity|]. rewrite weigh_one. destruct (one p dr ph) as [a|]; cbn [result_map bind]; [|reflexivity]. rewrite IH. now destruct (each_row p drs rows).
  - rewrite weigh_one. destruct (one p dr0 ph) as [a|]; cbn [result_map bind]; [|reflexivity]. rewrite IH. now destruct (each_row p drs rows).
Qed.
Lemma weigh_of_rows c rows : weigh_table c (of_rows rows) = of_rows (map (weigh c) rows).
Proof. unfold weigh_table, of_rows. cbn [c_dir c_pos c_pol c_energy c_prob]. now rewrite !map_map. Qed.
Lemma weigh_hits p c rows : hits_of p (map (weigh c) rows) = hits_of p rows.
Proof. unfold hits_of. induction rows as [|ph rows IH]; [reflexivity|]. cbn [map filter]. rewrite weigh_draws. destruct (draws_for p ph); cbn [length]; now rewrite IH. Qed.
Lemma weigh_process c p drs t : rectangular t -> length drs = hits_of p (crows t) -> process p drs (weigh_table c t) = result_map (weigh_table c) (process p drs t).
Proof.
  intros R L. rewrite <- (of_rows_rows t R) at 1. rewrite weigh_of_rows. rewrite process_table by (try apply of_rows_rect; rewrite rows_of_rows, weigh_hits; exact L). rewrite rows_of_rows, weigh_each, (process_table p drs t R L).
  destruct (each_row p drs (crows t)) as [r|]; cbn [result_map bind]; [|reflexivity]. now rewrite weigh_of_rows.
Qed.
Lemma process_rect p drs t t' : rectangular t -> process p drs t = Ok t' -> rectangular t'.
Proof. intros R H. destruct (process_ok_rows p drs t t' R H) as (? & r & _ & _ & ->). apply of_rows_rect. Qed.
Lemma weigh_run c : forall ps drs t, rectangular t -> fits ps drs t -> run ps drs (weigh_table c t) = result_map (weigh_table c) (run ps drs t).
Proof.
  induction ps as [|p ps IH]; intros drs t R F; cbn [run]; [reflexivity|]. destruct F as [L F]. rewrite (weigh_process c p _ t R L). destruct (process p (hd [] drs) t) as [t1|] eqn:E; cbn [result_map bind]; [|reflexivity].
  apply IH; [exact (process_rect _ _ _ _ R E)|exact (F t1 eq_refl)].
Qed.
(** ** each photon of a table goes through the instrument *)
Lemma run_through : forall ps drs t t', rectangular t -> fits ps drs t -> run ps drs t = Ok t' ->
  rectangular t' /\ length (crows t') = length (crows t) /\ forall i ph, nth_error (crows t) i = Some ph -> exists ph' dl, nth_error (crows t') i = Some ph' /\ through ps dl ph = Ok ph' /\ length dl = length ps /\
    forall j, nth j dl dr0 = dr0 \/ In (nth j dl dr0) (nth j drs []).
Proof.
  induction ps as [|p ps IH]; intros drs t t' R F H; cbn [run] in H.
  - assert (t' = t) as -> by congruence. split; [exact R|]. split; [reflexivity|]. intros i ph N. exists ph, []. split; [exact N|]. split; [reflexivity|]. split; [reflexivity|]. intros j. left. now destruct j.
  - destruct F as [L F]. destruct (process p (hd [] drs) t) as [t1|] eqn:E; cbn [bind] in H; [|discriminate]. destruct (process_rows p _ t t1 R L E) as (R1 & L1 & N1).
    destruct (IH (tl drs) t1 t' R1 (F t1 eq_refl) H) as (R' & L' & N'). split; [exact R'|]. split; [congruence|]. intros i ph N. destruct (N1 i ph N) as (ph1 & I1 & A & B). destruct (N' i ph1 I1) as (ph' & dl & I' & T & LD & J).
    destruct (draws_for p ph).
    + destruct (B eq_refl) as (dr & ND & O). exists ph', (dr :: dl). split; [exact I'|]. cbn [through hd tl length]. rewrite O. cbn [bind]. split; [exact T|]. split; [now f_equal|].
      intros [|j]; cbn [nth]; [right|]. { apply nth_error_In in ND. now destruct drs. } destruct (J j) as [X|X]; [now left|right]. destruct drs as [|l drs]; [now destruct j|exact X].
    + exists ph', (dr0 :: dl). split; [exact I'|]. cbn [through hd tl length]. rewrite (A eq_refl dr0). cbn [bind]. split; [exact T|]. split; [now f_equal|].
      intros [|j]; cbn [nth]; [now left|]. destruct (J j) as [X|X]; [now left|right]. destruct drs as [|l drs]; [now destruct j|exact X].
Qed.
