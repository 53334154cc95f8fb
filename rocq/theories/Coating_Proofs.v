(** Proofs for Coating_Model. *)
From Verif Require Export Coating_Model.
From Verif Require Import Base_Proofs Vec_Proofs Brewster_Proofs Analysis_Proofs Position_Proofs CatStack_Proofs.
Open Scope R_scope.

(** ** Interpolation *)
Lemma seg_affine a b (A : 0 < a) : forall (l : list coat) (g : coat -> R) x x0 y0, interp_seg (x * a + b) (x0 * a + b) y0 (map (fun r => (c_x r * a + b, g r)) l) = interp_seg x x0 y0 (map (fun r => (c_x r, g r)) l).
Proof.
  induction l as [|r l IH]; intros g x x0 y0; [reflexivity|]. cbn [map interp_seg]. destruct (Rltb x (c_x r)) eqn:E.
  - apply Rltb_true in E. rewrite (proj2 (Rltb_true (x * a + b) (c_x r * a + b))) by nra. replace (c_x r * a + b - (x0 * a + b)) with ((c_x r - x0) * a) by ring. replace (x * a + b - (x0 * a + b)) with ((x - x0) * a) by ring.
    destruct (Req_dec (c_x r - x0) 0) as [Z|N]; [rewrite Z; unfold Rdiv; rewrite Rmult_0_l, Rinv_0; ring|field; split; lra].
  - apply Rltb_false in E. rewrite (proj2 (Rltb_false (x * a + b) (c_x r * a + b))) by nra. apply IH.
Qed.
Lemma position_shift g vy refl y : 0 < vy -> by_position g vy refl y = interp (map (fun r => (c_x r, g r)) refl) (y + vy).
Proof.
  intros V. unfold by_position. assert (I : 0 < / vy) by now apply Rinv_0_lt_compat. assert (E1 : map (fun r => (c_x r / vy - 1, g r)) refl = map (fun r => (c_x r * / vy + -1, g r)) refl) by (apply map_ext; intros r; f_equal; unfold Rdiv; ring).
  assert (E2 : y / vy = (y + vy) * / vy + -1) by (field; lra). rewrite E1, E2. destruct refl as [|r l]; [reflexivity|]. cbn [map interp]. f_equal. destruct (Rltb (y + vy) (c_x r)) eqn:E.
  - apply Rltb_true in E. now rewrite (proj2 (Rltb_true _ _)) by nra.
  - apply Rltb_false in E. rewrite (proj2 (Rltb_false _ _)) by nra. now apply seg_affine.
Qed.
Lemma seg_table : forall r x x0 y0, ascP ((x0, y0) :: r) -> x0 <= x -> on_table ((x0, y0) :: r) x (interp_seg x x0 y0 r).
Proof.
  induction r as [|[x1 y1] r IH]; intros x x0 y0 A X.
  - right; left. exists [], (x0, y0). cbn. auto.
  - destruct A as [A1 A2]. cbn [fst] in A1. cbn [interp_seg]. destruct (Rltb x x1) eqn:E.
    + apply Rltb_true in E. right; right. exists [], (x0, y0), (x1, y1), r. split; [reflexivity|]. cbn [fst snd]. split; [lra|]. field. lra.
    + apply Rltb_false in E. destruct (IH x x1 y1 A2 ltac:(lra)) as [(p & q & P & L & V)|[(l & p & P & L & V)|(l & p & q & s & P & L & V)]].
      * injection P as <- <-. cbn in L, V. assert (x = x1) by lra. subst x. right; right. exists [], (x0, y0), (x1, y1), r. split; [reflexivity|]. cbn [fst snd]. split; [lra|]. rewrite V. field. lra.
      * right; left. exists ((x0, y0) :: l), p. rewrite P. auto.
      * right; right. exists ((x0, y0) :: l), p, q, s. rewrite P. auto.
Qed.
Lemma interp_table pts x : pts <> [] -> ascP pts -> exists v, interp pts x = Ok v /\ on_table pts x v.
Proof.
  intros N A. destruct pts as [|[x0 y0] r]; [congruence|]. cbn [interp]. eexists. split; [reflexivity|]. destruct (Rltb x x0) eqn:E.
  - apply Rltb_true in E. left. exists (x0, y0), r. cbn. split; [reflexivity|]. split; [lra|reflexivity].
  - apply Rltb_false in E. apply seg_table; [exact A|lra].
Qed.
Lemma asc_map (h : R * R -> R * R) : (forall p q, fst p < fst q -> fst (h p) < fst (h q)) -> forall l, ascP l -> ascP (map h l).
Proof. intros H. induction l as [|p l IH]; intros A; [exact I|]. destruct l as [|q l]; [exact I|]. destruct A as [A1 A2]. split; [now apply H|]. now apply IH. Qed.
Lemma interp_total pts x : pts <> [] -> exists v, interp pts x = Ok v.
Proof. intros N. destruct pts as [|[a b] r]; [congruence|]. now eexists. Qed.
Lemma fraction_at pol e v r : ascP pol -> In (e, v) pol -> e = 1000 * r -> tested_fraction pol r = Ok v.
Proof.
  intros A I ->. unfold tested_fraction. apply interp_node.
  - apply (asc_map (fun p => (fst p / 1000, snd p))); [|exact A]. intros p q H. cbn [fst]. lra.
  - apply in_map_iff. exists (1000 * r, v). split; [|exact I]. cbn [fst snd]. f_equal. field.
Qed.
Lemma fraction_bounds pol r lo hi : pol <> [] -> Forall (fun p => lo <= snd p <= hi) pol -> exists v, tested_fraction pol r = Ok v /\ lo <= v <= hi.
Proof. intros N F. unfold tested_fraction. apply interp_bounds; [now destruct pol|]. rewrite Forall_forall in *. intros p I. apply in_map_iff in I. destruct I as (q & <- & I). exact (F q I). Qed.
Lemma position_bounds g vy refl y lo hi : refl <> [] -> Forall (fun r => lo <= g r <= hi) refl -> exists v, by_position g vy refl y = Ok v /\ lo <= v <= hi.
Proof. intros N F. unfold by_position. apply interp_bounds; [now destruct refl|]. rewrite Forall_forall in *. intros p I. apply in_map_iff in I. destruct I as (q & <- & I). exact (F q I). Qed.
(** ** The factor *)
Lemma width_pos w : w <> 0 -> w * w / (8 * ln 2) <> 0.
Proof. intros W. assert (L : 0 < ln 2) by (rewrite <- ln_1; apply ln_increasing; lra). assert (0 < w * w) by (apply Rsqr_pos_lt in W; exact W). intros Z. assert (Q : w * w / (8 * ln 2) * (8 * ln 2) = w * w) by (field; lra). rewrite Z in Q. lra. Qed.
Lemma factor_unfold refl pol vy e y t peak top w : tested_fraction pol e = Ok t -> by_position c_lambda vy refl y = Ok peak -> by_position c_peak vy refl y = Ok top -> by_position c_fwhm vy refl y = Ok w ->
  (w <> 0 -> t <> 0 -> layer_factor refl pol vy e y = Ok (Some (ml_probability (1.23984282 / e) peak (top / t) w))) /\
  (w = 0 -> layer_factor refl pol vy e y = Ok (Some 0)) /\ (w <> 0 -> t = 0 -> layer_factor refl pol vy e y = Ok None).
Proof.
  intros T P M W. unfold layer_factor, interp_files. rewrite T, P, M, W. cbn [bind]. split; [|split].
  - intros N Z. destruct (Reqb (w * w / (8 * ln 2)) 0) eqn:E; [apply Reqb_true in E; now apply width_pos in E|]. rewrite num_div_some by exact Z. replace (123984282 / 100000000) with 1.23984282 by lra. reflexivity.
  - intros ->. rewrite (proj2 (Reqb_true _ 0)) by (unfold Rdiv; ring). reflexivity.
  - intros N ->. destruct (Reqb (w * w / (8 * ln 2)) 0) eqn:E; [apply Reqb_true in E; now apply width_pos in E|]. unfold num_div. rewrite (proj2 (Reqb_true 0 0) eq_refl). reflexivity.
Qed.
Lemma ml_le w peak t f : 0 <= t -> 0 <= ml_probability w peak t f <= t / 100.
Proof.
  intros T. unfold ml_probability. destruct (Reqb (f * f / (8 * ln 2)) 0) eqn:E; [lra|]. assert (N : f * f / (8 * ln 2) <> 0) by (intros Z; rewrite (proj2 (Reqb_true _ _) Z) in E; discriminate).
  assert (L : 0 < ln 2) by (rewrite <- ln_1; apply ln_increasing; lra). set (c := f * f / (8 * ln 2)) in *. assert (C : 0 < c). { assert (0 <= c) by (unfold c, Rdiv; apply Rmult_le_pos; [nra|]; left; apply Rinv_0_lt_compat; lra). lra. } clearbody c.
  set (z := - ((w - peak) * (w - peak)) / (2 * c)). assert (Z : z <= 0). { unfold z, Rdiv. assert (0 < / (2 * c)) by (apply Rinv_0_lt_compat; lra). assert (0 <= (w - peak) * (w - peak)) by (apply Rle_0_sqr). nra. }
  assert (E1 : exp z <= 1). { rewrite <- exp_0. destruct Z as [Z| ->]; [left; now apply exp_increasing|right; reflexivity]. } pose proof (exp_pos z). nra.
Qed.
