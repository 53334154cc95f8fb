(** Property C177: multi layer coatings. *)
From Verif Require Export Coating_Model.
From Verif Require Import Base_Proofs Vec_Proofs Brewster_Proofs Brewster_Props Analysis_Proofs Position_Proofs Lynx_Proofs CatStack_Proofs Coating_Proofs.
Open Scope R_scope.

(** The values for a photon at the local coordinate [y] are those of the file at X = y + |v_y|: X is measured from the edge of the mirror. *)
Theorem C177_position : forall g vy refl y, 0 < vy -> by_position g vy refl y = interp (map (fun r => (c_x r, g r)) refl) (y + vy).
Proof. exact position_shift. Qed.
Print Assumptions C177_position.
(** For a file with ascending X they are interpolated linearly, outside of the file the last value is used. *)
Theorem C177_linear : forall g vy refl y, 0 < vy -> refl <> [] -> ascP (map (fun r => (c_x r, g r)) refl) -> exists v, by_position g vy refl y = Ok v /\ on_table (map (fun r => (c_x r, g r)) refl) (y + vy) v.
Proof. intros g vy refl y V N A. rewrite position_shift by exact V. apply interp_table; [now destruct refl|exact A]. Qed.
Print Assumptions C177_linear.
(** The factor is the Gaussian of C81 with the peak reflectivity for completely polarized light: that of the file divided by the fraction in the test. *)
Theorem C177_factor : forall refl pol vy e y t peak top w, tested_fraction pol e = Ok t -> by_position c_lambda vy refl y = Ok peak -> by_position c_peak vy refl y = Ok top -> by_position c_fwhm vy refl y = Ok w ->
  (w <> 0 -> t <> 0 -> layer_factor refl pol vy e y = Ok (Some (top / t / 100 * exp (- ((1.23984282 / e - peak) * (1.23984282 / e - peak)) / (2 * (w * w / (8 * ln 2))))))) /\
  (w = 0 -> layer_factor refl pol vy e y = Ok (Some 0)) /\ (w <> 0 -> t = 0 -> layer_factor refl pol vy e y = Ok None).
Proof.
  intros refl pol vy e y t peak top w T P M W. destruct (factor_unfold refl pol vy e y t peak top w T P M W) as (A & B & C). split; [|split; assumption]. intros N Z. rewrite (A N Z). f_equal. f_equal. unfold ml_probability.
  destruct (Reqb (w * w / (8 * ln 2)) 0) eqn:E; [apply Reqb_true in E; now apply width_pos in E|]. field. exact Z.
Qed.
Print Assumptions C177_factor.
(** So light polarized as in the test, a fraction [t] of the photons with [cs] = 1 and the others with [cs] = 0, is reflected as in the file. *)
Theorem C177_tested_light : forall refl pol vy e y t peak top w, tested_fraction pol e = Ok t -> by_position c_lambda vy refl y = Ok peak -> by_position c_peak vy refl y = Ok top -> by_position c_fwhm vy refl y = Ok w -> w <> 0 -> t <> 0 ->
  exists s p, mirror_factor refl pol vy e y 1 = Ok (Some s) /\ mirror_factor refl pol vy e y 0 = Ok (Some p) /\ t * s + (1 - t) * p = ml_probability (1.23984282 / e) peak top w.
Proof.
  intros refl pol vy e y t peak top w T P M W N Z. destruct (factor_unfold refl pol vy e y t peak top w T P M W) as (A & _). unfold mirror_factor. rewrite (A N Z). cbn [bind]. do 2 eexists. split; [reflexivity|]. split; [reflexivity|].
  unfold ml_probability. destruct (Reqb (w * w / (8 * ln 2)) 0); field; exact Z.
Qed.
Print Assumptions C177_tested_light.
(** A probability, if the file has no reflectivity larger than the fraction of polarized light in the test; at the wavelength of the peak only then. *)
Theorem C177_range : forall refl pol vy e y cs lo, 0 < lo -> refl <> [] -> pol <> [] -> Forall (fun r => lo <= snd r <= 1) pol -> Forall (fun r => 0 <= c_peak r <= 100 * lo) refl -> -1 <= cs <= 1 ->
  exists f, mirror_factor refl pol vy e y cs = Ok (Some f) /\ 0 <= f <= 1.
Proof.
  intros refl pol vy e y cs lo L NR NP FP FR CS. destruct (fraction_bounds pol e lo 1 NP FP) as (t & T & T1 & T2). destruct (position_bounds c_peak vy refl y 0 (100 * lo) NR FR) as (top & M & M1 & M2).
  destruct (interp_total (map (fun r => (c_x r / vy - 1, c_lambda r)) refl) (y / vy)) as (peak & P); [now destruct refl|]. destruct (interp_total (map (fun r => (c_x r / vy - 1, c_fwhm r)) refl) (y / vy)) as (w & W); [now destruct refl|].
  fold (by_position c_lambda vy refl y) in P. fold (by_position c_fwhm vy refl y) in W. destruct (factor_unfold refl pol vy e y t peak top w T P M W) as (A & B & _). assert (S : 0 <= cs * cs <= 1) by nra.
  unfold mirror_factor. destruct (Req_EM_T w 0) as [Z|N]; [rewrite (B Z)|rewrite (A N ltac:(lra))]; cbn [bind]; eexists; (split; [reflexivity|]); [lra|].
  assert (Q : 0 <= top / t <= 100). { assert (E : top = top / t * t) by (field; lra). set (q := top / t) in *. clearbody q. split; nra. } destruct (ml_le (1.23984282 / e) peak (top / t) w (proj1 Q)) as [K1 K2]. split; nra.
Qed.
Print Assumptions C177_range.
Theorem C177_peak_range : forall refl pol vy e y t peak top w, 0 < t -> tested_fraction pol e = Ok t -> by_position c_lambda vy refl y = Ok peak -> by_position c_peak vy refl y = Ok top -> by_position c_fwhm vy refl y = Ok w -> w <> 0 -> peak = 1.23984282 / e ->
  exists f, layer_factor refl pol vy e y = Ok (Some f) /\ (f <= 1 <-> top <= 100 * t).
Proof.
  intros refl pol vy e y t peak top w Tp T P M W N E. destruct (factor_unfold refl pol vy e y t peak top w T P M W) as (A & _). rewrite (A N ltac:(lra)). eexists. split; [reflexivity|]. rewrite E, C81_peak by exact N.
  assert (Q : top = top / t * t) by (field; lra). set (q := top / t) in *. clearbody q. subst top. split; intros H; nra.
Qed.
Print Assumptions C177_peak_range.
(** The energies in the file of the polarization are in eV, not in keV as documented: with this file in keV a photon of 0.5 keV gets the fraction of the row for 2 keV. *)
Theorem C177_unit : forall pol e v, ascP pol -> In (1000 * e, v) pol -> tested_fraction pol e = Ok v.
Proof. intros pol e v A I. now apply (fraction_at pol (1000 * e) v e). Qed.
Print Assumptions C177_unit.
Theorem C177_unit_refuted : exists pol e v, ascP pol /\ In (e, v) pol /\ tested_fraction pol e <> Ok v.
Proof.
  exists [(1 / 2, 9 / 10); (2, 1 / 2)], (1 / 2), (9 / 10). split; [cbn; split; [lra|exact I]|]. split; [now left|]. unfold tested_fraction. cbn [map fst snd interp interp_seg].
  rewrite (proj2 (Rltb_false (1 / 2) (1 / 2 / 1000))), (proj2 (Rltb_false (1 / 2) (2 / 1000))) by lra. intros H. injection H as H. lra.
Qed.
Print Assumptions C177_unit_refuted.
(** Both file names are needed and go to the second layer; elements and keywords can not be given. *)
Theorem C177_keywords : forall kw m l, multilayer_mirror kw = Ok (m, l) -> exists f t, dget "reflFile" kw = Some f /\ dget "testedPolarization" kw = Some t /\ dget "elements" kw = None /\ dget "keywords" kw = None /\
  l = [("FlatBrewsterMirror", []); ("MultiLayerEfficiency", [("reflFile", f); ("testedPolarization", t)])]%string.
Proof.
  intros kw m l H. unfold multilayer_mirror in H. destruct (dget "reflFile" kw) as [f|]; [|discriminate]. destruct (dget "testedPolarization" kw) as [t|]; [|discriminate].
  destruct (din "elements" _ || din "keywords" _)%bool eqn:D; [discriminate|]. apply Bool.orb_false_iff in D. destruct D as [D1 D2]. apply din_false in D1. apply din_false in D2. rewrite !dget_ddel_neq in D1, D2 by discriminate.
  destruct (flat_rest _); [|discriminate]. cbn [bind] in H. injection H as _ <-. now exists f, t.
Qed.
Print Assumptions C177_keywords.
Theorem C177_missing : forall kw, dget "reflFile" kw = None \/ dget "testedPolarization" kw = None -> multilayer_mirror kw = Err KeyError.
Proof. intros kw [H|H]; unfold multilayer_mirror; rewrite H; [reflexivity|]. now destruct (dget "reflFile" kw). Qed.
Print Assumptions C177_missing.
Definition test_file : list coat := [Coat 22 2 (5.41) (0.0706446); Coat 24 4 (6.21) (0.0235482); Coat 26 6 (0.42) (0.0941928)].
Example C177_example : by_position c_peak 24.5 test_file 0 = Ok (6.21 + (0.42 - 6.21) / 4) /\ by_position c_lambda 24.5 test_file (-0.5) = Ok 4.
Proof.
  split; rewrite C177_position by lra; cbn [map test_file c_x c_peak c_lambda interp interp_seg].
  - rewrite (proj2 (Rltb_false (0 + 24.5) 22)), (proj2 (Rltb_false (0 + 24.5) 24)), (proj2 (Rltb_true (0 + 24.5) 26)) by lra. f_equal. lra.
  - rewrite (proj2 (Rltb_false (-0.5 + 24.5) 22)), (proj2 (Rltb_false (-0.5 + 24.5) 24)), (proj2 (Rltb_true (-0.5 + 24.5) 26)) by lra. f_equal. lra.
Qed.
Example C177_mirror : exists m l, multilayer_mirror [("reflFile", Obj 1); ("testedPolarization", Obj 2)]%string = Ok (m, l).
Proof. unfold multilayer_mirror. cbn. unfold flat_rest. rewrite (Lynx_Proofs.parse_none []) by (intros k _ []). cbn. do 2 eexists. reflexivity. Qed.
Example C177_in_range : exists f, mirror_factor test_file [(10, 0.93); (1000, 0.9)] 24.5 (1 / 2) 1 (1 / 2) = Ok (Some f) /\ 0 <= f <= 1.
Proof. apply (C177_range test_file [(10, 0.93); (1000, 0.9)] 24.5 (1 / 2) 1 (1 / 2) 0.9); try lra; try discriminate; repeat constructor; cbn; lra. Qed.
