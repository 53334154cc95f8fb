(** C233: effective areas that are calculated from the photon list at the end of an instrument. *)
From Verif Require Import Area_Model.
From Verif Require Import Base_Proofs Vec_Proofs Coords_Proofs Plane_Proofs Grating_Proofs Instrument_Proofs Instrument_Proofs2 Analysis_Proofs Instrument_Props.
From Verif Require Import Area_Proofs.
Open Scope R_scope.
Open Scope list_scope.

(** ** C233 *)
(** The areas of all orders are not negative and together not larger than the geometric area. *)
Theorem C233_bound : forall ps drs t t' orders labels A, Instrument_Model.rectangular t -> Instrument_Model.run ps drs t = Ok t' -> sensible t -> no_nan t' -> c_dir t <> [] -> 0 <= A -> length orders = length (c_dir t) -> NoDup labels ->
  exists areas, effectivearea (analysed orders t') labels (length (c_dir t)) A = map Some areas /\ Forall (fun x => 0 <= x) areas /\ Rsum areas <= A.
Proof. exact areas_bound. Qed.
Print Assumptions C233_bound.
(** No element makes the area of any order larger, wherever the photons were before. *)
Theorem C233_further_elements : forall ps drs t t' orders labels n A, Instrument_Model.rectangular t -> Instrument_Model.run ps drs t = Ok t' -> sensible t -> no_nan t' -> n <> 0%nat -> 0 <= A ->
  exists before after, effectivearea (analysed orders t) labels n A = map Some before /\ effectivearea (analysed orders t') labels n A = map Some after /\ Forall (fun x => 0 <= x) after /\ Forall2 Rle after before.
Proof. intros ps drs t t' orders labels n A R H S N NZ P. destruct (areas_lower ps drs t t' orders labels n A R H S N NZ P) as (a & b & X & Y & Z & W & _). now exists a, b. Qed.
Print Assumptions C233_further_elements.
(** ... and elements behind others see the photons that are left. *)
Theorem C233_sequence : forall ps1 ps2 drs t, Instrument_Model.run (ps1 ++ ps2) drs t = bind (Instrument_Model.run ps1 drs t) (Instrument_Model.run ps2 (skipn (length ps1) drs)).
Proof. exact run_app. Qed.
Print Assumptions C233_sequence.
(** A global filter with the same transmission for all energies multiplies every area by it. *)
Theorem C233_filter : forall c drs t t' orders labels n A, 0 <= c <= 1 -> Instrument_Model.rectangular t -> sensible t -> n <> 0%nat -> Instrument_Model.run [PGlobal (fun _ => c)] drs t = Ok t' ->
  exists areas, effectivearea (analysed orders t) labels n A = map Some areas /\ effectivearea (analysed orders t') labels n A = map Some (map (Rmult c) areas).
Proof. exact filter_areas. Qed.
Print Assumptions C233_filter.
(** The area behind a baffle is the fraction of the photons that go through the hole. *)
Theorem C233_baffle : forall m drs t t' o n A, Instrument_Model.rectangular t -> Forall (fun pr => pr = Some 1) (c_prob t) -> n <> 0%nat -> Instrument_Model.run [PBaffle m] drs t = Ok t' ->
  effectivearea (analysed (repeat o (length (c_dir t))) t') [o] n A = [Some (A * (INR (length (filter (fun ph => is_some (Instrument_Model.meets m ph)) (crows t))) / INR n))].
Proof. exact baffle_areas. Qed.
Print Assumptions C233_baffle.
(** Photons in two batches: the area of all photons is the mean of the areas, weighted with the numbers of photons. *)
Theorem C233_batches : forall ps d1 d2 t1 t2 u1 u2 o1 o2 o n1 n2 A, length d1 = length d2 -> Instrument_Model.rectangular t1 -> Instrument_Model.rectangular t2 -> Instrument_Model.fits ps d1 t1 -> Instrument_Model.fits ps d2 t2 ->
  Instrument_Model.run ps d1 t1 = Ok u1 -> Instrument_Model.run ps d2 t2 = Ok u2 -> length o1 = length (c_dir t1) -> n1 <> 0%nat -> n2 <> 0%nat ->
  exists u a1 a2, Instrument_Model.run ps (zip2 (@app draw) d1 d2) (stack t1 t2) = Ok u /\ effectivearea (analysed o1 u1) [o] n1 A = [Some a1] /\ effectivearea (analysed o2 u2) [o] n2 A = [Some a2] /\
    effectivearea (analysed (o1 ++ o2) u) [o] (n1 + n2) A = [Some ((INR n1 * a1 + INR n2 * a2) / (INR n1 + INR n2))].
Proof. exact areas_batches. Qed.
Print Assumptions C233_batches.
(** Probabilities that are numbers stay numbers, but for mirrors that need a polarization and lenses without reflectivity at angles that are nan. *)
Theorem C233_numbers : forall ps drs t t', (forall p, In p ps -> (forall m minv, p <> PBrewster m minv) /\ forall m off f refl rn e, p = PLens m off f refl rn -> rn e <> None) ->
  Instrument_Model.rectangular t -> Instrument_Model.run ps drs t = Ok t' -> no_nan t -> no_nan t'.
Proof.
  intros ps drs t t' P R H N. refine (run_num ps drs t t' _ R H N). apply Forall_forall. intros p I. destruct (P p I) as [A B].
  destruct p; cbn [numeric]; auto; [intros e; eapply B; reflexivity|exact (A _ _ eq_refl)].
Qed.
Print Assumptions C233_numbers.
(** Example: two photons, one flies the wrong way and misses the hole of the baffle; behind it is a filter. *)
Example ex_C233 : let t := of_rows [ex_photon (1 / 2) 0 (V3 0 1 0) 1 1; LPhoton (Some (V3 0 1 0)) (Some (V3 2 0 0)) None 1 (Some 1)] in
  sensible t /\ Forall (fun pr => pr = Some 1) (c_prob t) /\ exists t', Instrument_Model.run [PBaffle id4; PGlobal (fun _ => 1 / 4)] [] t = Ok t' /\ no_nan t' /\
    effectivearea (analysed [0; 0]%Z t') [0%Z] 2 8 = [Some 1].
Proof.
  cbv zeta. split; [repeat constructor; exists 1; (split; [reflexivity|lra])|]. split; [repeat constructor|].
  assert (M2 : Instrument_Model.meets id4 (LPhoton (Some (V3 0 1 0)) (Some (V3 2 0 0)) None 1 (Some 1)) = None).
  { unfold Instrument_Model.meets. cbn [l_dir l_pos]. assert (H : fst (fst (plane_intersect id4 (hom (V3 0 1 0) 0) (hom (V3 2 0 0) 1))) <> true).
    { intros H. apply (proj1 (plane_hit_iff id4 (V3 0 1 0) (V3 2 0 0) id4_axes)) in H. destruct H as [H _]. apply H. vu. cbn. ring. }
    destruct (plane_intersect _ _ _) as [[h ip] il]. cbn [fst] in H. destruct h; [congruence|reflexivity]. }
  eexists. cbn [Instrument_Model.run hd tl]. rewrite process_each by reflexivity. cbn [each_row draws_for one]. rewrite ex_meets by lra. rewrite M2. cbn [bind].
  unfold of_rows. cbn [map Instrument_Model.process c_dir c_pos c_pol c_energy c_prob l_dir l_pos l_pol l_energy l_prob ex_photon existsb].
  assert (B : (Rltb (1 / 4) 0 || (Rltb (1 / 4) 0 || false)) || (Rltb 1 (1 / 4) || (Rltb 1 (1 / 4) || false)) = false) by (rewrite (proj2 (Rltb_false (1 / 4) 0)), (proj2 (Rltb_false 1 (1 / 4))) by lra; reflexivity).
  rewrite B. cbn [bind zip2 times]. split; [reflexivity|]. split; [repeat constructor; discriminate|].
  rewrite effectivearea_some by discriminate. cbn [map]. do 2 f_equal. unfold analysed. cbn [c_prob zip2 value_of]. rewrite !prob_cons. cbn [a_order a_prob Z.eqb]. unfold prob_in. cbn. lra.
Qed.
