(** Property C241: header of an observation with Chandra and ACIS. *)
From Verif Require Import Base_Proofs Vec_Proofs Chandra_Proofs Observe_Model Observe_Proofs.
From Coq Require Import Reals Lra.
Open Scope R_scope.
Open Scope string_scope.
Open Scope list_scope.

(** The entries SIM_X, SIM_Y, SIM_Z say where the detector is: with them and the table of corners the corners of every chip are known. *)
Theorem C241_position c aim off chips hit h h' m sx sy sz :
  chip_pos4d c aim off = Some m -> acis_header aim off chips hit h = Ok h' ->
  dget "SIM_X" h' = Some (Alone (Number sx)) -> dget "SIM_Y" h' = Some (Alone (Number sy)) -> dget "SIM_Z" h' = Some (Alone (Number sz)) ->
  app4 m (V4 0 (-1) (-1) 1) = hom (add3 (add3 (c_LL c) olsi) (V3 sx sy sz)) 1 /\
  app4 m (V4 0 1 (-1) 1) = hom (add3 (add3 (c_LR c) olsi) (V3 sx sy sz)) 1 /\
  app4 m (V4 0 (-1) 1 1) = hom (add3 (add3 (c_UL c) olsi) (V3 sx sy sz)) 1.
Proof. exact (position_from_header c aim off chips hit h h' m sx sy sz). Qed.
Print Assumptions C241_position.
(** The entry DETNAM lists the chips in their order: they can be read back from it. *)
Theorem C241_chips aim off chips hit h h' : Forall (fun c => (0 <= c < 10)%Z) chips -> acis_header aim off chips hit h = Ok h' ->
  exists s, dget "DETNAM" h' = Some (Alone (Words s)) /\ chips_named s = chips.
Proof.
  intros F H. exists (detnam chips). split; [exact (proj1 (proj2 (proj2 (proj2 (acis_values aim off chips hit h h' H))))) | exact (name_back chips F)].
Qed.
Print Assumptions C241_chips.
Theorem C241_distinct chips chips' : Forall (fun c => (0 <= c < 10)%Z) chips -> Forall (fun c => (0 <= c < 10)%Z) chips' -> detnam chips = detnam chips' -> chips = chips'.
Proof. intros F F' E. rewrite <- (name_back chips F), <- (name_back chips' F'). now rewrite E. Qed.
Print Assumptions C241_distinct.
(** Chips counted from the end, as python allows, are not described by it: the same detector gets two names. *)
Theorem C241_negative_refuted : exists i j, chip_index 10 i = chip_index 10 j /\ chip_index 10 j = Ok 9%nat /\ detnam [i] = "ACIS-9" /\ detnam [j] = "ACIS--1".
Proof. exists 9%Z, (-1)%Z. repeat split; reflexivity. Qed.
Print Assumptions C241_negative_refuted.
Theorem C241_index n i k : ((exists k, chip_index n i = Ok k) <-> (- Z.of_nat n <= i < Z.of_nat n)%Z) /\
  (chip_index n i = Ok k -> (k < n)%nat /\ (Z.of_nat k = i \/ Z.of_nat k = i + Z.of_nat n)%Z).
Proof. exact (conj (index_ok n i) (index_value n i k)). Qed.
Print Assumptions C241_index.
(** The header needs the roll angle if and only if there are photons on a chip. *)
Theorem C241_when aim off chips hit h :
  (exists h', acis_header aim off chips hit h = Ok h') <-> (In true hit -> exists r c, dget "ROLL_PNT" h = Some (Commented (Number r) c)).
Proof.
  rewrite acis_ok. split; intros H I; specialize (H I).
  - destruct H as [r H]. unfold roll_entry in H. destruct (dget "ROLL_PNT" h) as [[[x|w] c|c]|]; try discriminate. now exists x, c.
  - destruct H as (r & c & H). exists r. unfold roll_entry. now rewrite H.
Qed.
Print Assumptions C241_when.
(** Nothing else in the header changes; *)
Theorem C241_kept aim off chips hit h h' k : acis_header aim off chips hit (chandra_header h) = Ok h' ->
  ~ In k ["MISSION"; "TELESCOP"; "ACSYS1"; "ACSYS2"; "ACSYS3"; "ACSYS4"; "SIM_X"; "SIM_Y"; "SIM_Z"; "DETNAM"; "INSTRUME"] -> dget k h' = dget k h.
Proof.
  intros H N. rewrite (acis_kept aim off chips hit (chandra_header h) h' k H) by (intros I; apply N; cbn in I |- *; tauto).
  unfold chandra_header. rewrite !dget_dset_neq by (intros ->; apply N; cbn; tauto). reflexivity.
Qed.
Print Assumptions C241_kept.
(** and with photons on a chip all of these are there. *)
Theorem C241_written aim off chips hit h h' : acis_header aim off chips hit (chandra_header h) = Ok h' -> In true hit ->
  dget "MISSION" h' = Some (Commented (Words "AXAF") "Mission") /\ dget "TELESCOP" h' = Some (Commented (Words "CHANDRA") "Telescope") /\
  dget "INSTRUME" h' = Some (Commented (Words "ACIS") "Instrument") /\
  (forall k, In k ["ACSYS1"; "ACSYS2"; "ACSYS3"; "ACSYS4"] -> exists w c, dget k h' = Some (Commented (Words w) c)).
Proof.
  intros H I. split; [|split; [|split]].
  - rewrite (acis_kept aim off chips hit _ h' "MISSION" H) by (cbn; intuition discriminate). reflexivity || (unfold chandra_header; now rewrite dget_dset_neq, dget_dset_eq by discriminate).
  - rewrite (acis_kept aim off chips hit _ h' "TELESCOP" H) by (cbn; intuition discriminate). unfold chandra_header. apply dget_dset_eq.
  - exact (proj2 (proj2 (proj2 (proj2 (acis_values aim off chips hit _ h' H))))).
  - intros k K. unfold acis_header in H. destruct (chips_header hit (chandra_header h)) as [h1|] eqn:E; cbn [bind] in H; [|discriminate]. inversion H.
    destruct (chips_written hit _ h1 E I k K) as (w & c & G). exists w, c.
    rewrite !dget_dset_neq by (intros ->; cbn in K; intuition discriminate). exact G.
Qed.
Print Assumptions C241_written.
(** A list from a source on the sky with a pointing can always be observed, and has the complete header; one from the laboratory only if it misses the detector. *)
Theorem C241_observation version date clock user host exposure ra dec roll aim off chips hit :
  exists h', acis_header aim off chips hit (chandra_header (Origin_Model.header (fst (pointed ra dec roll (set_sky (new_list version date clock user host exposure)))))) = Ok h' /\
    (forall k, In k ["EXTNAME"; "EXPOSURE"; "CREATOR"; "COORDSYS"; "RA_PNT"; "DEC_PNT"; "ROLL_PNT"; "RA_NOM"; "DEC_NOM"; "ROLL_NOM"; "MISSION"; "TELESCOP"; "DETNAM"; "INSTRUME"; "SIM_X"; "SIM_Y"; "SIM_Z"] ->
       exists v, dget k h' = Some v).
Proof.
  set (h := chandra_header _).
  destruct (proj2 (C241_when aim off chips hit h)) as [h' H]; [intros _; eexists; eexists; reflexivity|]. exists h'. split; [exact H|]. intros k K.
  pose proof (acis_values aim off chips hit h h' H) as (X & Y & Z & D & I).
  pose proof (fun N => acis_kept aim off chips hit h h' k H N) as P.
  cbn [In] in K. repeat (destruct K as [<-|K]; [first [now eexists; eassumption | rewrite P by (cbn; intuition discriminate); eexists; reflexivity]|]). destruct K.
Qed.
Print Assumptions C241_observation.
Theorem C241_laboratory version date clock user host exposure aim off chips hit :
  acis_header aim off chips hit (chandra_header (Origin_Model.header (set_lab (new_list version date clock user host exposure)))) =
    (if existsb (fun b => b) hit then Err KeyError else acis_header aim off chips [] (chandra_header (Origin_Model.header (set_lab (new_list version date clock user host exposure))))).
Proof.
  set (h := chandra_header _). unfold acis_header. cbn [chips_header bind]. destruct (existsb (fun b => b) hit) eqn:E.
  - enough (C : chips_header hit h = Err KeyError) by now rewrite C. revert E. induction hit as [|b r IH]; cbn [existsb chips_header]; [discriminate|].
    destruct b; cbn [orb bind]; [reflexivity | exact IH].
  - rewrite no_hits; [reflexivity|]. intros I. assert (existsb (fun b => b) hit = true) by (apply existsb_exists; now exists true). congruence.
Qed.
Print Assumptions C241_laboratory.
(** Without photons on a chip the references of the coordinate systems are missing. *)
Theorem C241_reference_refuted : exists aim off chips h', acis_header aim off chips [false; false] (chandra_header []) = Ok h' /\ dget "INSTRUME" h' <> None /\ dget "ACSYS1" h' = None.
Proof. exists (V3 0 0 0), (V3 0 0 0), [6; 7]%Z. eexists. split; [reflexivity|]. split; [discriminate | reflexivity]. Qed.
Print Assumptions C241_reference_refuted.

Example ex_C241 : detnam [4; 5; 6; 7; 8; 9]%Z = "ACIS-456789" /\ chips_named "ACIS-456789" = [4; 5; 6; 7; 8; 9]%Z.
Proof. split; reflexivity. Qed.
Example ex_C241_header : exists h', acis_header (V3 1 2 3) (V3 0 0 1) [7%Z] [true] (chandra_header [("ROLL_PNT", Commented (Number 30) "roll")]) = Ok h' /\
  map fst h' = ["ROLL_PNT"; "MISSION"; "TELESCOP"; "ACSYS1"; "ACSYS2"; "ACSYS3"; "ACSYS4"; "SIM_X"; "SIM_Y"; "SIM_Z"; "DETNAM"; "INSTRUME"].
Proof. eexists. split; reflexivity. Qed.
(** The four coordinate systems that are named where photons hit a chip. *)
Lemma chips_systems hit : forall h h', chips_header hit h = Ok h' -> In true hit ->
  dget "ACSYS1" h' = Some (Commented (Words "CHIP:AXAF-ACIS-1.0") "reference for chip coord system") /\ dget "ACSYS2" h' = Some (Commented (Words "TDET:ACIS-2.2") "reference for tiled detector coord system") /\
  dget "ACSYS3" h' = Some (Commented (Words "DET:ASC-FP-1.1") "reference for focal plane coord system") /\ dget "ACSYS4" h' = Some (Commented (Words "SKY:ASC-FP-1.1") "reference for sky coord system").
Proof.
  induction hit as [|b r IH]; intros h h' H I; [destruct I|]. cbn [chips_header] in H. destruct (in_dec Bool.bool_dec true r) as [J|J].
  - destruct b; cbn [bind] in H; [|exact (IH _ _ H J)]. destruct (chip_header h) as [h1|]; cbn [bind] in H; [|discriminate]. exact (IH _ _ H J).
  - destruct I as [->|I]; [|contradiction]. cbn [bind] in H. destruct (chip_header h) as [h1|] eqn:E; cbn [bind] in H; [|discriminate]. rewrite (no_hits r h1 J) in H. injection H as <-.
    unfold chip_header in E. destruct (roll_entry h); cbn [bind] in E; [|discriminate]. inversion E. repeat split; rewrite ?dget_dset_neq by discriminate; apply dget_dset_eq.
Qed.
Theorem C241_systems aim off chips hit h h' : acis_header aim off chips hit (chandra_header h) = Ok h' -> In true hit ->
  map (fun k => dget k h') ["ACSYS1"; "ACSYS2"; "ACSYS3"; "ACSYS4"] =
  [Some (Commented (Words "CHIP:AXAF-ACIS-1.0") "reference for chip coord system"); Some (Commented (Words "TDET:ACIS-2.2") "reference for tiled detector coord system");
   Some (Commented (Words "DET:ASC-FP-1.1") "reference for focal plane coord system"); Some (Commented (Words "SKY:ASC-FP-1.1") "reference for sky coord system")].
Proof.
  intros H I. unfold acis_header in H. destruct (chips_header hit (chandra_header h)) as [h1|] eqn:E; cbn [bind] in H; [|discriminate]. destruct (chips_systems hit _ h1 E I) as (A & B & C & D). inversion H. cbn [map].
  rewrite !dget_dset_neq by discriminate. now rewrite A, B, C, D.
Qed.
Print Assumptions C241_systems.
