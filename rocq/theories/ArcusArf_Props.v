(** Properties C140 to C143: effective areas, file names and defaults of Arcus *)
From Coq Require Import String Ascii Permutation.
From Verif Require Import Base_Proofs Vec_Proofs Rmf_Proofs2 Osip_Proofs ArcusArf_Proofs.
From Verif Require Import ArcusArf_Model.
From Coq Require Import List Lra Lia.
Open Scope R_scope.

(** ** C140: a wavelength is on a CCD iff the diffracted ray crosses one *)
(** Partial: for optical axes that are not at x = 0. *)
Theorem C140_crosses_partial : forall ccds ox f period order wave, ox <> 0 -> Forall (below f) ccds ->
  on_ccd ccds ox f period order wave = true <->
  let s := IZR order * wave / period in -1 <= s <= 1 /\
  exists m, In m ccds /\ crosses ox f (sign ox) s (sqrt (1 - s * s)) (fst (ccd_corners m)) (snd (ccd_corners m)).
Proof. exact on_ccd_crosses. Qed.
Print Assumptions C140_crosses_partial.
Theorem C140_mirror : forall ccds ox f period order wave, on_ccd (map mirror_x ccds) (- ox) f period order wave = on_ccd ccds ox f period order wave.
Proof. exact on_ccd_mirror. Qed.
Print Assumptions C140_mirror.
Theorem C140_evanescent : forall ccds ox f period order wave, 1 < Rabs (IZR order * wave / period) -> on_ccd ccds ox f period order wave = false.
Proof.
  intros ccds ox f period order wave H. unfold on_ccd. destruct (theta order wave period) as [th|] eqn:T; [|reflexivity]. apply theta_some in T as [T _].
  apply Rabs_le in T. lra.
Qed.
Print Assumptions C140_evanescent.
(** A CCD at the lowest point that reaches from x = 40 to 60, the axis at x = 10, f = 100: the ray with sin = 4/sqrt(116)... is written with a triangle 3-4-5:
    f = 80 above the CCD, 60 to the side. *)
Definition ccd1 : m4 := M4 (V4 0 0 1 0) (V4 10 0 0 0) (V4 0 10 0 0) (V4 70 0 0 1).
Example C140_example : on_ccd [ccd1] 10 80 5 (-3) (-1) = true.
Proof.
  apply C140_crosses_partial; [lra| |].
  - constructor; [|constructor]. unfold below, ccd_corners, ccd1, center, v_y, sub4, add4. cbn. lra.
  - cbv zeta. replace (-3 * -1 / 5) with (3 / 5) by lra. split; [lra|]. exists ccd1. split; [cbn; auto|].
    assert (S : sign 10 = 1) by (unfold sign; rewrite (proj2 (Rltb_false 10 0)) by lra; rewrite (proj2 (Rltb_true 0 10)) by lra; reflexivity).
    assert (C : sqrt (1 - 3 / 5 * (3 / 5)) = 4 / 5) by (replace (1 - 3 / 5 * (3 / 5)) with (4 / 5 * (4 / 5)) by lra; apply sqrt_square; lra).
    rewrite S, C. unfold crosses, ccd_corners, ccd1, center, v_y, sub4, add4. cbn. split.
    + exists (1 / 2), 100. repeat split; lra.
    + intros (k & K & X & Z). assert (k = 100) by lra. subst. lra.
Qed.
(** With the optical axis at x = 0 nothing is on a CCD, because np.sign(0) is 0. *)
Theorem C140_axis_refuted : forall ccds f period order wave, Forall (below f) ccds -> on_ccd ccds 0 f period order wave = false.
Proof. exact on_ccd_axis. Qed.
Print Assumptions C140_axis_refuted.

(** The period: the mean of the periods of all gratings, foreshortened by the blaze angle.  A grating that is tilted by the blaze angle deflects a ray by [th] with
    d (sin blaze + sin (th - blaze)) = order * wave; the sine that is used is that of [th] up to the second order in [th], ... *)
Theorem C140_period : forall blaze periods lo hi, periods <> [] -> 0 <= cos blaze -> Forall (fun d => lo <= d <= hi) periods -> cos blaze * lo <= effective_period blaze periods <= cos blaze * hi.
Proof. exact period_between. Qed.
Print Assumptions C140_period.
Theorem C140_tilted_partial : forall blaze periods d s th, periods <> [] -> Forall (fun x => x = d) periods -> 0 < d -> 0 < cos blaze -> d * (sin blaze + sin (th - blaze)) = s ->
  s / effective_period blaze periods = sin th + tan blaze * (1 - cos th) /\ Rabs (s / effective_period blaze periods - sin th) <= Rabs (tan blaze) * (th * th / 2).
Proof. intros blaze periods d s th N F D C E. split; [exact (tilted_sine blaze periods d s th N F D C E)|exact (tilted_error blaze periods d s th N F D C E)]. Qed.
Print Assumptions C140_tilted_partial.
(** ... but never the same except for rays that are not deflected. *)
Theorem C140_tilted_refuted : forall blaze periods d order wave th, periods <> [] -> Forall (fun x => x = d) periods -> 0 < d -> 0 < blaze < PI / 2 ->
  d * (sin blaze + sin (th - blaze)) = IZR order * wave -> th <> 0 -> theta order wave (effective_period blaze periods) <> Some th.
Proof. exact tilted_never. Qed.
Print Assumptions C140_tilted_refuted.
Example C140_example_tilted : effective_period (PI / 3) [3; 5] = 2 /\ theta 1 (2 * sin (PI / 4)) (effective_period (PI / 4) [1; 1]) <> Some (PI / 2) /\
  2 * sin (PI / 4) / effective_period (PI / 4) [1; 1] = 2.
Proof.
  pose proof PI_RGT_0. assert (C : 0 < cos (PI / 4)) by (apply cos_gt_0; lra). assert (F : Forall (fun x => x = 1) [1; 1]) by (repeat constructor).
  assert (E : 1 * (sin (PI / 4) + sin (PI / 2 - PI / 4)) = 2 * sin (PI / 4)) by (replace (PI / 2 - PI / 4) with (PI / 4) by field; ring). split; [|split].
  - unfold effective_period. rewrite cos_PI3. cbn. lra.
  - apply (C140_tilted_refuted (PI / 4) [1; 1] 1); [discriminate|exact F|lra|lra|rewrite E; ring|lra].
  - destruct (C140_tilted_partial (PI / 4) [1; 1] 1 _ (PI / 2) ltac:(discriminate) F ltac:(lra) C E) as [-> _]. rewrite sin_PI2, cos_PI2, tan_PI4. ring.
Qed.

(** ** C141: columns of an effective area *)
Theorem C141_columns : forall default conf hc tab filt conv edges order channels a,
  mkarf default conf hc tab filt conv edges order channels = Ok a ->
  exists s, Permutation s (map conv edges) /\ ascending s /\ ar_lo a = removelast s /\ ar_hi a = tl s /\
  ar_blo a = map (fun e => hc / e) (ar_hi a) /\ ar_bhi a = map (fun e => hc / e) (ar_lo a) /\
  List.length (ar_resp a) = (List.length edges - 1)%nat /\
  forall i lo hi, nth_error s i = Some lo -> nth_error s (S i) = Some hi -> exists mg,
    let e := (lo + hi) / 2 in let on := INR (n_on conf hc order channels e) in
    mirr_grat tab hc order e = Ok mg /\ nth_error (ar_mirr a) i = Some mg /\ nth_error (ar_filt a) i = Some (filt e) /\ nth_error (ar_on a) i = Some on /\
    nth_error (ar_resp a) i = Some (mg * filt e * on).
Proof. exact mkarf_spec. Qed.
Print Assumptions C141_columns.
Theorem C141_never_negative : forall default conf hc tab filt conv edges order channels a i v,
  mkarf default conf hc tab filt conv edges order channels = Ok a -> (forall e, 0 <= filt e) -> nth_error (ar_resp a) i = Some v -> 0 <= v.
Proof.
  intros default conf hc tab filt conv edges order channels a i v E F V. destruct (C141_columns _ _ _ _ _ _ _ _ _ _ E) as (s & P & _ & _ & _ & _ & _ & L & H).
  assert (LI : (i < List.length (ar_resp a))%nat) by (apply nth_error_Some; congruence). assert (LS : List.length s = List.length edges) by (rewrite (Permutation_length P); apply map_length).
  destruct (nth_error s i) as [lo|] eqn:I1; [|apply nth_error_None in I1; lia]. destruct (nth_error s (S i)) as [hi|] eqn:I2; [|apply nth_error_None in I2; lia].
  destruct (H i lo hi I1 I2) as (mg & M & _ & _ & _ & R). rewrite V in R. assert (R' : v = mg * filt ((lo + hi) / 2) * INR (n_on conf hc order channels ((lo + hi) / 2))) by congruence. rewrite R'.
  apply mirr_grat_pos in M. apply Rmult_le_pos; [apply Rmult_le_pos; auto|apply pos_INR].
Qed.
Print Assumptions C141_never_negative.
(** The area of mirrors and gratings: the column of the order, at the wavelength of the energy, and not less than zero. *)
Theorem C141_mirror_and_grating : forall tab hc order e, mirr_grat tab hc order e =
  match dget (str_int order) tab with Some f => Ok (if Rlt_dec (f (hc / e)) 0 then 0 else f (hc / e)) | None => Err KeyError end.
Proof.
  intros tab hc order e. unfold mirr_grat. destruct (dget (str_int order) tab) as [f|]; [|reflexivity]. destruct (Rlt_dec (f (hc / e)) 0) as [L|L].
  - rewrite Rmax_right by lra. reflexivity.
  - rewrite Rmax_left by lra. reflexivity.
Qed.
Print Assumptions C141_mirror_and_grating.
(** A channel is used only if it is one of the default channels and has an optical axis in the configuration. *)
Theorem C141_channels : forall default conf hc tab filt conv edges order channels a,
  mkarf default conf hc tab filt conv edges order channels = Ok a -> forall c, In c channels -> In c default /\ din c (ac_axes conf) = true.
Proof. exact mkarf_channels. Qed.
Print Assumptions C141_channels.
Theorem C141_header : forall conf channels, String.length (arcchan conf channels) = List.length (ac_axes conf) /\
  forall i k, nth_error (dkeys (ac_axes conf)) i = Some k -> (String.get i (arcchan conf channels) = Some "1"%char <-> In k channels).
Proof. exact arcchan_spec. Qed.
Print Assumptions C141_header.
Theorem C141_count_bound : forall conf hc order channels e, (n_on conf hc order channels e <= List.length channels)%nat.
Proof. exact n_on_le. Qed.
Print Assumptions C141_count_bound.
Definition conf1 : aconf := AConf [("1"%string, V4 10 0 0 1); ("1m"%string, V4 10 0 0 1); ("2"%string, V4 10 0 0 1); ("3"%string, V4 10 0 0 1)] 80 5 [ccd1].
Definition four : list string := ["1"%string; "2"%string; "1m"%string; "2m"%string].
Lemma ccd1_on : on_ccd [ccd1] 10 80 5 (-3) (- (3) / 3) = true.
Proof. replace (- (3) / 3) with (-1) by lra. exact C140_example. Qed.
(** One bin around 3 keV with two channels: the entry of the column ONCCD is 2. *)
Example C141_example : exists a, mkarf four conf1 (- (3)) [("-3"%string, fun w => 7)] (fun _ => 1 / 2) (fun x => x) [4; 2] (-3) ["1"%string; "2"%string] = Ok a /\
  nth_error (ar_on a) 0 = Some 2 /\ nth_error (ar_resp a) 0 = Some 7 /\ ar_chan a = "1010"%string.
Proof.
  assert (S : sortR (map (fun x => x) [4; 2]) = [2; 4]) by (cbn; rewrite (proj2 (Rleb_false 4 2)) by lra; reflexivity).
  assert (T : n_on conf1 (- (3)) (-3) ["1"%string; "2"%string] ((2 + 4) / 2) = 2%nat).
  { unfold n_on, conf1. cbn [filter dget ac_axes ac_ccds ac_f ac_period x4 String.eqb Ascii.eqb Bool.eqb]. replace ((2 + 4) / 2) with 3 by lra. rewrite ccd1_on. reflexivity. }
  assert (E : exists a, mkarf four conf1 (- (3)) [("-3"%string, fun w => 7)] (fun _ => 1 / 2) (fun x => x) [4; 2] (-3) ["1"%string; "2"%string] = Ok a /\ ar_chan a = "1010"%string).
  { unfold mkarf. rewrite S. eexists. split; reflexivity. }
  destruct E as (a & E & CH). exists a. split; [exact E|]. pose proof (C141_columns _ _ _ _ _ _ _ _ _ _ E) as (s & P & A & _ & _ & _ & _ & _ & H).
  assert (s = [2; 4]).
  { cbn in P. apply Permutation_sym, Permutation_length_2_inv in P as [->| ->]; [|reflexivity]. cbn in A. lra. }
  subst s. destruct (H 0%nat 2 4 eq_refl eq_refl) as (mg & M & _ & _ & O & R). rewrite T in O, R.
  assert (MG : mg = 7). { unfold mirr_grat in M. change (str_int (-3)) with "-3"%string in M. cbn [dget String.eqb Ascii.eqb Bool.eqb] in M. rewrite Rmax_left in M by lra. congruence. }
  subst mg. split; [rewrite O; f_equal; cbn; lra|]. split; [rewrite R; f_equal; cbn; lra|exact CH].
Qed.
(** The channels of the configuration do not count: channel 3 of this one is refused. *)
Theorem C141_configuration_refuted : In "3"%string (dkeys (ac_axes conf1)) /\
  mkarf four conf1 (- (3)) [("-3"%string, fun w => 7)] (fun _ => 1 / 2) (fun x => x) [4; 2] (-3) ["3"%string] = Err ValueError.
Proof.
  split; [cbn; auto|]. unfold mkarf.
  assert (S : sortR (map (fun x => x) [4; 2]) = [2; 4]) by (cbn; rewrite (proj2 (Rleb_false 4 2)) by lra; reflexivity). rewrite S. reflexivity.
Qed.
Print Assumptions C141_configuration_refuted.

(** ** C142: file names *)
Theorem C142_missing : forall ft kw, dget "ARCCHAN" kw = None -> arcus_filename ft kw = Err KeyError.
Proof. intros ft kw H. unfold arcus_filename. now rewrite H. Qed.
Print Assumptions C142_missing.
Theorem C142_name : forall ft kw s, dget "ARCCHAN" kw = Some (KStr s) ->
  arcus_filename ft kw = bind (filename_from_meta ft (ddel "ARCCHAN" kw)) (fun r => Ok (String.append "chan_" (String.append (chan_text s) r))).
Proof. exact arcus_name. Qed.
Print Assumptions C142_name.
(** Different channels give different names, apart from 1111 and all. *)
Theorem C142_injective : forall ft ft' kw kw' s s' n, dget "ARCCHAN" kw = Some (KStr s) -> dget "ARCCHAN" kw' = Some (KStr s') -> no_char "_" s -> no_char "_" s' ->
  arcus_filename ft kw = Ok n -> arcus_filename ft' kw' = Ok n ->
  (s = s' \/ (s = "1111" /\ s' = "all") \/ (s = "all" /\ s' = "1111"))%string /\
  filename_from_meta ft (ddel "ARCCHAN" kw) = filename_from_meta ft' (ddel "ARCCHAN" kw').
Proof.
  intros ft ft' kw kw' s s' n E E' U U' H H'. destruct (arcus_name_inj _ _ _ _ _ _ _ E E' U U' H H') as [A B]. split; [exact (chan_text_inj _ _ A)|exact B].
Qed.
Print Assumptions C142_injective.
Example C142_example : arcus_filename "arf" [("ARCCHAN", KStr "1111"); ("ORDER", KInt (-4)); ("CCDORDER", KInt (-4)); ("TRUEORD", KInt (-5))] = Ok "chan_all_ccdord_-4_true_-5.arf"%string /\
  arcus_filename "arf" [("ARCCHAN", KStr "0101"); ("ORDER", KInt 3)] = Ok "chan_0101_+3.arf"%string.
Proof. split; reflexivity. Qed.

(** ** C143: defaults *)
(** Keywords of the user win, all others have the default. *)
Theorem C143_defaults : forall {V} (defaults kwargs : dict V) k, NoDup (dkeys defaults) ->
  dget k (fill_defaults defaults kwargs) = match dget k kwargs with Some v => Some v | None => dget k defaults end.
Proof. exact (@fill_defaults_get). Qed.
Print Assumptions C143_defaults.
Theorem C143_pointing : forall {V} (defaults kwargs : dict V) jitter k, NoDup (dkeys defaults) -> dget "jitter" defaults = None ->
  (dget "jitter" kwargs = None -> jitter = Err FileNotFoundError -> default_pointing defaults jitter kwargs = Err FileNotFoundError) /\
  (forall j, jitter = Ok j \/ dget "jitter" kwargs <> None -> exists kw, default_pointing defaults jitter kwargs = Ok kw /\
     (k <> "jitter"%string -> dget k kw = match dget k kwargs with Some v => Some v | None => dget k defaults end) /\
     (dget "jitter" kwargs <> None -> dget "jitter" kw = dget "jitter" kwargs) /\ (dget "jitter" kwargs = None -> dget "jitter" kw = Some j)).
Proof.
  intros V defaults kwargs jitter k ND NJ. pose proof (fill_defaults_get defaults kwargs "jitter" ND) as GJ. pose proof (fill_defaults_get defaults kwargs k ND) as GK. rewrite NJ in GJ.
  unfold default_pointing. split.
  - intros N ->. rewrite N in GJ. rewrite (proj2 (din_false _ _) GJ). reflexivity.
  - intros j J. destruct (dget "jitter" kwargs) as [u|] eqn:U.
    + assert (D : din "jitter" (fill_defaults defaults kwargs) = true) by (apply din_dget; eauto). rewrite D. eexists. split; [reflexivity|]. split; [auto|]. split; [auto|discriminate].
    + rewrite (proj2 (din_false _ _) GJ). destruct J as [->|J]; [|tauto]. cbn [bind]. eexists. split; [reflexivity|]. split; [intros NE; rewrite dget_dset_neq by exact NE; exact GK|]. split; [tauto|]. intros _. apply dget_dset_eq.
Qed.
Print Assumptions C143_pointing.
(** A number is only read from a table with exactly one row. *)
Theorem C143_load_number : forall {V} (column : option (list V)) nrows v, load_number column nrows = Ok v -> nrows = 1%nat /\ exists r, column = Some (v :: r).
Proof.
  intros V column nrows v. unfold load_number. destruct (Nat.eqb_spec nrows 1) as [->|]; [|discriminate]. cbn. destruct column as [[|x r]|]; try discriminate. intros H. injection H as <-. eauto.
Qed.
Print Assumptions C143_load_number.
Example C143_example : dget "flux" (fill_defaults [("energy"%string, 1%Z); ("flux"%string, 2%Z)] [("flux"%string, 9%Z)]) = Some 9%Z /\
  dget "energy" (fill_defaults [("energy"%string, 1%Z); ("flux"%string, 2%Z)] [("flux"%string, 9%Z)]) = Some 1%Z /\
  load_number (Some [3%Z; 4%Z]) 2 = Err Exception /\ load_number (Some [3%Z]) 1 = Ok 3%Z.
Proof. repeat split. Qed.
