(** Properties C198 and C199: responses for order 0 of Arcus and files with numbers. *)
From Verif Require Import Zero_Proofs.
Open Scope R_scope.

(** C198: one row for each channel; it is a Gaussian in energy about the middle of the channel with the width from the table. *)
Theorem C198_rows : forall F conv edges ccd thr m eb, mkrmf0 F conv edges ccd thr = Ok (m, eb) ->
  let s := sortR (map conv edges) in let lo := removelast s in let hi := tl s in
  eb = (seq 0 (List.length edges - 1), lo, hi) /\ List.length m = (List.length edges - 1)%nat /\
  forall r mr, nth_error m r = Some mr -> nth_error lo r = Some (r_lo mr) /\ nth_error hi r = Some (r_hi mr) /\ exists w, let mid := 1 / 2 * (r_lo mr + r_hi mr) in
    Analysis_Model.interp (map (fun p => (fst p, snd p / 1000)) ccd) mid = Ok w /\
    full_rmf (List.length edges - 1) 0 mr = Ok (cut thr (map (fun c => F NormGauss1D w mid (snd c) - F NormGauss1D w mid (fst c)) (combine lo hi))).
Proof. exact zero_rows. Qed.
Print Assumptions C198_rows.
Theorem C198_success : forall F conv edges ccd thr, (ccd <> [] -> exists m eb, mkrmf0 F conv edges ccd thr = Ok (m, eb)) /\ ((2 <= List.length edges)%nat -> mkrmf0 F conv edges [] thr = Err ValueError).
Proof. intros. split; [apply zero_ok|apply zero_empty]. Qed.
Print Assumptions C198_success.
Theorem C198_total : forall F conv edges ccd thr m eb r mr, mkrmf0 F conv edges ccd thr = Ok (m, eb) -> profile_ok F -> nth_error m r = Some mr ->
  exists arr, full_rmf (List.length edges - 1) 0 mr = Ok arr /\ Forall (fun x => 0 <= x) arr /\ 0 <= Rsum arr <= 1.
Proof. exact zero_total. Qed.
Print Assumptions C198_total.
(** Neighbours with the same width in energy get the same. *)
Theorem C198_symmetric : forall F conv edges ccd thr m eb r mr arr a d, mkrmf0 F conv edges ccd thr = Ok (m, eb) -> even_profile F -> nth_error m (S r) = Some mr ->
  let s := sortR (map conv edges) in nth_error s r = Some a -> nth_error s (r + 3) = Some d -> r_lo mr - a = d - r_hi mr -> full_rmf (List.length edges - 1) 0 mr = Ok arr -> nth_error arr r = nth_error arr (r + 2) /\ nth_error arr r <> None.
Proof. exact zero_symmetric. Qed.
Print Assumptions C198_symmetric.
(** The question in the source whether from_Gauss_sigma can be used in place of it: no. There the Gaussian is one in wavelength, and for channels with the same width in energy the one with lower
    energy gets more; the two matrices differ, whatever the widths are. *)
Theorem C198_same_as_Gauss_refuted : forall i1 i2 F hc v date edges rows kw ccd thr m eb f r mr mr' arr arr' a d,
  mkrmf0 F (fun w => hc / w) edges ccd thr = Ok (m, eb) -> from_Gauss_sigma i1 i2 F hc v date edges (InWave rows) thr kw = Ok f -> reproduces_lines i1 -> even_profile F -> rising F -> 0 < hc ->
  Forall (fun w => 0 < w) edges -> 0 <= thr -> nth_error m (S r) = Some mr -> nth_error (f_matrix f) (S r) = Some mr' ->
  let s := sortR (map (fun w => hc / w) edges) in nth_error s r = Some a -> nth_error s (r + 3) = Some d -> a < r_lo mr -> r_lo mr < r_hi mr -> r_lo mr - a = d - r_hi mr ->
  i1 (map fst (sort_wave rows)) (map snd (sort_wave rows)) (1 / 2 * (hc / r_hi mr + hc / r_lo mr)) <> 0 ->
  full_rmf (List.length edges - 1) 0 mr = Ok arr -> full_rmf (List.length edges - 1) 0 mr' = Ok arr' -> thr < nth r arr' 0 -> arr <> arr'.
Proof.
  intros i1 i2 F hc v date edges rows kw ccd thr m eb f r mr mr' arr arr' a d H G RL EV RI HC EP T0 Hm Hf s A D L1 L2 L SG FR FR' TH EQ. subst arr'.
  destruct (zero_symmetric _ _ _ _ _ _ _ _ _ _ _ _ H EV Hm A D L FR) as [SY NN]. destruct (C198_rows _ _ _ _ _ _ _ H) as (_ & _ & ROW). destruct (ROW _ _ Hm) as (LO & HI & _). fold s in LO, HI.
  destruct (C186_gaussian _ _ _ _ _ _ _ _ _ _ _ _ _ G RL HC EP Hf) as (lo & hi & sg & EB & LO' & HI' & SGE & FG & _).
  assert (lo = removelast s /\ hi = tl s) as [-> ->].
  { destruct (gauss_inv _ _ _ _ _ _ _ _ _ _ _ G) as (rows' & _ & _ & M & _). destruct (make_rmf_rows _ _ _ _ _ _ _ _ _ M) as (E & _). rewrite E in EB. injection EB as E1 E2. split; symmetry; assumption. }
  assert (R1 : r_lo mr' = r_lo mr) by congruence. assert (R2 : r_hi mr' = r_hi mr) by congruence. rewrite R1, R2 in *. rewrite FG in FR'. injection FR' as FR'.
  assert (SP : 0 < sg) by (rewrite SGE; apply Rabs_pos_lt; exact SG).
  assert (AP : 0 < a). { apply nth_error_In in A. assert (I : In a (map (fun w => hc / w) edges)) by (eapply Permutation.Permutation_in; [apply sortR_perm|exact A]). apply in_map_iff in I. destruct I as (w & <- & I). rewrite Forall_forall in EP. apply Rdiv_lt_0_compat; auto. }
  assert (L3 : r_hi mr < d) by lra. pose proof (gauss_uneven F hc sg a (r_lo mr) (r_hi mr) d EV RI HC (conj AP L1) (conj L2 L3) L SP) as U. cbv zeta in U.
  assert (S1 : forall (l : list R) i x, nth_error (tl l) i = Some x <-> nth_error l (S i) = Some x) by (intros [|y l] i x; [destruct i; cbn; split; discriminate|reflexivity]).
  assert (S2 : forall (l : list R) i x, nth_error l i = Some x -> (S i < List.length l)%nat -> nth_error (removelast l) i = Some x).
  { intros l i x X LL. destruct l as [|z l0] eqn:EL; [cbn in LL; lia|]. rewrite <- EL in *. assert (NE : l <> []) by congruence. rewrite (app_removelast_last 0 NE) in X. rewrite nth_error_app1 in X by (rewrite removelast_len; lia). exact X. }
  assert (S3 : forall (l : list R) i x, nth_error (removelast l) i = Some x -> nth_error l i = Some x).
  { intros l i x X. destruct l as [|z l0] eqn:EL; [destruct i; discriminate|]. rewrite <- EL in *. assert (NE : l <> []) by congruence. rewrite (app_removelast_last 0 NE). rewrite nth_error_app1; [exact X|]. apply nth_error_Some. congruence. }
  apply S3 in LO. pose proof (proj1 (S1 s (S r) (r_hi mr)) HI) as HI2. assert (LD : (r + 3 < List.length s)%nat) by (apply nth_error_Some; congruence).
  assert (B0 : nth_error (combine (removelast s) (tl s)) r = Some (a, r_lo mr)) by (apply combine_nth_some; [apply S2; [exact A|lia]|apply (proj2 (S1 s r (r_lo mr))); exact LO]).
  assert (B2 : nth_error (combine (removelast s) (tl s)) (r + 2) = Some (r_hi mr, d)).
  { apply combine_nth_some; [apply S2; [replace (r + 2)%nat with (S (S r)) by lia; exact HI2|lia]|apply (proj2 (S1 s (r + 2)%nat d)); replace (S (r + 2)) with (r + 3)%nat by lia; exact D]. }
  rewrite <- FR' in SY, TH. rewrite (nth_error_nth _ _ _ (nth_cut_map thr _ _ _ _ B0)) in TH. rewrite (nth_cut_map thr _ _ _ _ B0), (nth_cut_map thr _ _ _ _ B2) in SY. cbn [fst snd] in *. injection SY as SY.
  set (p := gauss_bin F sg _ (hc / r_lo mr) (hc / a)) in *. set (q := gauss_bin F sg _ (hc / d) (hc / r_hi mr)) in *. destruct (above thr p); [|lra]. destruct (above thr q); lra.
Qed.
Print Assumptions C198_same_as_Gauss_refuted.
(** a distribution with all of this, and channels from 1 to 4 keV *)
Definition atan_profile : profile := fun _ w c x => 1 / 2 + atan ((x - c) / w) / PI.
Lemma atan_profile_ok : even_profile atan_profile /\ rising atan_profile.
Proof.
  split.
  - intros k w c d. unfold atan_profile. replace ((c + d - c) / w) with (d / w) by (unfold Rdiv; ring). replace ((c - d - c) / w) with (- (d / w)) by (unfold Rdiv; ring). rewrite atan_opp. unfold Rdiv. lra.
  - intros k w c a b W AB. unfold atan_profile. apply Rplus_lt_compat_l. unfold Rdiv. apply Rmult_lt_compat_r; [apply Rinv_0_lt_compat, PI_RGT_0|]. apply atan_increasing. apply Rmult_lt_compat_r; [apply Rinv_0_lt_compat; exact W|lra].
Qed.
Lemma ex_edges : sortR (map (fun w => 12 / w) [3; 4; 6; 12]) = [1; 2; 3; 4].
Proof.
  cbn [map]. unfold sortR. cbn [fold_right insR]. rewrite (proj2 (Rleb_false (12 / 6) (12 / 12))) by lra. cbn [insR]. rewrite (proj2 (Rleb_false (12 / 4) (12 / 12))) by lra. cbn [insR]. rewrite (proj2 (Rleb_false (12 / 4) (12 / 6))) by lra. cbn [insR].
  rewrite (proj2 (Rleb_false (12 / 3) (12 / 12))) by lra. cbn [insR]. rewrite (proj2 (Rleb_false (12 / 3) (12 / 6))) by lra. cbn [insR]. rewrite (proj2 (Rleb_false (12 / 3) (12 / 4))) by lra. repeat (apply f_equal2; [lra|]); reflexivity.
Qed.
Example C198_example : let rows := [(1, 1); (4, 1); (8, 1); (20, 1)] in exists m eb f mr mr' arr',
  mkrmf0 atan_profile (fun w => 12 / w) [3; 4; 6; 12] [(1, 50); (2, 60)] 0 = Ok (m, eb) /\
  from_Gauss_sigma line_interp tab2 atan_profile 12 (mkVer "1" None None) "now" [3; 4; 6; 12] (InWave rows) 0 default_headerkw = Ok f /\ reproduces_lines line_interp /\
  nth_error m 1 = Some mr /\ nth_error (f_matrix f) 1 = Some mr' /\ r_lo mr = 2 /\ r_hi mr = 3 /\ full_rmf 3 0 mr' = Ok arr' /\ 0 < nth 0 arr' 0 /\
  line_interp (map fst (sort_wave rows)) (map snd (sort_wave rows)) (1 / 2 * (12 / r_hi mr + 12 / r_lo mr)) <> 0.
Proof.
  cbv zeta. set (rows := [(1, 1); (4, 1); (8, 1); (20, 1)]). destruct C186_example as (L & I1 & _). destruct (zero_ok atan_profile (fun w => 12 / w) [3; 4; 6; 12] [(1, 50); (2, 60)] 0 ltac:(discriminate)) as (m & eb & M).
  assert (SR : sort_wave rows = rows).
  { unfold sort_wave, rows. cbn [fold_right ins_wave fst]. rewrite (proj2 (Rleb_true 8 20)) by lra. cbn [ins_wave fst]. rewrite (proj2 (Rleb_true 4 8)) by lra. cbn [ins_wave fst]. rewrite (proj2 (Rleb_true 1 4)) by lra. reflexivity. }
  assert (SG : line_interp (map fst (sort_wave rows)) (map snd (sort_wave rows)) 5 = 1).
  { rewrite SR. cbn [map rows fst snd line_interp]. assert (NB : existsb (Reqb 5) [1; 4; 8; 20] = false); [|rewrite NB; lra]. apply not_true_is_false. intros E. apply existsb_exists in E. destruct E as (x & X & E). apply Reqb_true in E. cbn in X. intuition lra. }
  destruct (gauss_ok line_interp tab2 atan_profile 12 (mkVer "1" None None) "now" [3; 4; 6; 12] rows 0 default_headerkw) as (f & G).
  - exact L.
  - cbn; lia.
  - cbn. repeat constructor; cbn; intuition lra.
  - repeat constructor; cbn; intuition discriminate.
  - intros w W. assert (B : 1 <= w <= 20).
    { unfold midwaves, ebounds_from_edges in W. rewrite ex_edges in W. cbn in W. destruct W as [<-|[<-|[<-|[]]]]; lra. }
    exists (1, 1), (20, 1). cbn [fst]. split; [cbn; tauto|]. split; [cbn; tauto|exact B].
  - intros k [<-|[<-|[<-|[]]]]; eexists; reflexivity.
  - exists m, eb, f. destruct (C198_rows _ _ _ _ _ _ _ M) as (_ & LM & ROW). destruct (C186_size _ _ _ _ _ _ _ _ _ _ _ G) as [LF _]. cbn [List.length] in LM, LF.
    destruct (nth_error m 1) as [mr|] eqn:Em; [|apply nth_error_None in Em; lia]. destruct (nth_error (f_matrix f) 1) as [mr'|] eqn:Ef; [|apply nth_error_None in Ef; lia].
    destruct (ROW _ _ Em) as (A & B & _). rewrite ex_edges in A, B. cbn in A, B. assert (A' : r_lo mr = 2) by congruence. assert (B' : r_hi mr = 3) by congruence.
    assert (EP : Forall (fun w => 0 < w) [3; 4; 6; 12]) by (repeat constructor; lra).
    destruct (C186_gaussian _ _ _ _ _ _ _ _ _ _ _ _ _ G L ltac:(lra) EP Ef) as (lo & hi & sg & EB & LO & HI & SGE & FG & _).
    assert (lo = [1; 2; 3] /\ hi = [2; 3; 4]) as [-> ->].
    { destruct (gauss_inv _ _ _ _ _ _ _ _ _ _ _ G) as (rows' & _ & _ & Mk & _). destruct (make_rmf_rows _ _ _ _ _ _ _ _ _ Mk) as (E & _). rewrite ex_edges in E. rewrite E in EB. injection EB as E1 E2. split; symmetry; assumption. }
    cbn in LO, HI. assert (C1 : r_lo mr' = 2) by congruence. assert (C2 : r_hi mr' = 3) by congruence. rewrite C1, C2 in *. replace (1 / 2 * (12 / 3 + 12 / 2)) with 5 in * by lra. rewrite SG, Rabs_R1 in SGE. subst sg.
    exists mr, mr'. eexists. split; [exact M|]. split; [exact G|]. split; [exact L|]. split; [reflexivity|]. split; [reflexivity|]. split; [exact A'|]. split; [exact B'|]. split; [exact FG|].
    rewrite A', B'. replace (1 / 2 * (12 / 3 + 12 / 2)) with 5 by lra. rewrite SG. split; [|lra]. cbn [combine map fst snd cut nth].
    assert (P : 0 < gauss_bin atan_profile 1 5 (12 / 2) (12 / 1)).
    { unfold gauss_bin. match goal with |- 0 < atan_profile _ ?w _ _ - _ => assert (W : 0 < w) end.
      - rewrite Rmult_1_l. apply Rmult_lt_0_compat; [lra|]. apply sqrt_lt_R0. apply Rmult_lt_0_compat; [lra|]. rewrite <- ln_1. apply ln_increasing; lra.
      - pose proof (proj2 atan_profile_ok NormGauss1D _ 5 (12 / 2) (12 / 1) W ltac:(lra)). lra. }
    unfold above. rewrite (proj2 (Rltb_true 0 _) P). exact P.
Qed.

(** C199: files with one number *)
Theorem C199_number : forall read dir file col s t, read dir file = Ok t -> ecsv_ok t ->
  snd (load_number read dir file col s) = if Nat.eqb (e_len t) 1 then match dget col (e_cols t) with
    | None => Err KeyError
    | Some (v, u) => Ok (match u with None => Plain (nth 0 v 0) | Some u => WithUnit (nth 0 v 0) u end)
    end else Err Exception.
Proof.
  intros read dir file col s t E OK. unfold load_number. rewrite E. cbn [snd]. destruct (Nat.eqb_spec (e_len t) 1) as [L|L]; [|reflexivity]. cbn [negb]. destruct (dget col (e_cols t)) as [[v u]|] eqn:C; [|reflexivity].
  pose proof (OK _ _ _ C) as LV. rewrite L in LV. destruct v as [|x v]; [discriminate|]. destruct u; reflexivity.
Qed.
Print Assumptions C199_number.
(** The text of the exception says that there is more than one row; a table without rows raises it, too. *)
Theorem C199_text_refuted : ~ (forall read dir file col s t, read dir file = Ok t -> ecsv_ok t -> snd (load_number read dir file col s) = Err Exception -> (1 < e_len t)%nat).
Proof.
  intros H. specialize (H (fun _ _ => Ok (Ecsv 0 [])) ""%string ""%string ""%string (false, []) (Ecsv 0 []) eq_refl ltac:(intros c v u E; discriminate) eq_refl). cbn in H. lia.
Qed.
Print Assumptions C199_text_refuted.
Theorem C199_table : forall read dir file s, snd (load_table read dir file s) = read dir file.
Proof. intros. unfold load_table. destruct (read dir file); reflexivity. Qed.
Print Assumptions C199_table.
(** The version of the data is in the log once, before the first file; then one line for each file that can be read, in order, and nothing for the others. *)
Theorem C199_log : forall read calls log, snd (load_all read calls (false, log)) = log ++ (if existsb (readable read) calls then [Hash] else []) ++ map (fun c => Loading (fst (fst c)) (snd (fst c))) (filter (readable read) calls).
Proof. intros read calls log. destruct (log_once read calls (false, log)) as (l & A & _ & ->). exact A. Qed.
Print Assumptions C199_log.
(** Also a file that is refused because of its rows is in the log. *)
Theorem C199_state : forall read dir file col s, fst (load_number read dir file col s) = fst (load_table read dir file s).
Proof. intros. unfold load_number, load_table. destruct (read dir file); reflexivity. Qed.
Print Assumptions C199_state.
Example C199_example : let t := Ecsv 1 [("d", ([3], Some "mm"))]%string in ecsv_ok t /\ snd (load_number (fun _ _ => Ok t) "gratings" "size" "d" (false, [])) = Ok (WithUnit 3 "mm") /\
  snd (load_all (fun _ _ => Ok t) [("a", "b", Some "d"); ("a", "c", None)]%string (false, [])) = [Hash; Loading "a" "b"; Loading "a" "c"].
Proof. cbv zeta. split; [|split; reflexivity]. intros c v u E. cbn in E. destruct (String.eqb _ _) in E; [|discriminate]. injection E as <- <-. reflexivity. Qed.
