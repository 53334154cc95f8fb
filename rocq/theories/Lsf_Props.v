(** Properties C144-C149: line spread functions. *)
From Verif Require Import Base_Proofs Vec_Proofs Rmf_Proofs Sampling_Proofs Analysis_Proofs Lsf_Proofs.
Open Scope R_scope.

(** *** C144: the model for one entry of the table *)
(** The columns that describe a component: name, number and _PARMS, whatever follows. *)
Theorem C144_columns : forall s,
  (kind_of s = Some NormGauss1D <-> exists d t, digits d /\ s = ("GAUSS" ++ d ++ "_PARMS" ++ t)%string) /\
  (kind_of s = Some Lorentz1D <-> exists d t, digits d /\ s = ("LORENTZ" ++ d ++ "_PARMS" ++ t)%string).
Proof. intros s. split; [exact (kind_of_spec s NormGauss1D)|exact (kind_of_spec s Lorentz1D)]. Qed.
Print Assumptions C144_columns.
(** The model is the fraction of the energy times the sum of the components. A component takes amplitude, width and position of its column,
    with the width of a Gaussian converted from sigma to FWHM, and the amplitude divided by the sum of all amplitudes. *)
Theorem C144_model : forall row i j m, caldb2sherpa row i j = Ok m -> exists e z, In ("EE_FRACS"%string, Frac z) (w_cols row) /\ at2 z i j = Ok e /\
  let comps := flat_map (table_comp i j) (w_cols row) in comps <> [] /\ flatten m = MScale "EE_FRACS" e :: map MComp (normalise comps) /\
  forall F lo hi, meval F m lo hi = e * Rsum (map (fun c => meval F (MComp c) lo hi) (normalise comps)).
Proof. exact caldb_model. Qed.
Print Assumptions C144_model.
Theorem C144_parameters : forall row i j c, In c (flat_map (table_comp i j) (w_cols row)) <-> exists z a w x, In (c_name c, Parms z) (w_cols row) /\
  kind_of (c_name c) = Some (c_kind c) /\ at2 z i j = Ok (a, w, x) /\ c_ampl c = a /\ c_pos c = x /\
  c_fwhm c = match c_kind c with NormGauss1D => w * (2 * sqrt (2 * ln 2)) | Lorentz1D => w end.
Proof.
  intros row i j c. split.
  - intros I. apply table_comp_in in I. destruct I as (k & z & [[a w] x] & I & K & A & E). exists z, a, w, x. rewrite E. cbn [new_comp c_kind c_ampl c_pos c_fwhm c_name]. rewrite E in I, K. cbn [new_comp c_name] in I, K.
    repeat (split; [first [exact I|exact K|exact A|reflexivity]|]). destruct k; cbn [conv_fwhm]; [reflexivity|ring].
  - intros (z & a & w & x & I & K & A & E1 & E2 & E3). replace c with (new_comp (c_kind c) (c_name c) (a, w, x)); [exact (table_comp_of i j _ _ _ _ _ I K A)|].
    destruct c as [k n am f p]. cbn in *. subst. f_equal. destruct k; cbn; [reflexivity|ring].
Qed.
Print Assumptions C144_parameters.
(** The amplitudes add up to one, and the model over a range that contains all of the line is the fraction of the energy. *)
Theorem C144_normalised : forall l, sumampl l <> 0 -> Rsum (map c_ampl (normalise l)) = 1.
Proof. exact normalise_sum. Qed.
Print Assumptions C144_normalised.
Theorem C144_whole_line : forall row i j m e z F lo hi, caldb2sherpa row i j = Ok m -> NoDup (map fst (w_cols row)) -> In ("EE_FRACS"%string, Frac z) (w_cols row) -> at2 z i j = Ok e ->
  sumampl (flat_map (table_comp i j) (w_cols row)) <> 0 -> (forall k w x, F k w x lo = 0 /\ F k w x hi = 1) -> meval F m lo hi = e.
Proof.
  intros row i j m e z F lo hi H ND I A N W. destruct (caldb_model _ _ _ _ H) as (e' & z' & I' & A' & _ & _ & EV).
  assert (z = z'). { clear - ND I I'. induction (w_cols row) as [|[c x] l IH]; [destruct I|]. inversion ND as [|? ? NI ND']; subst. destruct I as [I|I], I' as [I'|I'].
    - congruence. - exfalso. apply NI. apply in_map_iff. exists ("EE_FRACS"%string, Frac z'). split; [cbn; congruence|exact I'].
    - exfalso. apply NI. apply in_map_iff. exists ("EE_FRACS"%string, Frac z). split; [cbn; congruence|exact I]. - now apply IH. }
  subst z'. assert (e' = e) by congruence. subst e'. rewrite EV, whole_line; [ring|exact N|]. intros; apply W.
Qed.
Print Assumptions C144_whole_line.
(** Without a fraction of the energy, or without components, there is no model. *)
Theorem C144_incomplete : forall row i j, (~ In "EE_FRACS"%string (map fst (w_cols row)) \/ (forall col, In col (map fst (w_cols row)) -> kind_of col = None)) ->
  exists e, caldb2sherpa row i j = Err e.
Proof.
  intros row i j H. destruct (caldb2sherpa row i j) as [m|e] eqn:E; [|eauto]. exfalso. destruct (caldb_model _ _ _ _ E) as (x & z & I & _ & N & _). cbv zeta in N. destruct H as [H|H].
  - apply H. apply in_map_iff. exists ("EE_FRACS"%string, Frac z). auto.
  - apply N. destruct (flat_map (table_comp i j) (w_cols row)) as [|c l] eqn:F; [reflexivity|]. assert (IC : In c (flat_map (table_comp i j) (w_cols row))) by (rewrite F; left; reflexivity).
    apply table_comp_in in IC. destruct IC as (k & z' & p & IC & K & _). rewrite (H (c_name c)) in K; [discriminate|]. apply in_map_iff. exists (c_name c, Parms z'). auto.
Qed.
Print Assumptions C144_incomplete.
Definition row1 : lsfrow := Row 1 [5] [10; 20] [("NUM_WIDTHS"%string, Info); ("EE_FRACS"%string, Frac [[9 / 10; 8 / 10]]); ("GAUSS1_PARMS"%string, Parms [[(3, 2, 1); (4, 2, 1)]]); ("LORENTZ1_PARMS"%string, Parms [[(1, 5, 0); (4, 6, 0)]])] [].
Example C144_example : exists m, caldb2sherpa row1 0 1 = Ok m /\ flatten m = [MScale "EE_FRACS" (8 / 10); MComp (Comp NormGauss1D "GAUSS1_PARMS" (4 / 8) (2 * gconv) 1); MComp (Comp Lorentz1D "LORENTZ1_PARMS" (4 / 8) (6 * 1) 0)].
Proof. eexists. split; [reflexivity|]. cbn. replace (4 + (4 + 0)) with 8 by ring. reflexivity. Qed.
(** The expressions are not anchored at the end: a column with errors counts as a component. *)
Theorem C144_other_columns_refuted : ~ (forall s, kind_of s <> None -> exists d, digits d /\ (s = ("GAUSS" ++ d ++ "_PARMS")%string \/ s = ("LORENTZ" ++ d ++ "_PARMS")%string)).
Proof.
  intros H. destruct (H "GAUSS1_PARMS_ERR"%string ltac:(discriminate)) as (d & [N F] & [E|E]); [|discriminate]. cbn in E. injection E as E. destruct d as [|c d]; [congruence|].
  cbn in E. injection E as <- E. destruct d as [|c d]; [cbn in E; discriminate|]. cbn in E. injection E as <- _. inversion F as [|? ? _ F']; subst. inversion F' as [|? ? X _]; subst. discriminate.
Qed.
Print Assumptions C144_other_columns_refuted.

(** *** C145: from the table to Sherpa and back *)
Theorem C145_round_trip_partial : forall row i j m, NoDup (map fst (w_cols row)) -> caldb2sherpa row i j = Ok m ->
  exists e s d, m = MMul (MScale "EE_FRACS" e) s /\ sherpa2caldb s = Ok d /\
    forall col k z a w x, In (col, Parms z) (w_cols row) -> kind_of col = Some k -> at2 z i j = Ok (a, w, x) ->
      dget col d = Some (a / sumampl (flat_map (table_comp i j) (w_cols row)), w, x).
Proof. exact round_trip_parms. Qed.
Print Assumptions C145_round_trip_partial.
(** Only the sum of the components can be converted: the model itself has the fraction of the energy as a component. *)
Theorem C145_whole_model : forall row i j m, caldb2sherpa row i j = Ok m -> sherpa2caldb m = Err Exception.
Proof. exact sherpa2caldb_caldb. Qed.
Print Assumptions C145_whole_model.
Theorem C145_whole_model_refuted : ~ (forall row i j m, caldb2sherpa row i j = Ok m -> exists d, sherpa2caldb m = Ok d).
Proof. intros H. destruct C144_example as (m & M & _). destruct (H _ _ _ _ M) as [d D]. rewrite (C145_whole_model _ _ _ _ M) in D. discriminate. Qed.
Print Assumptions C145_whole_model_refuted.
Example C145_example : NoDup (map fst (w_cols row1)) /\ kind_of "LORENTZ1_PARMS" = Some Lorentz1D /\ sumampl (flat_map (table_comp 0 1) (w_cols row1)) = 8.
Proof. split; [apply nodupb_spec; reflexivity|]. split; [reflexivity|]. change (4 + (4 + 0) = 8). ring. Qed.

(** *** C146: interpolation reproduces the table *)
(** For tables with one width, at the wavelengths of the table, if no number is negative. *)
Theorem C146_nodes_partial : forall i1 i2 row width lam j, interp1_ok i1 -> table_ok row -> List.length (w_widths row) = 1%nat -> NoDup (w_lambdas row) -> nth_error (w_lambdas row) j = Some (q_value lam) ->
  exists s, CALDB_interp i1 i2 row = Ok s /\
  ((forall col k z a w x, In (col, Parms z) (w_cols row) -> kind_of col = Some k -> at2 z 0 j = Ok (a, w, x) -> 0 <= a /\ 0 <= w /\ 0 <= x) ->
   sherpa_from_spline s width lam = caldb2sherpa row 0 j).
Proof. exact node_single. Qed.
Print Assumptions C146_nodes_partial.
(** Whatever the signs in the table, amplitude, width and position of the model are the absolute values. *)
Theorem C146_absolute_values : forall i1 i2 row w lam j, interp1_ok i1 -> w_num_widths row = 1%nat -> NoDup (w_lambdas row) -> nth_error (w_lambdas row) j = Some lam ->
  Forall (col_ok 1 (List.length (w_lambdas row))) (w_cols row) -> exists s e l, CALDB_interp i1 i2 row = Ok s /\ caldb_comps (w_cols row) 0 j = Ok (e, l) /\
  spline_comps s w lam = Ok (e, map (fun c => Comp (c_kind c) (c_name c) (Rabs (c_ampl c)) (Rabs (c_fwhm c)) (Rabs (c_pos c))) l).
Proof. intros i1 i2 row w lam j I1 N ND J T. exact (splines_single i1 i2 row lam j w I1 N ND J (w_cols row) T). Qed.
Print Assumptions C146_absolute_values.
Definition row_neg : lsfrow := Row 1 [5] [10] [("EE_FRACS"%string, Frac [[1]]); ("LORENTZ1_PARMS"%string, Parms [[(1, 5, -3)]])] [].
Theorem C146_negative_position_refuted : ~ (forall i1 i2 row width lam j s, interp1_ok i1 -> table_ok row -> List.length (w_widths row) = 1%nat -> NoDup (w_lambdas row) ->
  nth_error (w_lambdas row) j = Some (q_value lam) -> CALDB_interp i1 i2 row = Ok s -> sherpa_from_spline s width lam = caldb2sherpa row 0 j).
Proof.
  intros H. assert (T : table_ok row_neg).
  { split; [reflexivity|]. repeat constructor; cbn; intros; try discriminate; try congruence; eexists; split; reflexivity. }
  assert (ND : NoDup (w_lambdas row_neg)) by (repeat constructor; intros []).
  destruct (C146_absolute_values tab1 tab2 row_neg 5 10 0 tab1_ok eq_refl ND eq_refl (proj2 T)) as (s & e & l & S & C & P).
  specialize (H tab1 tab2 row_neg (Q 5 1) (Q 10 1) 0%nat s tab1_ok T eq_refl ND eq_refl S). unfold sherpa_from_spline, caldb2sherpa in H. cbn [q_value] in H. rewrite P, C in H.
  change (caldb_comps (w_cols row_neg) 0 0) with (Ok (Some 1, [Comp Lorentz1D "LORENTZ1_PARMS" 1 (5 * 1) (-3)])) in C.
  assert (E1 : e = Some 1) by congruence. assert (E2 : l = [Comp Lorentz1D "LORENTZ1_PARMS" 1 (5 * 1) (-3)]) by congruence. subst e l. cbn in H. injection H as _ _ H. rewrite Rabs_left in H by lra. lra.
Qed.
Print Assumptions C146_negative_position_refuted.
(** More than one width: an error, unless there are as many widths as wavelengths ... *)
Theorem C146_several_widths : forall i1 i2 row, table_ok row -> (1 < List.length (w_widths row))%nat -> List.length (w_widths row) <> List.length (w_lambdas row) ->
  (exists col, In col (map fst (w_cols row)) /\ (col = "EE_FRACS"%string \/ modelnames col = true)) -> CALDB_interp i1 i2 row = Err ValueError.
Proof. intros i1 i2 row T W D E. exact (several_widths i1 i2 row T W D (w_cols row) (proj2 T) E). Qed.
Print Assumptions C146_several_widths.
(** ... and then width and wavelength are exchanged. *)
Theorem C146_square_transposed : forall i1 i2 row z i j w lam v, interp2_ok i2 -> table_ok row -> (1 < List.length (w_widths row))%nat -> List.length (w_widths row) = List.length (w_lambdas row) ->
  NoDup (w_widths row) -> NoDup (w_lambdas row) -> rectangle (List.length (w_widths row)) (List.length (w_lambdas row)) z = true ->
  nth_error (w_widths row) i = Some w -> nth_error (w_lambdas row) j = Some lam -> at2 z j i = Ok v -> exists f, interp i1 i2 row z = Ok f /\ f w lam = v.
Proof. exact square_transposed. Qed.
Print Assumptions C146_square_transposed.
Definition row_two : lsfrow := Row 2 [5; 6] [10; 20; 30] [("EE_FRACS"%string, Frac [[1; 1; 1]; [1; 1; 1]]); ("LORENTZ1_PARMS"%string, Parms [[(1, 5, 3); (1, 5, 3); (1, 5, 3)]; [(1, 5, 3); (1, 5, 3); (1, 5, 3)]])] [].
Theorem C146_several_widths_refuted : ~ (forall i1 i2 row, interp1_ok i1 -> interp2_ok i2 -> table_ok row -> exists s, CALDB_interp i1 i2 row = Ok s).
Proof.
  intros H. assert (T : table_ok row_two).
  { split; [reflexivity|]. repeat constructor; cbn; intros; try discriminate; try congruence; eexists; split; reflexivity. }
  destruct (H tab1 tab2 row_two tab1_ok tab2_ok T) as [s S]. rewrite (C146_several_widths tab1 tab2 row_two T) in S; [discriminate|cbn; lia|cbn; lia|]. exists "EE_FRACS"%string. cbn. auto.
Qed.
Print Assumptions C146_several_widths_refuted.
(** The unit of the width is not looked at. *)
Theorem C146_unit_ignored : forall s v u u' lam, sherpa_from_spline s (Q v u) lam = sherpa_from_spline s (Q v u') lam.
Proof. reflexivity. Qed.
Print Assumptions C146_unit_ignored.
Example C146_example : table_ok row1 /\ interp1_ok tab1 /\ NoDup (w_lambdas row1).
Proof.
  split; [|split; [exact tab1_ok|]].
  - split; [reflexivity|]. repeat constructor; cbn; intros; try discriminate; try congruence; eexists; split; reflexivity.
  - repeat constructor; cbn; intros; try (intros [X|[]]; lra); intros [].
Qed.

(** *** C147: the response matrix *)
(** A square matrix in which entry (r, c) is the model for the middle wavelength of bin r, integrated over the wavelengths of bin c. *)
Theorem C147_rows : forall i1 i2 F hc row edges width thr f, make_rmf i1 i2 F hc row edges width thr = Ok f ->
  let s := sortR (map (fun w => hc / w) edges) in let lo := removelast s in let hi := tl s in
  f_ebounds f = (seq 0 (List.length edges - 1), lo, hi) /\ List.length (f_matrix f) = (List.length edges - 1)%nat /\ f_detchans f = (List.length edges - 1)%nat /\
  exists sp, CALDB_interp i1 i2 row = Ok sp /\ forall r mr, nth_error (f_matrix f) r = Some mr ->
    nth_error lo r = Some (r_lo mr) /\ nth_error hi r = Some (r_hi mr) /\ exists m,
    sherpa_from_spline sp width (Q (1 / 2 * (hc / r_hi mr + hc / r_lo mr)) 1) = Ok m /\
    full_rmf (List.length edges - 1) 0 mr = Ok (cut thr (map (fun b => meval F m (hc / snd b) (hc / fst b)) (combine lo hi))).
Proof. exact make_rmf_rows. Qed.
Print Assumptions C147_rows.
(** No entry is negative, and a row adds up to no more than the fraction of the energy. *)
Theorem C147_row_sum : forall i1 i2 F hc row edges width thr f r mr sp e l, make_rmf i1 i2 F hc row edges width thr = Ok f -> profile_ok F -> 0 < hc -> Forall (fun w => 0 < w) edges ->
  nth_error (f_matrix f) r = Some mr -> CALDB_interp i1 i2 row = Ok sp -> spline_comps sp (q_value width) (1 / 2 * (hc / r_hi mr + hc / r_lo mr)) = Ok (Some e, l) -> 0 <= e -> sumampl l <> 0 ->
  exists arr, full_rmf (List.length edges - 1) 0 mr = Ok arr /\ Forall (fun x => 0 <= x) arr /\ 0 <= Rsum arr <= e.
Proof.
  intros i1 i2 F hc row edges width thr f r mr sp e l H FO HC EP R CS SC E0 SN. destruct (make_rmf_rows _ _ _ _ _ _ _ _ _ H) as (_ & _ & _ & sp' & S & ROW).
  assert (sp' = sp) by congruence. subst sp'. destruct (ROW r mr R) as (_ & _ & m & M & FR). eexists. split; [exact FR|].
  unfold sherpa_from_spline in M. cbn [q_value] in M. rewrite SC in M. cbn [bind fst snd] in M. destruct (assemble_parts _ _ _ M) as (x & X & _ & _ & EV). assert (x = e) by congruence. subst x.
  apply row_total with (l := l); auto.
  - apply Forall_forall. intros x I. assert (I' : In x (map (fun w => hc / w) edges)) by (eapply Permutation.Permutation_in; [apply sortR_perm|exact I]).
    apply in_map_iff in I'. destruct I' as (w & <- & W). rewrite Forall_forall in EP. specialize (EP w W). now apply Rdiv_lt_0_compat.
  - apply sortR_asc.
  - exact (spline_ampl_nonneg _ _ _ _ _ SC).
Qed.
Print Assumptions C147_row_sum.
(** Keywords of the observatory are copied to both tables, others are not. *)
Theorem C147_keywords : forall meta tab k, NoDup (map fst meta) -> dget k (copy_keywords meta tab) =
  if inb k COPY_LSFPARM_KEYWORDS then match dget k meta with Some v => Some v | None => dget k tab end else dget k tab.
Proof.
  intros meta tab k _. unfold copy_keywords. generalize COPY_LSFPARM_KEYWORDS as ks. intros ks. revert tab.
  induction ks as [|a ks IH]; intros tab; [reflexivity|]. cbn [fold_left inb existsb]. fold (inb k ks). rewrite IH. destruct (String.eqb_spec k a) as [->|N]; cbn [orb].
  - destruct (dget a meta) as [v|] eqn:A; [|destruct (inb a ks); reflexivity]. rewrite dget_dset_eq. destruct (inb a ks); reflexivity.
  - destruct (dget a meta) as [v|] eqn:A; [|reflexivity]. rewrite dget_dset_neq by exact N. reflexivity.
Qed.
Print Assumptions C147_keywords.
Definition step_profile : profile := fun _ _ x a => if Rlt_dec a x then 0 else 1.
Example C147_example : profile_ok step_profile /\ dget "TG_M" (copy_keywords [("TG_M", "1"); ("DATE", "x")]%string [("TLMIN4", "0")]%string) = Some "1"%string.
Proof.
  split; [|reflexivity]. intros k w x. unfold step_profile. split.
  - intros a b L. destruct (Rlt_dec a x), (Rlt_dec b x); lra.
  - intros a. destruct (Rlt_dec a x); lra.
Qed.

(** *** C148: new tables *)
Theorem C148_accepted : forall date widths waves model ext order,
  ((2 <= List.length waves)%nat /\ NoDup (map mname (flatten model)) /\ (forall m, In m (flatten model) -> exists c, m = MComp c) ->
    exists cols meta, empty_lsfparmtable date widths waves model ext order = Ok (cols, meta)) /\
  ((~ ((2 <= List.length waves)%nat /\ NoDup (map mname (flatten model)) /\ (forall m, In m (flatten model) -> exists c, m = MComp c))) ->
    empty_lsfparmtable date widths waves model ext order = Err ValueError).
Proof. exact table_spec. Qed.
Print Assumptions C148_accepted.
(** One column for each component, all with different names. *)
Theorem C148_columns : forall date widths waves model ext order cols meta, empty_lsfparmtable date widths waves model ext order = Ok (cols, meta) ->
  map l_name cols = ["NUM_WIDTHS"; "WIDTHS"; "NUM_LAMBDAS"; "LAMBDAS"; "TG_LAM_LO"; "TG_LAM_HI"; "EE_FRACS"]%string ++ map (fun m => (mname m ++ "_PARMS")%string) (flatten model) /\ NoDup (map l_name cols) /\
  (forall c m, In c cols -> In m (flatten model) -> l_name c = (mname m ++ "_PARMS")%string -> l_shape c = [List.length widths; List.length waves; 3%nat]).
Proof. exact table_columns. Qed.
Print Assumptions C148_columns.
(** The wavelength box of an entry contains the entry and both neighbours with a margin of 1.2, and is symmetric. *)
Theorem C148_box : forall date widths waves model ext order cols meta lo hi, empty_lsfparmtable date widths waves model ext order = Ok (cols, meta) -> ascending waves ->
  In (Col "TG_LAM_LO" [List.length waves] lo) cols -> In (Col "TG_LAM_HI" [List.length waves] hi) cols ->
  forall i w, nth_error waves i = Some w -> exists a b, nth_error lo i = Some a /\ nth_error hi i = Some b /\ a = 2 * w - b /\
    forall j w', (j = i \/ j = S i \/ i = S j) -> nth_error waves j = Some w' -> a + 12 / 10 <= w' <= b - 12 / 10.
Proof. exact table_box. Qed.
Print Assumptions C148_box.
(** A component called GAUSS or LORENTZ with a number gets a column that is recognised as such. *)
Theorem C148_names_partial : forall d, digits d -> kind_of (("GAUSS" ++ d) ++ "_PARMS")%string = Some NormGauss1D /\ kind_of (("LORENTZ" ++ d) ++ "_PARMS")%string = Some Lorentz1D.
Proof.
  assert (A : forall a b c, ((a ++ b) ++ c = a ++ b ++ c)%string) by (induction a as [|x a IH]; intros b c; cbn; [|rewrite IH]; reflexivity).
  assert (Z : forall a, (a ++ "" = a)%string) by (induction a as [|x a IH]; cbn; [|rewrite IH]; reflexivity).
  intros d D. rewrite !A. split; [apply (kind_of_spec _ NormGauss1D)|apply (kind_of_spec _ Lorentz1D)]; exists d, ""%string; (split; [exact D|]); now rewrite Z.
Qed.
Print Assumptions C148_names_partial.
(** The kind of the component is not compared to its name, and the components of a model from a table have _PARMS in their name already. *)
Theorem C148_kind_refuted : ~ (forall date widths waves model ext order cols meta c, empty_lsfparmtable date widths waves model ext order = Ok (cols, meta) -> In (MComp c) (flatten model) ->
  kind_of (c_name c ++ "_PARMS")%string = Some (c_kind c)).
Proof.
  intros H. set (c := Comp Lorentz1D "GAUSS1" 1 1 0). destruct (proj1 (C148_accepted "" [1] [1; 2] (MComp c) "MEG" 1)) as (cols & meta & E).
  - split; [cbn; lia|]. split; [repeat constructor; intros []|]. intros m [<-|[]]. eauto.
  - specialize (H _ _ _ _ _ _ _ _ c E (or_introl eq_refl)). discriminate.
Qed.
Print Assumptions C148_kind_refuted.
Theorem C148_same_columns_refuted : ~ (forall row i j e s date widths waves ext order cols meta, caldb2sherpa row i j = Ok (MMul (MScale "EE_FRACS" e) s) ->
  empty_lsfparmtable date widths waves s ext order = Ok (cols, meta) -> forall col, In col (map fst (w_cols row)) -> kind_of col <> None -> In col (map l_name cols)).
Proof.
  intros H. set (s := MAdd (MComp (Comp NormGauss1D "GAUSS1_PARMS" (4 / (4 + (4 + 0))) (2 * gconv) 1)) (MComp (Comp Lorentz1D "LORENTZ1_PARMS" (4 / (4 + (4 + 0))) (6 * 1) 0))).
  assert (C : caldb2sherpa row1 0 1 = Ok (MMul (MScale "EE_FRACS" (8 / 10)) s)) by reflexivity.
  destruct (proj1 (C148_accepted "" [1] [1; 2] s "MEG" 1)) as (cols & meta & E).
  - split; [cbn; lia|]. split; [apply nodupb_spec; reflexivity|]. intros m [<-|[<-|[]]]; eauto.
  - pose proof (H _ _ _ _ _ _ _ _ _ _ _ _ C E "GAUSS1_PARMS"%string) as X. destruct (C148_columns _ _ _ _ _ _ _ _ E) as (N & _). rewrite N in X. cbn in X.
    specialize (X ltac:(tauto) ltac:(discriminate)). repeat (destruct X as [X|X]; [discriminate|]). destruct X.
Qed.
Print Assumptions C148_same_columns_refuted.
(** The keywords DATE and HDUCLASS are tuples. *)
Theorem C148_tuples : forall date widths waves model ext order cols meta, empty_lsfparmtable date widths waves model ext order = Ok (cols, meta) ->
  dget "DATE" meta = Some (HTuple [date]) /\ dget "HDUCLASS" meta = Some (HTuple ["ASC"%string]) /\ dget "EXTNAME" meta = Some (HStr ext) /\ dget "ORDER" meta = Some (HInt order) /\ dget "TG_M" meta = Some (HInt order).
Proof.
  intros date widths waves model ext order cols meta H. unfold empty_lsfparmtable in H. destruct (diffR waves); [discriminate|]. cbv zeta in H. destruct (nodupb _); [|discriminate]. destruct (forallb _ _); [|discriminate].
  cbn [negb] in H. apply (f_equal (fun r => match r with Ok (_, m) => m | Err _ => [] end)) in H. cbv beta iota in H. subst meta. repeat split; reflexivity.
Qed.
Print Assumptions C148_tuples.
Example C148_example : exists cols meta, empty_lsfparmtable "2020-01-01" [1] [10; 20; 25] (MAdd (MComp (Comp NormGauss1D "GAUSS1" 1 1 0)) (MComp (Comp Lorentz1D "LORENTZ1" 1 1 0))) "MEG" (-1) = Ok (cols, meta) /\
  ascending [10; 20; 25].
Proof. eexists _, _. split; [reflexivity|]. cbn. lra. Qed.

(** *** C149: the histogram that is fitted *)
Theorem C149_counts : forall evt bin d edges hist err, fit_data evt bin d = Ok (edges, hist, err) -> 0 < bin -> bin < 2 * d ->
  exists n mean, mean = Rsum (map fst evt) / INR (List.length evt) /\ (2 <= n)%nat /\ INR (n - 1) * bin < 2 * d <= INR n * bin /\
  List.length edges = n /\ (forall i e, nth_error edges i = Some e -> e = mean - d + INR i * bin) /\
  List.length hist = (n - 1)%nat /\
  Rsum hist = Rsum (map snd (filter (fun v => andb (Rleb (mean - d) (fst v)) (Rleb (fst v) (mean - d + INR (n - 1) * bin))) evt)) /\
  err = map (fun h => Rmax 1 (sqrt h)) hist.
Proof. exact fit_data_spec. Qed.
Print Assumptions C149_counts.
Theorem C149_bin : forall evt bin d edges hist err i lo hi, fit_data evt bin d = Ok (edges, hist, err) -> nth_error edges i = Some lo -> nth_error edges (S i) = Some hi ->
  nth_error hist i = Some (Rsum (map snd (filter (fun v => andb (Rleb lo (fst v)) (if Nat.eqb (S (S i)) (List.length edges) then Rleb (fst v) hi else Rltb (fst v) hi)) evt))).
Proof.
  intros evt bin d edges hist err i lo hi H A B. unfold fit_data in H. destruct evt as [|v evt]; [discriminate|]. assert (X : hist = histogram edges (v :: evt)) by congruence. rewrite X. now apply histogram_nth.
Qed.
Print Assumptions C149_bin.
Theorem C149_errors : forall evt bin d edges hist err i h s, fit_data evt bin d = Ok (edges, hist, err) -> nth_error hist i = Some h -> nth_error err i = Some s -> 1 <= s /\ sqrt h <= s /\ (s = 1 \/ s = sqrt h).
Proof.
  intros evt bin d edges hist err i h s H A B. unfold fit_data in H. destruct evt as [|v evt]; [discriminate|]. assert (X : err = map (fun h => Rmax 1 (sqrt h)) hist) by congruence.
  rewrite X, nth_error_map, A in B. injection B as <-. split; [apply Rmax_l|]. split; [apply Rmax_r|]. unfold Rmax. destruct (Rle_dec 1 (sqrt h)); auto.
Qed.
Print Assumptions C149_errors.
(** The last bin is missing: photons less than d_wave above the mean may not be counted. *)
Theorem C149_range_refuted : ~ (forall evt bin d edges hist err mean, fit_data evt bin d = Ok (edges, hist, err) -> mean = Rsum (map fst evt) / INR (List.length evt) -> 0 < bin -> bin < 2 * d ->
  (forall v, In v evt -> Rabs (fst v - mean) < d) -> Rsum hist = Rsum (map snd evt)).
Proof.
  intros H. set (evt := [(- (1 / 2), 1); (1 / 2, 1)]). destruct (fit_data evt 1 1) as [[[edges hist] err]|] eqn:E; [|discriminate].
  assert (M : 0 = Rsum (map fst evt) / INR (List.length evt)) by (cbn; field).
  specialize (H evt 1 1 edges hist err 0 E M ltac:(lra) ltac:(lra)).
  destruct (fit_data_spec _ _ _ _ _ _ E ltac:(lra) ltac:(lra)) as (n & mean & ME & N & L & _ & _ & _ & S & _). rewrite <- M in ME. subst mean.
  assert (n = 2%nat). { destruct L as [L _]. destruct n as [|[|[|n]]]; [lia|lia|reflexivity|]. exfalso. cbn [Nat.sub] in L. rewrite !S_INR in L. pose proof (pos_INR n). lra. }
  subst n. cbn [Nat.sub INR] in S. rewrite H in S.
  - unfold evt in S. cbn [filter fst map snd] in S. unfold Rleb in S. repeat (match type of S with context[Rle_dec ?a ?b] => destruct (Rle_dec a b); try lra end). cbn in S. lra.
  - intros v [<-|[<-|[]]]; cbn [fst]; unfold Rabs; destruct (Rcase_abs _); lra.
Qed.
Print Assumptions C149_range_refuted.
(** C149: photons closer to the mean than d_wave less one bin are all counted *)
Theorem C149_range_partial : forall evt bin d edges hist err mean, fit_data evt bin d = Ok (edges, hist, err) -> mean = Rsum (map fst evt) / INR (List.length evt) -> 0 < bin -> bin < 2 * d ->
  (forall v, In v evt -> mean - d <= fst v <= mean + d - bin) -> Rsum hist = Rsum (map snd evt).
Proof.
  intros evt bin d edges hist err mean H M B D I. destruct (fit_data_spec _ _ _ _ _ _ H B D) as (n & m & ME & N & [_ L] & _ & _ & _ & S & _). rewrite <- M in ME. subst m.
  rewrite S. f_equal. f_equal. assert (K : mean + d - bin <= mean - d + INR (n - 1) * bin). { replace (INR n) with (INR (n - 1) + 1) in L by (rewrite <- S_INR; f_equal; lia). lra. }
  clear - I K. induction evt as [|v evt IH]; [reflexivity|]. cbn [filter]. destruct (I v (or_introl eq_refl)) as [A C].
  unfold Rleb at 1 2. destruct (Rle_dec _ _); [|lra]. destruct (Rle_dec _ _); [|lra]. cbn [andb]. f_equal. apply IH. intros w W. apply I. now right.
Qed.
Print Assumptions C149_range_partial.
Example C149_ex_range : exists edges hist err, fit_data [(10, 1); (12, 1 / 2)] (1 / 2) 2 = Ok (edges, hist, err) /\ Rsum hist = 1 + 1 / 2.
Proof.
  destruct (fit_data [(10, 1); (12, 1 / 2)] (1 / 2) 2) as [[[e h] r]|] eqn:E; [|discriminate]. exists e, h, r. split; [reflexivity|].
  rewrite (C149_range_partial _ _ _ _ _ _ 11 E); [cbn; lra|cbn; field|lra|lra|]. intros v [<-|[<-|[]]]; cbn [fst]; lra.
Qed.
Example C149_example : exists edges hist err, fit_data [(10, 1); (12, 1 / 2)] (1 / 2) 2 = Ok (edges, hist, err) /\ 1 / 2 < 2 * 2.
Proof. eexists _, _, _. split; [reflexivity|lra]. Qed.

(** C144: the digits that may appear in a name are 0 to 9 *)
Theorem C144_digit : forall c, is_digit c = true <-> In c (list_ascii_of_string "0123456789").
Proof. intros [[] [] [] [] [] [] [] []]; cbv; split; intros H; try reflexivity; try discriminate; try tauto; repeat (destruct H as [H|H]; [try discriminate H|]); contradiction. Qed.
Print Assumptions C144_digit.
(** C147: these keywords are copied *)
Theorem C147_observatory : forall meta tab k v, In k ["TELESCOP"; "INSTRUME"; "FILTER"; "DETNAM"; "RAND_TG"; "GRATING"; "GRATTYPE"; "TG_M"; "ORDER"; "SHELL"]%string -> NoDup (map fst meta) -> dget k meta = Some v ->
  dget k (copy_keywords meta tab) = Some v.
Proof. intros meta tab k v I N D. rewrite C147_keywords, D by exact N. cbn [In] in I. repeat (destruct I as [<-|I]; [reflexivity|]). destruct I. Qed.
Print Assumptions C147_observatory.
