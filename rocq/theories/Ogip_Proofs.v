(** Proofs about the headers of OGIP files. *)
From Coq Require Import Permutation.
From Verif Require Import Base_Proofs Vec_Proofs Rmf_Proofs Rmf_Proofs2 Rmf_Props Lsf_Proofs Lsf_Props.
From Verif Require Export Ogip_Model.
Open Scope R_scope.

(** ** Dictionaries *)
Lemma in_keys {V} k (d : dict V) : In k (map fst d) <-> exists v, dget k d = Some v.
Proof.
  split.
  - intros I. destruct (dget k d) as [v|] eqn:E; [eauto|]. apply dget_none_notin in E. destruct (E I).
  - intros [v E]. destruct (in_dec string_dec k (map fst d)) as [I|N]; [exact I|]. apply dget_none_notin in N. change (dget k d = None) in N. congruence.
Qed.
Lemma inb_keys {V} k (d : dict V) : inb k (dkeys d) = match dget k d with Some _ => true | None => false end.
Proof.
  destruct (dget k d) as [v|] eqn:E.
  - apply inb_In. apply (in_keys k d). eauto.
  - apply inb_false. exact (proj1 (dget_none_notin k d) E).
Qed.
Lemma dget_upd (V : Type) k (l d : dict V) : NoDup (map fst l) -> dget k (dupdate d l) = match dget k l with Some v => Some v | None => dget k d end.
Proof.
  revert d. induction l as [|[k' v] l IH]; intros d N; [reflexivity|]. inversion N as [|? ? NI N']; subst. change (dupdate d ((k', v) :: l)) with (dupdate (dset k' v d) l). cbn [dget].
  rewrite IH by exact N'. destruct (String.eqb_spec k k') as [->|D].
  - replace (dget k' l) with (@None V) by (symmetry; apply dget_none_notin; exact NI). apply dget_dset_eq.
  - destruct (dget k l); [reflexivity|]. now apply dget_dset_neq.
Qed.

(** ** Checks *)
Lemma keywords_iff t extra : (check_keywords t extra = Ok tt <-> forall k, In k ("TELESCOP" :: "INSTRUME" :: "FILTER" :: extra)%string -> exists v, dget k (t_meta t) = Some v) /\
  (check_keywords t extra <> Ok tt -> check_keywords t extra = Err OGIPFormatError).
Proof.
  unfold check_keywords. split.
  - rewrite <- (app_nil_l ("TELESCOP" :: _)%string). match goal with |- context [forallb ?f ?l] => destruct (forallb f l) eqn:E end.
    + split; [|reflexivity]. intros _ k I. rewrite forallb_forall in E. specialize (E k I). rewrite inb_keys in E. destruct (dget k (t_meta t)); [eauto|discriminate].
    + split; [discriminate|]. intros H. exfalso. match type of E with forallb ?f ?l = false => assert (T : forallb f l = true) end; [|congruence].
      apply forallb_forall. intros k I. rewrite inb_keys. destruct (H k I) as [v ->]. reflexivity.
  - destruct (forallb _ _); [congruence|reflexivity].
Qed.
Lemma keywords_mono t t' extra : (forall k v, dget k (t_meta t) = Some v -> exists w, dget k (t_meta t') = Some w) -> check_keywords t extra = Ok tt -> check_keywords t' extra = Ok tt.
Proof.
  intros M H. apply (proj1 (keywords_iff t' extra)). intros k I. destruct (proj1 (proj1 (keywords_iff t extra)) H k I) as [v E]. exact (M k v E).
Qed.
Lemma col_iff t col dts ndim : dts <> [] -> (check_col t (col, dts, ndim) = Ok tt <-> has_item t (col, dts, ndim)).
Proof.
  intros D. unfold check_col, has_item. rewrite !inb_keys. destruct dts as [|d0 dts]; [congruence|].
  replace (existsb (can_cast_unsafe Float64) (d0 :: dts)) with true by reflexivity. unfold tab_item.
  destruct (dget col (t_meta t)) as [v|] eqn:M.
  - rewrite orb_true_r. cbn [negb]. assert (IN : In col (map fst (t_meta t))) by (apply in_keys; eauto). destruct v as [s|z|d n]; cbn [bind fst snd].
    + split; [discriminate|]. intros (d & n & E & _). discriminate.
    + split; [discriminate|]. intros (d & n & E & _). discriminate.
    + cbn [existsb can_cast_unsafe orb negb]. destruct ndim as [k|]; [|split; [intros _; exists d, n; auto|reflexivity]]. rewrite andb_true_r.
      destruct (Nat.eqb_spec k 1) as [->|K]; [split; [intros _; exists d, n; auto|reflexivity]|]. cbn [bind fst snd]. destruct (Nat.eqb_spec n k) as [->|NK].
      * split; [intros _; exists d, k; auto|reflexivity].
      * split; [discriminate|]. intros (d' & n' & E & [X|[X _]]); congruence.
  - rewrite orb_false_r. destruct (dget col (t_cols t)) as [[d n]|] eqn:C; cbn [negb bind fst snd].
    + cbn [existsb can_cast_unsafe orb negb]. destruct ndim as [k|]; [|split; [intros _; exists d, n; auto|reflexivity]]. rewrite andb_false_r. cbn [bind fst snd]. destruct (Nat.eqb_spec n k) as [->|NK].
      * split; [intros _; exists d, k; auto|reflexivity].
      * split; [discriminate|]. intros (d' & n' & E & [X|[_ X]]); [congruence|]. exfalso. apply in_keys in X. destruct X as [v X]. congruence.
    + split; [discriminate|]. intros (d' & n' & E & _). discriminate.
Qed.
Lemma cols_iff t l : (forall r, In r l -> snd (fst r) <> []) -> (check_cols t l = Ok tt <-> forall r, In r l -> has_item t r).
Proof.
  induction l as [|[[col dts] ndim] l IH]; intros D.
  - split; [intros _ r []|reflexivity].
  - cbn [check_cols]. pose proof (col_iff t col dts ndim (D _ (or_introl eq_refl))) as C. specialize (IH (fun r I => D r (or_intror I))).
    destruct (check_col t (col, dts, ndim)) as [[]|e] eqn:E; cbn [bind].
    + rewrite IH. split; [intros H r [<-|I]; [apply C; reflexivity|auto]|intros H r I; apply H; right; exact I].
    + split; [discriminate|]. intros H. pose proof (proj2 C (H _ (or_introl eq_refl))). discriminate.
Qed.
Lemma item_ext t t' col : dget col (t_meta t') = dget col (t_meta t) -> t_cols t' = t_cols t -> tab_item t' col = tab_item t col.
Proof. intros M C. unfold tab_item. rewrite M, C. reflexivity. Qed.
Lemma has_item_ext t t' r : dget (fst (fst r)) (t_meta t') = dget (fst (fst r)) (t_meta t) -> t_cols t' = t_cols t -> has_item t r -> has_item t' r.
Proof.
  destruct r as [[col dts] ndim]. cbn [fst]. intros M C (d & n & E & K). exists d, n. split; [rewrite <- E; now apply item_ext|]. destruct ndim as [k|]; [|exact I].
  destruct K as [K|[K I]]; [left; exact K|right]. split; [exact K|]. apply in_keys in I. apply in_keys. rewrite M. exact I.
Qed.

(** ** RMF *)
Lemma init_meta_get c h t k : dget k (t_meta (init_meta c h t)) =
  if String.eqb k "HDUCLAS3" then match h with Some s => Some (MStr s) | None => dget k (t_meta t) end
  else if String.eqb k "CHANTYPE" then match c with Some s => Some (MStr s) | None => dget k (t_meta t) end
  else if String.eqb k "DETCHANS" then Some (MInt (Z.of_nat (t_len t))) else dget k (t_meta t).
Proof.
  unfold init_meta. destruct (String.eqb_spec k "HDUCLAS3") as [->|N1]; [|destruct (String.eqb_spec k "CHANTYPE") as [->|N2]; [|destruct (String.eqb_spec k "DETCHANS") as [->|N3]]];
    destruct c, h; cbn [set_meta t_meta]; rewrite ?dget_dset_eq, ?dget_dset_neq by (discriminate || assumption); rewrite ?dget_dset_eq, ?dget_dset_neq by (discriminate || assumption);
    rewrite ?dget_dset_eq, ?dget_dset_neq by (discriminate || assumption); reflexivity.
Qed.
Lemma init_meta_cols c h t : t_cols (init_meta c h t) = t_cols t /\ t_len (init_meta c h t) = t_len t.
Proof. unfold init_meta. destruct c, h; split; reflexivity. Qed.
Lemma index_spec x l : (forall i, index x l = Ok i -> nth_error l i = Some x) /\ (In x l -> exists i, index x l = Ok i) /\ (~ In x l -> index x l = Err ValueError).
Proof.
  induction l as [|y l (A & B & C)].
  - split; [discriminate|]. split; [intros []|reflexivity].
  - cbn [index]. destruct (String.eqb_spec x y) as [->|N].
    + split; [intros i E; injection E as <-; reflexivity|]. split; [eauto|]. intros H. destruct H. left. reflexivity.
    + split; [|split].
      * intros i E. destruct (index x l) as [j|]; [|discriminate]. injection E as <-. apply A. reflexivity.
      * intros [<-|I]; [congruence|]. destruct (B I) as [i ->]. cbn. eauto.
      * intros H. rewrite C; [reflexivity|]. intros I. apply H. right. exact I.
Qed.
Definition bind_inv {A B} (r : result A) (f : A -> result B) b : bind r f = Ok b -> exists a, r = Ok a /\ f a = Ok b.
Proof. destruct r; [eauto|discriminate]. Qed.
(** the table with TLMIN *)
Definition with_tlmin (tlmin : option Z) (i : nat) (t : table) : table := match tlmin with Some z => set_meta (tlmin_key i) (MInt z) t | None => t end.
Lemma write_inv fx m e tlmin m' e' : RMF_write fx m e tlmin = Ok (m', e') -> exists im ie,
  nth_error (dkeys (t_cols m)) im = Some "F_CHAN"%string /\ nth_error (dkeys (t_cols e)) ie = Some "CHANNEL"%string /\
  check_cols m matrix_cols = Ok tt /\ check_cols e ebounds_cols = Ok tt /\
  check_keywords (with_tlmin tlmin im m) ["CHANTYPE"%string; "DETCHANS"%string; tlmin_key im] = Ok tt /\
  check_keywords (with_tlmin tlmin ie e) ["CHANTYPE"%string; "DETCHANS"%string; tlmin_key ie] = Ok tt /\
  e' = upd_meta ebounds_header (with_tlmin tlmin ie e) /\
  exists d n, tab_item (upd_meta matrix_header (with_tlmin tlmin im m)) "MATRIX" = Ok (Some d, n) /\
  match d with Object => fx (upd_meta matrix_header (with_tlmin tlmin im m)) = Ok m' | _ => m' = upd_meta matrix_header (with_tlmin tlmin im m) end.
Proof.
  intros H. unfold RMF_write in H. apply bind_inv in H. destruct H as ([] & C1 & H). apply bind_inv in H. destruct H as ([] & C2 & H).
  apply bind_inv in H. destruct H as (im & I1 & H). apply bind_inv in H. destruct H as (ie & I2 & H). cbv zeta in H.
  fold (with_tlmin tlmin im m) (with_tlmin tlmin ie e) in H. apply bind_inv in H. destruct H as ([] & K1 & H). apply bind_inv in H. destruct H as ([] & K2 & H).
  apply bind_inv in H. destruct H as ([[d|] n] & I & H); cbn [fst] in H; [|discriminate]. exists im, ie.
  split; [exact (proj1 (index_spec _ _) _ I1)|]. split; [exact (proj1 (index_spec _ _) _ I2)|]. split; [exact C1|]. split; [exact C2|]. split; [exact K1|]. split; [exact K2|].
  assert (E' : e' = upd_meta ebounds_header (with_tlmin tlmin ie e)). { destruct d; try congruence. apply bind_inv in H. destruct H as (m2 & _ & H). congruence. }
  split; [exact E'|]. exists d, n. split; [exact I|]. destruct d; try congruence. apply bind_inv in H. destruct H as (m2 & F & H). congruence.
Qed.
Lemma with_tlmin_cols z i t : t_cols (with_tlmin z i t) = t_cols t /\ t_len (with_tlmin z i t) = t_len t.
Proof. destruct z; split; reflexivity. Qed.
Lemma with_tlmin_get z i t k : dget k (t_meta (with_tlmin z i t)) = if String.eqb k (tlmin_key i) then match z with Some n => Some (MInt n) | None => dget k (t_meta t) end else dget k (t_meta t).
Proof.
  destruct z as [n|]; cbn [with_tlmin set_meta t_meta].
  - destruct (String.eqb_spec k (tlmin_key i)) as [->|N]; [apply dget_dset_eq|now apply dget_dset_neq].
  - destruct (String.eqb k (tlmin_key i)); reflexivity.
Qed.
Lemma tlmin_prefix i k : String.prefix "TLMIN" k = false -> String.eqb k (tlmin_key i) = false.
Proof.
  intros P. destruct (String.eqb_spec k (tlmin_key i)) as [->|]; [|reflexivity]. unfold tlmin_key in P. cbn in P. destruct (str_nat (i + 1)); discriminate.
Qed.

Lemma from_file_get t k : dget k (t_meta (from_file t)) = option_map header_value (dget k (t_meta t)).
Proof. cbn [from_file t_meta]. induction (t_meta t) as [|[a v] l IH]; [reflexivity|]. cbn. destruct (String.eqb k a); [reflexivity|exact IH]. Qed.
Lemma read_ok l t t' : (forall r, In r l -> snd (fst r) <> []) -> check_cols t l = Ok tt -> (forall r, In r l -> dget (fst (fst r)) (t_meta t) = None) ->
  (forall r, In r l -> dget (fst (fst r)) (t_meta t') = None) -> t_cols t' = t_cols t -> check_cols t' l = Ok tt.
Proof.
  intros D C N N' E. apply cols_iff; [exact D|]. intros r I. pose proof (proj1 (cols_iff t l D) C r I) as H. apply (has_item_ext t); [rewrite (N r I); exact (N' r I)|exact E|exact H].
Qed.

(** ** Gaussian response *)
Lemma ins_perm x l : Permutation (ins_wave x l) (x :: l).
Proof.
  induction l as [|y l IH]; [reflexivity|]. cbn [ins_wave]. destruct (Rleb (fst x) (fst y)); [reflexivity|]. rewrite IH. apply perm_swap.
Qed.
Lemma sort_perm l : Permutation (sort_wave l) l.
Proof. induction l as [|x l IH]; [reflexivity|]. cbn [sort_wave fold_right]. fold (sort_wave l). rewrite ins_perm. now constructor. Qed.
Lemma no_double_iff l : no_double l = true <-> NoDup l.
Proof.
  induction l as [|x l IH]; [split; [constructor|reflexivity]|]. cbn [no_double]. rewrite andb_true_iff, IH, forallb_forall. split.
  - intros [A B]. constructor; [|exact B]. intros I. specialize (A x I). apply negb_true_iff, Reqb_false in A. congruence.
  - intros N. inversion N as [|? ? NI N']; subst. split; [|exact N']. intros y I. apply negb_true_iff, Reqb_false. intros ->. contradiction.
Qed.
Lemma cubic_iff nodes xs : cubic_ok nodes xs = true <-> (4 <= List.length nodes)%nat /\ NoDup nodes /\ forall x, In x xs -> exists a b, In a nodes /\ In b nodes /\ a <= x <= b.
Proof.
  unfold cubic_ok. rewrite !andb_true_iff, no_double_iff, Nat.leb_le, forallb_forall. split.
  - intros [[A B] C]. split; [exact A|]. split; [exact B|]. intros x I. specialize (C x I). unfold in_nodes in C. apply andb_true_iff in C. destruct C as [C D].
    apply existsb_exists in C. apply existsb_exists in D. destruct C as (a & IA & LA), D as (b & IB & LB). apply Rleb_true in LA. apply Rleb_true in LB. exists a, b. auto.
  - intros (A & B & C). split; [split; [exact A|exact B]|]. intros x I. destruct (C x I) as (a & b & IA & IB & L). unfold in_nodes. apply andb_true_iff. split; apply existsb_exists.
    + exists a. split; [exact IA|]. apply Rleb_true. lra.
    + exists b. split; [exact IB|]. apply Rleb_true. lra.
Qed.
Lemma gauss_splines i1 i2 meta s : CALDB_interp i1 i2 (gauss_row meta s) = Ok
  [("EE_FRACS"%string, SFrac (fun _ y => i1 (map fst s) (repeat 1 (List.length s)) y));
   ("GAUSS1_PARMS"%string, SParms (fun _ y => i1 (map fst s) (map (fun _ => 1) s) y) (fun _ y => i1 (map fst s) (map snd s) y) (fun _ y => i1 (map fst s) (map fst s) y))].
Proof.
  unfold CALDB_interp, gauss_row. cbn [w_cols caldb_interp]. rewrite (proj2 (String.eqb_eq "EE_FRACS" "EE_FRACS") eq_refl).
  unfold interp. cbn [w_num_widths w_lambdas map]. rewrite !map_length, !repeat_length. change (Nat.ltb 1 1) with false. cbv iota.
  rewrite Nat.eqb_refl. cbn [bind]. change (String.eqb "GAUSS1_PARMS" "EE_FRACS") with false. cbv iota. change (modelnames "GAUSS1_PARMS") with true. cbv iota. cbn [bind app].
  rewrite !map_map. cbn [p_a p_w p_x fst snd]. reflexivity.
Qed.
Lemma map_const {A} (s : list A) : map (fun _ : A => 1) s = repeat 1 (List.length s).
Proof. induction s as [|x s IH]; [reflexivity|]. cbn. now rewrite IH. Qed.
Lemma lines_const i1 xs y : reproduces_lines i1 -> (2 <= List.length xs)%nat -> NoDup xs -> in_nodes xs y = true -> i1 xs (repeat 1 (List.length xs)) y = 1 /\ i1 xs xs y = y.
Proof.
  intros RL L N I. split.
  - rewrite <- map_const. rewrite (map_ext (fun _ : R => 1) (fun t => 1 + 0 * t)) by (intros; ring). rewrite RL by assumption. ring.
  - rewrite <- (map_id xs) at 2. rewrite (map_ext (fun t : R => t) (fun t => 0 + 1 * t)) by (intros; ring). rewrite RL by assumption. ring.
Qed.
Lemma gauss_model i1 i2 meta s y width : reproduces_lines i1 -> (2 <= List.length s)%nat -> NoDup (map fst s) -> in_nodes (map fst s) y = true -> exists sp m,
  CALDB_interp i1 i2 (gauss_row meta s) = Ok sp /\
  spline_comps sp width y = Ok (Some 1, [Comp NormGauss1D "GAUSS1_PARMS" 1 (Rabs (i1 (map fst s) (map snd s) y * gconv)) (Rabs y)]) /\
  sherpa_from_spline sp (Lsf_Model.Q width 1) (Lsf_Model.Q y 1) = Ok m /\
  forall F lo hi, meval F m lo hi = F NormGauss1D (Rabs (i1 (map fst s) (map snd s) y * gconv)) (Rabs y) hi - F NormGauss1D (Rabs (i1 (map fst s) (map snd s) y * gconv)) (Rabs y) lo.
Proof.
  intros R L N I. rewrite gauss_splines. eexists. rewrite map_const.
  destruct (lines_const i1 (map fst s) y R) as [C1 C2]; [rewrite map_length; exact L|exact N|exact I|]. rewrite map_length in C1.
  assert (SC : spline_comps [("EE_FRACS"%string, SFrac (fun _ y0 => i1 (map fst s) (repeat 1 (List.length s)) y0));
      ("GAUSS1_PARMS"%string, SParms (fun _ y0 => i1 (map fst s) (repeat 1 (List.length s)) y0) (fun _ y0 => i1 (map fst s) (map snd s) y0) (fun _ y0 => i1 (map fst s) (map fst s) y0))] width y
    = Ok (Some 1, [Comp NormGauss1D "GAUSS1_PARMS" 1 (Rabs (i1 (map fst s) (map snd s) y * gconv)) (Rabs y)])).
  { cbn [spline_comps]. rewrite (proj2 (String.eqb_eq "EE_FRACS" "EE_FRACS") eq_refl). cbn [bind]. change (String.eqb "GAUSS1_PARMS" "EE_FRACS") with false. cbv iota.
    change (kind_of "GAUSS1_PARMS") with (Some NormGauss1D). cbn [bind fst snd app conv_fwhm]. rewrite C1, C2, Rabs_R1. reflexivity. }
  eexists. split; [reflexivity|]. split; [exact SC|]. split.
  - unfold sherpa_from_spline. cbn [q_value]. rewrite SC. cbn [bind fst snd]. unfold assemble, normalise. cbn [map fold_left c_kind c_name c_ampl c_fwhm c_pos]. reflexivity.
  - intros F lo hi. cbn [meval c_ampl c_kind c_fwhm c_pos]. unfold sumampl. cbn [map c_ampl Rsum fold_right]. field.
Qed.
Lemma midwaves_nth hc edges r lo hi : let s := sortR (map (fun w => hc / w) edges) in nth_error (removelast s) r = Some lo -> nth_error (tl s) r = Some hi ->
  In (1 / 2 * (hc / hi + hc / lo)) (midwaves hc edges).
Proof.
  cbv zeta. intros A B. unfold midwaves, ebounds_from_edges. apply in_map_iff. exists (lo, hi). split; [reflexivity|].
  revert A B. generalize (removelast (sortR (map (fun w => hc / w) edges))) as u. generalize (tl (sortR (map (fun w => hc / w) edges))) as v. intros v u. revert v r.
  induction u as [|a u IH]; intros v r A B; [destruct r; discriminate|]. destruct v as [|b v]; [destruct r; discriminate|]. destruct r as [|r]; cbn in A, B.
  - left. congruence.
  - right. exact (IH v r A B).
Qed.
Lemma gauss_inv i1 i2 F hc v date edges tab thr kw f : from_Gauss_sigma i1 i2 F hc v date edges tab thr kw = Ok f -> exists rows, tab = InWave rows /\
  cubic_ok (map fst (sort_wave rows)) (midwaves hc edges) = true /\
  make_rmf i1 i2 F hc (gauss_row (strip (tag_call date (tag_init v None None kw) [] [])) (sort_wave rows)) edges (Lsf_Model.Q 1 1) thr = Ok f /\
  forall k, In k ["TELESCOP"; "INSTRUME"; "FILTER"]%string -> din k (f_matrix_meta f) = true /\ din k (f_ebounds_meta f) = true.
Proof.
  unfold from_Gauss_sigma. destruct tab as [rows|rows]; [|discriminate]. intros H. exists rows. split; [reflexivity|]. cbv zeta in H.
  destruct (cubic_ok _ _); [|discriminate]. split; [reflexivity|]. apply bind_inv in H. destruct H as (g & M & H).
  match type of H with (if ?b then _ else _) = _ => destruct b eqn:B end; [|discriminate]. injection H as <-. split; [exact M|]. apply andb_true_iff in B. destruct B as [B1 B2].
  rewrite forallb_forall in B1, B2. intros k I. split; [exact (B1 k I)|exact (B2 k I)].
Qed.
Lemma gauss_rows i1 i2 F hc v date edges rows thr kw f r mr : from_Gauss_sigma i1 i2 F hc v date edges (InWave rows) thr kw = Ok f -> reproduces_lines i1 ->
  0 < hc -> Forall (fun w => 0 < w) edges -> nth_error (f_matrix f) r = Some mr -> exists e_min e_max sigma,
  f_ebounds f = (seq 0 (List.length edges - 1), e_min, e_max) /\ nth_error e_min r = Some (r_lo mr) /\ nth_error e_max r = Some (r_hi mr) /\
  let wave := 1 / 2 * (hc / r_hi mr + hc / r_lo mr) in
  sigma = Rabs (i1 (map fst (sort_wave rows)) (map snd (sort_wave rows)) wave) /\
  full_rmf (List.length edges - 1) 0 mr = Ok (cut thr (map (fun b => gauss_bin F sigma wave (hc / snd b) (hc / fst b)) (combine e_min e_max))) /\
  (profile_ok F -> exists arr, full_rmf (List.length edges - 1) 0 mr = Ok arr /\ Forall (fun x => 0 <= x) arr /\ 0 <= Rsum arr <= 1).
Proof.
  intros H R HC EP MR. destruct (gauss_inv _ _ _ _ _ _ _ _ _ _ _ H) as (rows' & E & C & M & _). injection E as <-. apply cubic_iff in C. destruct C as (L & ND & RANGE). rewrite map_length in L.
  destruct (make_rmf_rows _ _ _ _ _ _ _ _ _ M) as (EB & _ & _ & sp & S & ROWS). destruct (ROWS r mr MR) as (LO & HI & m & MO & FU).
  set (wave := 1 / 2 * (hc / r_hi mr + hc / r_lo mr)) in *.
  assert (IN : in_nodes (map fst (sort_wave rows)) wave = true).
  { destruct (RANGE wave (midwaves_nth _ _ _ _ _ LO HI)) as (a & b & IA & IB & AB). unfold in_nodes. apply andb_true_iff. split; apply existsb_exists; [exists a|exists b]; (split; [assumption|]); apply Rleb_true; lra. }
  destruct (gauss_model i1 i2 (strip (tag_call date (tag_init v None None kw) [] [])) (sort_wave rows) wave 1 R ltac:(lia) ND IN) as (sp' & m' & S' & SC & MO' & EV).
  assert (sp' = sp) by congruence. subst sp'. assert (m' = m) by congruence. subst m'.
  assert (POS : forall x, In x (sortR (map (fun w => hc / w) edges)) -> 0 < x).
  { intros x I. assert (I' : In x (map (fun w => hc / w) edges)) by (eapply Permutation_in; [apply sortR_perm|exact I]). apply in_map_iff in I'. destruct I' as (w & <- & W).
    rewrite Forall_forall in EP. specialize (EP w W). now apply Rdiv_lt_0_compat. }
  assert (RL : forall x, In x (removelast (sortR (map (fun w => hc / w) edges))) -> In x (sortR (map (fun w => hc / w) edges))).
  { generalize (sortR (map (fun w => hc / w) edges)) as l. induction l as [|a l IH]; [intros x []|]. intros x I. destruct l as [|b l]; [destruct I|]. destruct I as [<-|I]; [left; reflexivity|right; apply IH; exact I]. }
  assert (TL : forall x, In x (tl (sortR (map (fun w => hc / w) edges))) -> In x (sortR (map (fun w => hc / w) edges))).
  { intros x. destruct (sortR (map (fun w => hc / w) edges)); [intros []|intros I; right; exact I]. }
  assert (W : 0 < wave).
  { unfold wave. pose proof (POS _ (RL _ (nth_error_In _ _ LO))). pose proof (POS _ (TL _ (nth_error_In _ _ HI))).
    assert (0 < hc / r_hi mr) by (now apply Rdiv_lt_0_compat). assert (0 < hc / r_lo mr) by (now apply Rdiv_lt_0_compat). lra. }
  exists (removelast (sortR (map (fun w => hc / w) edges))), (tl (sortR (map (fun w => hc / w) edges))), (Rabs (i1 (map fst (sort_wave rows)) (map snd (sort_wave rows)) wave)).
  split; [exact EB|]. split; [exact LO|]. split; [exact HI|]. cbv zeta. split; [reflexivity|]. split.
  - rewrite FU. do 2 f_equal. apply map_ext. intros b. rewrite EV. unfold gauss_bin. rewrite (Rabs_right wave) by lra. rewrite Rabs_mult.
    replace (Rabs gconv) with (2 * sqrt (2 * ln 2)); [reflexivity|]. unfold gconv. symmetry. apply Rabs_right. apply Rle_ge. apply Rmult_le_pos; [lra|apply sqrt_pos].
  - intros P. refine (C147_row_sum _ _ _ _ _ _ _ _ _ _ _ _ _ _ M P HC EP MR S SC _ _); [lra|]. unfold sumampl. cbn. lra.
Qed.
Lemma node_value i1 s y w : interp1_ok i1 -> NoDup (map fst s) -> In (y, w) s -> i1 (map fst s) (map snd s) y = w.
Proof.
  intros OK ND I. apply In_nth_error in I. destruct I as [k K]. apply (OK _ _ k); [exact ND| |]; rewrite nth_error_map, K; reflexivity.
Qed.
Lemma strip_get k m : dget k (strip m) = option_map fst (dget k m).
Proof. induction m as [|[a [b c]] m IH]; [reflexivity|]. cbn. destruct (String.eqb k a); [reflexivity|exact IH]. Qed.
Lemma copy_get meta tab k : dget k (copy_keywords meta tab) = if inb k COPY_LSFPARM_KEYWORDS then match dget k meta with Some v => Some v | None => dget k tab end else dget k tab.
Proof.
  unfold copy_keywords. generalize COPY_LSFPARM_KEYWORDS as ks. intros ks. revert tab.
  induction ks as [|a ks IH]; intros tab; [reflexivity|]. cbn [fold_left inb existsb]. fold (inb k ks). rewrite IH. destruct (String.eqb_spec k a) as [->|N]; cbn [orb].
  - destruct (dget a meta) as [v|] eqn:A; [|destruct (inb a ks); reflexivity]. rewrite dget_dset_eq. destruct (inb a ks); reflexivity.
  - destruct (dget a meta) as [v|] eqn:A; [|reflexivity]. rewrite dget_dset_neq by exact N. reflexivity.
Qed.
Lemma ddel_nodup {V} k (d : dict V) : NoDup (map fst d) -> NoDup (map fst (ddel k d)).
Proof.
  induction d as [|[a v] d IH]; intros N; [constructor|]. inversion N as [|? ? NI N']; subst. cbn [ddel filter fst]. destruct (String.eqb_spec k a) as [->|D]; cbn [negb]; [exact (IH N')|].
  cbn [map fst]. constructor; [|exact (IH N')]. intros I. apply NI. apply in_map_iff in I. destruct I as (p & <- & I). apply filter_In in I. apply in_map. exact (proj1 I).
Qed.
Lemma tag_get date v kw k : NoDup (map fst kw) -> In k ["TELESCOP"; "INSTRUME"; "FILTER"]%string -> dget k (tag_call date (tag_init v None None kw) [] []) = dget k kw.
Proof.
  intros N I. unfold tag_call. change (dupdate (dupdate (dset "DATE" (date, "Date/time of computation") []) (tag_init v None None kw)) [])%string
    with (dupdate (dset "DATE" (date, "Date/time of computation") []) (tag_init v None None kw))%string. rewrite dget_upd.
  - assert (D : dget k (dset "DATE" (date, "Date/time of computation") [])%string = None) by (destruct I as [<-|[<-|[<-|[]]]]; reflexivity). rewrite D.
    assert (X : dget k (tag_init v None None kw) = dget k kw).
    { unfold tag_init. destruct (ver_git v), (ver_dirty v); destruct I as [<-|[<-|[<-|[]]]]; rewrite ?dget_dset_neq by discriminate; rewrite ?dget_ddel_neq by discriminate; reflexivity. }
    change (match @dget Meta_Model.hval k (tag_init v None None kw) with Some x => Some x | None => None end = dget k kw). rewrite X. destruct (dget k kw); reflexivity.
  - unfold tag_init. destruct (ver_git v), (ver_dirty v); repeat apply NoDup_dset; apply ddel_nodup; exact N.
Qed.
Lemma make_meta i1 i2 F hc row edges width thr f : make_rmf i1 i2 F hc row edges width thr = Ok f ->
  f_matrix_meta f = copy_keywords (w_meta row) [("TLMIN4", "0")]%string /\ f_ebounds_meta f = copy_keywords (w_meta row) [("TLMIN1", "0")]%string.
Proof.
  intros M. unfold make_rmf in M. destruct (ebounds_from_edges _ _) as [[ch lo] hi]. apply bind_inv in M. destruct M as (sp & _ & M). apply bind_inv in M. destruct M as (mm & _ & M). split.
  - exact (f_equal (fun r => match r with Ok g => f_matrix_meta g | Err _ => [] end) (eq_sym M)).
  - exact (f_equal (fun r => match r with Ok g => f_ebounds_meta g | Err _ => [] end) (eq_sym M)).
Qed.
Lemma sequence_ok {A} (l : list (result A)) : (forall r, In r l -> exists a, r = Ok a) -> exists s, sequence l = Ok s.
Proof.
  induction l as [|r l IH]; intros H; [exists []; reflexivity|]. destruct (H r (or_introl eq_refl)) as [a ->]. destruct (IH (fun q I => H q (or_intror I))) as [s S]. cbn. rewrite S. cbn. eauto.
Qed.
Lemma gauss_ok i1 i2 F hc v date edges rows thr kw : reproduces_lines i1 -> (4 <= List.length rows)%nat -> NoDup (map fst rows) -> NoDup (map fst kw) ->
  (forall w, In w (midwaves hc edges) -> exists p q, In p rows /\ In q rows /\ fst p <= w <= fst q) -> (forall k, In k ["TELESCOP"; "INSTRUME"; "FILTER"]%string -> exists x, dget k kw = Some x) ->
  exists f, from_Gauss_sigma i1 i2 F hc v date edges (InWave rows) thr kw = Ok f.
Proof.
  intros RL L N NK RANGE K. set (s := sort_wave rows). pose proof (sort_perm rows) as P. fold s in P.
  assert (LS : (4 <= List.length s)%nat) by (rewrite (Permutation_length P); exact L).
  assert (NS : NoDup (map fst s)) by (eapply Permutation_NoDup; [apply Permutation_map; symmetry; exact P|exact N]).
  assert (C : cubic_ok (map fst s) (midwaves hc edges) = true).
  { apply cubic_iff. split; [rewrite map_length; exact LS|]. split; [exact NS|]. intros x I. destruct (RANGE x I) as (p & q & IP & IQ & B). exists (fst p), (fst q).
    split; [apply in_map; eapply Permutation_in; [symmetry; exact P|exact IP]|]. split; [apply in_map; eapply Permutation_in; [symmetry; exact P|exact IQ]|exact B]. }
  unfold from_Gauss_sigma. fold s. cbv zeta. rewrite C. set (meta := strip _). set (row := gauss_row meta s).
  assert (M : exists f, make_rmf i1 i2 F hc row edges (Lsf_Model.Q 1 1) thr = Ok f).
  { unfold make_rmf. assert (MID : forall w, In w (midwaves hc edges) -> in_nodes (map fst s) w = true).
    { intros w I. apply andb_true_iff in C. destruct C as [_ C]. rewrite forallb_forall in C. exact (C w I). }
    unfold midwaves in MID. destruct (ebounds_from_edges (fun w => hc / w) edges) as [[ch lo] hi]. cbv zeta.
    unfold row. rewrite gauss_splines. cbn [bind]. rewrite <- (gauss_splines i1 i2 meta s) || idtac.
    match goal with |- context [sequence ?l] => destruct (sequence_ok l) as [m E] end; [|rewrite E; cbn [bind]; eauto].
    intros r I. apply in_map_iff in I. destruct I as ([w [a b]] & <- & I). cbn [fst snd].
    assert (W : in_nodes (map fst s) w = true).
    { apply MID. apply in_combine_l in I. clear - I. revert lo I. induction hi as [|h hi IH]; intros [|l lo] I; cbn in I; try destruct I; try contradiction.
      - left. symmetry. subst. reflexivity. - right. apply IH. exact H. }
    destruct (gauss_model i1 i2 meta s w 1 RL ltac:(lia) NS W) as (sp & m & S & _ & MO & _). rewrite gauss_splines in S. injection S as <-. unfold matrix_row. rewrite MO. cbn [bind].
    match goal with |- context [arr_to_rmf_matrix_row ?x ?y ?z] => destruct (Rmf_Props.C51_round_trip x y z a b) as (ng & fc & nc & mt & E & _) end. rewrite E. cbn [bind]. eauto. }
  destruct M as [f M]. rewrite M. cbn [bind]. destruct (make_meta _ _ _ _ _ _ _ _ _ M) as [FM FE].
  match goal with |- context [if ?b then _ else _] => assert (B : b = true) end; [|rewrite B; eauto].
  apply andb_true_iff. split; apply forallb_forall; intros k I; unfold din; rewrite inb_keys; [rewrite FM|rewrite FE]; rewrite copy_get; unfold row; cbn [gauss_row w_meta]; unfold meta; rewrite strip_get, tag_get by assumption;
    destruct (K k I) as [x ->]; (destruct I as [<-|[<-|[<-|[]]]]; reflexivity).
Qed.
