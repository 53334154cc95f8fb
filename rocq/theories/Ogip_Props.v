(** Headers of OGIP files: C182 to C186. *)
From Coq Require Import DecimalString DecimalNat Permutation.
From Verif Require Import Base_Proofs Vec_Proofs Rmf_Proofs Lsf_Proofs Lsf_Props Ogip_Proofs.
From Verif Require Export Ogip_Model.
Open Scope R_scope.

(** *** C182: checks of keywords and columns *)
Theorem C182_keywords : forall t extra,
  (check_keywords t extra = Ok tt <-> forall k, In k ("TELESCOP" :: "INSTRUME" :: "FILTER" :: extra)%string -> exists v, dget k (t_meta t) = Some v) /\
  (check_keywords t extra <> Ok tt -> check_keywords t extra = Err OGIPFormatError).
Proof. exact keywords_iff. Qed.
Print Assumptions C182_keywords.
(** A table passes if and only if every required name is a column or a keyword, has a type, and the right number of dimensions. *)
Theorem C182_columns_partial : forall t l, (forall r, In r l -> snd (fst r) <> []) -> (check_cols t l = Ok tt <-> forall r, In r l -> has_item t r).
Proof. exact cols_iff. Qed.
Print Assumptions C182_columns_partial.
Theorem C182_missing : forall t col dts ndim rest, dget col (t_cols t) = None -> dget col (t_meta t) = None -> check_cols t ((col, dts, ndim) :: rest) = Err OGIPFormatError.
Proof. intros t col dts ndim rest C M. cbn [check_cols]. unfold check_col. rewrite !inb_keys, C, M. reflexivity. Qed.
Print Assumptions C182_missing.
(** Which type is not looked at: the verdict is the same whatever types are asked for, and whatever types the columns have. *)
Theorem C182_types_ignored : forall t col dts dts' ndim, dts <> [] -> dts' <> [] -> (check_col t (col, dts, ndim) = Ok tt <-> check_col t (col, dts', ndim) = Ok tt).
Proof. intros t col dts dts' ndim D D'. rewrite !col_iff by assumption. reflexivity. Qed.
Print Assumptions C182_types_ignored.
Definition text_arf : table := Tab [] [("ENERG_LO", (Str, 1%nat)); ("ENERG_HI", (Str, 1%nat)); ("SPECRESP", (Object, 1%nat))]%string 3.
Theorem C182_type_refuted : ~ (forall t l col dts ndim d n, check_cols t l = Ok tt -> In (col, dts, ndim) l -> tab_item t col = Ok (Some d, n) -> In d dts \/ d <> Str).
Proof.
  intros H. destruct (H text_arf arf_cols "ENERG_LO"%string [Float64] (Some 1%nat) Str 1%nat eq_refl (or_introl eq_refl) eq_refl) as [[E|[]]|E]; [discriminate|congruence].
Qed.
Print Assumptions C182_type_refuted.
(** A keyword that is a python number is neither accepted nor refused in an orderly way. *)
Theorem C182_python_number_refuted : forall t col dts ndim rest z, dts <> [] -> dget col (t_meta t) = Some (MInt z) -> check_cols t ((col, dts, ndim) :: rest) = Err AttributeError.
Proof.
  intros t col dts ndim rest z D M. cbn [check_cols]. unfold check_col. rewrite !inb_keys, M, orb_true_r. cbn [negb]. destruct dts as [|d dts]; [congruence|].
  unfold tab_item. rewrite M. reflexivity.
Qed.
Print Assumptions C182_python_number_refuted.
Example C182_example : check_cols (Tab [("ENERG_LO", MNp Float64 0)]%string [("SPECRESP", (Float64, 1%nat)); ("ENERG_HI", (Float32, 1%nat))]%string 5) arf_cols = Ok tt /\
  check_cols (Tab [] [("ENERG_LO", (Float64, 1%nat)); ("ENERG_HI", (Float64, 1%nat)); ("SPECRESP", (Float64, 2%nat))]%string 5) arf_cols = Err OGIPFormatError /\
  check_cols (Tab [] [("ENERG_LO", (Float64, 1%nat))]%string 5) arf_cols = Err OGIPFormatError /\
  check_keywords (Tab [("TELESCOP", MStr "Arcus"); ("FILTER", MStr "none")]%string [] 5) [] = Err OGIPFormatError.
Proof. repeat split; reflexivity. Qed.

(** *** C183: writing and reading an ARF *)
Theorem C183_write : forall kw t t' w, ARF_write kw t = (t', Ok w) -> w = t' /\ t_cols w = t_cols t /\ t_len w = t_len t /\
  dget "EXTNAME" (t_meta w) = Some (MStr "SPECRESP") /\ dget "HDUCLASS" (t_meta w) = Some (MStr "OGIP") /\ dget "HDUVERS" (t_meta w) = Some (MStr "1.1.0") /\
  dget "HDUCLAS1" (t_meta w) = Some (MStr "RESPONSE") /\ dget "HDUCLAS2" (t_meta w) = Some (MStr "SPECRESP") /\
  forall k, ~ In k ["EXTNAME"; "HDUCLASS"; "HDUVERS"; "HDUCLAS1"; "HDUCLAS2"]%string -> dget k (t_meta w) = dget k (t_meta t).
Proof.
  intros kw t t' w H. unfold ARF_write in H. assert (T : t' = upd_meta arf_header t) by congruence. assert (W : w = t').
  { apply (f_equal snd) in H. cbn [snd] in H. apply bind_inv in H. destruct H as (u & _ & H). destruct (inb "format" kw); [discriminate|congruence]. }
  assert (G : forall k, dget k (t_meta w) = match dget k arf_header with Some v => Some v | None => dget k (t_meta t) end).
  { intros k. rewrite W, T. cbn [upd_meta t_meta]. apply dget_upd. repeat constructor; cbn; intuition discriminate. }
  split; [exact W|]. split; [rewrite W, T; reflexivity|]. split; [rewrite W, T; reflexivity|]. do 5 (split; [rewrite G; reflexivity|]).
  intros k N. rewrite G. replace (dget k arf_header) with (@None mval); [reflexivity|]. symmetry. apply dget_none_notin. exact N.
Qed.
Print Assumptions C183_write.
(** It is written if and only if the keywords are there; no format can be asked for. *)
Theorem C183_accepted : forall kw t, (exists w, snd (ARF_write kw t) = Ok w) <->
  (~ In "format"%string kw /\ forall k, In k ["TELESCOP"; "INSTRUME"; "FILTER"]%string -> exists v, dget k (t_meta t) = Some v).
Proof.
  intros kw t. unfold ARF_write. cbn [snd].
  assert (K : check_keywords (upd_meta arf_header t) [] = Ok tt <-> forall k, In k ["TELESCOP"; "INSTRUME"; "FILTER"]%string -> exists v, dget k (t_meta t) = Some v).
  { rewrite (proj1 (keywords_iff _ _)). cbn [upd_meta t_meta].
    assert (G : forall k, In k ["TELESCOP"; "INSTRUME"; "FILTER"]%string -> dget k (dupdate (t_meta t) arf_header) = dget k (t_meta t)).
    { intros k I. rewrite dget_upd by (repeat constructor; cbn; intuition discriminate). destruct I as [<-|[<-|[<-|[]]]]; reflexivity. }
    split; intros H k I; specialize (H k I); rewrite G in * by exact I; exact H. }
  rewrite <- K. clear K. destruct (check_keywords (upd_meta arf_header t) []) as [[]|e]; cbn [bind].
  - destruct (inb "format" kw) eqn:F.
    + split; [intros [w W]; discriminate|]. intros [N _]. apply inb_In in F. contradiction.
    + split; [|eauto]. intros _. split; [apply inb_false; exact F|reflexivity].
  - split; [intros [w W]; discriminate|intros [_ W]; discriminate].
Qed.
Print Assumptions C183_accepted.
(** A failed attempt has changed the header. *)
Theorem C183_header_changed : forall kw t, fst (ARF_write kw t) = upd_meta arf_header t.
Proof. reflexivity. Qed.
Print Assumptions C183_header_changed.
(** An ARF whose energies and response are columns can be written and read again. *)
Theorem C183_round_trip_partial : forall kw kw' t t' w, ARF_write kw t = (t', Ok w) -> ~ In "format"%string kw' ->
  (forall c, In c ["ENERG_LO"; "ENERG_HI"; "SPECRESP"]%string -> dget c (t_meta t) = None /\ exists d, dget c (t_cols t) = Some (d, 1%nat)) ->
  ARF_read kw' (Ok (from_file w)) = Ok (from_file w).
Proof.
  intros kw kw' t t' w H F C. unfold ARF_read. rewrite (proj2 (inb_false _ _) F). cbn [bind].
  destruct (C183_write _ _ _ _ H) as (_ & CO & _ & _ & _ & _ & _ & _ & OTHER).
  assert (X : check_cols (from_file w) arf_cols = Ok tt); [|rewrite X; reflexivity]. apply cols_iff.
  - intros r I. repeat (destruct I as [<-|I]; [discriminate|]). destruct I.
  - assert (Y : forall c, In c ["ENERG_LO"; "ENERG_HI"; "SPECRESP"]%string -> exists d, tab_item (from_file w) c = Ok (Some d, 1%nat)).
    { intros c I. destruct (C c I) as (M & d & D). exists d. unfold tab_item. rewrite from_file_get, OTHER.
      - rewrite M. cbn [option_map from_file t_cols]. rewrite CO, D. reflexivity.
      - destruct I as [<-|[<-|[<-|[]]]]; cbn; intuition discriminate. }
    intros r I. destruct I as [<-|[<-|[<-|[]]]]; cbn [has_item]; [destruct (Y "ENERG_LO"%string ltac:(cbn; auto)) as [d D]|destruct (Y "ENERG_HI"%string ltac:(cbn; auto)) as [d D]|destruct (Y "SPECRESP"%string ltac:(cbn; auto)) as [d D]];
      exists d, 1%nat; (split; [exact D|left; reflexivity]).
Qed.
Print Assumptions C183_round_trip_partial.
(** A constant response, which ColOrKeyTable keeps as a keyword, is written but cannot be read. *)
Definition constant_arf : table := Tab [("TELESCOP", MStr "a"); ("INSTRUME", MStr "b"); ("FILTER", MStr "c"); ("SPECRESP", MNp Float64 0)]%string [("ENERG_LO", (Float64, 1%nat)); ("ENERG_HI", (Float64, 1%nat))]%string 7.
Theorem C183_round_trip_refuted : check_cols constant_arf arf_cols = Ok tt /\ exists w, ARF_write [] constant_arf = (w, Ok w) /\ ARF_read [] (Ok (from_file w)) = Err AttributeError.
Proof. split; [reflexivity|]. eexists. split; reflexivity. Qed.
Print Assumptions C183_round_trip_refuted.
Theorem C183_read : forall kw file t, ARF_read kw file = Ok t <-> file = Ok t /\ ~ In "format"%string kw /\ forall r, In r arf_cols -> has_item t r.
Proof.
  intros kw file t. unfold ARF_read. rewrite <- (cols_iff t arf_cols) by (intros r I; repeat (destruct I as [<-|I]; [discriminate|]); destruct I). destruct (inb "format" kw) eqn:F.
  - split; [discriminate|]. intros (_ & N & _). apply inb_In in F. contradiction.
  - apply inb_false in F. destruct file as [u|e]; cbn [bind].
    + split.
      * intros H. apply bind_inv in H. destruct H as ([] & C & H). assert (u = t) by congruence. subst u. auto.
      * intros (E & _ & C). assert (u = t) by congruence. subst u. rewrite C. reflexivity.
    + split; [discriminate|]. intros (E & _). discriminate.
Qed.
Print Assumptions C183_read.
Example C183_example : exists w, ARF_write ["overwrite"%string] (Tab [("TELESCOP", MStr "a"); ("INSTRUME", MStr "b"); ("FILTER", MStr "c")]%string [("ENERG_LO", (Float64, 1%nat)); ("ENERG_HI", (Float64, 1%nat)); ("SPECRESP", (Float64, 1%nat))]%string 7) = (w, Ok w) /\
  ARF_read [] (Ok (from_file w)) = Ok (from_file w) /\ List.length (t_meta w) = 8%nat.
Proof. eexists. split; [reflexivity|]. split; reflexivity. Qed.

(** *** C184: spectra can be neither made nor written nor read *)
Theorem C184_data_refuted : forall ok pha c h t, PHAI_init ok pha c h = Ok t -> t_cols t = [] /\ t_len t = 0%nat /\
  forall k, k <> "CHANTYPE"%string -> k <> "HDUCLAS2"%string -> dget k (t_meta t) = None.
Proof.
  intros ok pha c h t H. unfold PHAI_init in H. destruct ok; [|discriminate]. cbv zeta in H. destruct c, h; assert (T := f_equal (fun r => match r with Ok x => x | Err _ => t end) H); cbv beta iota in T; subst t;
    (split; [reflexivity|]); (split; [reflexivity|]); intros k N1 N2; cbn [set_meta t_meta]; rewrite ?dget_dset_neq by assumption; rewrite ?dget_dset_neq by assumption; reflexivity.
Qed.
Print Assumptions C184_data_refuted.
Theorem C184_write_refuted : forall kw t w, snd (PHAI_write kw t) <> Ok w.
Proof.
  intros kw t w. unfold PHAI_write. cbv zeta. destruct (check_keywords _ ["EXPOSURE"; "POISSERR"]%string) as [[]|]; [|discriminate]. destruct (forallb _ _); [|discriminate].
  destruct (inb "format" kw); [discriminate|]. unfold ARF_write. cbn [snd]. destruct (check_keywords _ []) as [[]|]; cbn [bind]; [|discriminate].
  replace (inb "format" (kw ++ ["format"%string])) with true; [discriminate|]. symmetry. apply inb_In. apply in_or_app. right. left. reflexivity.
Qed.
Print Assumptions C184_write_refuted.
Theorem C184_read_refuted : forall kw file, PHAI_read kw file = Err TypeError.
Proof. intros kw file. unfold PHAI_read, ARF_read. destruct (inb "format" kw); reflexivity. Qed.
Print Assumptions C184_read_refuted.
(** The checks before the call that fails do work: without the keywords, or without one of the five columns, the error says so. *)
Theorem C184_checks_partial : forall kw t, (exists k, In k ["TELESCOP"; "INSTRUME"; "FILTER"; "EXPOSURE"; "POISSERR"]%string /\ dget k (t_meta t) = None) \/
  (exists k, In k ["BACKSCAL"; "AREASCAL"; "QUALITY"; "GROUPING"; "SYS_ERR"]%string /\ dget k (t_meta t) = None /\ dget k (t_cols t) = None) ->
  snd (PHAI_write kw t) = Err OGIPFormatError.
Proof.
  intros kw t H. unfold PHAI_write. cbv zeta. set (t' := upd_meta (phai_header t) t).
  assert (G : forall k, In k ["TELESCOP"; "INSTRUME"; "FILTER"; "EXPOSURE"; "POISSERR"; "BACKSCAL"; "AREASCAL"; "QUALITY"; "GROUPING"; "SYS_ERR"]%string -> dget k (t_meta t') = dget k (t_meta t)).
  { intros k I. unfold t'. cbn [upd_meta t_meta]. rewrite dget_upd by (repeat constructor; cbn; intuition discriminate). repeat (destruct I as [<-|I]; [reflexivity|]). destruct I. }
  destruct (check_keywords t' ["EXPOSURE"; "POISSERR"]%string) as [[]|e] eqn:K.
  - destruct H as [(k & I & N)|(k & I & N & C)].
    + exfalso. pose proof (proj1 (proj1 (keywords_iff _ _)) K k I) as [v V]. rewrite G in V by (cbn in I |- *; tauto). congruence.
    + match goal with |- context [forallb ?f ?l] => assert (X : forallb f l = false) end; [|rewrite X; reflexivity].
      match goal with |- ?b = false => destruct b eqn:B end; [|reflexivity]. exfalso. rewrite forallb_forall in B. specialize (B k I). rewrite !inb_keys in B.
      change (t_cols t') with (t_cols t) in B. rewrite C, G in B by (cbn in I |- *; tauto). rewrite N in B. discriminate.
  - cbn [snd]. pose proof (proj2 (keywords_iff t' ["EXPOSURE"; "POISSERR"]%string)) as X. rewrite K in X. specialize (X ltac:(discriminate)). congruence.
Qed.
Print Assumptions C184_checks_partial.
(** And the header says that it is a response, after the attempt. *)
Theorem C184_header_refuted : forall kw t, snd (PHAI_write kw t) = Err TypeError -> ~ In "format"%string kw -> dget "EXTNAME" (t_meta (fst (PHAI_write kw t))) = Some (MStr "SPECRESP").
Proof.
  intros kw t H F. unfold PHAI_write in *. cbv zeta in *. destruct (check_keywords _ ["EXPOSURE"; "POISSERR"]%string) as [[]|e] eqn:K.
  - destruct (forallb _ _); [|discriminate]. rewrite (proj2 (inb_false _ _) F) in *. unfold ARF_write. cbn [fst upd_meta t_meta]. rewrite dget_upd by (repeat constructor; cbn; intuition discriminate). reflexivity.
  - cbn [snd] in H. rewrite (proj2 (keywords_iff _ _)) in K by (rewrite K; discriminate). congruence.
Qed.
Print Assumptions C184_header_refuted.
(** What is left in the header says whether the table has counts or rates. *)
Theorem C184_rate : forall kw t, dget "HDUCLAS3" (t_meta (fst (PHAI_write kw t))) = Some (MStr (match dget "COUNTS" (t_cols t) with Some _ => "COUNT" | None => "RATE" end)).
Proof.
  intros kw t. set (v := MStr match dget "COUNTS" (t_cols t) with Some _ => "COUNT" | None => "RATE" end).
  assert (E : dget "HDUCLAS3" (t_meta (upd_meta (phai_header t) t)) = Some v). { cbn [upd_meta t_meta]. rewrite dget_upd by (repeat constructor; cbn; intuition discriminate). unfold phai_header. rewrite inb_keys. unfold v. cbn. destruct (dget "COUNTS" (t_cols t)); reflexivity. }
  unfold PHAI_write. cbv zeta. destruct (check_keywords _ _) as [[]|]; [|exact E]. destruct (forallb _ _); [|exact E]. destruct (inb "format" kw); [exact E|]. unfold ARF_write. cbn [fst upd_meta t_meta].
  rewrite dget_upd by (repeat constructor; cbn; intuition discriminate). cbn [upd_meta t_meta] in E. exact E.
Qed.
Print Assumptions C184_rate.
Example C184_example : snd (PHAI_write [] (Tab (map (fun k => (k, MStr "x")) ["TELESCOP"; "INSTRUME"; "FILTER"; "EXPOSURE"; "POISSERR"; "BACKSCAL"; "AREASCAL"; "QUALITY"; "GROUPING"; "SYS_ERR"]%string) [("COUNTS", (Int32, 1%nat))]%string 4)) = Err TypeError.
Proof. reflexivity. Qed.

(** *** C185: response matrices *)
Theorem C185_init : forall matrix ebounds c h m e, RMF_init matrix ebounds c h = Ok (m, e) -> forall t u, (t, u) = (matrix, m) \/ (t, u) = (ebounds, e) ->
  t_cols u = t_cols t /\ t_len u = t_len t /\ dget "DETCHANS" (t_meta u) = Some (MInt (Z.of_nat (t_len t))) /\
  (forall s, c = Some s -> dget "CHANTYPE" (t_meta u) = Some (MStr s)) /\ (forall s, h = Some s -> dget "HDUCLAS3" (t_meta u) = Some (MStr s)) /\
  (forall k, k <> "DETCHANS"%string -> (k = "CHANTYPE"%string -> c = None) -> (k = "HDUCLAS3"%string -> h = None) -> dget k (t_meta u) = dget k (t_meta t)) /\
  (forall k, In k ["TELESCOP"; "INSTRUME"; "FILTER"; "CHANTYPE"]%string -> exists v, dget k (t_meta u) = Some v).
Proof.
  intros matrix ebounds c h m e H. unfold RMF_init in H. cbv zeta in H. repeat (apply bind_inv in H; destruct H as ([] & ? & H)).
  assert (M : m = init_meta c h matrix) by congruence. assert (E : e = init_meta c h ebounds) by congruence.
  assert (X : forall t u, u = init_meta c h t -> check_keywords u ["CHANTYPE"%string] = Ok tt -> t_cols u = t_cols t /\ t_len u = t_len t /\ dget "DETCHANS" (t_meta u) = Some (MInt (Z.of_nat (t_len t))) /\
    (forall s, c = Some s -> dget "CHANTYPE" (t_meta u) = Some (MStr s)) /\ (forall s, h = Some s -> dget "HDUCLAS3" (t_meta u) = Some (MStr s)) /\
    (forall k, k <> "DETCHANS"%string -> (k = "CHANTYPE"%string -> c = None) -> (k = "HDUCLAS3"%string -> h = None) -> dget k (t_meta u) = dget k (t_meta t)) /\
    (forall k, In k ["TELESCOP"; "INSTRUME"; "FILTER"; "CHANTYPE"]%string -> exists v, dget k (t_meta u) = Some v)).
  { intros t u -> K. destruct (init_meta_cols c h t) as [A B]. split; [exact A|]. split; [exact B|]. split; [rewrite init_meta_get; reflexivity|].
    split; [intros s ->; rewrite init_meta_get; reflexivity|]. split; [intros s ->; rewrite init_meta_get; reflexivity|]. split.
    - intros k N1 N2 N3. rewrite init_meta_get. destruct (String.eqb_spec k "HDUCLAS3") as [->|_]; [rewrite (N3 eq_refl); reflexivity|].
      destruct (String.eqb_spec k "CHANTYPE") as [->|_]; [rewrite (N2 eq_refl); reflexivity|]. destruct (String.eqb_spec k "DETCHANS") as [->|_]; [congruence|reflexivity].
    - exact (proj1 (proj1 (keywords_iff _ _)) K). }
  intros t u [P|P]; (assert (t = _) by exact (f_equal fst P)); (assert (u = _) by exact (f_equal snd P)); cbn [fst snd] in *; subst t u; apply X; first [exact M|exact E|rewrite M; assumption|rewrite E; assumption].
Qed.
Print Assumptions C185_init.
Theorem C185_write : forall fx m e tlmin m' e', RMF_write fx m e tlmin = Ok (m', e') -> (forall d n, tab_item m "MATRIX" = Ok (Some d, n) -> d <> Object) -> exists im ie,
  nth_error (map fst (t_cols m)) im = Some "F_CHAN"%string /\ nth_error (map fst (t_cols e)) ie = Some "CHANNEL"%string /\ t_cols m' = t_cols m /\ t_cols e' = t_cols e /\
  (forall z, tlmin = Some z -> dget (tlmin_key im) (t_meta m') = Some (MInt z) /\ dget (tlmin_key ie) (t_meta e') = Some (MInt z)) /\
  dget "EXTNAME" (t_meta m') = Some (MStr "MATRIX") /\ dget "EXTNAME" (t_meta e') = Some (MStr "EBOUNDS") /\ dget "HDUCLASS" (t_meta m') = Some (MStr "OGIP") /\ dget "HDUCLASS" (t_meta e') = Some (MStr "OGIP") /\
  dget "HDUCLAS1" (t_meta m') = Some (MStr "RESPONSE") /\ dget "HDUCLAS1" (t_meta e') = Some (MStr "RESPONSE") /\ dget "HDUCLAS2" (t_meta m') = Some (MStr "RSP_MATRIX") /\ dget "HDUCLAS2" (t_meta e') = Some (MStr "EBOUNDS") /\
  dget "HDUVERS" (t_meta m') = Some (MStr "1.1.0") /\ dget "HDUVERS" (t_meta e') = Some (MStr "1.2.0") /\
  (forall k, In k ["TELESCOP"%string; "INSTRUME"%string; "FILTER"%string; "CHANTYPE"%string; "DETCHANS"%string] -> (exists v, dget k (t_meta m') = Some v) /\ (exists v, dget k (t_meta e') = Some v)) /\
  (exists v, dget (tlmin_key im) (t_meta m') = Some v) /\ (exists v, dget (tlmin_key ie) (t_meta e') = Some v) /\
  (forall k, ~ In k ["EXTNAME"; "HDUCLASS"; "HDUVERS"; "HDUCLAS1"; "HDUCLAS2"]%string -> (k <> tlmin_key im -> dget k (t_meta m') = dget k (t_meta m)) /\ (k <> tlmin_key ie -> dget k (t_meta e') = dget k (t_meta e))).
Proof.
  intros fx m e tlmin m' e' H O. destruct (write_inv _ _ _ _ _ _ H) as (im & ie & I1 & I2 & C1 & C2 & K1 & K2 & E & d & n & IT & M).
  assert (M' : m' = upd_meta matrix_header (with_tlmin tlmin im m)).
  { assert (D : d <> Object). { apply (O d n). rewrite <- IT. symmetry. apply item_ext; [|destruct tlmin; reflexivity]. cbn [upd_meta t_meta]. rewrite dget_upd by (repeat constructor; cbn; intuition discriminate).
      change (dget "MATRIX" matrix_header) with (@None mval). cbv iota. rewrite with_tlmin_get, tlmin_prefix by reflexivity. reflexivity. }
    destruct d; try congruence. }
  clear M IT H O C1 C2. exists im, ie. split; [exact I1|]. split; [exact I2|].
  assert (GM : forall k, dget k (t_meta m') = match dget k matrix_header with Some v => Some v | None => dget k (t_meta (with_tlmin tlmin im m)) end) by (intros k; rewrite M'; cbn [upd_meta t_meta]; apply dget_upd; repeat constructor; cbn; intuition discriminate).
  assert (GE : forall k, dget k (t_meta e') = match dget k ebounds_header with Some v => Some v | None => dget k (t_meta (with_tlmin tlmin ie e)) end) by (intros k; rewrite E; cbn [upd_meta t_meta]; apply dget_upd; repeat constructor; cbn; intuition discriminate).
  assert (TM : forall i, dget (tlmin_key i) matrix_header = None /\ dget (tlmin_key i) ebounds_header = None).
  { intros i. unfold tlmin_key. cbn [String.append]. split; reflexivity. }
  split; [rewrite M'; destruct tlmin; reflexivity|]. split; [rewrite E; destruct tlmin; reflexivity|]. split.
  { intros z ->. rewrite GM, GE, !(proj1 (TM _)), !(proj2 (TM _)), !with_tlmin_get, !String.eqb_refl. auto. }
  do 10 (split; [rewrite ?GM, ?GE; reflexivity|]). split; [|split; [|split]].
  - intros k I. assert (IM : In k ["TELESCOP"%string; "INSTRUME"%string; "FILTER"%string; "CHANTYPE"%string; "DETCHANS"%string; tlmin_key im]) by (cbn in I |- *; tauto).
    assert (IE : In k ["TELESCOP"%string; "INSTRUME"%string; "FILTER"%string; "CHANTYPE"%string; "DETCHANS"%string; tlmin_key ie]) by (cbn in I |- *; tauto).
    pose proof (proj1 (proj1 (keywords_iff _ _)) K1 k IM) as [v V]. pose proof (proj1 (proj1 (keywords_iff _ _)) K2 k IE) as [w W]. rewrite GM, GE, V, W. split; [destruct (dget k matrix_header)|destruct (dget k ebounds_header)]; eauto.
  - pose proof (proj1 (proj1 (keywords_iff _ _)) K1 (tlmin_key im) ltac:(cbn; tauto)) as [v V]. rewrite GM, V. destruct (dget _ matrix_header); eauto.
  - pose proof (proj1 (proj1 (keywords_iff _ _)) K2 (tlmin_key ie) ltac:(cbn; tauto)) as [v V]. rewrite GE, V. destruct (dget _ ebounds_header); eauto.
  - intros k N. assert (NM : dget k matrix_header = None) by (apply dget_none_notin; exact N).
    assert (NE : dget k ebounds_header = None) by (apply dget_none_notin; cbn in N |- *; tauto).
    rewrite GM, GE, NM, NE, !with_tlmin_get. split; intros X; apply String.eqb_neq in X; rewrite X; reflexivity.
Qed.
Print Assumptions C185_write.
(** The number in TLMIN is the position of the column, counted from 1. *)
Theorem C185_key : forall i, exists s, tlmin_key i = String.append "TLMIN" s /\ option_map Nat.of_uint (NilEmpty.uint_of_string s) = Some (S i).
Proof.
  intros i. exists (str_nat (i + 1)). split; [reflexivity|]. unfold str_nat. rewrite NilEmpty.usu. cbn [option_map]. f_equal. rewrite Unsigned.of_to. lia.
Qed.
Print Assumptions C185_key.
(** Without TLMIN there is no file. *)
Theorem C185_tlmin_needed : forall fx m e im, index "F_CHAN" (dkeys (t_cols m)) = Ok im -> dget (tlmin_key im) (t_meta m) = None -> forall r, RMF_write fx m e None <> Ok r.
Proof.
  intros fx m e im I N [m' e'] H. unfold RMF_write in H. apply bind_inv in H. destruct H as ([] & _ & H). apply bind_inv in H. destruct H as ([] & _ & H). rewrite I in H. cbn [bind] in H.
  apply bind_inv in H. destruct H as (ie & _ & H). cbv zeta in H. apply bind_inv in H. destruct H as ([] & K & _).
  pose proof (proj1 (proj1 (keywords_iff _ _)) K (tlmin_key im) ltac:(cbn; tauto)) as [v V]. congruence.
Qed.
Print Assumptions C185_tlmin_needed.
(** Both tables of a response, new or on file, have all columns of the OGIP standard (as columns or keywords). *)
Theorem C185_columns : forall matrix ebounds c h m e, RMF_init matrix ebounds c h = Ok (m, e) ->
  (forall k, In k ["ENERG_LO"; "ENERG_HI"; "N_GRP"; "F_CHAN"; "N_CHAN"; "MATRIX"]%string -> dget k (t_cols m) <> None \/ dget k (t_meta m) <> None) /\
  (forall k, In k ["CHANNEL"; "E_MIN"; "E_MAX"]%string -> dget k (t_cols e) <> None \/ dget k (t_meta e) <> None) /\
  (forall k d n, In k ["ENERG_LO"; "ENERG_HI"; "N_GRP"]%string -> dget k (t_meta m) = None -> dget k (t_cols m) = Some (d, n) -> n = 1%nat).
Proof.
  intros matrix ebounds c h m e H. unfold RMF_init in H. cbv zeta in H. apply bind_inv in H. destruct H as ([] & CM & H). apply bind_inv in H. destruct H as ([] & CE & H).
  repeat (apply bind_inv in H; destruct H as ([] & _ & H)). assert (M : init_meta c h matrix = m) by congruence. assert (E : init_meta c h ebounds = e) by congruence. rewrite M in CM. rewrite E in CE. clear - CM CE.
  assert (NE : forall l, l = matrix_cols \/ l = ebounds_cols -> forall r, In r l -> snd (fst r) <> []) by (intros l [->| ->] r I; repeat (destruct I as [<-|I]; [discriminate|]); destruct I).
  pose proof (proj1 (cols_iff m matrix_cols (NE _ (or_introl eq_refl))) CM) as KM. pose proof (proj1 (cols_iff e ebounds_cols (NE _ (or_intror eq_refl))) CE) as KE.
  assert (G : forall t r, has_item t r -> dget (fst (fst r)) (t_cols t) <> None \/ dget (fst (fst r)) (t_meta t) <> None).
  { intros t [[col dts] nd] (d & n & T & _). cbn [fst]. unfold tab_item in T. destruct (dget col (t_meta t)); [right; discriminate|]. destruct (dget col (t_cols t)); [left; discriminate|discriminate]. }
  split; [|split].
  - intros k I. change (In k (map (fun r => fst (fst r)) matrix_cols)) in I. apply in_map_iff in I. destruct I as (r & <- & J). now apply G, KM.
  - intros k I. change (In k (map (fun r => fst (fst r)) ebounds_cols)) in I. apply in_map_iff in I. destruct I as (r & <- & J). now apply G, KE.
  - intros k d n I MN C. assert (J : exists dts, In (k, dts, Some 1%nat) matrix_cols) by (destruct I as [<-|[<-|[<-|[]]]]; [exists [Float64]|exists [Float64]|exists [Int32]]; cbn; auto 10). destruct J as (dts & J). destruct (KM _ J) as (d' & n' & T & N). unfold tab_item in T. rewrite MN, C in T.
    assert (n' = n) as -> by congruence. destruct N as [N|[_ N]]; [exact N|]. exfalso. apply dget_none_notin in MN. contradiction.
Qed.
Print Assumptions C185_columns.
(** What was written is accepted by [read] if the required columns are columns (not keywords) and nothing is an object. *)
Theorem C185_round_trip_partial : forall fx matrix ebounds c h m e tlmin m' e', RMF_init matrix ebounds c h = Ok (m, e) -> RMF_write fx m e tlmin = Ok (m', e') ->
  (forall d n, tab_item m "MATRIX" = Ok (Some d, n) -> d <> Object) ->
  (forall k, In k ["ENERG_LO"; "ENERG_HI"; "N_GRP"; "F_CHAN"; "N_CHAN"; "MATRIX"]%string -> dget k (t_meta matrix) = None) ->
  (forall k, In k ["CHANNEL"; "E_MIN"; "E_MAX"]%string -> dget k (t_meta ebounds) = None) ->
  exists m2 e2, RMF_read (Ok (from_file m')) (Ok (from_file e')) = Ok (m2, e2) /\ t_cols m2 = t_cols matrix /\ t_cols e2 = t_cols ebounds /\ t_len m2 = t_len matrix /\ t_len e2 = t_len ebounds /\
  forall k, dget k (t_meta m2) = option_map header_value (dget k (t_meta m')) /\ dget k (t_meta e2) = option_map header_value (dget k (t_meta e')).
Proof.
  intros fx matrix ebounds c h m e tlmin m' e' HI HW O NM NE.
  destruct (C185_write _ _ _ _ _ _ HW O) as (im & ie & IM & IE & CM & CE & _ & _ & _ & _ & _ & _ & _ & _ & _ & _ & _ & KEYS & _ & _ & OTHER).
  destruct (write_inv _ _ _ _ _ _ HW) as (im' & ie' & _ & _ & C1 & C2 & _ & _ & E & d & n & IT & M).
  assert (LM : t_len m' = t_len m /\ t_len e' = t_len e).
  { assert (D : d <> Object). { apply (O d n). rewrite <- IT. symmetry. apply item_ext; [|destruct tlmin; reflexivity]. cbn [upd_meta t_meta]. rewrite dget_upd by (repeat constructor; cbn; intuition discriminate).
      change (dget "MATRIX" matrix_header) with (@None mval). cbv iota. rewrite with_tlmin_get, tlmin_prefix by reflexivity. reflexivity. }
    split; [destruct d; try congruence; rewrite M|rewrite E]; destruct tlmin; reflexivity. }
  destruct (C185_init _ _ _ _ _ _ HI matrix m (or_introl eq_refl)) as (A1 & A2 & A3 & _ & _ & A4 & _).
  destruct (C185_init _ _ _ _ _ _ HI ebounds e (or_intror eq_refl)) as (B1 & B2 & B3 & _ & _ & B4 & _).
  assert (PM : forall k, In k ["ENERG_LO"; "ENERG_HI"; "N_GRP"; "F_CHAN"; "N_CHAN"; "MATRIX"]%string -> dget k (t_meta m) = None /\ dget k (t_meta (from_file m')) = None).
  { intros k I. assert (X : dget k (t_meta m) = None). { rewrite A4; [apply NM; exact I| | |]; repeat (destruct I as [<-|I]; [discriminate|]); destruct I. }
    split; [exact X|]. rewrite from_file_get. rewrite (proj1 (OTHER k ltac:(repeat (destruct I as [<-|I]; [cbn; intuition discriminate|]); destruct I))); [rewrite X; reflexivity|].
    apply String.eqb_neq. apply tlmin_prefix. repeat (destruct I as [<-|I]; [reflexivity|]). destruct I. }
  assert (PE : forall k, In k ["CHANNEL"; "E_MIN"; "E_MAX"]%string -> dget k (t_meta e) = None /\ dget k (t_meta (from_file e')) = None).
  { intros k I. assert (X : dget k (t_meta e) = None). { rewrite B4; [apply NE; exact I| | |]; repeat (destruct I as [<-|I]; [discriminate|]); destruct I. }
    split; [exact X|]. rewrite from_file_get. rewrite (proj2 (OTHER k ltac:(repeat (destruct I as [<-|I]; [cbn; intuition discriminate|]); destruct I))); [rewrite X; reflexivity|].
    apply String.eqb_neq. apply tlmin_prefix. repeat (destruct I as [<-|I]; [reflexivity|]). destruct I. }
  assert (RM : check_cols (from_file m') matrix_cols = Ok tt).
  { apply (read_ok matrix_cols m); [intros r I; repeat (destruct I as [<-|I]; [discriminate|]); destruct I|exact C1| | |exact CM];
      intros r I; [apply (fun k J => proj1 (PM k J))|apply (fun k J => proj2 (PM k J))]; repeat (destruct I as [<-|I]; [cbn; tauto|]); destruct I. }
  assert (RE : check_cols (from_file e') ebounds_cols = Ok tt).
  { apply (read_ok ebounds_cols e); [intros r I; repeat (destruct I as [<-|I]; [discriminate|]); destruct I|exact C2| | |exact CE];
      intros r I; [apply (fun k J => proj1 (PE k J))|apply (fun k J => proj2 (PE k J))]; repeat (destruct I as [<-|I]; [cbn; tauto|]); destruct I. }
  assert (KW : forall l, (forall k, In k l -> In k ["CHANTYPE"; "DETCHANS"]%string) -> check_keywords (from_file m') l = Ok tt /\ check_keywords (from_file e') l = Ok tt).
  { intros l SUB. assert (Y : forall k, In k ("TELESCOP" :: "INSTRUME" :: "FILTER" :: l)%string -> In k ["TELESCOP"%string; "INSTRUME"%string; "FILTER"%string; "CHANTYPE"%string; "DETCHANS"%string]).
    { intros k [<-|[<-|[<-|I]]]; [cbn; tauto|cbn; tauto|cbn; tauto|]. specialize (SUB k I). cbn in SUB |- *. tauto. }
    split; apply keywords_iff; intros k I; specialize (KEYS k (Y k I)); destruct KEYS as [[v V] [w W]]; rewrite from_file_get; [rewrite V|rewrite W]; cbn; eauto. }
  assert (DM : forall k, dget k (t_meta (init_meta None None (from_file m'))) = dget k (t_meta (from_file m'))).
  { intros k. rewrite init_meta_get. destruct (String.eqb k "HDUCLAS3"); [reflexivity|]. destruct (String.eqb k "CHANTYPE"); [reflexivity|]. destruct (String.eqb_spec k "DETCHANS") as [->|_]; [|reflexivity].
    rewrite from_file_get, (proj1 (OTHER "DETCHANS"%string ltac:(cbn; intuition discriminate))) by (apply String.eqb_neq, tlmin_prefix; reflexivity). rewrite A3. cbn [option_map header_value from_file t_len]. rewrite (proj1 LM), A2. reflexivity. }
  assert (DE : forall k, dget k (t_meta (init_meta None None (from_file e'))) = dget k (t_meta (from_file e'))).
  { intros k. rewrite init_meta_get. destruct (String.eqb k "HDUCLAS3"); [reflexivity|]. destruct (String.eqb k "CHANTYPE"); [reflexivity|]. destruct (String.eqb_spec k "DETCHANS") as [->|_]; [|reflexivity].
    rewrite from_file_get, (proj2 (OTHER "DETCHANS"%string ltac:(cbn; intuition discriminate))) by (apply String.eqb_neq, tlmin_prefix; reflexivity). rewrite B3. cbn [option_map header_value from_file t_len]. rewrite (proj2 LM), B2. reflexivity. }
  exists (init_meta None None (from_file m')), (init_meta None None (from_file e')).
  assert (X : forall t l, check_cols t l = Ok tt -> (forall r, In r l -> snd (fst r) <> []) -> (forall k, dget k (t_meta (init_meta None None t)) = dget k (t_meta t)) -> check_cols (init_meta None None t) l = Ok tt).
  { intros t l C D G. apply cols_iff; [exact D|]. intros r I. apply (has_item_ext t); [apply G|apply init_meta_cols|]. exact (proj1 (cols_iff t l D) C r I). }
  assert (XK : forall t l, check_keywords t l = Ok tt -> (forall k, dget k (t_meta (init_meta None None t)) = dget k (t_meta t)) -> check_keywords (init_meta None None t) l = Ok tt).
  { intros t l C G. apply (keywords_mono t); [|exact C]. intros k v V. exists v. rewrite G. exact V. }
  destruct (KW ["CHANTYPE"; "DETCHANS"]%string ltac:(auto)) as [K1 K2]. destruct (KW ["CHANTYPE"%string] ltac:(cbn; tauto)) as [K3 K4].
  split; [|split; [|split; [|split; [|split]]]].
  - unfold RMF_read, RMF_init. cbn [bind]. rewrite RM, RE. cbn [bind]. rewrite K1, K2. cbn [bind]. cbv zeta.
    rewrite (X (from_file m') matrix_cols RM ltac:(intros r I; repeat (destruct I as [<-|I]; [discriminate|]); destruct I) DM).
    rewrite (X (from_file e') ebounds_cols RE ltac:(intros r I; repeat (destruct I as [<-|I]; [discriminate|]); destruct I) DE). cbn [bind].
    rewrite (XK (from_file m') _ K3 DM), (XK (from_file e') _ K4 DE). reflexivity.
  - rewrite (proj1 (init_meta_cols _ _ _)). cbn [from_file t_cols]. congruence.
  - rewrite (proj1 (init_meta_cols _ _ _)). cbn [from_file t_cols]. congruence.
  - rewrite (proj2 (init_meta_cols _ _ _)). cbn [from_file t_len]. destruct LM. congruence.
  - rewrite (proj2 (init_meta_cols _ _ _)). cbn [from_file t_len]. destruct LM. congruence.
  - intros k. rewrite DM, DE, !from_file_get. auto.
Qed.
Print Assumptions C185_round_trip_partial.
(** If F_CHAN is a keyword because all rows have the same, there is no number for TLMIN, and no file. *)
Theorem C185_constant_first_channel_refuted : forall fx m e tlmin, dget "F_CHAN" (t_cols m) = None -> check_cols m matrix_cols = Ok tt -> check_cols e ebounds_cols = Ok tt -> RMF_write fx m e tlmin = Err ValueError.
Proof.
  intros fx m e tlmin N C1 C2. unfold RMF_write. rewrite C1, C2. cbn [bind]. rewrite (proj2 (proj2 (index_spec _ _))); [reflexivity|]. apply dget_none_notin. exact N.
Qed.
Print Assumptions C185_constant_first_channel_refuted.
Definition demo_head : dict mval := [("TELESCOP", MStr "a"); ("INSTRUME", MStr "b"); ("FILTER", MStr "c")]%string.
Definition demo_matrix : table := Tab demo_head [("ENERG_LO", (Float32, 1%nat)); ("ENERG_HI", (Float32, 1%nat)); ("N_GRP", (Int16, 1%nat)); ("F_CHAN", (Int16, 2%nat)); ("N_CHAN", (Int16, 2%nat)); ("MATRIX", (Float32, 2%nat))]%string 9.
Definition demo_ebounds : table := Tab demo_head [("CHANNEL", (Int32, 1%nat)); ("E_MIN", (Float64, 1%nat)); ("E_MAX", (Float64, 1%nat))]%string 9.
Example C185_example : exists m e m' e', RMF_init demo_matrix demo_ebounds (Some "PHA"%string) (Some "REDIST"%string) = Ok (m, e) /\ RMF_write (fun t => Ok t) m e (Some 1%Z) = Ok (m', e') /\
  RMF_write (fun t => Ok t) m e None = Err OGIPFormatError /\ dget "TLMIN4" (t_meta m') = Some (MInt 1) /\ dget "TLMIN1" (t_meta e') = Some (MInt 1) /\ dget "DETCHANS" (t_meta m') = Some (MInt 9) /\
  exists m2 e2, RMF_read (Ok (from_file m')) (Ok (from_file e')) = Ok (m2, e2) /\
  RMF_init demo_matrix demo_ebounds None None = Err OGIPFormatError.
Proof. do 4 eexists. split; [reflexivity|]. split; [reflexivity|]. split; [reflexivity|]. split; [reflexivity|]. split; [reflexivity|]. split; [reflexivity|]. do 2 eexists. split; reflexivity. Qed.

(** *** C186: Gaussian redistribution *)
(** Every row is a normalised Gaussian around the middle of its own channel, with the width that the table has there, integrated over the channels;
    entries below the threshold are cut off, so that a row adds up to no more than 1. *)
Theorem C186_gaussian : forall i1 i2 F hc v date edges rows thr kw f r mr, from_Gauss_sigma i1 i2 F hc v date edges (InWave rows) thr kw = Ok f -> reproduces_lines i1 ->
  0 < hc -> Forall (fun w => 0 < w) edges -> nth_error (f_matrix f) r = Some mr -> exists e_min e_max sigma,
  f_ebounds f = (seq 0 (List.length edges - 1), e_min, e_max) /\ nth_error e_min r = Some (r_lo mr) /\ nth_error e_max r = Some (r_hi mr) /\
  let wave := 1 / 2 * (hc / r_hi mr + hc / r_lo mr) in
  sigma = Rabs (i1 (map fst (sort_wave rows)) (map snd (sort_wave rows)) wave) /\
  full_rmf (List.length edges - 1) 0 mr = Ok (cut thr (map (fun b => gauss_bin F sigma wave (hc / snd b) (hc / fst b)) (combine e_min e_max))) /\
  (profile_ok F -> exists arr, full_rmf (List.length edges - 1) 0 mr = Ok arr /\ Forall (fun x => 0 <= x) arr /\ 0 <= Rsum arr <= 1).
Proof. exact gauss_rows. Qed.
Print Assumptions C186_gaussian.
(** If the middle of the channel is a wavelength of the table, the width is that of the table. *)
Theorem C186_width : forall i1 i2 F hc v date edges rows thr kw f wave sigma, from_Gauss_sigma i1 i2 F hc v date edges (InWave rows) thr kw = Ok f -> interp1_ok i1 -> In (wave, sigma) rows -> 0 <= sigma ->
  Rabs (i1 (map fst (sort_wave rows)) (map snd (sort_wave rows)) wave) = sigma.
Proof.
  intros i1 i2 F hc v date edges rows thr kw f wave sigma H OK I S. destruct (gauss_inv _ _ _ _ _ _ _ _ _ _ _ H) as (rows' & E & C & _). injection E as <-. apply cubic_iff in C.
  rewrite (node_value i1 (sort_wave rows) wave sigma OK (proj1 (proj2 C))); [apply Rabs_right; lra|]. eapply Permutation_in; [symmetry; apply sort_perm|exact I].
Qed.
Print Assumptions C186_width.
Theorem C186_size : forall i1 i2 F hc v date edges rows thr kw f, from_Gauss_sigma i1 i2 F hc v date edges (InWave rows) thr kw = Ok f ->
  List.length (f_matrix f) = (List.length edges - 1)%nat /\ f_detchans f = (List.length edges - 1)%nat.
Proof.
  intros i1 i2 F hc v date edges rows thr kw f H. destruct (gauss_inv _ _ _ _ _ _ _ _ _ _ _ H) as (rows' & _ & _ & M & _). destruct (C147_rows _ _ _ _ _ _ _ _ _ M) as (_ & A & B & _). auto.
Qed.
Print Assumptions C186_size.
(** Wavelengths outside of the table, less than four rows, or a wavelength twice: no response. *)
Theorem C186_domain : forall i1 i2 F hc v date edges rows thr kw f, from_Gauss_sigma i1 i2 F hc v date edges (InWave rows) thr kw = Ok f ->
  (4 <= List.length rows)%nat /\ NoDup (map fst rows) /\ forall w, In w (midwaves hc edges) -> exists p q, In p rows /\ In q rows /\ fst p <= w <= fst q.
Proof.
  intros i1 i2 F hc v date edges rows thr kw f H. destruct (gauss_inv _ _ _ _ _ _ _ _ _ _ _ H) as (rows' & E & C & _). injection E as <-. apply cubic_iff in C. destruct C as (L & N & R).
  pose proof (sort_perm rows) as P. split; [rewrite map_length, (Permutation_length P) in L; exact L|]. split; [eapply Permutation_NoDup; [apply Permutation_map; exact P|exact N]|].
  intros w W. destruct (R w W) as (a & b & IA & IB & AB). apply in_map_iff in IA. apply in_map_iff in IB. destruct IA as (p & <- & IP), IB as (q & <- & IQ).
  exists p, q. split; [eapply Permutation_in; eassumption|]. split; [eapply Permutation_in; eassumption|exact AB].
Qed.
Print Assumptions C186_domain.
(** The header needs the three keywords; they are copied. *)
Theorem C186_header : forall i1 i2 F hc v date edges rows thr kw f k, from_Gauss_sigma i1 i2 F hc v date edges (InWave rows) thr kw = Ok f -> NoDup (map fst kw) ->
  In k ["TELESCOP"; "INSTRUME"; "FILTER"]%string -> exists x, dget k kw = Some x /\ dget k (f_matrix_meta f) = Some (fst x) /\ dget k (f_ebounds_meta f) = Some (fst x).
Proof.
  intros i1 i2 F hc v date edges rows thr kw f k H N I. destruct (gauss_inv _ _ _ _ _ _ _ _ _ _ _ H) as (rows' & _ & _ & M & K). destruct (K k I) as [KM KE]. apply make_meta in M. destruct M as [FM FE].
  assert (J : inb k COPY_LSFPARM_KEYWORDS = true /\ dget k [("TLMIN4", "0")]%string = None /\ dget k [("TLMIN1", "0")]%string = None) by (destruct I as [<-|[<-|[<-|[]]]]; repeat split; reflexivity).
  destruct J as (J & T4 & T1).
  assert (GM : dget k (f_matrix_meta f) = option_map fst (dget k kw)) by (rewrite FM, copy_get, J; cbn [gauss_row w_meta]; rewrite strip_get, tag_get, T4 by assumption; destruct (dget k kw); reflexivity).
  assert (GE : dget k (f_ebounds_meta f) = option_map fst (dget k kw)) by (rewrite FE, copy_get, J; cbn [gauss_row w_meta]; rewrite strip_get, tag_get, T1 by assumption; destruct (dget k kw); reflexivity).
  unfold din in KM. rewrite inb_keys, GM in KM. rewrite GM, GE. destruct (dget k kw) as [x|]; [|discriminate]. exists x. auto.
Qed.
Print Assumptions C186_header.
Theorem C186_missing_keyword : forall i1 i2 F hc v date edges rows thr kw k, NoDup (map fst kw) -> In k ["TELESCOP"; "INSTRUME"; "FILTER"]%string -> dget k kw = None ->
  exists e, from_Gauss_sigma i1 i2 F hc v date edges (InWave rows) thr kw = Err e.
Proof.
  intros i1 i2 F hc v date edges rows thr kw k N I M. destruct (from_Gauss_sigma i1 i2 F hc v date edges (InWave rows) thr kw) as [f|e] eqn:E; [|eauto].
  destruct (C186_header _ _ _ _ _ _ _ _ _ _ _ _ E N I) as (x & X & _). congruence.
Qed.
Print Assumptions C186_missing_keyword.
(** The header that is used if no other one is given. *)
Theorem C186_default : forall i1 i2 F hc v date edges rows thr, reproduces_lines i1 -> (4 <= List.length rows)%nat -> NoDup (map fst rows) ->
  (forall w, In w (midwaves hc edges) -> exists p q, In p rows /\ In q rows /\ fst p <= w <= fst q) ->
  exists f, from_Gauss_sigma i1 i2 F hc v date edges (InWave rows) thr default_headerkw = Ok f /\
    forall k, In k ["TELESCOP"; "INSTRUME"; "FILTER"]%string -> dget k (f_matrix_meta f) = Some "unknown"%string /\ dget k (f_ebounds_meta f) = Some "unknown"%string.
Proof.
  intros i1 i2 F hc v date edges rows thr R L N W. assert (ND : NoDup (map fst default_headerkw)) by (cbn; repeat constructor; cbn; intuition discriminate).
  assert (D : forall k, In k ["TELESCOP"; "INSTRUME"; "FILTER"]%string -> dget k default_headerkw = Some ("unknown", "")%string) by (intros k I; repeat (destruct I as [<-|I]; [reflexivity|]); destruct I).
  destruct (gauss_ok i1 i2 F hc v date edges rows thr default_headerkw R L N ND W) as [f E]; [intros k I; eexists; now apply D|]. exists f. split; [exact E|].
  intros k I. destruct (C186_header _ _ _ _ _ _ _ _ _ _ _ _ E ND I) as (x & X & A & B). rewrite (D k I) in X. assert (x = ("unknown", "")%string) as -> by congruence. auto.
Qed.
Print Assumptions C186_default.
(** Tables of energies, which the documentation allows, never work. *)
Theorem C186_energy_refuted : forall i1 i2 F hc v date edges rows thr kw, from_Gauss_sigma i1 i2 F hc v date edges (InEnergy rows) thr kw = Err TypeError.
Proof. reflexivity. Qed.
Print Assumptions C186_energy_refuted.
(** Otherwise there always is a response. *)
Theorem C186_success_partial : forall i1 i2 F hc v date edges rows thr kw, reproduces_lines i1 -> (4 <= List.length rows)%nat -> NoDup (map fst rows) -> NoDup (map fst kw) ->
  (forall w, In w (midwaves hc edges) -> exists p q, In p rows /\ In q rows /\ fst p <= w <= fst q) -> (forall k, In k ["TELESCOP"; "INSTRUME"; "FILTER"]%string -> exists x, dget k kw = Some x) ->
  exists f, from_Gauss_sigma i1 i2 F hc v date edges (InWave rows) thr kw = Ok f.
Proof. exact gauss_ok. Qed.
Print Assumptions C186_success_partial.
Definition line_interp : interp1 := fun xs ys x =>
  match xs, ys with
  | x0 :: x1 :: _, y0 :: y1 :: _ => if existsb (Reqb x) xs then tab1 xs ys x else y0 + (y1 - y0) / (x1 - x0) * (x - x0)
  | _, _ => tab1 xs ys x
  end.
Example C186_example : reproduces_lines line_interp /\ interp1_ok line_interp /\
  (exists f, from_Gauss_sigma line_interp tab2 step_profile 12 (mkVer "1" None None) "now" [2; 4; 6] (InWave [(5, 1); (1, 2); (3, 1); (9, 4)]) (1 / 1000000) default_headerkw = Ok f).
Proof.
  assert (L : reproduces_lines line_interp).
  { intros xs a b x LE ND IN. destruct xs as [|x0 [|x1 xs]]; cbn [List.length] in LE; try lia. cbn [map line_interp]. destruct (existsb (Reqb x) (x0 :: x1 :: xs)) eqn:E.
    - apply existsb_exists in E. destruct E as (y & I & E). apply Reqb_true in E. subst y. apply In_nth_error in I. destruct I as [k I].
      refine (tab1_ok _ _ k x _ ND I _). change ((a + b * x0) :: (a + b * x1) :: map (fun t => a + b * t) xs) with (map (fun t => a + b * t) (x0 :: x1 :: xs)). rewrite nth_error_map, I. reflexivity.
    - assert (x1 - x0 <> 0). { inversion ND as [|? ? NI _]; subst. intros Z. apply NI. left. lra. } field. assumption. }
  split; [exact L|]. split.
  - intros xs ys i x y ND X Y. assert (T : tab1 xs ys x = y) by (exact (tab1_ok _ _ _ _ _ ND X Y)). destruct xs as [|x0 [|x1 xs]], ys as [|y0 [|y1 ys]]; cbn [line_interp]; try exact T.
    replace (existsb (Reqb x) (x0 :: x1 :: xs)) with true; [exact T|]. symmetry. apply existsb_exists. exists x. split; [eapply nth_error_In; exact X|]. now apply Reqb_true.
  - apply gauss_ok; [exact L|cbn; lia| | | |].
    + cbn. repeat constructor; cbn; intuition lra.
    + repeat constructor; cbn; intuition discriminate.
    + intros w W. assert (B : 1 <= w <= 9).
      { unfold midwaves, ebounds_from_edges in W. cbn [map] in W. replace (sortR [12 / 2; 12 / 4; 12 / 6]) with [2; 3; 6] in W.
        - cbn in W. destruct W as [<-|[<-|[]]]; lra.
        - unfold sortR. cbn [fold_right insR]. rewrite (proj2 (Rleb_false (12 / 4) (12 / 6))) by lra. cbn [insR]. rewrite (proj2 (Rleb_false (12 / 2) (12 / 6))) by lra. cbn [insR]. rewrite (proj2 (Rleb_false (12 / 2) (12 / 4))) by lra.
          repeat (apply f_equal2; [lra|]); reflexivity. }
      exists (1, 2), (9, 4). cbn [fst]. split; [cbn; tauto|]. split; [cbn; tauto|exact B].
    + intros k [<-|[<-|[<-|[]]]]; eexists; reflexivity.
Qed.
