(** Proofs about Chandra file headers and the order of columns. *)
From Verif Require Export Base_Proofs Fits_Model.

Lemma dget_update k l : forall h, dget k (update_header h l) = match dget k h with Some v => Some v | None => dget k l end.
Proof.
  unfold update_header. induction l as [|[a v] l IH]; intros h; cbn [fold_left fst snd dget].
  - destruct (dget k h); reflexivity.
  - rewrite IH. destruct (din a h) eqn:D.
    + destruct (dget k h) eqn:E; [reflexivity|]. destruct (String.eqb k a) eqn:K; [|reflexivity].
      apply String.eqb_eq in K. subst a. apply din_false in E. congruence.
    + destruct (String.eqb k a) eqn:K.
      * apply String.eqb_eq in K. subst a. rewrite dget_dset_eq. apply din_false in D. rewrite D. reflexivity.
      * apply String.eqb_neq in K. rewrite dget_dset_neq by exact K. reflexivity.
Qed.

Lemma dget_update_same h k l : dget k l = None -> dget k (update_header h l) = dget k h.
Proof. intros E. rewrite dget_update, E. destruct (dget k h); reflexivity. Qed.

Definition redundant : list string := ["TSTART"; "TSTOP"; "OBS-MJD"].

(** Everything in the completed header *)
Definition completed (c : clock) (h : header) (s : string) (cls : list string) (k : string) : option hv :=
  match dget k h with Some v => Some v | None =>
  match dget k (match dget "EXTNAME" h with Some e => cc_keywords s e cls | None => [] end) with Some v => Some v | None =>
  match exposure h with Ok x => dget k (timing_keywords c x) | Err _ => None end end end.

Lemma cc_none k s e cls : ~ In k ["ORIGIN"; "HDUDOC"; "CONTENT"; "HDUNAME"; "HDUCLASS"; "HDUCLAS1"; "HDUCLAS2"; "HDUCLAS3"] -> dget k (cc_keywords s e cls) = None.
Proof.
  intros N. apply dget_none_notin. intros I. apply N. unfold cc_keywords, dkeys in I. rewrite map_app in I. apply in_app_iff in I.
  destruct I as [I|I]; [cbn in I |- *; tauto|]. apply in_map_iff in I. destruct I as ([a b] & <- & I). apply in_combine_l in I. cbn in I |- *. tauto.
Qed.

Lemma exposure_update h l : dget "EXPOSURE" l = None -> exposure (update_header h l) = exposure h.
Proof. intros E. unfold exposure, item0, item. rewrite dget_update_same by exact E. reflexivity. Qed.

Definition date_is (o : option hv) (d : string) : Prop :=
  match o with Some (HTup v _) => v = HStr d | Some (HStr (String a _)) => d = String a EmptyString | _ => False end.

Lemma item0_date h k r : item0 h k = Ok (HStr r) -> date_is (dget k h) r.
Proof.
  unfold item0, item, date_is. destruct (dget k h) as [[[|a t]|q|b|v cm]|]; cbn [bind]; intros H; try discriminate; congruence.
Qed.

Lemma complete_T_eq c h : complete_T c h = bind (exposure h) (fun x => set_times c x (update_header h (timing_keywords c x))).
Proof. unfold complete_T. reflexivity. Qed.
Lemma set_times_spec c x h h' : set_times c x h = Ok h' -> exists d t, date_is (dget "DATE-OBS" h) d /\ cxcsec c d = Some t /\
  dget "TSTART" h' = Some (tup (HNum t)) /\ dget "TSTOP" h' = Some (tup (HNum (t + x))) /\ dget "OBS-MJD" h' = Some (HNum (mjd c d)) /\
  forall k, ~ In k redundant -> dget k h' = dget k h.
Proof.
  unfold set_times. destruct (item0 h "DATE-OBS") as [v|] eqn:I; cbn [bind]; [|discriminate].
  destruct v as [d|q|b|v cm]; try discriminate. apply item0_date in I. destruct (cxcsec c d) as [t|] eqn:T; [|discriminate].
  intros H. assert (E : h' = dset "OBS-MJD" (HNum (mjd c d)) (dset "TSTOP" (tup (HNum (t + x))) (dset "TSTART" (tup (HNum t)) h))) by congruence.
  subst h'. clear H. exists d, t. split; [exact I|]. split; [exact T|].
  split; [rewrite dget_dset_neq by discriminate; rewrite dget_dset_neq by discriminate; apply dget_dset_eq|].
  split; [rewrite dget_dset_neq by discriminate; apply dget_dset_eq|].
  split; [apply dget_dset_eq|].
  intros k N. rewrite !dget_dset_neq; [reflexivity| | |]; intros ->; apply N; cbn; tauto.
Qed.
Lemma date_item0 h k d : date_is (dget k h) d -> item0 h k = Ok (HStr d).
Proof. unfold date_is, item0, item. destruct (dget k h) as [[[|a t]|q|b|v cm]|]; intros H; try contradiction; cbn [bind]; congruence. Qed.
Lemma set_times_ok c x h d t : date_is (dget "DATE-OBS" h) d -> cxcsec c d = Some t -> exists h', set_times c x h = Ok h'.
Proof. intros D T. unfold set_times. rewrite (date_item0 _ _ _ D). cbn [bind]. rewrite T. eauto. Qed.
Lemma exposure_tup h x : exposure h = Ok x -> exists cm, dget "EXPOSURE" h = Some (HTup (HNum x) cm).
Proof.
  unfold exposure, item0, item. destruct (dget "EXPOSURE" h) as [[[|a t]|q|b|[s|q|b|v cm'] cm]|]; cbn [bind]; intros H; try discriminate.
  exists cm. congruence.
Qed.
Lemma complete_O_same h h' : complete_O h = Ok h' -> h' = h.
Proof. unfold complete_O. destruct (item0 h "EXPOSURE"); cbn [bind]; congruence. Qed.
Lemma complete_O_ok h v cm : dget "EXPOSURE" h = Some (HTup v cm) -> complete_O h = Ok h.
Proof. intros E. unfold complete_O, item0, item. rewrite E. reflexivity. Qed.

Lemma complete_spec c h data s cls h' : complete_header c h data (CStr s) cls = Ok h' ->
  String.prefix "EVT" (upper s) = false /\
  (exists e, dget "EXTNAME" h = Some e) /\
  exists x d t, exposure h = Ok x /\ date_is (completed c h s cls "DATE-OBS") d /\ cxcsec c d = Some t /\
    dget "TSTART" h' = Some (tup (HNum t)) /\ dget "TSTOP" h' = Some (tup (HNum (t + x))) /\ dget "OBS-MJD" h' = Some (HNum (mjd c d)) /\
    forall k, ~ In k redundant -> dget k h' = completed c h s cls k.
Proof.
  unfold complete_header. destruct (String.prefix "EVT" (upper s)) eqn:P; cbn [add_evt_column_header bind]; [discriminate|].
  destruct (complete_CC h s cls) as [h1|] eqn:CC; cbn [bind]; [|discriminate].
  unfold complete_CC, item in CC. destruct (dget "EXTNAME" h) as [e|] eqn:EX; cbn [bind] in CC; [|discriminate].
  assert (E1 : h1 = update_header h (cc_keywords s e cls)) by congruence. clear CC.
  rewrite complete_T_eq.
  assert (X : exposure h1 = exposure h) by (subst h1; apply exposure_update, cc_none; cbn; intuition discriminate).
  rewrite X. destruct (exposure h) as [x|] eqn:EXP; cbn [bind]; [|discriminate].
  assert (C : forall k, dget k (update_header h1 (timing_keywords c x)) = completed c h s cls k).
  { intros k. unfold completed. rewrite dget_update, EX, EXP, E1, dget_update. destruct (dget k h); [reflexivity|]. destruct (dget k (cc_keywords s e cls)); reflexivity. }
  destruct (set_times c x (update_header h1 (timing_keywords c x))) as [h2|] eqn:ST; cbn [bind]; [|discriminate].
  intros O. apply complete_O_same in O. subst h2. apply set_times_spec in ST. destruct ST as (d & t & F1 & F2 & F3 & F4 & F5 & F6).
  split; [reflexivity|]. split; [exists e; reflexivity|]. exists x, d, t. split; [reflexivity|]. split; [rewrite <- C; exact F1|].
  repeat (split; [assumption|]). intros k N. rewrite F6 by exact N. apply C.
Qed.

Lemma completed_dget k c h s cls v : dget k h = Some v -> completed c h s cls k = Some v.
Proof. intros E. unfold completed. rewrite E. reflexivity. Qed.

Lemma complete_ok c h data s cls e x d t : String.prefix "EVT" (upper s) = false -> dget "EXTNAME" h = Some e -> exposure h = Ok x ->
  date_is (completed c h s cls "DATE-OBS") d -> cxcsec c d = Some t -> exists h', complete_header c h data (CStr s) cls = Ok h'.
Proof.
  intros P EX EXP D T. unfold complete_header. rewrite P. cbn [bind]. unfold complete_CC, item at 1. rewrite EX. cbn [bind].
  destruct (exposure_tup _ _ EXP) as [com EXT].
  set (h1 := update_header h (cc_keywords s e cls)).
  assert (X : exposure h1 = Ok x).
  { unfold h1. rewrite exposure_update by (apply cc_none; cbn; intuition discriminate). exact EXP. }
  rewrite complete_T_eq, X. cbn [bind]. set (h2 := update_header h1 (timing_keywords c x)).
  assert (C : forall k, dget k h2 = completed c h s cls k).
  { intros k. unfold h2, h1, completed. rewrite dget_update, EX, EXP, dget_update. destruct (dget k h); [reflexivity|]. destruct (dget k (cc_keywords s e cls)); reflexivity. }
  rewrite <- C in D.
  assert (E2 : dget "EXPOSURE" h2 = Some (HTup (HNum x) com)) by (rewrite C; apply completed_dget, EXT).
  clearbody h2. destruct (set_times_ok c x h2 d t D T) as [h3 H3]. rewrite H3. cbn [bind]. exists h3.
  apply set_times_spec in H3. destruct H3 as (? & ? & _ & _ & _ & _ & _ & H3).
  eapply complete_O_ok. rewrite H3; [exact E2|]. cbn. intuition discriminate.
Qed.

Lemma timing_keys k c c' x : dget k (timing_keywords c x) = None -> dget k (timing_keywords c' x) = None.
Proof. intros H. apply dget_none_notin in H. apply dget_none_notin. exact H. Qed.
Lemma exposure_ext h h' : dget "EXPOSURE" h = dget "EXPOSURE" h' -> exposure h = exposure h'.
Proof. intros E. unfold exposure, item0, item. rewrite E. reflexivity. Qed.
Lemma date_unique o d d' : date_is o d -> date_is o d' -> d = d'.
Proof. unfold date_is. destruct o as [[[|a t]|q|b|v cm]|]; try contradiction; congruence. Qed.

Lemma complete_twice c c' h data s cls h' : cxcsec c' = cxcsec c -> mjd c' = mjd c -> complete_header c h data (CStr s) cls = Ok h' ->
  exists h'', complete_header c' h' data (CStr s) cls = Ok h'' /\ forall k, dget k h'' = dget k h'.
Proof.
  intros EC EM H. apply complete_spec in H. destruct H as (P & (e & EX) & x & d & t & EXP & D & T & TS & TE & OM & ALL).
  destruct (exposure_tup _ _ EXP) as [com EXT].
  assert (KEEP : forall k v, ~ In k redundant -> dget k h = Some v -> dget k h' = Some v).
  { intros k v N E. rewrite ALL by exact N. apply completed_dget, E. }
  assert (EX' : dget "EXTNAME" h' = Some e) by (apply KEEP; [cbn; intuition discriminate|exact EX]).
  assert (EXP' : exposure h' = Ok x).
  { rewrite <- EXP. apply exposure_ext. rewrite EXT. apply KEEP; [cbn; intuition discriminate|exact EXT]. }
  assert (COM : forall k, ~ In k redundant -> completed c' h' s cls k = dget k h').
  { intros k N. unfold completed at 1. destruct (dget k h') eqn:G; [reflexivity|]. rewrite EX', EXP'. rewrite ALL in G by exact N.
    unfold completed in G. rewrite EX, EXP in G. destruct (dget k h); [discriminate|]. destruct (dget k (cc_keywords s e cls)); [discriminate|].
    eapply timing_keys. exact G. }
  assert (D' : date_is (completed c' h' s cls "DATE-OBS") d).
  { rewrite COM by (cbn; intuition discriminate). rewrite ALL by (cbn; intuition discriminate). exact D. }
  assert (T' : cxcsec c' d = Some t) by (rewrite EC; exact T).
  destruct (complete_ok c' h' data s cls e x d t P EX' EXP' D' T') as [h'' H]. exists h''. split; [exact H|].
  apply complete_spec in H. destruct H as (_ & _ & x' & d' & t' & EXP2 & D2 & T2 & TS2 & TE2 & OM2 & ALL2).
  assert (x' = x) by congruence. assert (d' = d) by (eapply date_unique; eassumption). subst. assert (t' = t) by congruence. subst.
  intros k. destruct (in_dec String.string_dec k redundant) as [I|I].
  - cbn in I. destruct I as [<-|[<-|[<-|[]]]]; [rewrite TS2, TS|rewrite TE2, TE|rewrite OM2, OM, EM]; reflexivity.
  - rewrite ALL2 by exact I. apply COM, I.
Qed.

Lemma cc_dget k s e cls v : dget k (cc_keywords s e cls) = Some v -> ~ In k redundant.
Proof.
  intros E N. rewrite cc_none in E; [discriminate|]. cbn in N |- *. intros I. intuition (subst; discriminate).
Qed.
Lemma timing_dget k c x v : dget k (timing_keywords c x) = Some v -> ~ In k redundant.
Proof. intros E N. cbn in N. intuition (subst; discriminate). Qed.

(** ** Sorting of columns *)
Lemma split_last_spec s : match split_last s with None => s = EmptyString | Some (i, l) => s = (i ++ String l EmptyString)%string end.
Proof. induction s as [|c s IH]; cbn [split_last]; [reflexivity|]. destruct (split_last s) as [[i l]|]; [cbn; congruence|subst; reflexivity]. Qed.
Lemma split_last_app s l : split_last (s ++ String l EmptyString) = Some (s, l).
Proof. induction s as [|c s IH]; cbn; [reflexivity|]. rewrite IH. reflexivity. Qed.

Lemma ends_In a cols s : In s (ends a cols) <-> In (s ++ String a EmptyString)%string cols.
Proof.
  unfold ends. rewrite in_flat_map. split.
  - intros (c & I & J). pose proof (split_last_spec c) as S. destruct (split_last c) as [[i l]|]; [|destruct J].
    destruct (Ascii.eqb l a) eqn:E; [|destruct J]. apply Ascii.eqb_eq in E. destruct J as [<-|[]]. subst. exact I.
  - intros I. eexists. split; [exact I|]. rewrite split_last_app, Ascii.eqb_refl. left. reflexivity.
Qed.
Lemma ends_NoDup a cols : NoDup cols -> NoDup (ends a cols).
Proof.
  induction 1 as [|c cols N D IH]; [constructor|]. unfold ends in *. cbn [flat_map]. fold (ends a cols) in *.
  pose proof (split_last_spec c) as S. destruct (split_last c) as [[i l]|]; [|exact IH].
  destruct (Ascii.eqb l a) eqn:E; [|exact IH]. apply Ascii.eqb_eq in E. subst. cbn. constructor; [|exact IH]. rewrite ends_In. exact N.
Qed.

Lemma last_inj s t a b : (s ++ String a EmptyString)%string = (t ++ String b EmptyString)%string -> s = t /\ a = b.
Proof. intros E. apply (f_equal split_last) in E. rewrite !split_last_app in E. split; congruence. Qed.

Lemma take_first_perm c l s r : take_first c l = Some (s, r) -> Permutation l (s :: r).
Proof.
  revert s r. induction l as [|a l IH]; intros s r; cbn [take_first]; [discriminate|].
  destruct (String.eqb (lower a) c); [injection 1 as <- <-; reflexivity|].
  destruct (take_first c l) as [[t r']|]; [|discriminate]. injection 1 as <- <-. rewrite (IH _ _ eq_refl). apply perm_swap.
Qed.
Lemma take_expected_perm e : forall l, Permutation (take_expected e l) l.
Proof.
  induction e as [|c e IH]; intros l; cbn [take_expected]; [reflexivity|]. destruct (take_first c l) as [[s r]|] eqn:T; [|apply IH].
  rewrite IH. symmetry. eapply take_first_perm. exact T.
Qed.

Lemma take_first_lower c l : (forall s, In s l -> lower s = c -> s = c) -> NoDup l -> lower c = c ->
  if inb c l then exists r, take_first c l = Some (c, r) /\ Permutation l (c :: r) else take_first c l = None.
Proof.
  intros U D LC. induction l as [|a l IH]; [reflexivity|]. inversion D as [|? ? NI D']; subst.
  specialize (IH (fun s I => U s (or_intror I)) D'). unfold inb in *. cbn [existsb take_first].
  destruct (String.eqb (lower a) c) eqn:E.
  - apply String.eqb_eq in E. assert (a = c) by (apply U; [left; reflexivity|exact E]). subst a. rewrite String.eqb_refl. cbn. eauto.
  - assert (String.eqb c a = false) as ->. { apply String.eqb_neq. intros <-. apply String.eqb_neq in E. congruence. }
    cbn [orb]. destruct (existsb (String.eqb c) l).
    + destruct IH as (r & -> & P). exists (a :: r). split; [reflexivity|]. rewrite P. apply perm_swap.
    + rewrite IH. reflexivity.
Qed.

Lemma filter_ext_list {A} (f g : A -> bool) l : (forall x, In x l -> f x = g x) -> filter f l = filter g l.
Proof. apply filter_ext_in. Qed.

Lemma take_expected_start e : forall l, NoDup e -> NoDup l -> (forall c, In c e -> lower c = c) -> (forall s, In s l -> In (lower s) e -> lower s = s) ->
  exists r, take_expected e l = filter (fun c => inb c l) e ++ r.
Proof.
  induction e as [|c e IH]; intros l DE DL LE U; [exists l; reflexivity|]. inversion DE as [|? ? NC DE']; subst. cbn [take_expected filter].
  pose proof (take_first_lower c l) as T. rewrite (LE c (or_introl eq_refl)) in T.
  assert (H : forall s, In s l -> lower s = c -> s = c). { intros s I E. rewrite <- E. symmetry. apply U; [exact I|]. rewrite E. left. reflexivity. }
  specialize (T H DL eq_refl). destruct (inb c l) eqn:IC.
  - destruct T as (r & -> & P). destruct (IH r) as [r' E].
    + exact DE'.
    + eapply Permutation_NoDup in DL; [|exact P]. inversion DL; assumption.
    + intros; apply LE; right; assumption.
    + intros s I J. apply U; [|right; exact J]. eapply Permutation_in; [symmetry; exact P|]. right. exact I.
    + exists r'. rewrite E. cbn. f_equal. f_equal. apply filter_ext_list. intros x Ix. 
      assert (x <> c) by (intros ->; contradiction).
      destruct (inb x r) eqn:E1, (inb x l) eqn:E2; try reflexivity; exfalso.
      * apply inb_In in E1. apply inb_false in E2. apply E2. eapply Permutation_in; [symmetry; exact P|]. right. exact E1.
      * apply inb_In in E2. apply inb_false in E1. apply E1. eapply Permutation_in in E2; [|exact P]. destruct E2; [congruence|assumption].
  - rewrite T. apply IH; [exact DE'|exact DL|intros; apply LE; right; assumption|intros s I J; apply U; [exact I|right; exact J]].
Qed.

Lemma filter_partition {A} (f : A -> bool) l : Permutation l (filter f l ++ filter (fun x => negb (f x)) l).
Proof.
  induction l as [|a l IH]; [reflexivity|]. cbn [filter]. destruct (f a); cbn [negb app].
  - constructor. exact IH.
  - rewrite IH at 1. apply Permutation_middle.
Qed.

Lemma filter_two l p q : NoDup l -> p <> q -> In p l -> In q l ->
  Permutation l (p :: q :: filter (fun c => negb (String.eqb c p) && negb (String.eqb c q)) l).
Proof.
  intros D N P Q. apply NoDup_Permutation; [exact D| |].
  - constructor.
    + intros [E|I]; [congruence|]. apply filter_In in I. rewrite String.eqb_refl in I. destruct I; discriminate.
    + constructor; [|apply NoDup_filter, D]. intros I. apply filter_In in I. rewrite String.eqb_refl, andb_false_r in I. destruct I; discriminate.
  - intros x. cbn [In]. rewrite filter_In. destruct (String.eqb x p) eqn:E1; [apply String.eqb_eq in E1; subst; tauto|].
    destruct (String.eqb x q) eqn:E2; [apply String.eqb_eq in E2; subst; tauto|]. apply String.eqb_neq in E1, E2. cbn. intuition congruence.
Qed.

Lemma take_pairs_perm ps : forall l o r, NoDup l -> (forall p q, In (p, q) ps -> p <> q) -> take_pairs ps l = (o, r) -> Permutation l (o ++ r).
Proof.
  induction ps as [|[p q] ps IH]; intros l o r D N; cbn [take_pairs]; [injection 1 as <- <-; reflexivity|].
  assert (N' : forall p q, In (p, q) ps -> p <> q) by (intros; apply N; right; assumption).
  destruct (inb p l && inb q l) eqn:B; [|apply IH; assumption]. apply andb_true_iff in B. destruct B as [BP BQ]. apply inb_In in BP, BQ.
  destruct (take_pairs ps _) as [o' r'] eqn:T. injection 1 as <- <-. cbn [app].
  rewrite (filter_two l p q D (N p q (or_introl eq_refl)) BP BQ) at 1. do 2 constructor. apply IH; [apply NoDup_filter, D|exact N'|exact T].
Qed.

Lemma take_pairs_ordered ps : forall l o r, take_pairs ps l = (o, r) -> exists ps', (forall pq, In pq ps' -> In pq ps) /\ o = flat_map (fun pq => [fst pq; snd pq]) ps'.
Proof.
  induction ps as [|[p q] ps IH]; intros l o r; cbn [take_pairs]; [injection 1 as <- <-; exists []; split; [intros ? []|reflexivity]|].
  destruct (inb p l && inb q l).
  - destruct (take_pairs ps _) as [o' r'] eqn:T. injection 1 as <- <-. destruct (IH _ _ _ T) as (ps' & I & ->). exists ((p, q) :: ps').
    split; [|reflexivity]. intros pq [<-|J]; [left; reflexivity|right; apply I, J].
  - intros T. destruct (IH _ _ _ T) as (ps' & I & ->). exists ps'. split; [|reflexivity]. intros pq J. right. apply I, J.
Qed.

Lemma insert_str_perm s l : Permutation (insert_str s l) (s :: l).
Proof. induction l as [|a l IH]; cbn [insert_str]; [reflexivity|]. destruct (String.leb s a); [reflexivity|]. rewrite IH. apply perm_swap. Qed.
Lemma sort_str_perm l : Permutation (sort_str l) l.
Proof. induction l as [|a l IH]; cbn; [reflexivity|]. rewrite insert_str_perm. constructor. exact IH. Qed.

Definition str_le (a b : string) : Prop := String.leb a b = true.
Lemma insert_str_sorted s l : Sorted str_le l -> Sorted str_le (insert_str s l).
Proof.
  induction 1 as [|a l S IH H]; cbn [insert_str]; [repeat constructor|].
  destruct (String.leb s a) eqn:E; [constructor; [constructor; assumption|constructor; exact E]|].
  assert (A : String.leb a s = true) by (destruct (String.leb_total a s) as [X|X]; [exact X|congruence]).
  constructor; [exact IH|]. destruct l as [|b l]; cbn [insert_str]; [constructor; exact A|].
  destruct (String.leb s b); constructor; [exact A|]. inversion H; assumption.
Qed.
Lemma sort_str_sorted l : Sorted str_le (sort_str l).
Proof. induction l as [|a l IH]; cbn; [constructor|]. apply insert_str_sorted, IH. Qed.

Lemma xy_ne : char_x <> char_y.
Proof. discriminate. Qed.

Definition stems (cols : list string) : list string := filter (fun s => inb s (ends char_y cols)) (ends char_x cols).
Lemma stems_In cols s : In s (stems cols) <-> In (colx s) cols /\ In (coly s) cols.
Proof. unfold stems. rewrite filter_In, inb_In, !ends_In. reflexivity. Qed.
Lemma stems_NoDup cols : NoDup cols -> NoDup (stems cols).
Proof. intros D. apply NoDup_filter, ends_NoDup, D. Qed.

Definition xy (l : list string) : list string := flat_map (fun s => [colx s; coly s]) l.
Lemma xy_In l c : In c (xy l) <-> exists s, In s l /\ (c = colx s \/ c = coly s).
Proof. unfold xy. rewrite in_flat_map. split; intros (s & I & J); exists s; (split; [exact I|]); cbn in *; intuition congruence. Qed.
Lemma xy_NoDup l : NoDup l -> NoDup (xy l).
Proof.
  induction 1 as [|s l N D IH]; [constructor|]. cbn [xy flat_map app]. fold (xy l).
  assert (A : forall c, c = colx s \/ c = coly s -> ~ In c (xy l)).
  { intros c E I. apply xy_In in I. destruct I as (t & I & J). assert (s = t); [|subst; contradiction].
    destruct E as [-> | ->], J as [J|J]; apply last_inj in J; tauto. }
  constructor; [|constructor; [apply A; right; reflexivity|exact IH]].
  intros [E|I]; [|revert I; apply A; left; reflexivity]. symmetry in E. apply last_inj in E. destruct E; discriminate.
Qed.
Lemma xy_perm l l' : Permutation l l' -> Permutation (xy l) (xy l').
Proof. intros P. apply Permutation_flat_map, P. Qed.

Lemma other_spec cols e : (forall s, In s e <-> In s (stems cols)) ->
  forall c, In c (filter (fun c => negb (inb c (map colx e)) && negb (inb c (map coly e))) cols) <-> In c cols /\ ~ In c (xy (stems cols)).
Proof.
  intros E c. rewrite filter_In, andb_true_iff, !negb_true_iff, !inb_false, !in_map_iff, xy_In.
  split; intros [I J]; (split; [exact I|]).
  - intros (s & K & L). apply E in K. destruct J as [J1 J2]. destruct L as [-> | ->]; [apply J1|apply J2]; eauto.
  - split; intros (s & <- & K); apply J; exists s; rewrite <- E; auto.
Qed.

Definition sky_pairs : list (string * string) := [("ra", "dec"); ("RA", "DEC"); ("ra", "de"); ("RA", "DE")].

Lemma ordered_spec enum cols ord : NoDup cols -> (forall l, Permutation (enum l) l) -> ordered_cols enum cols = Ok ord -> exists st o r,
  ord = (xy st ++ o ++ sort_str r)%list /\ st = take_expected ["chip"; "tdet"; "det"; ""] (enum (stems cols)) /\ Permutation st (stems cols) /\
  exists other, NoDup other /\ (forall c, In c other <-> In c cols /\ ~ In c (xy (stems cols))) /\ take_pairs sky_pairs other = (o, r).
Proof.
  intros D P. unfold ordered_cols. destruct (inb "" cols); [discriminate|]. fold (stems cols).
  set (other := filter _ cols). destruct (take_pairs _ other) as [o r] eqn:T. intros H.
  exists (take_expected ["chip"; "tdet"; "det"; ""] (enum (stems cols))), o, r. split; [unfold xy; congruence|]. split; [reflexivity|].
  split; [rewrite take_expected_perm; apply P|]. exists other. split; [apply NoDup_filter, D|]. split; [|exact T].
  unfold other. apply other_spec. intros s. split; apply Permutation_in; [|symmetry]; apply P.
Qed.

Lemma NoDup_app_disjoint {A} (l m : list A) : NoDup l -> NoDup m -> (forall c, In c l -> In c m -> False) -> NoDup (l ++ m).
Proof.
  induction 1 as [|a l N D IH]; intros DM X; [exact DM|]. cbn. constructor.
  - rewrite in_app_iff. intros [I|I]; [contradiction|]. apply (X a); [left; reflexivity|exact I].
  - apply IH; [exact DM|]. intros c I. apply X. right. exact I.
Qed.

Lemma ordered_perm enum cols ord : NoDup cols -> (forall l, Permutation (enum l) l) -> ordered_cols enum cols = Ok ord -> Permutation ord cols.
Proof.
  intros D P H. destruct (ordered_spec _ _ _ D P H) as (st & o & r & -> & _ & PS & other & DO & IO & T).
  rewrite (xy_perm _ _ PS), sort_str_perm.
  assert (PO : Permutation other (o ++ r)).
  { eapply take_pairs_perm; [exact DO| |exact T]. intros p q I. cbn in I. intuition congruence. }
  rewrite <- PO. apply NoDup_Permutation; [|exact D|].
  - apply NoDup_app_disjoint; [apply xy_NoDup, stems_NoDup, D|exact DO|]. intros c J I. apply IO in I. tauto.
  - intros c. rewrite in_app_iff, IO, xy_In. split.
    + intros [(s & I & E)|[I _]]; [|exact I]. apply stems_In in I. destruct E; subst; tauto.
    + intros I. destruct (in_dec String.string_dec c (xy (stems cols))) as [J|J]; [left; apply xy_In, J|right; split; [exact I|rewrite <- xy_In; exact J]].
Qed.

Lemma xy_adjacent l s : In s l -> exists a b, xy l = a ++ colx s :: coly s :: b.
Proof. intros I. apply in_split in I. destruct I as (l1 & l2 & ->). exists (xy l1), (xy l2). unfold xy. rewrite flat_map_app. reflexivity. Qed.

Lemma not_xy c a s : split_last c = Some (s, a) -> a <> char_x -> a <> char_y -> forall l, ~ In c (xy l).
Proof.
  intros E X Y l I. apply xy_In in I. destruct I as (t & _ & [-> | ->]); unfold colx, coly in E; rewrite split_last_app in E; congruence.
Qed.

Lemma take_pairs_adjacent ps1 : forall ps2 l o r p q, NoDup l -> take_pairs (ps1 ++ (p, q) :: ps2) l = (o, r) -> In p l -> In q l ->
  (forall p' q', In (p', q') ps1 -> In p' l -> In q' l -> p' <> p /\ p' <> q /\ q' <> p /\ q' <> q) ->
  exists a b, o = a ++ p :: q :: b.
Proof.
  induction ps1 as [|[p0 q0] ps1 IH]; intros ps2 l o r p q D T P Q U; cbn [app take_pairs] in T.
  - rewrite (proj2 (inb_In p l) P), (proj2 (inb_In q l) Q) in T. cbn [andb] in T. destruct (take_pairs ps2 _) as [o' r']. injection T as <- <-.
    exists [], o'. reflexivity.
  - destruct (inb p0 l && inb q0 l) eqn:B.
    + apply andb_true_iff in B. destruct B as [BP BQ]. apply inb_In in BP, BQ.
      destruct (take_pairs _ _) as [o' r'] eqn:T'. injection T as <- <-.
      destruct (U p0 q0 (or_introl eq_refl) BP BQ) as (N1 & N2 & N3 & N4).
      destruct (IH ps2 _ _ _ p q (NoDup_filter _ D) T') as (a & b & ->).
      * apply filter_In. split; [exact P|]. rewrite (proj2 (String.eqb_neq p p0)), (proj2 (String.eqb_neq p q0)) by congruence. reflexivity.
      * apply filter_In. split; [exact Q|]. rewrite (proj2 (String.eqb_neq q p0)), (proj2 (String.eqb_neq q q0)) by congruence. reflexivity.
      * intros p' q' I' P' Q'. apply filter_In in P', Q'. apply U; [right; exact I'|tauto|tauto].
      * exists (p0 :: q0 :: a), b. reflexivity.
    + eapply IH; try eassumption. intros p' q' I'. apply U. right. exact I'.
Qed.

Lemma radec_adjacent ps1 ps2 enum cols ord p q s a s' a' : sky_pairs = ps1 ++ (p, q) :: ps2 -> NoDup cols -> (forall l, Permutation (enum l) l) ->
  ordered_cols enum cols = Ok ord -> split_last p = Some (s, a) -> split_last q = Some (s', a') -> a <> char_x -> a <> char_y -> a' <> char_x -> a' <> char_y ->
  In p cols -> In q cols ->
  (forall p' q', In (p', q') ps1 -> In p' cols -> In q' cols -> p' <> p /\ p' <> q /\ q' <> p /\ q' <> q) ->
  exists b c, ord = b ++ p :: q :: c.
Proof.
  intros E D PE H EP EQ N1 N2 N3 N4 P Q U. destruct (ordered_spec _ _ _ D PE H) as (st & o & r & -> & _ & PS & other & DO & IO & T).
  rewrite E in T. destruct (take_pairs_adjacent ps1 ps2 other o r p q DO T) as (b & c & ->).
  - apply IO. split; [exact P|]. eapply not_xy; eassumption.
  - apply IO. split; [exact Q|]. eapply not_xy; eassumption.
  - intros p' q' I' P' Q'. apply U; [exact I'|apply IO, P'|apply IO, Q'].
  - exists (xy st ++ b), (c ++ sort_str r). rewrite <- !app_assoc. reflexivity.
Qed.

Lemma sort_ok enum cols : ~ In "" cols -> exists ord, ordered_cols enum cols = Ok ord.
Proof. intros N. unfold ordered_cols. rewrite (proj2 (inb_false _ _) N). destruct (take_pairs _ _). eauto. Qed.
