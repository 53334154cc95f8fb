(** Lemmas about [Photons_Model]. *)
From Verif Require Import Base_Proofs Photons_Model.
From Coq Require Import Lqa.

(** *** masks *)
Lemma mask_write_length m l v : length (mask_write m l v) = length l.
Proof.
  revert l v. induction m as [|b m IH]; intros [|c l] v; try reflexivity.
  - destruct b; reflexivity.
  - destruct b; cbn [mask_write].
    + destruct v; cbn [length]; [reflexivity|now rewrite IH].
    + cbn [length]. now rewrite IH.
Qed.

Lemma mask_write_miss m l v i :
  nth_error m i <> Some true -> nth_error (mask_write m l v) i = nth_error l i.
Proof.
  revert l v i. induction m as [|b m IH]; intros [|c l] v i H; try reflexivity.
  - destruct b; reflexivity.
  - destruct b; cbn [mask_write].
    + destruct v as [|v vs]; [reflexivity|]. destruct i as [|i]; [cbn in H; congruence|].
      cbn [nth_error]. apply IH. exact H.
    + destruct i as [|i]; [reflexivity|]. cbn [nth_error]. apply IH. exact H.
Qed.

(** rank of row [i] among the marked rows *)
Fixpoint rank (m : list bool) (i : nat) : nat :=
  match m, i with
  | _, 0 => 0
  | [], _ => 0
  | b :: m', S i' => (if b then 1 else 0) + rank m' i'
  end.

Lemma mask_write_hit m l v i :
  length m = length l -> length v = count m -> nth_error m i = Some true ->
  nth_error (mask_write m l v) i = nth_error v (rank m i).
Proof.
  revert l v i. induction m as [|b m IH]; intros [|c l] v i Hl Hv Hi; try discriminate.
  - destruct i; discriminate.
  - cbn [length] in Hl. injection Hl as Hl. destruct b; cbn [mask_write].
    + unfold count in Hv. cbn [filter length] in Hv. destruct v as [|v vs]; [discriminate|].
      cbn [length] in Hv. injection Hv as Hv.
      destruct i as [|i]; [reflexivity|]. cbn [nth_error rank plus]. now apply IH.
    + destruct i as [|i]; [discriminate|]. cbn [nth_error rank plus]. now apply IH.
Qed.

Lemma select_length {A} m (l : list A) : length m = length l -> length (select m l) = count m.
Proof.
  revert l. induction m as [|b m IH]; intros [|c l] H; try discriminate; [reflexivity|].
  cbn [length] in H. injection H as H. unfold count in *. destruct b; cbn [select filter length].
  - now rewrite IH.
  - now apply IH.
Qed.

Lemma select_nth {A} m (l : list A) i :
  length m = length l -> nth_error m i = Some true -> nth_error (select m l) (rank m i) = nth_error l i.
Proof.
  revert l i. induction m as [|b m IH]; intros [|c l] i H Hi; try discriminate.
  - destruct i; discriminate.
  - cbn [length] in H. injection H as H. destruct b; cbn [select].
    + destruct i as [|i]; [reflexivity|]. cbn [nth_error rank plus]. now apply IH.
    + destruct i as [|i]; [discriminate|]. cbn [nth_error rank plus]. now apply IH.
Qed.

Lemma rank_lt m i : nth_error m i = Some true -> rank m i < count m.
Proof.
  revert i. induction m as [|b m IH]; intros [|i] H; try discriminate.
  - cbn in H. injection H as ->. unfold count. cbn [filter length rank]. lia.
  - cbn [nth_error] in H. specialize (IH _ H). unfold count in *. destruct b; cbn [filter length rank]; lia.
Qed.

Lemma count_negb m : count m + count (map negb m) = length m.
Proof.
  unfold count. induction m as [|b m IH]; [reflexivity|].
  destruct b; cbn [map negb filter length]; lia.
Qed.

Lemma nth_single n i j : nth_error (single n i) j = Some true -> j = i.
Proof.
  unfold single. intros H.
  assert (Hj : j < n).
  { apply nth_error_lt in H. rewrite map_length, seq_length in H. exact H. }
  rewrite nth_error_map in H.
  destruct (nth_error (seq 0 n) j) as [k|] eqn:E; [|discriminate].
  cbn in H. injection H as H. apply Nat.eqb_eq in H. subst k.
  apply nth_error_nth with (d := 0) in E. rewrite seq_nth in E by exact Hj. lia.
Qed.

Lemma nonzero_from_spec m k i : In i (nonzero_from k m) -> k <= i /\ nth_error m (i - k) = Some true.
Proof.
  revert k. induction m as [|b m IH]; intros k H; [contradiction|].
  cbn [nonzero_from] in H. destruct b.
  - destruct H as [<-|H].
    + split; [lia|]. now rewrite Nat.sub_diag.
    + apply IH in H. destruct H as [H1 H2]. split; [lia|].
      replace (i - k) with (S (i - S k)) by lia. exact H2.
  - apply IH in H. destruct H as [H1 H2]. split; [lia|].
    replace (i - k) with (S (i - S k)) by lia. exact H2.
Qed.

Lemma nonzero_spec m i : In i (nonzero m) -> nth_error m i = Some true.
Proof.
  intros H. apply nonzero_from_spec in H. destruct H as [_ H]. now rewrite Nat.sub_0_r in H.
Qed.

(** *** table access *)
Lemma getcol_In t c l : getcol t c = Some l -> In c (colnames t).
Proof.
  unfold getcol, colnames. intros H. rewrite <- inb_In. change (inb c (dkeys (cols t))) with (din c (cols t)).
  apply din_dget. eauto.
Qed.

Lemma In_getcol t c : In c (colnames t) -> exists l, getcol t c = Some l.
Proof.
  unfold getcol, colnames. intros H. apply din_dget. unfold din. now apply inb_In.
Qed.

Lemma colnames_setcol t c l : In c (colnames t) -> colnames (setcol t c l) = colnames t.
Proof.
  intros H. unfold colnames, setcol. cbn [cols]. rewrite dkeys_dset.
  unfold din. apply inb_In in H. unfold colnames in H. now rewrite H.
Qed.

Lemma getcell_setcol_eq t c l i : getcell (setcol t c l) c i = nth_error l i.
Proof. unfold getcell, getcol, setcol. cbn [cols]. now rewrite dget_dset_eq. Qed.

Lemma getcell_setcol_neq t c c' l i : c <> c' -> getcell (setcol t c' l) c i = getcell t c i.
Proof. intros N. unfold getcell, getcol, setcol. cbn [cols]. now rewrite dget_dset_neq. Qed.

Lemma dget_app_l {V} k (d d' : dict V) : In k (dkeys d) -> dget k (d ++ d') = dget k d.
Proof.
  induction d as [|[a b] d IH]; [intros []|]. cbn [dkeys map fst app dget In]. intros H.
  destruct (String.eqb k a) eqn:E; [reflexivity|]. apply IH. destruct H as [->|H]; [|exact H].
  now rewrite String.eqb_refl in E.
Qed.

Lemma dget_app_r {V} k (d d' : dict V) : ~ In k (dkeys d) -> dget k (d ++ d') = dget k d'.
Proof.
  induction d as [|[a b] d IH]; [reflexivity|]. cbn [dkeys map fst app dget In]. intros H.
  destruct (String.eqb k a) eqn:E.
  - apply String.eqb_eq in E. subst. exfalso. apply H. now left.
  - apply IH. intros H'. apply H. now right.
Qed.

(** *** the relation [changes_only] *)
Lemma co_refl m ids t : changes_only m ids t t.
Proof.
  repeat split.
  - exists []. now rewrite app_nil_r.
  - intros c i H H'. contradiction.
Qed.

Lemma co_in m ids t t' c : changes_only m ids t t' -> In c (colnames t) -> In c (colnames t').
Proof. intros (_ & (new & E) & _) H. rewrite E. apply in_or_app. now left. Qed.

Lemma co_trans m ids t t' t'' :
  changes_only m ids t t' -> changes_only m ids t' t'' -> changes_only m ids t t''.
Proof.
  intros H1 H2. pose proof H1 as (N1 & (new1 & E1) & O1 & D1). pose proof H2 as (N2 & (new2 & E2) & O2 & D2).
  split; [congruence|]. split; [|split].
  - exists (new1 ++ new2). now rewrite E2, E1, app_assoc.
  - intros c i Hc Hm. rewrite O2 by (try eapply co_in; eauto). now apply O1.
  - intros c i Hc Hn Hi Hm.
    destruct (in_dec string_dec c (colnames t')) as [Hin|Hout].
    + rewrite O2 by assumption. now apply D1.
    + apply D2; try assumption. now rewrite N1.
Qed.

Lemma co_mono m m' ids ids' t t' :
  (forall i, nth_error m i = Some true -> nth_error m' i = Some true) ->
  incl ids ids' ->
  changes_only m ids t t' -> changes_only m' ids' t t'.
Proof.
  intros Hm Hi (N & E & O & D). split; [exact N|]. split; [exact E|]. split.
  - intros c i Hc H. apply O; [exact Hc|]. intros H'. apply H. now apply Hm.
  - intros c i Hc Hn Hl H. destruct (D c i Hc Hn Hl) as [H1|[H1 H2]].
    + intros H'. apply H. now apply Hm.
    + now left.
    + right. split; [now apply Hi|exact H2].
Qed.

Lemma co_setcol m ids t c l l' :
  getcol t c = Some l -> (forall i, nth_error m i <> Some true -> nth_error l' i = nth_error l i) ->
  changes_only m ids t (setcol t c l').
Proof.
  intros G H. pose proof (getcol_In _ _ _ G) as Hin.
  split; [reflexivity|]. rewrite colnames_setcol by exact Hin. split; [|split].
  - exists []. now rewrite app_nil_r.
  - intros c' i _ Hm. destruct (string_dec c' c) as [->|N].
    + rewrite getcell_setcol_eq. unfold getcell. rewrite G. now apply H.
    + now apply getcell_setcol_neq.
  - intros c' i Hc Hn. contradiction.
Qed.

Definition step_co (m : list bool) (ids : list string) (f : M) : Prop :=
  forall t, changes_only m ids t (fst (f t)).

Lemma sc_ret m ids : step_co m ids ret.
Proof. intros t. apply co_refl. Qed.
Lemma sc_raise m ids e : step_co m ids (raise e).
Proof. intros t. apply co_refl. Qed.

Lemma sc_andthen m ids f g : step_co m ids f -> step_co m ids g -> step_co m ids (andthen f g).
Proof.
  intros Hf Hg t. unfold andthen. specialize (Hf t). destruct (f t) as [t' [e|]]; cbn [fst] in *; [exact Hf|].
  eapply co_trans; [exact Hf|apply Hg].
Qed.

Lemma sc_steps m ids l : Forall (step_co m ids) l -> step_co m ids (steps l).
Proof.
  intros H. induction H as [|f l Hf Hl IH]; [apply sc_ret|]. now apply sc_andthen.
Qed.

Lemma sc_assign m ids col v : step_co m ids (assign_col_value col m v).
Proof.
  intros t. unfold assign_col_value. destruct col as [c|]; [|apply co_refl].
  destruct (String.eqb c "probability").
  - destruct (value_bad v); [apply co_refl|]. destruct (getcol t c) as [old|] eqn:G; [|apply co_refl].
    destruct (broadcast (count m) v) as [vs|]; [|apply co_refl].
    destruct (cmul_list (select m old) vs) as [new|]; [|apply co_refl].
    cbn [fst]. eapply co_setcol; [exact G|]. intros i Hi. now apply mask_write_miss.
  - destruct (getcol t c) as [old|] eqn:G; [|apply co_refl].
    destruct (broadcast (count m) v) as [vs|]; [|apply co_refl].
    cbn [fst]. eapply co_setcol; [exact G|]. intros i Hi. now apply mask_write_miss.
Qed.

Lemma sc_write m ids c v : step_co m ids (write_col c m v).
Proof.
  intros t. unfold write_col. destruct (getcol t c) as [old|] eqn:G; [|apply co_refl].
  cbn [fst]. eapply co_setcol; [exact G|]. intros i Hi. now apply mask_write_miss.
Qed.

Lemma co_add_col m ids n d t :
  d = nan \/ (d = CInt (-1) /\ forall c, n = Some c -> In c ids) -> changes_only m ids t (add_col n d t).
Proof.
  intros Hd. destruct n as [c|]; cbn [add_col]; [|apply co_refl].
  destruct (inb c (colnames t)) eqn:E; [apply co_refl|].
  apply inb_false in E.
  assert (EN : colnames (mkT (nrows t) (cols t ++ [(c, repeat d (nrows t))])) = colnames t ++ [c]).
  { unfold colnames, dkeys. cbn [cols]. now rewrite map_app. }
  split; [reflexivity|]. rewrite EN. split; [|split].
  - now exists [c].
  - intros c' i Hc _. unfold getcell, getcol. cbn [cols]. now rewrite dget_app_l.
  - intros c' i Hc Hn Hi Hm.
    apply in_app_or in Hc. destruct Hc as [Hc|[<-|[]]]; [contradiction|].
    unfold getcell, getcol. cbn [cols]. rewrite dget_app_r by exact E. cbn [dget]. rewrite String.eqb_refl.
    rewrite nth_error_repeat by exact Hi. destruct Hd as [->|[-> Hd]]; [now left|right].
    split; [now apply Hd|reflexivity].
Qed.

Lemma sc_add_output m e names : step_co m (opt_list (id_col e)) (add_output_cols e names).
Proof.
  intros t. unfold add_output_cols. cbn [fst].
  eapply co_trans with (t' := fold_left (fun acc n => add_col n nan acc) (map Some (output_columns e) ++ names) t).
  - generalize (map Some (output_columns e) ++ names) as l. intros l. revert t.
    induction l as [|n l IH]; intros t; cbn [fold_left]; [apply co_refl|].
    eapply co_trans; [apply co_add_col; now left|apply IH].
  - apply co_add_col. right. split; [reflexivity|]. intros c ->. now left.
Qed.

Lemma sc_per_photon m e f t0 i :
  nth_error m i = Some true -> step_co m (opt_list (id_col e)) (per_photon_step e f t0 i).
Proof.
  intros Hi. unfold per_photon_step.
  destruct (getcell t0 "dir" i) as [d|]; [|apply sc_raise].
  destruct (getcell t0 "pos" i) as [p|]; [|apply sc_raise].
  destruct (getcell t0 "energy" i) as [en|]; [|apply sc_raise].
  destruct (getcell t0 "polarization" i) as [po|]; [|apply sc_raise].
  destruct (f d p en po) as [outs|er]; [|apply sc_raise].
  apply sc_steps. apply Forall_forall. intros g Hg. apply in_map_iff in Hg. destruct Hg as (cb & <- & _).
  intros t. eapply co_mono; [| |apply (sc_assign (single (nrows t0) i) (opt_list (id_col e)))].
  - intros j Hj. apply nth_single in Hj. now subst.
  - apply incl_refl.
Qed.

Lemma sc_process_values m e : step_co m (opt_list (id_col e)) (process_values e m).
Proof.
  intros t. unfold process_values. destruct (meth e) as [f|f].
  - destruct (f t m) as [outcols|er]; [|apply co_refl].
    apply sc_andthen; [apply sc_add_output|].
    apply sc_steps. apply Forall_forall. intros g Hg. apply in_map_iff in Hg. destruct Hg as (cb & <- & _).
    apply sc_assign.
  - apply sc_steps. apply Forall_forall. intros g Hg. apply in_map_iff in Hg. destruct Hg as (i & <- & Hi).
    apply sc_per_photon. now apply nonzero_spec.
Qed.

Lemma sc_process_photons m e ipos icoos :
  step_co m (opt_list (id_col e)) (process_photons e m ipos icoos).
Proof.
  intros t. unfold process_photons.
  destruct (negb _); [apply co_refl|]. destruct (negb _); [apply co_refl|].
  apply sc_steps. constructor; [apply sc_process_values|]. constructor.
  { destruct (loc_coos_name e) as [[a b]|]; [|apply sc_ret].
    apply sc_steps. constructor; [apply sc_add_output|]. constructor; [apply sc_write|]. constructor; [apply sc_write|].
    constructor. }
  constructor.
  { destruct (id_col e); [apply sc_write|apply sc_ret]. }
  constructor; [apply sc_write|constructor].
Qed.

(** induction over nested elements *)
Lemma opt_ind' (P : opt -> Prop) :
  (forall e, P (Std e)) -> (forall e l, Forall P l -> P (Stack e l)) -> P Baffle -> forall o, P o.
Proof.
  intros HS HK HB. fix IH 1. intros [e|e l|].
  - apply HS.
  - apply HK. induction l as [|o l IHl]; constructor; [apply IH|apply IHl].
  - exact HB.
Qed.

Lemma instrument_ind' (P : instrument -> Prop) :
  (forall o g, P (Elem o g)) -> (forall l, Forall P l -> P (Container l)) -> forall i, P i.
Proof.
  intros HE HC. fix IH 1. intros [o g|l].
  - apply HE.
  - apply HC. induction l as [|i l IHl]; constructor; [apply IH|apply IHl].
Qed.

Lemma step_co_incl m ids ids' f : incl ids ids' -> step_co m ids f -> step_co m ids' f.
Proof. intros Hi Hf t. eapply co_mono; [|exact Hi|apply Hf]. trivial. Qed.

Lemma sc_process m ipos icoos o :
  has_baffle o = false -> step_co m (ids_of o) (process o m ipos icoos).
Proof.
  induction o as [e|e l IH|] using opt_ind'; intros HB.
  - apply sc_process_photons.
  - cbn [ids_of process has_baffle] in *. intros t. destruct (negb _); [apply co_refl|].
    apply sc_andthen.
    + eapply step_co_incl; [|apply sc_process_photons]. cbn [id_col stack_element]. apply incl_appl, incl_refl.
    + apply sc_steps. rewrite Forall_forall in IH. apply Forall_forall. intros g Hg.
      apply in_map_iff in Hg. destruct Hg as (o & <- & Ho).
      eapply step_co_incl; [|apply IH; [exact Ho|]].
      * intros x Hx. apply in_or_app. right. apply in_flat_map. eauto.
      * destruct (has_baffle o) eqn:E; [|reflexivity].
        assert (existsb has_baffle l = true) by (apply existsb_exists; eauto). congruence.
  - discriminate.
Qed.

(** *** no hits *)
Lemma process_nohit o ipos icoos t m :
  has_baffle o = false -> length m = nrows t -> length ipos = nrows t -> length icoos = nrows t ->
  (forall i, nth_error m i <> Some true) -> process o m ipos icoos t = (t, None).
Proof.
  intros HB L1 L2 L3 H.
  assert (E : existsb (fun b => b) m = false).
  { destruct (existsb _ m) eqn:E; [|reflexivity]. apply existsb_exists in E. destruct E as (b & Hb & ->).
    apply In_nth_error in Hb. destruct Hb as [i Hi]. exfalso. now apply (H i). }
  destruct o as [e|e l|]; cbn [process].
  - unfold process_photons. rewrite L1, L2, L3, Nat.eqb_refl. cbn [andb negb]. now rewrite E.
  - now rewrite E.
  - discriminate.
Qed.
