(** Lemmas about [Photons_Model]: baffles, stacks, the per photon interface. *)
From Verif Require Import Base_Proofs Photons_Model Photons_Proofs Photons_Proofs2 Photons_Proofs3.
From Coq Require Import Lqa.
Open Scope nat_scope.

Lemma nth_map_negb m i b : nth_error m i = Some b -> nth_error (map negb m) i = Some (negb b).
Proof. intros H. rewrite nth_error_map, H. reflexivity. Qed.

Lemma write_col_miss c m vals t t' i :
  write_col c m vals t = (t', None) -> nth_error m i <> Some true -> getcell t' c i = getcell t c i.
Proof.
  intros H Hi. unfold write_col in H. destruct (getcol t c) as [old|] eqn:G; [|discriminate].
  injection H as <-. rewrite getcell_setcol_eq. unfold getcell. rewrite G. now apply mask_write_miss.
Qed.

Lemma baffle_spec m ipos icoos t t' :
  wf t -> process Baffle m ipos icoos t = (t', None) ->
  nrows t' = nrows t /\ colnames t' = colnames t /\
  forall i, i < nrows t ->
    (nth_error m i = Some true ->
       getcell t' "pos" i = nth_error ipos i /\ forall c, c <> "pos" -> getcell t' c i = getcell t c i) /\
    (nth_error m i = Some false ->
       probability t' i = Some 0%Q /\ forall c, c <> "probability" -> getcell t' c i = getcell t c i).
Proof.
  intros W H. cbn [process] in H.
  destruct (Nat.eqb (length m) (nrows t)) eqn:E1; [|discriminate].
  destruct (Nat.eqb (length ipos) (nrows t)) eqn:E2; [|discriminate].
  apply Nat.eqb_eq in E1, E2. cbn [andb negb] in H. unfold steps in H. cbn [fold_right] in H.
  apply andthen_ok in H. destruct H as (t1 & H1 & H). apply andthen_ok in H. destruct H as (t2 & H2 & H).
  injection H as <-.
  assert (W1 : wf t1) by (pose proof (sw_write "pos" m (select m ipos) t W) as X; now rewrite H1 in X).
  assert (N1 : nrows t1 = nrows t) by (pose proof (write_nrows "pos" m (select m ipos) t) as X; now rewrite H1 in X).
  assert (N2 : nrows t2 = nrows t1) by (pose proof (write_nrows "probability" (map negb m) (repeat (CNum (Some 0%Q)) (count (map negb m))) t1) as X; now rewrite H2 in X).
  assert (C : forall c mm v u u', write_col c mm v u = (u', None) -> colnames u' = colnames u).
  { intros c mm v u u' X. unfold write_col in X. destruct (getcol u c) eqn:G; [|discriminate]. injection X as <-.
    apply colnames_setcol. now apply getcol_In in G. }
  split; [congruence|]. split; [rewrite (C _ _ _ _ _ H2); apply (C _ _ _ _ _ H1)|].
  intros i Hi. split; intros Hm.
  - assert (Hneg : nth_error (map negb m) i <> Some true) by (rewrite (nth_map_negb _ _ _ Hm); discriminate).
    split.
    + rewrite (write_col_other _ _ _ _ _ _ _ H2) by discriminate.
      rewrite (write_col_get "pos" m (select m ipos) t t1 i W E1 ltac:(apply select_length; congruence) H1 Hm).
      apply select_nth; [congruence|exact Hm].
    + intros c Hc. destruct (string_dec c "probability") as [->|Np].
      * rewrite (write_col_miss _ _ _ _ _ _ H2 Hneg). now apply (write_col_other _ _ _ _ _ _ _ H1).
      * rewrite (write_col_other _ _ _ _ _ _ _ H2) by exact Np. now apply (write_col_other _ _ _ _ _ _ _ H1).
  - assert (Hneg : nth_error (map negb m) i = Some true) by (rewrite (nth_map_negb _ _ _ Hm); reflexivity).
    split.
    + unfold probability.
      rewrite (write_col_get "probability" (map negb m) _ t1 t2 i W1 ltac:(rewrite map_length; congruence) ltac:(apply repeat_length) H2 Hneg).
      rewrite nth_error_repeat; [reflexivity|]. now apply rank_lt.
    + intros c Hc. rewrite (write_col_other _ _ _ _ _ _ _ H2) by exact Hc.
      destruct (string_dec c "pos") as [->|Np].
      * apply (write_col_miss _ _ _ _ _ _ H1). congruence.
      * now apply (write_col_other _ _ _ _ _ _ _ H1).
Qed.

(** ** stacks *)

Lemma assigns_other m outs : forall t t' c i,
  steps (map (fun cv => assign_col_value (fst cv) m (snd cv)) outs) t = (t', None) ->
  ~ In (Some c) (map fst outs) -> getcell t' c i = getcell t c i.
Proof.
  induction outs as [|[c1 v1] outs IHo]; intros t t' c i H N.
  - cbn in H. now injection H as <-.
  - cbn [map fst snd In] in *. unfold steps in H. cbn [fold_right] in H. apply andthen_ok in H.
    destruct H as (t2 & H3 & H4). rewrite (IHo t2 t' c i H4) by tauto. eapply assign_other; [exact H3|].
    intros ->. apply N. now left.
Qed.

Lemma probability_cell' t i q : probability t i = Some q <-> getcell t "probability" i = Some (CNum (Some q)).
Proof.
  unfold probability. destruct (getcell t "probability" i) as [[[x|]|z|v]|]; split; intros H; try discriminate; congruence.
Qed.

Lemma lookup_out_spec c outs v : lookup_out c outs = Some v -> In (Some c, v) outs.
Proof.
  induction outs as [|[[d|] w] outs IH]; cbn [lookup_out]; intros H; try discriminate.
  - destruct (String.eqb c d) eqn:E; [|right; auto]. apply String.eqb_eq in E. subst. injection H as ->. now left.
  - right; auto.
Qed.

Lemma lookup_out_none c outs : lookup_out c outs = None -> ~ In (Some c) (map fst outs).
Proof.
  induction outs as [|[[d|] w] outs IH]; cbn [lookup_out map fst In]; intros H; try tauto.
  - destruct (String.eqb c d) eqn:E; [discriminate|]. apply String.eqb_neq in E. intros [X|X]; [congruence|now apply IH].
  - intros [X|X]; [congruence|now apply IH].
Qed.

Lemma rank_count m i : i <= length m -> rank m i = count (firstn i m).
Proof.
  revert i. induction m as [|b m IH]; intros [|i] H; try reflexivity.
  cbn [rank firstn count]. unfold count. cbn [filter]. cbn [length] in H.
  destruct b; cbn [length plus]; rewrite IH by lia; reflexivity.
Qed.

Lemma entry_broadcast m v vs i : broadcast (count m) v = Some vs -> nth_error m i = Some true ->
  entry v m i = nth_error vs (rank m i).
Proof.
  intros B Hi. pose proof (rank_lt m i Hi) as Hr.
  assert (Hl : i <= length m) by (assert (i < length m) by (apply nth_error_Some; congruence); lia).
  destruct v as [c|[|c [|d l]]]; cbn [broadcast entry] in *.
  - injection B as <-. symmetry. now apply nth_error_repeat.
  - destruct (Nat.eqb _ _); [|discriminate]. injection B as <-. now destruct (count (firstn i m)), (rank m i).
  - injection B as <-. symmetry. now apply nth_error_repeat.
  - destruct (Nat.eqb _ _); [|discriminate]. injection B as <-. now rewrite rank_count.
Qed.

Lemma std_factor e m ipos icoos t t' i q fac :
  wf t -> process_photons e m ipos icoos t = (t', None) -> nth_error m i = Some true ->
  prob_name_free e -> factor (Std e) t m i = Some fac -> probability t i = Some q ->
  exists q', probability t' i = Some q' /\ (q' == q * fac)%Q.
Proof.
  intros W H Hi (Nl0 & Ni & ND) Hf Hq. apply probability_cell' in Hq.
  assert (Nl : ~ In "probability" (loc_list e)).
  { unfold loc_list. destruct (loc_coos_name e) as [[a b]|]; [|tauto]. destruct (Nl0 a b eq_refl). cbn [In]. intuition congruence. }
  pose proof (getcell_some_in _ _ _ _ Hq) as Hp.
  cbn [factor] in Hf. destruct (meth e) as [f|f] eqn:Em; [|discriminate].
  destruct (f t m) as [outs|] eqn:Ef; [|discriminate].
  assert (Hex : existsb (fun b => b) m = true).
  { apply existsb_exists. exists true. split; [|reflexivity]. eapply nth_error_In. exact Hi. }
  destruct (lookup_out "probability" outs) as [v|] eqn:Lk.
  - apply lookup_out_spec in Lk.
    destruct (process_hit_values e m ipos icoos t t' i W H Hi) as (_ & _ & _ & X).
    destruct (X f outs Em Ef (ND f t m outs eq_refl Ef)) as [_ Y].
    destruct (Y v Lk Nl Ni Hp) as (vs & old & fc & new & B1 & B2 & B3 & B4 & B5).
    rewrite Hq in B2. injection B2 as <-. rewrite (entry_broadcast m v vs i B1 Hi), B3 in Hf.
    destruct fc as [[x|]|z|w]; try discriminate; injection Hf as <-; cbn [cmul nmul] in B4; injection B4 as <-;
      eexists; (split; [apply probability_cell'; exact B5|reflexivity]).
  - injection Hf as <-. apply lookup_out_none in Lk.
    destruct (process_photons_stages e m ipos icoos t t' H Hex W)
      as (L1 & L2 & L3 & t1 & t2 & t3 & H1 & H2 & H3 & H4 & W1 & W2 & W3 & N1 & N2 & N3).
    unfold process_values in H1. rewrite Em, Ef in H1. apply andthen_ok in H1. destruct H1 as (u & G1 & G2).
    exists q. split; [|ring]. apply probability_cell'.
    rewrite (write_col_other _ _ _ _ _ _ _ H4) by discriminate.
    rewrite (id_stage_other e m t2 t3 _ i H3 Ni). eapply loc_stage_other; [exact H2|exact Nl|].
    rewrite (assigns_other m outs u t1 _ i G2 Lk).
    destruct (add_output_keeps e (map fst outs) t _ Hp) as [E _]. rewrite G1 in E. cbn [fst] in E.
    unfold getcell in *. now rewrite E.
Qed.

Lemma layers_factor m ipos icoos i layers : forall t t' q fs,
  wf t -> steps (map (fun l => process l m ipos icoos) layers) t = (t', None) -> nth_error m i = Some true ->
  (forall o, In o layers -> exists e, o = Std e /\ prob_name_free e) ->
  factors layers m ipos icoos i t = map Some fs -> probability t i = Some q ->
  exists q', probability t' i = Some q' /\ (q' == q * fold_right Qmult 1 fs)%Q.
Proof.
  induction layers as [|o layers IH]; intros t t' q fs W H Hi Hl Hf Hq.
  - cbn in H. injection H as <-. destruct fs; [|discriminate]. exists q. split; [exact Hq|]. cbn [fold_right]. ring.
  - cbn [map factors] in *. destruct fs as [|fc fs]; [discriminate|]. cbn [map] in Hf. injection Hf as Hf1 Hf2.
    unfold steps in H. cbn [fold_right] in H. apply andthen_ok in H. destruct H as (t1 & H1 & H2).
    destruct (Hl o (or_introl eq_refl)) as (e & -> & Fe).
    assert (W1 : wf t1) by (pose proof (sw_process (Std e) m ipos icoos t W) as X; now rewrite H1 in X).
    rewrite H1 in Hf2. cbn [fst] in Hf2. cbn [process] in H1.
    destruct (std_factor e m ipos icoos t t1 i q fc W H1 Hi Fe Hf1 Hq) as (q1 & P1 & E1).
    destruct (IH t1 t' q1 fs W1 H2 Hi ltac:(intros o' Ho; apply Hl; now right) Hf2 P1) as (q2 & P2 & E2).
    exists q2. split; [exact P2|]. rewrite E2, E1. cbn [fold_right]. ring.
Qed.

Lemma stack_spec e layers m ipos icoos t t' i q fs :
  wf t -> process (Stack e layers) m ipos icoos t = (t', None) -> nth_error m i = Some true ->
  prob_name_free e -> (forall o, In o layers -> exists e', o = Std e' /\ prob_name_free e') ->
  factors layers m ipos icoos i (fst (process (Std (stack_element e)) m ipos icoos t)) = map Some fs ->
  probability t i = Some q ->
  exists q', probability t' i = Some q' /\ (q' == q * fold_right Qmult 1 fs)%Q.
Proof.
  intros W H Hi Fe Hl Hf Hq. cbn [process] in H.
  assert (Hex : existsb (fun b => b) m = true).
  { apply existsb_exists. exists true. split; [|reflexivity]. eapply nth_error_In. exact Hi. }
  rewrite Hex in H. cbn [negb] in H. apply andthen_ok in H. destruct H as (t1 & H1 & H2).
  assert (W1 : wf t1) by (pose proof (sw_process (Std (stack_element e)) m ipos icoos t W) as X; cbn [process] in X; now rewrite H1 in X).
  cbn [process] in Hf. rewrite H1 in Hf. cbn [fst] in Hf.
  assert (Fs : prob_name_free (stack_element e)).
  { destruct Fe as (F1 & F2 & _). split; [exact F1|]. split; [exact F2|]. intros f u mm outs X Y. injection X as <-.
    injection Y as <-. constructor. }
  destruct (std_factor (stack_element e) m ipos icoos t t1 i q 1 W H1 Hi Fs eq_refl Hq) as (q1 & P1 & E1).
  destruct (layers_factor m ipos icoos i layers t1 t' q1 fs W1 H2 Hi Hl Hf P1) as (q2 & P2 & E2).
  exists q2. split; [exact P2|]. rewrite E2, E1. ring.
Qed.

(** ** the interface that handles one photon at a time *)

Lemma assign_colnames c m v t : colnames (fst (assign_col_value c m v t)) = colnames t.
Proof.
  unfold assign_col_value. destruct c as [c|]; [|reflexivity].
  destruct (String.eqb c "probability").
  - destruct (value_bad v); [reflexivity|]. destruct (getcol t c) eqn:G; [|reflexivity].
    destruct (broadcast _ _); [|reflexivity]. destruct (cmul_list _ _); [|reflexivity].
    cbn [fst]. apply colnames_setcol. now apply getcol_In in G.
  - destruct (getcol t c) eqn:G; [|reflexivity]. destruct (broadcast _ _); [|reflexivity].
    cbn [fst]. apply colnames_setcol. now apply getcol_In in G.
Qed.

Lemma steps_colnames l : Forall (fun f : M => forall t, colnames (fst (f t)) = colnames t) l ->
  forall t, colnames (fst (steps l t)) = colnames t.
Proof.
  induction 1 as [|f l Hf Hl IH]; intros t; [reflexivity|]. unfold steps. cbn [fold_right]. fold (steps l).
  unfold andthen. specialize (Hf t). destruct (f t) as [u [e|]]; cbn [fst] in Hf; [exact Hf|]. now rewrite IH.
Qed.

Lemma steps_each l : Forall (fun f : M => forall t, colnames (fst (f t)) = colnames t) l ->
  forall t t' f, steps l t = (t', None) -> In f l -> exists u u', colnames u = colnames t /\ f u = (u', None).
Proof.
  induction 1 as [|g l Hg Hl IH]; intros t t' f H Hin; [contradiction|].
  unfold steps in H. cbn [fold_right] in H. apply andthen_ok in H. destruct H as (t1 & H1 & H2).
  destruct Hin as [->|Hin]; [now exists t, t1|].
  destruct (IH t1 t' f H2 Hin) as (u & u' & E & Hf). exists u, u'. split; [|exact Hf].
  specialize (Hg t). rewrite H1 in Hg. cbn [fst] in Hg. congruence.
Qed.

Lemma per_photon_colnames e f t0 i t : colnames (fst (per_photon_step e f t0 i t)) = colnames t.
Proof.
  unfold per_photon_step. destruct (getcell t0 "dir" i); [|reflexivity]. destruct (getcell t0 "pos" i); [|reflexivity].
  destruct (getcell t0 "energy" i); [|reflexivity]. destruct (getcell t0 "polarization" i); [|reflexivity].
  destruct (f _ _ _ _); [|reflexivity]. apply steps_colnames. apply Forall_forall. intros g Hg. apply in_map_iff in Hg.
  destruct Hg as ([cc bb] & <- & _). intros u. apply assign_colnames.
Qed.

Lemma in_combine_exists {A B} (l : list A) (r : list B) x : In x l -> length l <= length r -> exists y, In (x, y) (combine l r).
Proof.
  revert r. induction l as [|a l IH]; intros r H L; [contradiction|]. destruct r as [|b r]; [cbn in L; lia|].
  cbn [combine length In] in *. destruct H as [->|H]; [exists b; now left|].
  destruct (IH r H ltac:(lia)) as [y Hy]. exists y. now right.
Qed.

Lemma nonzero_from_complete m : forall k i, nth_error m i = Some true -> In (k + i) (nonzero_from k m).
Proof.
  induction m as [|b m IH]; intros k [|i] H; try discriminate; cbn [nth_error nonzero_from] in *.
  - injection H as ->. left. lia.
  - specialize (IH (S k) i H). replace (k + S i) with (S k + i) by lia. destruct b; [now right|exact IH].
Qed.

Lemma per_photon_missing_col e f m ipos icoos t c :
  meth e = PerPhoton f -> In c (output_columns e) -> ~ In c (colnames t) ->
  (forall d p en po outs, f d p en po = Ok outs -> 5 + length (output_columns e) <= length outs) ->
  existsb (fun b => b) m = true ->
  snd (process_photons e m ipos icoos t) <> None.
Proof.
  intros Em Hc Nc Hlen Hex Hok.
  destruct (process_photons e m ipos icoos t) as [t' er] eqn:H. cbn [snd] in Hok. subst er.
  unfold process_photons in H. rewrite Hex in H. cbn [negb] in H.
  destruct (negb _); [discriminate|]. unfold steps in H at 1. cbn [fold_right] in H.
  apply andthen_ok in H. destruct H as (t1 & H1 & _). unfold process_values in H1. rewrite Em in H1.
  apply existsb_exists in Hex. destruct Hex as (b & Hb & ->). apply In_nth_error in Hb. destruct Hb as [i Hi].
  assert (Hn : In i (nonzero m)) by exact (nonzero_from_complete m 0 i Hi).
  destruct (steps_each (map (per_photon_step e f t) (nonzero m))) with (t := t) (t' := t1) (f := per_photon_step e f t i)
    as (u & u' & E & Hstep).
  - apply Forall_forall. intros g Hg. apply in_map_iff in Hg. destruct Hg as (j & <- & _). intros w. apply per_photon_colnames.
  - exact H1.
  - now apply in_map.
  - unfold per_photon_step in Hstep.
    destruct (getcell t "dir" i); [|discriminate]. destruct (getcell t "pos" i); [|discriminate].
    destruct (getcell t "energy" i); [|discriminate]. destruct (getcell t "polarization" i); [|discriminate].
    destruct (f _ _ _ _) as [outs|] eqn:Ef; [|discriminate]. apply Hlen in Ef.
    destruct (in_combine_exists (["dir"; "pos"; "energy"; "polarization"; "probability"] ++ output_columns e) outs c)
      as [y Hy].
    { apply in_or_app. now right. }
    { rewrite app_length. exact Ef. }
    match type of Hstep with steps ?l u = _ =>
      destruct (steps_each l) with (t := u) (t' := u') (f := assign_col_value (Some c) (single (nrows t) i) (Scalar y))
        as (w & w' & Ew & Hw) end.
    + apply Forall_forall. intros g Hg. apply in_map_iff in Hg. destruct Hg as ([a b] & <- & _). intros w. apply assign_colnames.
    + exact Hstep.
    + apply in_map_iff. exists (c, y). now split.
    + assert (Nw : getcol w c = None).
      { destruct (getcol w c) eqn:G; [|reflexivity]. exfalso. apply Nc. rewrite <- E, <- Ew. now apply getcol_In in G. }
      unfold assign_col_value in Hw. rewrite Nw in Hw. destruct (String.eqb c "probability").
      * destruct (value_bad _); discriminate.
      * discriminate.
Qed.

(** ** bad probability factors *)

Lemma add_col_In n d t c : n = Some c -> In c (colnames (add_col n d t)).
Proof.
  intros ->. cbn [add_col]. destruct (inb c (colnames t)) eqn:E; [now apply inb_In|].
  unfold colnames. cbn [cols]. unfold dkeys. rewrite map_app. apply in_or_app. right. now left.
Qed.

Lemma fold_add_In l : forall t c, In (Some c) l -> In c (colnames (fold_left (fun acc n => add_col n nan acc) l t)).
Proof.
  induction l as [|n l IH]; intros t c H; [contradiction|]. cbn [fold_left]. destruct H as [->|H]; [|now apply IH].
  apply fold_add_keeps. now apply add_col_In.
Qed.

Lemma add_output_In e names t c : In (Some c) names -> In c (colnames (fst (add_output_cols e names t))).
Proof.
  intros H. unfold add_output_cols. cbn [fst]. apply add_col_keeps. apply fold_add_In. apply in_or_app. now right.
Qed.

Lemma bad_probability e f m ipos icoos t outs v c :
  meth e = Specific f -> f t m = Ok outs -> NoDup (map fst outs) -> In (Some "probability", v) outs ->
  In c (match v with Scalar c => [c] | Array l => l end) -> cell_bad c = true ->
  length m = nrows t -> length ipos = nrows t -> length icoos = nrows t -> existsb (fun b => b) m = true ->
  In "probability" (colnames t) ->
  snd (process_photons e m ipos icoos t) = Some ValueError /\
  getcol (fst (process_photons e m ipos icoos t)) "probability" = getcol t "probability".
Proof.
  intros Em Ef ND Hin Hc Hb L1 L2 L3 Hex Hp.
  unfold process_photons. rewrite L1, L2, L3, !Nat.eqb_refl, Hex. cbn [andb negb].
  unfold steps at 1 3. cbn [fold_right].
  match goal with |- context [andthen (process_values e m) ?r t] => generalize r as rest end.
  intros rest. unfold andthen at 1 2. unfold process_values. rewrite Em, Ef.
  destruct (add_output_keeps e (map fst outs) t _ Hp) as [K1 K2].
  unfold andthen at 1 2. destruct (add_output_cols e (map fst outs) t) as [u [er|]] eqn:A.
  { unfold add_output_cols in A. discriminate. }
  cbn [fst] in K1, K2. rewrite <- K1.
  assert (Hall : forall d, In (Some d) (map fst outs) -> In d (colnames u)).
  { intros d Hd. pose proof (add_output_In e (map fst outs) t d Hd) as X. now rewrite A in X. }
  enough (G : snd (steps (map (fun cv => assign_col_value (fst cv) m (snd cv)) outs) u) = Some ValueError /\
              getcol (fst (steps (map (fun cv => assign_col_value (fst cv) m (snd cv)) outs) u)) "probability" =
              getcol u "probability").
  { destruct (steps _ u) as [w [er|]]; cbn [fst snd] in *; destruct G as [G1 G2]; [now rewrite G1|discriminate]. }
  clear A K1 K2 Ef Em rest. revert u Hall. induction outs as [|[d w] outs IH]; intros u Hall; [contradiction|].
  cbn [map fst snd] in *. inversion ND as [|? ? Hnot ND']; subst. unfold steps. cbn [fold_right].
  fold (steps (map (fun cv : option string * value => assign_col_value (fst cv) m (snd cv)) outs)). unfold andthen.
  destruct Hin as [E|Hin].
  - injection E as -> ->. rewrite (assign_bad m v u c Hc Hb). now split.
  - assert (Nd : d <> Some "probability").
    { intros ->. apply Hnot. apply in_map_iff. now exists (Some "probability", v). }
    destruct (assign_col_value d m w u) as [u1 [er|]] eqn:A.
    + unfold assign_col_value in A. destruct d as [d|]; [|discriminate].
      destruct (String.eqb d "probability") eqn:Ed; [apply String.eqb_eq in Ed; congruence|].
      destruct (getcol u d) eqn:G.
      * destruct (broadcast (count m) w); [discriminate|]. injection A as <- <-. now split.
      * exfalso. destruct (In_getcol u d (Hall d (or_introl eq_refl))) as [? X]. congruence.
    + destruct (IH ND' Hin u1) as [G1 G2].
      { intros d' Hd'. pose proof (assign_colnames d m w u) as X. rewrite A in X. cbn [fst] in X. rewrite X.
        apply Hall. now right. }
      split; [exact G1|]. rewrite G2. pose proof (sb_assign (opt_list d) d m w) as S.
      specialize (S ltac:(intros n ->; now left) u "probability"). rewrite A in S. cbn [fst] in S. apply S.
      destruct d as [d|]; cbn [opt_list In]; [|tauto]. intros [->|[]]. now apply Nd.
Qed.

Lemma hit_values e m ipos icoos t t' i :
  wf t -> process_photons e m ipos icoos t = (t', None) -> nth_error m i = Some true ->
  getcell t' "pos" i = nth_error ipos i /\
  (forall c, id_col e = Some c -> c <> "pos" -> getcell t' c i = Some (CInt (id_num e))) /\
  (forall a b, loc_coos_name e = Some (a, b) -> a <> b -> ~ In "pos" [a; b] -> id_col e <> Some a -> id_col e <> Some b ->
     getcell t' a i = option_map fst (nth_error icoos i) /\ getcell t' b i = option_map snd (nth_error icoos i)) /\
  (forall f outs c v, meth e = Specific f -> f t m = Ok outs -> NoDup (map fst outs) -> In (Some c, v) outs ->
     c <> "probability" -> ~ In c (loc_list e) -> id_col e <> Some c -> c <> "pos" ->
     getcell t' c i = entry v m i).
Proof.
  intros W H Hi. destruct (process_hit_values e m ipos icoos t t' i W H Hi) as (X1 & X2 & X3 & X4).
  split; [exact X1|]. split; [exact X2|]. split; [exact X3|].
  intros f outs c v Em Ef ND Hin N1 N2 N3 N4. destruct (X4 f outs Em Ef ND) as [Y _].
  destruct (Y c v Hin N1 N2 N3 N4) as (vs & B & G). rewrite G. symmetry. now apply entry_broadcast.
Qed.

Lemma dget_In' {A} c (d : dict A) l : dget c d = Some l -> In (c, l) d.
Proof.
  induction d as [|[k v] d IH]; cbn [dget]; [discriminate|]. destruct (String.eqb c k) eqn:E.
  - apply String.eqb_eq in E. intros H. injection H as ->. subst. now left.
  - intros H. right. auto.
Qed.
