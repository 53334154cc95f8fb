(** Lemmas about [Photons_Model]: what is written to rows that are hit; baffles; stacks. *)
From Verif Require Import Base_Proofs Photons_Model Photons_Proofs Photons_Proofs2.
From Coq Require Import Lqa.
Open Scope nat_scope.

Lemma andthen_ok f g t t'' : andthen f g t = (t'', None) -> exists t', f t = (t', None) /\ g t' = (t'', None).
Proof. unfold andthen. destruct (f t) as [t' [e|]]; intros H; [discriminate|]. eauto. Qed.

Lemma write_col_get c m vals t t' i :
  wf t -> length m = nrows t -> length vals = count m -> write_col c m vals t = (t', None) ->
  nth_error m i = Some true -> getcell t' c i = nth_error vals (rank m i).
Proof.
  intros [_ HL] Hm Hv H Hi. unfold write_col in H. destruct (getcol t c) as [old|] eqn:G; [|discriminate].
  injection H as <-. rewrite getcell_setcol_eq. apply mask_write_hit; try assumption.
  rewrite Hm. symmetry. eapply HL. exact G.
Qed.

Lemma write_col_other c c' m vals t t' i :
  write_col c m vals t = (t', None) -> c' <> c -> getcell t' c' i = getcell t c' i.
Proof.
  intros H N. unfold write_col in H. destruct (getcol t c) as [old|] eqn:G; [|discriminate].
  injection H as <-. now apply getcell_setcol_neq.
Qed.

Lemma add_col_keeps n d t c : In c (colnames t) -> getcol (add_col n d t) c = getcol t c /\ In c (colnames (add_col n d t)).
Proof.
  intros H. destruct n as [x|]; cbn [add_col]; [|tauto]. destruct (inb x (colnames t)); [tauto|].
  unfold getcol, colnames. cbn [cols]. split; [now rewrite dget_app_l|].
  unfold dkeys. rewrite map_app. apply in_or_app. now left.
Qed.

Lemma fold_add_keeps l : forall t c, In c (colnames t) ->
  getcol (fold_left (fun acc n => add_col n nan acc) l t) c = getcol t c /\
  In c (colnames (fold_left (fun acc n => add_col n nan acc) l t)).
Proof.
  induction l as [|n l IH]; intros t c H; cbn [fold_left]; [tauto|].
  destruct (add_col_keeps n nan t c H) as [E1 E2]. destruct (IH _ _ E2) as [E3 E4]. split; [congruence|exact E4].
Qed.

Lemma add_output_keeps e names t c : In c (colnames t) ->
  getcol (fst (add_output_cols e names t)) c = getcol t c /\ In c (colnames (fst (add_output_cols e names t))).
Proof.
  intros H. unfold add_output_cols. cbn [fst].
  destruct (fold_add_keeps (map Some (output_columns e) ++ names) t c H) as [E1 E2].
  destruct (add_col_keeps (id_col e) (CInt (-1)) _ c E2) as [E3 E4]. split; [congruence|exact E4].
Qed.

Lemma getcell_some_in t c i x : getcell t c i = Some x -> In c (colnames t).
Proof.
  unfold getcell. destruct (getcol t c) eqn:G; [|discriminate]. intros _. now apply getcol_In in G.
Qed.

Lemma add_output_nrows e names t : nrows (fst (add_output_cols e names t)) = nrows t.
Proof. apply (sc_add_output [] e names t). Qed.

Lemma write_nrows c m v t : nrows (fst (write_col c m v t)) = nrows t.
Proof. apply (sc_write m [] c v t). Qed.

Lemma assign_nrows c m v t : nrows (fst (assign_col_value c m v t)) = nrows t.
Proof. apply (sc_assign m [] c v t). Qed.

Lemma broadcast_length n v vs : broadcast n v = Some vs -> length vs = n.
Proof.
  destruct v as [c|l]; cbn [broadcast]; intros H.
  - injection H as <-. apply repeat_length.
  - destruct l as [|c [|d l]].
    + destruct (Nat.eqb (length (@nil cell)) n) eqn:E; [|discriminate]. injection H as <-. now apply Nat.eqb_eq in E.
    + injection H as <-. apply repeat_length.
    + destruct (Nat.eqb _ n) eqn:E; [|discriminate]. injection H as <-. now apply Nat.eqb_eq in E.
Qed.

(** value of one assignment *)
Lemma assign_get c m v t t' i :
  wf t -> length m = nrows t -> assign_col_value (Some c) m v t = (t', None) -> nth_error m i = Some true ->
  c <> "probability" ->
  exists vs, broadcast (count m) v = Some vs /\ getcell t' c i = nth_error vs (rank m i).
Proof.
  intros [_ HL] Hm H Hi N. unfold assign_col_value in H. apply String.eqb_neq in N. rewrite N in H.
  destruct (getcol t c) as [old|] eqn:G; [|discriminate].
  destruct (broadcast (count m) v) as [vs|] eqn:B; [|discriminate]. injection H as <-.
  exists vs. split; [reflexivity|]. rewrite getcell_setcol_eq. apply mask_write_hit; try assumption.
  - rewrite Hm. symmetry. eapply HL. exact G.
  - eapply broadcast_length. exact B.
Qed.

Lemma cmul_list_nth a b new k : cmul_list a b = Some new -> k < length a ->
  exists x y z, nth_error a k = Some x /\ nth_error b k = Some y /\ nth_error new k = Some z /\ cmul x y = Some z.
Proof.
  revert b new k. induction a as [|x a IH]; intros b new k H Hk; [cbn in Hk; lia|].
  destruct b as [|y b]; [discriminate|]. cbn [cmul_list] in H.
  destruct (cmul x y) as [z|] eqn:E; [|discriminate]. destruct (cmul_list a b) as [zs|] eqn:E'; [|discriminate].
  injection H as <-. destruct k as [|k].
  - exists x, y, z. cbn [nth_error]. tauto.
  - cbn [nth_error]. apply IH; [exact E'|]. cbn [length] in Hk. lia.
Qed.

Lemma cmul_list_length a b new : cmul_list a b = Some new -> length new = length a.
Proof.
  revert b new. induction a as [|x a IH]; intros b new H; destruct b as [|y b]; try discriminate.
  - cbn in H. now injection H as <-.
  - cbn [cmul_list] in H. destruct (cmul x y); [|discriminate]. destruct (cmul_list a b) as [zs|] eqn:E; [|discriminate].
    injection H as <-. cbn [length]. f_equal. eapply IH. exact E.
Qed.

Lemma assign_prob_get m v t t' i :
  wf t -> length m = nrows t -> assign_col_value (Some "probability") m v t = (t', None) -> nth_error m i = Some true ->
  exists vs old fac new, broadcast (count m) v = Some vs /\ getcell t "probability" i = Some old /\
    nth_error vs (rank m i) = Some fac /\ cmul old fac = Some new /\ getcell t' "probability" i = Some new.
Proof.
  intros [_ HL] Hm H Hi. unfold assign_col_value in H. cbn [String.eqb Ascii.eqb Bool.eqb] in H.
  destruct (value_bad v); [discriminate|].
  destruct (getcol t "probability") as [old|] eqn:G; [|discriminate].
  destruct (broadcast (count m) v) as [vs|] eqn:B; [|discriminate].
  destruct (cmul_list (select m old) vs) as [new|] eqn:E; [|discriminate]. injection H as <-.
  assert (L : length m = length old) by (rewrite Hm; symmetry; eapply HL; exact G).
  destruct (cmul_list_nth _ _ _ (rank m i) E) as (x & y & z & X1 & X2 & X3 & X4).
  { rewrite select_length by exact L. now apply rank_lt. }
  exists vs, x, y, z. split; [reflexivity|]. rewrite select_nth in X1 by assumption.
  split; [unfold getcell; now rewrite G|]. split; [exact X2|]. split; [exact X4|].
  rewrite getcell_setcol_eq. rewrite mask_write_hit; try assumption.
  rewrite (cmul_list_length _ _ _ E). apply select_length. exact L.
Qed.

Lemma assign_other c c' m v t t' i :
  assign_col_value c m v t = (t', None) -> c <> Some c' -> getcell t' c' i = getcell t c' i.
Proof.
  intros H N. pose proof (sb_assign (opt_list c) c m v) as S. specialize (S ltac:(intros n ->; now left) t c').
  rewrite H in S. cbn [fst] in S. unfold getcell. rewrite S; [reflexivity|].
  destruct c as [c|]; cbn [opt_list In]; [|tauto]. intros [->|[]]. now apply N.
Qed.

(** values of a list of assignments: the one for column [c] *)
Lemma assigns_get m outs : forall t t' c v i,
  wf t -> length m = nrows t ->
  steps (map (fun cv => assign_col_value (fst cv) m (snd cv)) outs) t = (t', None) ->
  NoDup (map fst outs) -> In (Some c, v) outs -> nth_error m i = Some true -> c <> "probability" ->
  exists vs, broadcast (count m) v = Some vs /\ getcell t' c i = nth_error vs (rank m i).
Proof.
  induction outs as [|[c0 v0] outs IH]; intros t t' c v i W L H ND Hin Hi N; [contradiction|].
  cbn [map fst snd] in *. unfold steps in H. cbn [fold_right] in H. apply andthen_ok in H.
  destruct H as (t1 & H1 & H2). inversion ND as [|? ? Hnot ND']; subst.
  assert (W1 : wf t1) by (pose proof (sw_assign c0 m v0 t W) as X; now rewrite H1 in X).
  assert (L1 : length m = nrows t1) by (pose proof (assign_nrows c0 m v0 t) as X; rewrite H1 in X; cbn in X; congruence).
  destruct Hin as [E|Hin].
  - injection E as -> ->.
    destruct (assign_get c m v t t1 i W L H1 Hi N) as (vs & B & G). exists vs. split; [exact B|].
    rewrite <- G. clear -H2 Hnot N. revert t1 H2. induction outs as [|[c1 v1] outs IHo]; intros t1 H2.
    + cbn in H2. injection H2 as <-. reflexivity.
    + cbn [map fst snd In] in *. unfold steps in H2. cbn [fold_right] in H2. apply andthen_ok in H2.
      destruct H2 as (t2 & H3 & H4). rewrite (IHo ltac:(tauto) t2 H4). eapply assign_other; [exact H3|].
      intros ->. apply Hnot. now left.
  - eapply IH; eassumption.
Qed.

Lemma assigns_prob m outs : forall t t' v i,
  wf t -> length m = nrows t ->
  steps (map (fun cv => assign_col_value (fst cv) m (snd cv)) outs) t = (t', None) ->
  NoDup (map fst outs) -> In (Some "probability", v) outs -> nth_error m i = Some true ->
  exists vs old fac new, broadcast (count m) v = Some vs /\ getcell t "probability" i = Some old /\
    nth_error vs (rank m i) = Some fac /\ cmul old fac = Some new /\ getcell t' "probability" i = Some new.
Proof.
  induction outs as [|[c0 v0] outs IH]; intros t t' v i W L H ND Hin Hi; [contradiction|].
  cbn [map fst snd] in *. unfold steps in H. cbn [fold_right] in H. apply andthen_ok in H.
  destruct H as (t1 & H1 & H2). inversion ND as [|? ? Hnot ND']; subst.
  assert (W1 : wf t1) by (pose proof (sw_assign c0 m v0 t W) as X; now rewrite H1 in X).
  assert (L1 : length m = nrows t1) by (pose proof (assign_nrows c0 m v0 t) as X; rewrite H1 in X; cbn in X; congruence).
  destruct Hin as [E|Hin].
  - injection E as -> ->.
    destruct (assign_prob_get m v t t1 i W L H1 Hi) as (vs & old & fac & new & B1 & B2 & B3 & B4 & B5).
    exists vs, old, fac, new. repeat (split; [assumption|]). rewrite <- B5. clear -H2 Hnot. revert t1 H2.
    induction outs as [|[c1 v1] outs IHo]; intros t1 H2.
    + cbn in H2. injection H2 as <-. reflexivity.
    + cbn [map fst snd In] in *. unfold steps in H2. cbn [fold_right] in H2. apply andthen_ok in H2.
      destruct H2 as (t2 & H3 & H4). rewrite (IHo ltac:(tauto) t2 H4). eapply assign_other; [exact H3|].
      intros ->. apply Hnot. now left.
  - destruct (IH t1 t' v i W1 L1 H2 ND' Hin Hi) as (vs & old & fac & new & B1 & B2 & B3 & B4 & B5).
    exists vs, old, fac, new. split; [exact B1|]. split; [|tauto].
    rewrite <- B2. symmetry. eapply assign_other; [exact H1|]. intros ->. apply Hnot.
    apply in_map_iff. exists (Some "probability", v). now split.
Qed.

(** the four stages of a successful call with at least one hit *)
Lemma process_photons_stages e m ipos icoos t t' :
  process_photons e m ipos icoos t = (t', None) -> existsb (fun b => b) m = true -> wf t ->
  length m = nrows t /\ length ipos = nrows t /\ length icoos = nrows t /\
  exists t1 t2 t3,
    process_values e m t = (t1, None) /\
    (match loc_coos_name e with
     | None => ret
     | Some (a, b) =>
         steps [add_output_cols e [Some a; Some b];
                write_col a m (select m (map fst icoos));
                write_col b m (select m (map snd icoos))]
     end) t1 = (t2, None) /\
    (match id_col e with
     | None => ret
     | Some c => write_col c m (repeat (CInt (id_num e)) (count m))
     end) t2 = (t3, None) /\
    write_col "pos" m (select m ipos) t3 = (t', None) /\
    wf t1 /\ wf t2 /\ wf t3 /\ nrows t1 = nrows t /\ nrows t2 = nrows t /\ nrows t3 = nrows t.
Proof.
  intros H Hex W. unfold process_photons in H. rewrite Hex in H. cbn [negb] in H.
  destruct (Nat.eqb (length m) (nrows t)) eqn:E1; [|discriminate].
  destruct (Nat.eqb (length ipos) (nrows t)) eqn:E2; [|discriminate].
  destruct (Nat.eqb (length icoos) (nrows t)) eqn:E3; [|discriminate].
  apply Nat.eqb_eq in E1, E2, E3. cbn [andb negb] in H. unfold steps in H at 1. cbn [fold_right] in H.
  split; [exact E1|]. split; [exact E2|]. split; [exact E3|].
  apply andthen_ok in H. destruct H as (t1 & H1 & H). apply andthen_ok in H. destruct H as (t2 & H2 & H).
  apply andthen_ok in H. destruct H as (t3 & H3 & H). apply andthen_ok in H. destruct H as (t4 & H4 & H).
  injection H as <-. exists t1, t2, t3. split; [exact H1|]. split; [exact H2|]. split; [exact H3|]. split; [exact H4|].
  assert (W1 : wf t1) by (pose proof (sw_process_values e m t W) as X; now rewrite H1 in X).
  assert (N1 : nrows t1 = nrows t).
  { pose proof (sc_process_values m e t) as [X _]. now rewrite H1 in X. }
  assert (W2 : wf t2 /\ nrows t2 = nrows t1).
  { destruct (loc_coos_name e) as [[a b]|].
    - set (f := steps _) in H2.
      assert (S1 : step_wf f).
      { apply sw_steps. constructor; [apply sw_add_output|]. constructor; [apply sw_write|].
        constructor; [apply sw_write|constructor]. }
      assert (S2 : step_co m (opt_list (id_col e)) f).
      { apply sc_steps. constructor; [apply sc_add_output|]. constructor; [apply sc_write|].
        constructor; [apply sc_write|constructor]. }
      specialize (S1 t1 W1). specialize (S2 t1). rewrite H2 in S1, S2. split; [exact S1|apply S2].
    - cbn in H2. injection H2 as <-. now split. }
  assert (W3 : wf t3 /\ nrows t3 = nrows t2).
  { destruct (id_col e) as [c|].
    - pose proof (sw_write c m (repeat (CInt (id_num e)) (count m)) t2 (proj1 W2)) as X.
      pose proof (write_nrows c m (repeat (CInt (id_num e)) (count m)) t2) as Y. rewrite H3 in X, Y. now split.
    - cbn in H3. injection H3 as <-. split; [apply W2|reflexivity]. }
  destruct W2 as [W2 N2]. destruct W3 as [W3 N3].
  split; [exact W1|]. split; [exact W2|]. split; [exact W3|]. repeat split; congruence.
Qed.

Lemma loc_stage_other e m icoos t1 t2 c i x :
  (match loc_coos_name e with
     | None => ret
     | Some (a, b) =>
         steps [add_output_cols e [Some a; Some b];
                write_col a m (select m (map fst icoos));
                write_col b m (select m (map snd icoos))]
     end) t1 = (t2, None) ->
  ~ In c (loc_list e) -> getcell t1 c i = Some x -> getcell t2 c i = Some x.
Proof.
  intros H N G. unfold loc_list in N. destruct (loc_coos_name e) as [[a b]|].
  - unfold steps in H. cbn [fold_right] in H. apply andthen_ok in H. destruct H as (u1 & H1 & H).
    apply andthen_ok in H. destruct H as (u2 & H2 & H). apply andthen_ok in H. destruct H as (u3 & H3 & H).
    injection H as <-. rewrite (write_col_other _ _ _ _ _ _ _ H3) by (intros ->; apply N; cbn [In]; tauto).
    rewrite (write_col_other _ _ _ _ _ _ _ H2) by (intros ->; apply N; cbn [In]; tauto).
    destruct (add_output_keeps e [Some a; Some b] t1 c (getcell_some_in _ _ _ _ G)) as [E _].
    rewrite H1 in E. cbn [fst] in E. unfold getcell in *. now rewrite E.
  - cbn in H. injection H as <-. exact G.
Qed.

Lemma id_stage_other e m t2 t3 c i :
  (match id_col e with None => ret | Some c => write_col c m (repeat (CInt (id_num e)) (count m)) end) t2 = (t3, None) ->
  id_col e <> Some c -> getcell t3 c i = getcell t2 c i.
Proof.
  intros H N. destruct (id_col e) as [c'|].
  - eapply write_col_other; [exact H|congruence].
  - cbn in H. now injection H as <-.
Qed.

Lemma process_hit_values e m ipos icoos t t' i :
  wf t -> process_photons e m ipos icoos t = (t', None) -> nth_error m i = Some true ->
  getcell t' "pos" i = nth_error ipos i /\
  (forall c, id_col e = Some c -> c <> "pos" -> getcell t' c i = Some (CInt (id_num e))) /\
  (forall a b, loc_coos_name e = Some (a, b) -> a <> b -> ~ In "pos" [a; b] -> id_col e <> Some a -> id_col e <> Some b ->
     getcell t' a i = option_map fst (nth_error icoos i) /\ getcell t' b i = option_map snd (nth_error icoos i)) /\
  (forall f outs, meth e = Specific f -> f t m = Ok outs -> NoDup (map fst outs) ->
     (forall c v, In (Some c, v) outs -> c <> "probability" -> ~ In c (loc_list e) -> id_col e <> Some c -> c <> "pos" ->
        exists vs, broadcast (count m) v = Some vs /\ getcell t' c i = nth_error vs (rank m i)) /\
     (forall v, In (Some "probability", v) outs -> ~ In "probability" (loc_list e) -> id_col e <> Some "probability" ->
        In "probability" (colnames t) ->
        exists vs old fac new, broadcast (count m) v = Some vs /\ getcell t "probability" i = Some old /\
          nth_error vs (rank m i) = Some fac /\ cmul old fac = Some new /\ getcell t' "probability" i = Some new)).
Proof.
  intros W H Hi.
  assert (Hex : existsb (fun b => b) m = true).
  { apply existsb_exists. exists true. split; [|reflexivity]. eapply nth_error_In. exact Hi. }
  destruct (process_photons_stages e m ipos icoos t t' H Hex W)
    as (L1 & L2 & L3 & t1 & t2 & t3 & H1 & H2 & H3 & H4 & W1 & W2 & W3 & N1 & N2 & N3).
  assert (Hpos : forall c, c <> "pos" -> getcell t' c i = getcell t3 c i).
  { intros c Hc. eapply write_col_other; [exact H4|exact Hc]. }
  split; [|split; [|split]].
  - rewrite (write_col_get "pos" m (select m ipos) t3 t' i); try assumption; try congruence.
    + apply select_nth; [congruence|exact Hi].
    + apply select_length. congruence.
  - intros c Ec Nc. rewrite Hpos by exact Nc. rewrite Ec in H3.
    rewrite (write_col_get c m _ t2 t3 i W2 ltac:(congruence) ltac:(apply repeat_length) H3 Hi).
    apply nth_error_repeat. now apply rank_lt.
  - intros a b El Nab Np Nia Nib. cbn [In] in Np.
    rewrite !Hpos by (intros E; apply Np; rewrite <- E; tauto).
    rewrite !(id_stage_other e m t2 t3 _ i H3) by assumption.
    rewrite El in H2. unfold steps in H2. cbn [fold_right] in H2. apply andthen_ok in H2. destruct H2 as (u1 & G1 & H2).
    apply andthen_ok in H2. destruct H2 as (u2 & G2 & H2). apply andthen_ok in H2. destruct H2 as (u3 & G3 & H2).
    injection H2 as <-.
    assert (Wu1 : wf u1) by (pose proof (sw_add_output e [Some a; Some b] t1 W1) as X; now rewrite G1 in X).
    assert (Nu1 : nrows u1 = nrows t1) by (pose proof (add_output_nrows e [Some a; Some b] t1) as X; now rewrite G1 in X).
    assert (Wu2 : wf u2) by (pose proof (sw_write a m (select m (map fst icoos)) u1 Wu1) as X; now rewrite G2 in X).
    assert (Nu2 : nrows u2 = nrows u1) by (pose proof (write_nrows a m (select m (map fst icoos)) u1) as X; now rewrite G2 in X).
    split.
    + rewrite (write_col_other _ _ _ _ _ _ i G3 Nab).
      rewrite (write_col_get a m (select m (map fst icoos)) u1 u2 i Wu1 ltac:(congruence) ltac:(apply select_length; rewrite map_length; lia) G2 Hi).
      rewrite select_nth; [|rewrite map_length; lia|exact Hi]. apply nth_error_map.
    + rewrite (write_col_get b m (select m (map snd icoos)) u2 u3 i Wu2 ltac:(lia) ltac:(apply select_length; rewrite map_length; lia) G3 Hi).
      rewrite select_nth; [|rewrite map_length; lia|exact Hi]. apply nth_error_map.
  - intros f outs Em Ef ND. unfold process_values in H1. rewrite Em, Ef in H1.
    apply andthen_ok in H1. destruct H1 as (u & G1 & G2).
    assert (Wu : wf u) by (pose proof (sw_add_output e (map fst outs) t W) as X; now rewrite G1 in X).
    assert (Nu : nrows u = nrows t) by (pose proof (add_output_nrows e (map fst outs) t) as X; now rewrite G1 in X).
    split.
    + intros c v Hin Nc Nl Ni Np.
      destruct (assigns_get m outs u t1 c v i Wu ltac:(congruence) G2 ND Hin Hi Nc) as (vs & B & G).
      exists vs. split; [exact B|]. rewrite Hpos by exact Np. rewrite (id_stage_other e m t2 t3 c i H3 Ni).
      pose proof (rank_lt m i Hi) as Hr. pose proof (broadcast_length _ _ _ B) as Lb.
      destruct (nth_error vs (rank m i)) as [x|] eqn:Ex; [|apply nth_error_None in Ex; lia].
      eapply loc_stage_other; [exact H2|exact Nl|exact G].
    + intros v Hin Nl Ni Hp.
      destruct (assigns_prob m outs u t1 v i Wu ltac:(congruence) G2 ND Hin Hi) as (vs & old & fac & new & B1 & B2 & B3 & B4 & B5).
      exists vs, old, fac, new. split; [exact B1|]. split; [|split; [exact B3|split; [exact B4|]]].
      * destruct (add_output_keeps e (map fst outs) t _ Hp) as [E _]. rewrite G1 in E. cbn [fst] in E.
        unfold getcell in *. now rewrite <- E.
      * rewrite Hpos by discriminate. rewrite (id_stage_other e m t2 t3 _ i H3 Ni).
        eapply loc_stage_other; [exact H2|exact Nl|exact B5].
Qed.
