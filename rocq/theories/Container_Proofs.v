(** Lemmas about [Container_Model]. *)
From Verif Require Import Base_Proofs Container_Model.
From Coq Require Import Sorted Lqa.

Lemma tree_ind' (P : tree -> Prop) :
  (forall i m c k, Forall P k -> P (Tree i m c k)) -> forall t, P t.
Proof.
  intros H. fix IH 1. intros [i m c k]. apply H. induction k as [|t k IHk]; constructor; [apply IH|exact IHk].
Qed.

Lemma elements_of_eq cmp stop t : elements_of cmp stop t =
  (if cmp t then [t] else []) ++
  (if cmp t && stop then []
   else flat_map (fun e => if cmp e then [e] else if cont e then elements_of cmp false e else []) (kids t)).
Proof. destruct t. cbn [elements_of]. destruct (cmp _ && stop) eqn:E; [now rewrite app_nil_r|reflexivity]. Qed.

Lemma nodes_eq t : nodes t = t :: flat_map nodes (kids t).
Proof. now destruct t. Qed.

Lemma subseq_refl {A} (l : list A) : subseq l l.
Proof. induction l; constructor; assumption. Qed.
Lemma subseq_nil {A} (l : list A) : subseq [] l.
Proof. induction l; constructor; assumption. Qed.
Lemma subseq_app {A} (a a' b b' : list A) : subseq a a' -> subseq b b' -> subseq (a ++ b) (a' ++ b').
Proof. induction 1; cbn [app]; intros; try constructor; auto. Qed.

Lemma filter_app' {A} (f : A -> bool) l l' : filter f (l ++ l') = filter f l ++ filter f l'.
Proof. apply filter_app. Qed.

(** what the search adds for one sub-element *)
Definition pick (cmp : tree -> bool) (e : tree) : list tree :=
  if cmp e then [e] else if cont e then elements_of cmp false e else [].

Lemma pick_elements cmp e : cmp e = false -> elements_of cmp false e = flat_map (pick cmp) (kids e).
Proof. intros H. rewrite elements_of_eq, H. reflexivity. Qed.

Lemma pick_subseq cmp e : subseq (pick cmp e) (filter cmp (nodes e)).
Proof.
  induction e as [i m c k IH] using tree_ind'. unfold pick. destruct (cmp (Tree i m c k)) eqn:E.
  - rewrite nodes_eq. cbn [filter]. rewrite E. constructor. apply subseq_nil.
  - cbn [cont]. destruct c; [|apply subseq_nil]. rewrite pick_elements by exact E. rewrite nodes_eq. cbn [filter kids].
    rewrite E. clear E. induction IH as [|e k He Hk IHk]; [constructor|]. cbn [flat_map]. rewrite filter_app.
    apply subseq_app; assumption.
Qed.

Lemma elements_subseq cmp stop t : subseq (elements_of cmp stop t) (filter cmp (nodes t)).
Proof.
  rewrite elements_of_eq, nodes_eq. cbn [filter]. destruct (cmp t) eqn:E; cbn [andb app].
  - constructor. destruct stop; [apply subseq_nil|]. induction (kids t) as [|e k IHk]; [constructor|].
    cbn [flat_map]. rewrite filter_app. apply subseq_app; [apply pick_subseq|exact IHk].
  - induction (kids t) as [|e k IHk]; [constructor|].
    cbn [flat_map]. rewrite filter_app. apply subseq_app; [apply pick_subseq|exact IHk].
Qed.

Lemma subseq_In {A} (l l' : list A) x : subseq l l' -> In x l -> In x l'.
Proof. induction 1; cbn [In]; intuition. Qed.

Lemma filter_none {A} (f : A -> bool) l : (forall x, In x l -> f x = false) -> filter f l = [].
Proof.
  induction l as [|x l IH]; intros H; [reflexivity|]. cbn [filter]. rewrite (H x (or_introl eq_refl)).
  apply IH. intros y Hy. apply H. now right.
Qed.

Lemma nodes_kid t k n : In k (kids t) -> In n (nodes k) -> In n (nodes t).
Proof. intros Hk Hn. rewrite nodes_eq. right. apply in_flat_map. eauto. Qed.

Lemma pick_all cmp e :
  (forall n, In n (nodes e) -> cont n = false -> kids n = []) ->
  (forall n d, In n (nodes e) -> cmp n = true -> In d (flat_map nodes (kids n)) -> cmp d = false) ->
  pick cmp e = filter cmp (nodes e).
Proof.
  induction e as [i m c k IH] using tree_ind'. intros H1 H2. unfold pick. rewrite nodes_eq. cbn [filter kids].
  destruct (cmp (Tree i m c k)) eqn:E.
  - rewrite (filter_none cmp (flat_map nodes k)); [reflexivity|]. intros d Hd. apply (H2 (Tree i m c k)); try assumption.
    rewrite nodes_eq. now left.
  - cbn [cont]. destruct c.
    + rewrite pick_elements by exact E. cbn [kids]. clear E.
      rewrite Forall_forall in IH.
      assert (G : forall k', incl k' k -> flat_map (pick cmp) k' = filter cmp (flat_map nodes k')).
      2: { apply (G k (incl_refl k)). }
      intros k' Hi. induction k' as [|e k' IHk]; [reflexivity|]. cbn [flat_map]. rewrite filter_app.
      assert (Hin : In e (kids (Tree i m true k))) by (apply Hi; now left).
      f_equal.
      * apply IH; [exact Hin| |].
        -- intros n Hn. apply H1. now apply (nodes_kid _ e).
        -- intros n d Hn. apply H2. now apply (nodes_kid _ e).
      * apply IHk. intros x Hx. apply Hi. now right.
    + specialize (H1 (Tree i m false k)). cbn [kids cont] in H1. rewrite H1; [reflexivity| |reflexivity].
      rewrite nodes_eq. now left.
Qed.

Lemma elements_all cmp t :
  only_containers_nest t -> matches_not_nested cmp t -> elements_of cmp false t = filter cmp (nodes t).
Proof.
  intros H1 H2. rewrite elements_of_eq, andb_false_r, nodes_eq. cbn [filter].
  assert (G : forall k', incl k' (kids t) -> flat_map (pick cmp) k' = filter cmp (flat_map nodes k')).
  { induction k' as [|e k' IHk]; intros Hi; [reflexivity|]. cbn [flat_map]. rewrite filter_app.
    assert (Hin : In e (kids t)) by (apply Hi; now left). f_equal.
    - apply pick_all.
      + intros n Hn. apply H1. now apply (nodes_kid _ e).
      + intros n d Hn Hc Hd. now apply (H2 e n d).
    - apply IHk. intros x Hx. apply Hi. now right. }
  fold (pick cmp). change (flat_map (fun e => if cmp e then [e] else if cont e then elements_of cmp false e else []) (kids t))
    with (flat_map (pick cmp) (kids t)).
  rewrite G by apply incl_refl. now destruct (cmp t).
Qed.

Lemma stop_no_effect cmp t : cmp t = false -> elements_of cmp true t = elements_of cmp false t.
Proof. intros H. rewrite !elements_of_eq, H. reflexivity. Qed.

(** outermost matches *)
Lemma pick_path cmp e n : In n (pick cmp e) <->
  exists p, sub e p = Some n /\ cmp n = true /\
    forall q r, p = q ++ r -> r <> [] -> exists a, sub e q = Some a /\ cmp a = false /\ cont a = true.
Proof.
  revert n. induction e as [i m c k IH] using tree_ind'. intros n. unfold pick. destruct (cmp (Tree i m c k)) eqn:E.
  - split.
    + intros [<-|[]]. exists []. split; [reflexivity|]. split; [exact E|]. intros q r H Hr.
      symmetry in H. apply app_eq_nil in H. destruct H; contradiction.
    + intros (p & Hs & Hc & Hp). destruct p as [|j p]; [cbn in Hs; injection Hs as <-; now left|].
      destruct (Hp [] (j :: p) eq_refl) as (a & Ha & Hf & _); [discriminate|]. cbn in Ha. injection Ha as <-. congruence.
  - cbn [cont]. destruct c.
    + rewrite pick_elements by exact E. cbn [kids]. rewrite in_flat_map. split.
      * intros (e & He & Hn). rewrite Forall_forall in IH. apply (IH e He) in Hn.
        destruct Hn as (p & Hs & Hc & Hp). apply In_nth_error in He. destruct He as [j Hj].
        exists (j :: p). cbn [sub kids]. rewrite Hj. split; [exact Hs|]. split; [exact Hc|].
        intros q r Hq Hr. destruct q as [|j' q].
        -- exists (Tree i m true k). cbn [sub cont]. auto.
        -- injection Hq as <- Hq. destruct (Hp q r Hq Hr) as (a & Ha & Hb). exists a. cbn [sub kids]. rewrite Hj. auto.
      * intros (p & Hs & Hc & Hp). destruct p as [|j p]; [cbn in Hs; injection Hs as <-; congruence|].
        cbn [sub kids] in Hs. destruct (nth_error k j) as [e|] eqn:Hj; [|discriminate].
        exists e. split; [now apply nth_error_In in Hj|]. rewrite Forall_forall in IH. apply IH.
        { now apply nth_error_In in Hj. }
        exists p. split; [exact Hs|]. split; [exact Hc|]. intros q r Hq Hr.
        destruct (Hp (j :: q) r) as (a & Ha & Hb); [now subst p|exact Hr|]. cbn [sub kids] in Ha. rewrite Hj in Ha. eauto.
    + split; [contradiction|]. intros (p & Hs & Hc & Hp). destruct p as [|j p]; [cbn in Hs; injection Hs as <-; congruence|].
      destruct (Hp [] (j :: p) eq_refl) as (a & Ha & _ & Hf); [discriminate|]. cbn in Ha. injection Ha as <-. discriminate.
Qed.

Lemma elements_true_pick cmp t : cont t = true -> elements_of cmp true t = pick cmp t.
Proof.
  intros H. unfold pick. rewrite elements_of_eq. destruct (cmp t) eqn:E; cbn [andb app]; [reflexivity|].
  rewrite H. symmetry. now apply pick_elements.
Qed.

Lemma stop_at_first_outermost cmp t n : cont t = true ->
  (In n (elements_of cmp true t) <->
   exists p, sub t p = Some n /\ cmp n = true /\
     forall q r, p = q ++ r -> r <> [] -> exists a, sub t q = Some a /\ cmp a = false /\ cont a = true).
Proof. intros H. rewrite elements_true_pick by exact H. apply pick_path. Qed.

(** *** first_of_class_top_level *)

Lemma sub_nodes t p n : sub t p = Some n -> In n (nodes t).
Proof.
  revert t. induction p as [|i p IH]; intros t H; rewrite nodes_eq; cbn [sub] in H.
  - injection H as <-. now left.
  - destruct (nth_error (kids t) i) as [k|] eqn:E; [|discriminate]. right. apply in_flat_map. exists k.
    split; [now apply nth_error_In in E|now apply IH].
Qed.

Lemma pick_nonempty cmp e : only_containers_nest e ->
  (pick cmp e <> [] <-> exists n, In n (nodes e) /\ cmp n = true).
Proof.
  intros H. split.
  - intros Hp. destruct (pick cmp e) as [|n l] eqn:E; [contradiction|].
    assert (Hin : In n (pick cmp e)) by (rewrite E; now left).
    apply (subseq_In _ _ _ (pick_subseq cmp e)) in Hin. apply filter_In in Hin. eauto.
  - revert H. induction e as [i m c k IH] using tree_ind'. intros H (n & Hn & Hc). unfold pick.
    destruct (cmp (Tree i m c k)) eqn:E; [discriminate|].
    rewrite nodes_eq in Hn. destruct Hn as [<-|Hn]; [congruence|].
    cbn [cont kids] in *. destruct c.
    + rewrite pick_elements by exact E. cbn [kids]. apply in_flat_map in Hn. destruct Hn as (e & He & Hn).
      rewrite Forall_forall in IH. specialize (IH e He).
      assert (Hne : pick cmp e <> []).
      { apply IH; [|eauto]. intros x Hx. apply H. now apply (nodes_kid _ e). }
      intros Hf. apply Hne. destruct (pick cmp e) as [|y l] eqn:Ep; [reflexivity|]. exfalso.
      assert (Hy : In y (flat_map (pick cmp) k)) by (apply in_flat_map; exists e; rewrite Ep; split; [exact He|now left]).
      rewrite Hf in Hy. contradiction.
    + specialize (H (Tree i m false k)). cbn [kids cont] in H. rewrite H in Hn; [contradiction| |reflexivity].
      rewrite nodes_eq. now left.
Qed.

Lemma first_from_spec cmp : forall l i,
  (forall e, In e l -> only_containers_nest e) ->
  match first_from cmp i l with
  | Some j => i <= j /\ (exists e n, nth_error l (j - i) = Some e /\ In n (nodes e) /\ cmp n = true) /\
              (forall k e n, k < j - i -> nth_error l k = Some e -> In n (nodes e) -> cmp n = false)
  | None => forall e n, In e l -> In n (nodes e) -> cmp n = false
  end.
Proof.
  induction l as [|e l IH]; intros i H; cbn [first_from]; [contradiction|].
  assert (He : only_containers_nest e) by (apply H; now left).
  assert (Hl : forall e, In e l -> only_containers_nest e) by (intros x Hx; apply H; now right).
  assert (Hyes : pick cmp e <> [] -> i <= i /\
     (exists e0 n, nth_error (e :: l) (i - i) = Some e0 /\ In n (nodes e0) /\ cmp n = true) /\
     (forall k e0 n, k < i - i -> nth_error (e :: l) k = Some e0 -> In n (nodes e0) -> cmp n = false)).
  { intros Hne. rewrite Nat.sub_diag. split; [lia|]. split; [|intros; lia].
    apply pick_nonempty in Hne; [|exact He]. destruct Hne as (n & Hn & Hc). exists e, n. auto. }
  destruct (cmp e) eqn:E.
  - apply Hyes. unfold pick. rewrite E. discriminate.
  - destruct (cont e && Nat.ltb 0 (length (elements_of cmp false e))) eqn:E2.
    + apply andb_true_iff in E2. destruct E2 as [E2 E3]. apply Hyes. unfold pick. rewrite E, E2.
      apply Nat.ltb_lt in E3. destruct (elements_of cmp false e); [cbn in E3; lia|discriminate].
    + assert (Hno : forall n, In n (nodes e) -> cmp n = false).
      { intros n Hn. destruct (cmp n) eqn:En; [|reflexivity]. exfalso.
        assert (Hne : pick cmp e <> []) by (apply pick_nonempty; eauto).
        apply Hne. unfold pick. rewrite E. destruct (cont e); [|reflexivity]. cbn [andb] in E2.
        apply Nat.ltb_ge in E2. destruct (elements_of cmp false e); [reflexivity|cbn in E2; lia]. }
      specialize (IH (S i) Hl). destruct (first_from cmp (S i) l) as [j|].
      * destruct IH as (Hij & (e' & n & Hn & Hin & Hc) & Hb). split; [lia|].
        replace (j - i) with (S (j - S i)) by lia. split; [exists e', n; auto|].
        intros k e0 n0 Hk Hnth Hn0. destruct k as [|k].
        -- cbn in Hnth. injection Hnth as <-. auto.
        -- cbn in Hnth. apply (Hb k e0 n0); auto. lia.
      * intros e0 n [<-|Hin] Hn; [auto|]. eapply IH; eauto.
Qed.

(** *** calling *)
Section Calling.
  Context {P W R : Type}.
  Local Notation act := (@act P W). Local Notation hook := (@hook P W R).

  Lemma then_assoc (a b c : act) s : then_ (then_ a b) c s = then_ a (then_ b c) s.
  Proof. unfold then_. destruct (a s) as [s' [e|]]; reflexivity. Qed.
  Lemma then_skip (a : act) s : then_ a skip s = a s.
  Proof. unfold then_, skip. destruct (a s) as [s' [e|]]; reflexivity. Qed.
  Lemma then_ext (a a' b b' : act) s : a s = a' s -> (forall s', b s' = b' s') -> then_ a b s = then_ a' b' s.
  Proof. intros H1 H2. unfold then_. rewrite H1. destruct (a' s) as [s' [e|]]; auto. Qed.
  Lemma all_app (l l' : list act) s : all_ (l ++ l') s = then_ (all_ l) (all_ l') s.
  Proof.
    revert s. induction l as [|a l IH]; intros s; cbn [app all_ fold_right]; [reflexivity|].
    fold (all_ (l ++ l')) (all_ l). rewrite then_assoc. apply then_ext; [reflexivity|exact IH].
  Qed.

  Lemma call_flat (els : list act) (pre post : list hook) s :
    call els pre post s = all_ (flat_map (fun e => map run_hook pre ++ [e] ++ map run_hook post) els) s.
  Proof.
    revert s. induction els as [|e els IH]; intros s; [reflexivity|]. cbn [call flat_map].
    rewrite <- app_assoc, all_app. apply then_ext; [reflexivity|]. intros s1. cbn [app].
    match goal with |- _ = all_ (e :: ?x) s1 => change (all_ (e :: x) s1) with (then_ e (all_ x) s1) end.
    apply then_ext; [reflexivity|]. intros s2. rewrite all_app. apply then_ext; [reflexivity|]. exact IH.
  Qed.

  Lemma call_app (a b : list act) (pre post : list hook) s :
    call (a ++ b) pre post s = then_ (call a pre post) (call b pre post) s.
  Proof.
    rewrite call_flat, flat_map_app, all_app. apply then_ext; [symmetry; apply call_flat|]. intros. symmetry. apply call_flat.
  Qed.

  Definition quiet (a : act) : Prop := forall p w, exists w', a (p, w) = ((p, w'), None).
  Lemma quiet_hooks (hs : list hook) : Forall observer hs -> quiet (all_ (map run_hook hs)).
  Proof.
    induction 1 as [|h hs Hh Hhs IH]; intros p w; [now exists w|]. cbn [map all_ fold_right].
    destruct (Hh p w) as (w1 & r & E). unfold then_, run_hook at 1. rewrite E. apply IH.
  Qed.

  Lemma call_observed (els : list act) (pre post : list hook) :
    Forall observer pre -> Forall observer post -> Forall self_contained els ->
    forall p w w', fst (fst (call els pre post (p, w))) = fst (fst (call els ([] : list hook) [] (p, w'))) /\
                   snd (call els pre post (p, w)) = snd (call els ([] : list hook) [] (p, w')).
  Proof.
    intros Hpre Hpost Hels. apply quiet_hooks in Hpre. apply quiet_hooks in Hpost.
    induction Hels as [|e els He Hels IH]; intros p w w'; [split; reflexivity|].
    cbn [call]. unfold then_. destruct (Hpre p w) as [w1 Ew]. rewrite !Ew. cbn [map all_ fold_right skip].
    unfold skip.
    destruct (He p w1 w') as [E1 E2]. destruct (e (p, w1)) as [[p1 x1] o1]. destruct (e (p, w')) as [[p2 x2] o2].
    cbn [fst snd] in E1, E2. subst p2 o2. destruct o1 as [er|]; [split; reflexivity|].
    destruct (Hpost p1 x1) as [w2 Ew2]. rewrite !Ew2. apply IH.
  Qed.

  Lemma call_hook_values (els : list act) (pre post pre' post' : list hook) s :
    Forall2 (fun h h' : hook => forall s, run_hook h s = run_hook h' s) pre pre' ->
    Forall2 (fun h h' : hook => forall s, run_hook h s = run_hook h' s) post post' ->
    call els pre post s = call els pre' post' s.
  Proof.
    intros H1 H2.
    assert (A : forall l l', Forall2 (fun h h' : hook => forall s, run_hook h s = run_hook h' s) l l' ->
                forall s, all_ (map run_hook l) s = all_ (map run_hook l') s).
    { induction 1 as [|h h' l l' Hh Hl IH]; intros s0; [reflexivity|]. cbn [map all_ fold_right]. now apply then_ext. }
    revert s. induction els as [|e els IH]; intros s; [reflexivity|]. cbn [call].
    apply then_ext; [now apply A|]. intros s1. apply then_ext; [reflexivity|]. intros s2.
    apply then_ext; [now apply A|]. exact IH.
  Qed.
End Calling.

(** *** construction *)

Lemma ddel_nil_iff {A} (d : dict A) k : ddel k d = [] <-> (forall c, In c (dkeys d) -> c = k).
Proof.
  unfold ddel, dkeys. induction d as [|[c v] d IH]; cbn [filter map fst In]; [tauto|].
  destruct (String.eqb k c) eqn:E; cbn [negb].
  - apply String.eqb_eq in E. subst c. rewrite IH. firstorder congruence.
  - apply String.eqb_neq in E. split; [discriminate|]. intros H. exfalso. apply E. symmetry. apply H. now left.
Qed.

Lemma dkeys_ddel {A} (d : dict A) k c : In c (dkeys (ddel k d)) <-> In c (dkeys d) /\ c <> k.
Proof.
  unfold ddel, dkeys. rewrite !in_map_iff. split.
  - intros ([c' v] & <- & H). apply filter_In in H. destruct H as [H E]. cbn [fst] in *.
    apply negb_true_iff, String.eqb_neq in E. split; [exists (c', v); auto|congruence].
  - intros (([c' v] & <- & H) & N). exists (c', v). split; [reflexivity|]. apply filter_In. split; [exact H|].
    cbn [fst] in *. apply negb_true_iff, String.eqb_neq. congruence.
Qed.

Lemma marxs_init_spec kw : marxs_init kw = (if forallb (String.eqb "name") (dkeys kw) then Ok tt else Err ValueError).
Proof.
  unfold marxs_init. destruct (ddel "name" kw) eqn:E.
  - assert (H : forall c, In c (dkeys kw) -> c = "name") by (apply ddel_nil_iff; exact E).
    replace (forallb _ _) with true; [reflexivity|]. symmetry. apply forallb_forall. intros c Hc. apply String.eqb_eq. symmetry. auto.
  - destruct (forallb (String.eqb "name") (dkeys kw)) eqn:F; [|reflexivity]. exfalso.
    rewrite forallb_forall in F. assert (ddel "name" kw = []) as X; [|congruence].
    apply ddel_nil_iff. intros c Hc. apply F in Hc. apply String.eqb_eq in Hc. now symmetry.
Qed.

Lemma sequence_init_ok kw :
  sequence_init kw = Ok tt <->
  exists a b c, dget "elements" kw = Some (Objs a) /\
    (dget "preprocess_steps" kw = Some (Objs b) \/ dget "preprocess_steps" kw = None /\ b = []) /\
    (dget "postprocess_steps" kw = Some (Objs c) \/ dget "postprocess_steps" kw = None /\ c = []) /\
    (forall o, In o (a ++ b ++ c) -> snd o = true) /\
    (forall k, In k (dkeys kw) -> In k sequence_keywords).
Proof.
  unfold sequence_init, container_init.
  destruct (dget "elements" kw) as [v|] eqn:E1.
  2: { split; [discriminate|]. intros (a & b & c & X & _). discriminate. }
  rewrite !dget_ddel_neq by discriminate.
  set (pre := match dget "preprocess_steps" kw with Some v => v | None => Objs [] end).
  set (post := match dget "postprocess_steps" kw with Some v => v | None => Objs [] end).
  assert (KW : sse_init (ddel "postprocess_steps" (ddel "preprocess_steps" (ddel "elements" kw))) = Ok tt <->
               (forall k, In k (dkeys kw) -> In k sequence_keywords)).
  { unfold sse_init. rewrite marxs_init_spec. split.
    - destruct (forallb _ _) eqn:F; [|discriminate]. intros _ k Hk. rewrite forallb_forall in F. unfold sequence_keywords.
      destruct (string_dec k "elements"); [left; auto|]. destruct (string_dec k "preprocess_steps"); [right; left; auto|].
      destruct (string_dec k "postprocess_steps"); [right; right; left; auto|].
      destruct (string_dec k "id_num"); [do 3 right; left; auto|]. destruct (string_dec k "id_col"); [do 4 right; left; auto|].
      assert (X : In k (dkeys (ddel "id_col" (ddel "id_num" (ddel "postprocess_steps" (ddel "preprocess_steps" (ddel "elements" kw))))))).
      { rewrite !dkeys_ddel. tauto. }
      apply F in X. apply String.eqb_eq in X. do 5 right. left. auto.
    - intros H. replace (forallb _ _) with true; [reflexivity|]. symmetry. apply forallb_forall. intros k Hk.
      rewrite !dkeys_ddel in Hk. destruct Hk as (((((Hk & N1) & N2) & N3) & N4) & N5). apply H in Hk.
      apply String.eqb_eq. unfold sequence_keywords in Hk. cbn [In] in Hk. intuition congruence. }
  destruct v as [a|s]; [|split; [discriminate|intros (a & b & c & X & _); discriminate]].
  destruct pre as [b|s] eqn:Epre.
  2: { split; [discriminate|]. intros (a' & b & c & _ & X & _). unfold pre in Epre. destruct X as [X|[X _]]; rewrite X in Epre; discriminate. }
  destruct post as [c|s] eqn:Epost.
  2: { split; [discriminate|]. intros (a' & b' & c & _ & _ & X & _). unfold post in Epost. destruct X as [X|[X _]]; rewrite X in Epost; discriminate. }
  split.
  - destruct (forallb snd (a ++ b ++ c)) eqn:F; [|discriminate]. intros Hok. exists a, b, c. split; [reflexivity|].
    split; [unfold pre in Epre; destruct (dget "preprocess_steps" kw); [left; congruence|right; split; congruence]|].
    split; [unfold post in Epost; destruct (dget "postprocess_steps" kw); [left; congruence|right; split; congruence]|].
    split; [now rewrite forallb_forall in F|]. now apply KW.
  - intros (a' & b' & c' & E & E' & E'' & Hc & Hk). injection E as <-.
    assert (b' = b) by (unfold pre in Epre; destruct E' as [X|[X Y]]; rewrite X in Epre; congruence).
    assert (c' = c) by (unfold post in Epost; destruct E'' as [X|[X Y]]; rewrite X in Epost; congruence). subst.
    replace (forallb snd (a ++ b ++ c)) with true by (symmetry; now apply forallb_forall). now apply KW.
Qed.

Lemma sequence_init_setup_error kw a b c :
  dget "elements" kw = Some (Objs a) ->
  (dget "preprocess_steps" kw = Some (Objs b) \/ dget "preprocess_steps" kw = None /\ b = []) ->
  (dget "postprocess_steps" kw = Some (Objs c) \/ dget "postprocess_steps" kw = None /\ c = []) ->
  (sequence_init kw = Err SimulationSetupError <-> exists o, In o (a ++ b ++ c) /\ snd o = false).
Proof.
  intros E1 E2 E3. unfold sequence_init, container_init. rewrite E1. rewrite !dget_ddel_neq by discriminate.
  assert (X2 : match dget "preprocess_steps" kw with Some v => v | None => Objs [] end = Objs b)
    by (destruct E2 as [->|[-> ->]]; reflexivity).
  assert (X3 : match dget "postprocess_steps" kw with Some v => v | None => Objs [] end = Objs c)
    by (destruct E3 as [->|[-> ->]]; reflexivity).
  rewrite X2, X3. destruct (forallb snd (a ++ b ++ c)) eqn:F.
  - rewrite forallb_forall in F. split.
    + unfold sse_init. rewrite marxs_init_spec. destruct (forallb _ _); discriminate.
    + intros (o & Ho & Hf). rewrite (F o Ho) in Hf. discriminate.
  - split; [|reflexivity]. intros _. clear -F. induction (a ++ b ++ c) as [|o l IH]; [discriminate|]. cbn [forallb] in F.
    destruct (snd o) eqn:S; [|exists o; split; [now left|exact S]]. destruct (IH F) as (o' & Ho & Hs). exists o'. split; [now right|exact Hs].
Qed.

Lemma init_unknown_keyword kw k : In k (dkeys kw) -> k <> "name" -> k <> "id_num" -> k <> "id_col" ->
  sse_init kw = Err ValueError.
Proof.
  intros H N1 N2 N3. unfold sse_init. rewrite marxs_init_spec.
  destruct (forallb _ _) eqn:F; [|reflexivity]. rewrite forallb_forall in F.
  assert (X : In k (dkeys (ddel "id_col" (ddel "id_num" kw)))) by (rewrite !dkeys_ddel; tauto).
  apply F in X. apply String.eqb_eq in X. congruence.
Qed.

(** keyword with the steps before or after each element *)
Lemma steps_given kw key l : dget key kw = None /\ l = [] \/ dget key kw = Some (Objs l) ->
  match dget key kw with Some v => v | None => Objs [] end = Objs l.
Proof. intros [[-> ->]| ->]; reflexivity. Qed.
Lemma sequence_unknown kw k a b c :
  dget "elements" kw = Some (Objs a) ->
  dget "preprocess_steps" kw = None /\ b = [] \/ dget "preprocess_steps" kw = Some (Objs b) ->
  dget "postprocess_steps" kw = None /\ c = [] \/ dget "postprocess_steps" kw = Some (Objs c) ->
  forallb snd (a ++ b ++ c) = true -> In k (dkeys kw) -> ~ In k sequence_keywords -> sequence_init kw = Err ValueError.
Proof.
  intros Ha Hb Hc F Hk Hn. unfold sequence_init. rewrite Ha. unfold container_init. cbv zeta.
  rewrite !dget_ddel_neq by discriminate. rewrite (steps_given _ _ _ Hb), (steps_given _ _ _ Hc), F.
  apply init_unknown_keyword with (k := k).
  - rewrite !dkeys_ddel. unfold sequence_keywords in Hn. cbn in Hn. intuition congruence.
  - unfold sequence_keywords in Hn. cbn in Hn. intuition congruence.
  - unfold sequence_keywords in Hn. cbn in Hn. intuition congruence.
  - unfold sequence_keywords in Hn. cbn in Hn. intuition congruence.
Qed.

(** *** KeepCol *)
Section Keep.
  Context {C : Type}.
  Implicit Types (s : @kstate C) (v : @vstate C).

  Lemma upd_length i f (h : list C) : length (upd i f h) = length h.
  Proof. revert i. induction h as [|x h IH]; intros [|i]; cbn [upd length]; auto. Qed.
  Lemma upd_eq i f (h : list C) : nth_error (upd i f h) i = option_map f (nth_error h i).
  Proof. revert i. induction h as [|x h IH]; intros [|i]; cbn [upd nth_error option_map]; auto. Qed.
  Lemma upd_neq i j f (h : list C) : i <> j -> nth_error (upd i f h) j = nth_error h j.
  Proof.
    revert i j. induction h as [|x h IH]; intros [|i] [|j] H; cbn [upd nth_error]; auto; try lia; apply IH; lia.
  Qed.

  (** the photon list does not share memory with the monitor, and columns do not share memory *)
  Definition kinv s v : Prop :=
    (forall c, dget c (vtab v) = match dget c (tab s) with Some a => nth_error (heap s) a | None => None end) /\
    (forall c a, dget c (tab s) = Some a -> a < length (heap s) /\ ~ In a (kept s)) /\
    (forall c c' a, dget c (tab s) = Some a -> dget c' (tab s) = Some a -> c = c') /\
    map (nth_error (heap s)) (kept s) = map Some (vkept v).

  Lemma kept_lt s v : kinv s v -> forall a, In a (kept s) -> a < length (heap s).
  Proof.
    intros (_ & _ & _ & H) a Ha. apply in_map with (f := nth_error (heap s)) in Ha. rewrite H in Ha.
    apply in_map_iff in Ha. destruct Ha as (x & E & _). apply nth_error_Some. congruence.
  Qed.

  Lemma kept_app s v x : kinv s v -> map (nth_error (heap s ++ [x])) (kept s) = map Some (vkept v).
  Proof.
    intros I. pose proof (kept_lt s v I) as L. destruct I as (_ & _ & _ & H). rewrite <- H. apply map_ext_in.
    intros a Ha. apply nth_error_app1. auto.
  Qed.

  Lemma kstep_inv col s v o : kinv s v -> kinv (fst (kstep col s o)) (vstep col v o).
  Proof.
    intros I. pose proof (kept_lt s v I) as L. pose proof I as (I1 & I2 & I3 & I4). destruct o as [|c f|c x]; cbn [kstep vstep].
    - rewrite I1. destruct (dget col (tab s)) as [a|] eqn:E; [|exact I].
      destruct (nth_error (heap s) a) as [x|] eqn:Ex; [|exact I]. cbn [fst].
      split; [|split; [|split]]; cbn [heap tab kept vtab vkept].
      + intros c. rewrite I1. destruct (dget c (tab s)) as [b|] eqn:Eb; [|reflexivity].
        symmetry. apply nth_error_app1. apply (I2 c b Eb).
      + intros c b H. destruct (I2 _ _ H) as [A1 A2]. rewrite app_length. cbn [length]. split; [lia|].
        rewrite in_app_iff. cbn [In]. intros [X|[X|[]]]; [tauto|lia].
      + exact I3.
      + rewrite !map_app, (kept_app s v x I). cbn [map]. rewrite nth_error_app2 by lia. rewrite Nat.sub_diag. reflexivity.
    - rewrite I1. destruct (dget c (tab s)) as [a|] eqn:E; [|exact I]. destruct (I2 c a E) as [A1 A2].
      destruct (nth_error (heap s) a) as [x|] eqn:Ex; [|apply nth_error_None in Ex; lia].
      cbn [fst]. split; [|split; [|split]]; cbn [heap tab kept vtab vkept].
      + intros c'. destruct (string_dec c' c) as [->|N].
        * rewrite dget_dset_eq, E, upd_eq, Ex. reflexivity.
        * rewrite dget_dset_neq by congruence. rewrite I1. destruct (dget c' (tab s)) as [b|] eqn:Eb; [|reflexivity].
          symmetry. apply upd_neq. intros <-. apply N. eapply I3; eauto.
      + intros c' b H. rewrite upd_length. apply (I2 _ _ H).
      + exact I3.
      + rewrite <- I4. apply map_ext_in. intros b Hb. apply upd_neq. intros <-. contradiction.
    - cbn [fst]. split; [|split; [|split]]; cbn [heap tab kept vtab vkept].
      + intros c'. destruct (string_dec c' c) as [->|N].
        * rewrite !dget_dset_eq. rewrite nth_error_app2 by lia. rewrite Nat.sub_diag. reflexivity.
        * rewrite !dget_dset_neq by congruence. rewrite I1. destruct (dget c' (tab s)) as [b|] eqn:Eb; [|reflexivity].
          symmetry. apply nth_error_app1. apply (I2 _ _ Eb).
      + intros c0 a H. rewrite app_length. cbn [length]. destruct (string_dec c0 c) as [->|N].
        * rewrite dget_dset_eq in H. injection H as <-. split; [lia|]. intros X. apply L in X. lia.
        * rewrite dget_dset_neq in H by congruence. destruct (I2 _ _ H). split; [lia|assumption].
      + intros c1 c2 a H1 H2. destruct (string_dec c1 c) as [->|N1], (string_dec c2 c) as [->|N2]; try reflexivity.
        * rewrite dget_dset_eq in H1. injection H1 as <-. rewrite dget_dset_neq in H2 by congruence. destruct (I2 _ _ H2). lia.
        * rewrite dget_dset_eq in H2. injection H2 as <-. rewrite dget_dset_neq in H1 by congruence. destruct (I2 _ _ H1). lia.
        * rewrite dget_dset_neq in H1, H2 by congruence. eapply I3; eauto.
      + now apply kept_app.
  Qed.

  Lemma kruns_inv col l : forall s v, kinv s v -> kinv (kruns col s l) (vruns col v l).
  Proof. induction l as [|o l IH]; intros s v I; cbn [kruns vruns]; [exact I|]. apply IH. now apply kstep_inv. Qed.

  Lemma keepcol_history col (l : list (@kop C)) : kdata (kruns col (mkK [] [] []) l) = map Some (vkept (vruns col (mkV [] []) l)).
  Proof.
    apply (kruns_inv col l (mkK [] [] []) (mkV [] [])). repeat split; try discriminate; cbn; try tauto.
  Qed.

  Lemma keepcol_error col s : snd (kstep col s KCall) = Some KeyError -> fst (kstep col s KCall) = s.
  Proof.
    cbn [kstep]. destruct (dget col (tab s)) as [a|]; [|reflexivity]. destruct (nth_error (heap s) a); [discriminate|reflexivity].
  Qed.
End Keep.

Section Dedup.
  Context {A : Type} (close : A -> A -> bool) (dflt : A).

  Lemma dedup_from_bounds l : forall last i k, In k (dedup_from close last i l) -> i <= k < i + length l.
  Proof.
    induction l as [|x l IH]; intros last i k H; cbn [dedup_from length] in *; [contradiction|].
    destruct (close last x); [apply IH in H; lia|]. destruct H as [<-|H]; [lia|]. apply IH in H. lia.
  Qed.

  Lemma dedup_from_sorted l : forall last i, StronglySorted lt (dedup_from close last i l).
  Proof.
    induction l as [|x l IH]; intros last i; cbn [dedup_from]; [constructor|]. destruct (close last x); [apply IH|].
    constructor; [apply IH|]. apply Forall_forall. intros k Hk. apply dedup_from_bounds in Hk. lia.
  Qed.

  (** every step that is dropped is close to the last kept one; neighbouring kept ones are not close *)
  Lemma dedup_from_spec l : forall last i,
    (forall k, i <= k < i + length l -> ~ In k (dedup_from close last i l) ->
       (forall j, In j (dedup_from close last i l) -> k < j) /\ close last (nth (k - i) l dflt) = true \/
       exists j, In j (dedup_from close last i l) /\ j < k /\
         (forall j', In j' (dedup_from close last i l) -> j' < k -> j' <= j) /\
         close (nth (j - i) l dflt) (nth (k - i) l dflt) = true) /\
    (forall k, In k (dedup_from close last i l) ->
       (forall j, In j (dedup_from close last i l) -> k <= j) /\ close last (nth (k - i) l dflt) = false \/
       exists j, In j (dedup_from close last i l) /\ j < k /\
         (forall j', In j' (dedup_from close last i l) -> j' < k -> j' <= j) /\
         close (nth (j - i) l dflt) (nth (k - i) l dflt) = false).
  Proof.
    induction l as [|x l IH]; intros last i; cbn [dedup_from length].
    - split; [lia|contradiction].
    - destruct (close last x) eqn:E.
      + destruct (IH last (S i)) as [H1 H2]. split.
        * intros k Hk Hn. destruct (Nat.eq_dec k i) as [->|Nk].
          -- left. split; [intros j Hj; apply dedup_from_bounds in Hj; lia|]. rewrite Nat.sub_diag. exact E.
          -- destruct (H1 k ltac:(lia) Hn) as [[B1 B2]|(j & B1 & B2 & B3 & B4)].
             ++ left. split; [exact B1|]. replace (k - i) with (S (k - S i)) by lia. exact B2.
             ++ right. exists j. split; [exact B1|]. split; [exact B2|]. split; [exact B3|].
                pose proof (dedup_from_bounds _ _ _ _ B1).
                replace (k - i) with (S (k - S i)) by lia. replace (j - i) with (S (j - S i)) by lia. exact B4.
        * intros k Hk. pose proof (dedup_from_bounds _ _ _ _ Hk). destruct (H2 k Hk) as [[B1 B2]|(j & B1 & B2 & B3 & B4)].
          -- left. split; [exact B1|]. replace (k - i) with (S (k - S i)) by lia. exact B2.
          -- right. exists j. split; [exact B1|]. split; [exact B2|]. split; [exact B3|].
             pose proof (dedup_from_bounds _ _ _ _ B1).
             replace (k - i) with (S (k - S i)) by lia. replace (j - i) with (S (j - S i)) by lia. exact B4.
      + destruct (IH x (S i)) as [H1 H2].
        assert (Hb : forall j, In j (dedup_from close x (S i) l) -> S i <= j < S i + length l) by (intros j; apply dedup_from_bounds).
        split.
        * intros k Hk Hn. cbn [In] in Hn. assert (k <> i) by (intros ->; apply Hn; now left).
          right. destruct (H1 k ltac:(lia) ltac:(tauto)) as [[B1 B2]|(j & B1 & B2 & B3 & B4)].
          -- exists i. split; [now left|]. split; [lia|]. split.
             ++ intros j' [<-|Hj'] Hlt; [lia|]. apply B1 in Hj'. lia.
             ++ rewrite Nat.sub_diag. replace (k - i) with (S (k - S i)) by lia. exact B2.
          -- exists j. split; [now right|]. split; [exact B2|]. split.
             ++ intros j' [<-|Hj'] Hlt; [apply Hb in B1; lia|auto].
             ++ pose proof (Hb _ B1). replace (k - i) with (S (k - S i)) by lia. replace (j - i) with (S (j - S i)) by lia. exact B4.
        * intros k [<-|Hk].
          -- left. split; [intros j [<-|Hj]; [lia|apply Hb in Hj; lia]|]. rewrite Nat.sub_diag. exact E.
          -- right. pose proof (Hb _ Hk). destruct (H2 k Hk) as [[B1 B2]|(j & B1 & B2 & B3 & B4)].
             ++ exists i. split; [now left|]. split; [lia|]. split.
                ** intros j' [<-|Hj'] Hlt; [lia|]. apply B1 in Hj'. lia.
                ** rewrite Nat.sub_diag. replace (k - i) with (S (k - S i)) by lia. exact B2.
             ++ exists j. split; [now right|]. split; [exact B2|]. split.
                ** intros j' [<-|Hj'] Hlt; [apply Hb in B1; lia|auto].
                ** pose proof (Hb _ B1). replace (k - i) with (S (k - S i)) by lia. replace (j - i) with (S (j - S i)) by lia. exact B4.
  Qed.

  Lemma dedup_spec l : l <> [] ->
    In 0 (dedup close l) /\ StronglySorted lt (dedup close l) /\ (forall k, In k (dedup close l) -> k < length l) /\
    (forall k, k < length l -> ~ In k (dedup close l) ->
       exists j, In j (dedup close l) /\ j < k /\ (forall j', In j' (dedup close l) -> j' < k -> j' <= j) /\
         close (nth j l dflt) (nth k l dflt) = true) /\
    (forall k, In k (dedup close l) -> k <> 0 ->
       exists j, In j (dedup close l) /\ j < k /\ (forall j', In j' (dedup close l) -> j' < k -> j' <= j) /\
         close (nth j l dflt) (nth k l dflt) = false).
  Proof.
    destruct l as [|x l]; [contradiction|]. intros _. cbn [dedup length].
    assert (Hb : forall j, In j (dedup_from close x 1 l) -> 1 <= j < 1 + length l) by (intros j; apply dedup_from_bounds).
    destruct (dedup_from_spec l x 1) as [H1 H2].
    split; [now left|]. split; [constructor; [apply dedup_from_sorted|apply Forall_forall; intros k Hk; apply Hb in Hk; lia]|].
    split; [intros k [<-|Hk]; [lia|apply Hb in Hk; lia]|].
    split.
    - intros k Hk Hn. cbn [In] in Hn. assert (k <> 0) by (intros ->; apply Hn; now left).
      destruct (H1 k ltac:(lia) ltac:(tauto)) as [[B1 B2]|(j & B1 & B2 & B3 & B4)].
      + exists 0. split; [now left|]. split; [lia|]. split.
        * intros j' [<-|Hj'] Hlt; [lia|]. apply B1 in Hj'. lia.
        * replace k with (S (k - 1)) by lia. exact B2.
      + exists j. split; [now right|]. split; [exact B2|]. split.
        * intros j' [<-|Hj'] Hlt; [lia|auto].
        * pose proof (Hb _ B1). replace k with (S (k - 1)) by lia. replace j with (S (j - 1)) by lia. exact B4.
    - intros k [<-|Hk] Hk0; [contradiction|]. pose proof (Hb _ Hk).
      destruct (H2 k Hk) as [[B1 B2]|(j & B1 & B2 & B3 & B4)].
      + exists 0. split; [now left|]. split; [lia|]. split.
        * intros j' [<-|Hj'] Hlt; [lia|]. apply B1 in Hj'. lia.
        * replace k with (S (k - 1)) by lia. exact B2.
      + exists j. split; [now right|]. split; [exact B2|]. split.
        * intros j' [<-|Hj'] Hlt; [lia|auto].
        * pose proof (Hb _ B1). replace k with (S (k - 1)) by lia. replace j with (S (j - 1)) by lia. exact B4.
  Qed.
End Dedup.

Lemma format_none data d : format_positions data None = Ok d -> length d = length data /\ h2e_all data = Ok d.
Proof.
  unfold format_positions. destruct data as [|d0 data]; [discriminate|].
  match goal with |- context [if negb ?b then _ else _] => destruct (negb b); [discriminate|] end.
  match goal with |- context [if negb ?b then _ else _] => destruct (negb b); [discriminate|] end.
  destruct (h2e_all (d0 :: data)) as [d'|e] eqn:E; cbn [bind]; [|discriminate]. intros H. injection H as <-.
  split; [|reflexivity]. revert E. generalize (d0 :: data) as dd. intros dd E. unfold h2e_all in E.
  destruct (_ || _).
  - injection E as E. rewrite <- E. apply map_length.
  - destruct (forallb _ _); [|discriminate]. injection E as E. rewrite <- E. apply map_length.
Qed.

Lemma format_some data tol d : format_positions data (Some tol) = Ok d ->
  exists full, format_positions data None = Ok full /\
    d = map (fun i => nth i full []) (dedup (close_steps tol) full).
Proof.
  unfold format_positions. destruct data as [|d0 data]; [discriminate|].
  match goal with |- context [if negb ?b then _ else _] => destruct (negb b); [discriminate|] end.
  match goal with |- context [if negb ?b then _ else _] => destruct (negb b); [discriminate|] end.
  destruct (h2e_all (d0 :: data)) as [d'|e] eqn:E; cbn [bind]; [|discriminate]. intros H. injection H as <-. eauto.
Qed.

Lemma comp_spec subclass_ok cls t :
  comp subclass_ok cls t = true <-> if subclass_ok then In cls (mro t) else exists bases, mro t = cls :: bases.
Proof.
  unfold comp. destruct subclass_ok; [apply inb_In|]. destruct (mro t) as [|c l].
  - split; [discriminate|]. intros [b X]. discriminate.
  - rewrite String.eqb_eq. split; [intros ->; eauto|]. intros [b X]. congruence.
Qed.

Lemma Qabs'_le x y : Qle_bool (Qabs' x) y = true <-> (- y <= x <= y)%Q.
Proof.
  rewrite Qle_bool_iff. unfold Qabs'. destruct (Qle_bool 0 x) eqn:E.
  - apply Qle_bool_iff in E. split; intros; lra.
  - assert (~ 0 <= x)%Q by (intros X; apply Qle_bool_iff in X; congruence). split; intros; lra.
Qed.
Lemma forall_w (P : coord -> bool) d : forallb P (map wof (concat d)) = true <-> forall s p, In s d -> In p s -> P (wof p) = true.
Proof.
  rewrite forallb_forall. split.
  - intros H s p A B. apply H. apply in_map. apply in_concat. eauto.
  - intros H x Hx. apply in_map_iff in Hx. destruct Hx as (p & <- & Hp). apply in_concat in Hp. destruct Hp as (s & A & B). eauto.
Qed.
Lemma is0_spec x : is0 x = true <-> exists w, x = Some w /\ (w == 0)%Q.
Proof.
  destruct x as [w|]; cbn [is0]; [rewrite Qeq_bool_iff|]; split; try discriminate; [eauto| |]; intros (v & E & H); congruence.
Qed.
Lemma close1_spec x : close1 x = true <-> exists w, x = Some w /\ (-((1 # 100000000) + (1 # 100000)) <= w - 1 <= (1 # 100000000) + (1 # 100000))%Q.
Proof.
  destruct x as [w|]; cbn [close1]; [rewrite Qabs'_le|]; split; try discriminate; [eauto| |]; intros (v & E & H); [|discriminate]. injection E as ->. exact H.
Qed.
Lemma h2e_cases d : match h2e_all d with
  | Ok d' => (all_zero d \/ all_one d) /\ d' = map (map (firstn 3)) d \/ ~ all_zero d /\ ~ all_one d /\ none_zero d /\ d' = map (map cartesian) d
  | Err e => e = ValueError /\ ~ all_zero d /\ ~ all_one d /\ ~ none_zero d end.
Proof.
  assert (A : forallb is0 (map wof (concat d)) = true <-> all_zero d).
  { rewrite forall_w. unfold all_zero. split; intros H s p X Y; apply is0_spec; now apply (H s). }
  assert (B : forallb close1 (map wof (concat d)) = true <-> all_one d).
  { rewrite forall_w. unfold all_one. split; intros H s p X Y; apply close1_spec; now apply (H s). }
  assert (C : forallb (fun w => negb (is0 w)) (map wof (concat d)) = true <-> none_zero d).
  { rewrite (forall_w (fun w => negb (is0 w))). unfold none_zero. split.
    - intros H s p w X Y E Z. specialize (H s p X Y). apply negb_true_iff in H. assert (is0 (wof p) = true) by (apply is0_spec; eauto). congruence.
    - intros H s p X Y. apply negb_true_iff. destruct (is0 (wof p)) eqn:E; [|reflexivity]. apply is0_spec in E. destruct E as (w & E1 & E2). exfalso. exact (H s p w X Y E1 E2). }
  unfold h2e_all. destruct (forallb is0 (map wof (concat d))) eqn:E1; [left; split; [left; now apply A|reflexivity]|].
  destruct (forallb close1 (map wof (concat d))) eqn:E2; [left; split; [right; now apply B|reflexivity]|]. cbn [orb].
  assert (~ all_zero d) by (intros X; apply A in X; congruence). assert (~ all_one d) by (intros X; apply B in X; congruence).
  destruct (forallb (fun w => negb (is0 w)) (map wof (concat d))) eqn:E3.
  - right. split; [assumption|]. split; [assumption|]. split; [now apply C|]. reflexivity.
  - repeat split; try assumption. intros X. apply C in X. congruence.
Qed.
Lemma format_coordinates data d : format_positions data None = Ok d ->
  (forall s p, In s data -> In p s -> length p = 4) /\
  ((all_zero data \/ all_one data) /\ d = map (map (firstn 3)) data \/ ~ all_zero data /\ ~ all_one data /\ none_zero data /\ d = map (map cartesian) data).
Proof.
  intros H. pose proof (format_none _ _ H) as [_ E]. pose proof (h2e_cases data) as X. rewrite E in X. split; [|exact X].
  unfold format_positions in H. destruct data as [|d0 data]; [discriminate|].
  match type of H with context [if negb ?b then _ else _] => destruct b eqn:E1; [|discriminate] end. cbn [negb] in H.
  match type of H with context [if negb ?b then _ else _] => destruct b eqn:E2; [|discriminate] end.
  intros s p A B. rewrite forallb_forall in E2. specialize (E2 s A). apply andb_true_iff in E2. destruct E2 as [_ E2]. rewrite forallb_forall in E2.
  apply Nat.eqb_eq. now apply E2.
Qed.
Lemma format_mixed data atol : ~ all_zero data -> ~ all_one data -> ~ none_zero data -> format_positions data atol = Err ValueError.
Proof.
  intros A B C. unfold format_positions. destruct data as [|s0 data]; [reflexivity|].
  match goal with |- context [if negb ?b then _ else _] => destruct (negb b); [reflexivity|] end.
  match goal with |- context [if negb ?b then _ else _] => destruct (negb b); [reflexivity|] end.
  pose proof (h2e_cases (s0 :: data)) as X. destruct (h2e_all (s0 :: data)) as [d'|e]; [tauto|]. destruct X as [-> _]. reflexivity.
Qed.
