(** Lemmas for Setup_Props *)
From Verif Require Import Setup_Model Base_Proofs.
From Coq Require Import Reals Lra.
Open Scope R_scope.
Open Scope string_scope.
Open Scope list_scope.

Lemma attribute_dset {V} (cls own : dict V) k v j : attribute cls (dset k v own) j = if String.eqb j k then Some v else attribute cls own j.
Proof.
  unfold attribute. destruct (String.eqb j k) eqn:E; [apply String.eqb_eq in E; subst; now rewrite dget_dset_eq|]. apply String.eqb_neq in E. now rewrite dget_dset_neq by congruence.
Qed.
Lemma keys_left {V} (a k : string) (d : dict V) : In k (dkeys (ddel a d)) <-> In k (dkeys d) /\ k <> a.
Proof.
  unfold dkeys, ddel. rewrite !in_map_iff. split.
  - intros ([x v] & <- & I). apply filter_In in I as [I N]. apply Bool.negb_true_iff, String.eqb_neq in N. cbn in *. split; [exists (x, v); auto|congruence].
  - intros [([x v] & <- & I) N]. exists (x, v). split; [reflexivity|]. apply filter_In. split; [exact I|]. apply Bool.negb_true_iff, String.eqb_neq. cbn in *. congruence.
Qed.
Lemma set_dims_ok {V} (cls : dict V) : forall dims own own', NoDup (dkeys dims) -> set_dims cls own dims = Ok own' ->
  forall j, attribute cls own' j = match dget j dims with Some v => Some v | None => attribute cls own j end.
Proof.
  induction dims as [|[k v] dims IH]; intros own own' ND H j; cbn [set_dims dget] in *; [now assert (own' = own) as -> by congruence|].
  inversion ND as [|? ? N1 N2]; subst. destruct (attribute cls own k) eqn:A; [|destruct (attribute cls own "name"); discriminate].
  rewrite (IH _ _ N2 H j), attribute_dset. destruct (String.eqb j k) eqn:E; [|reflexivity]. apply String.eqb_eq in E. subst. now rewrite (proj2 (dget_none_notin k dims) N1).
Qed.
Lemma set_dims_total {V} (cls : dict V) : forall dims own, (forall k, In k (dkeys dims) -> attribute cls own k <> None) -> exists own', set_dims cls own dims = Ok own'.
Proof.
  induction dims as [|[k v] dims IH]; intros own H; cbn [set_dims]; [eauto|]. destruct (attribute cls own k) eqn:A; [|now destruct (H k (or_introl eq_refl))].
  apply IH. intros j J. rewrite attribute_dset. destruct (String.eqb j k); [discriminate|]. apply H. now right.
Qed.
Lemma set_dims_unknown {V} (cls : dict V) j : forall dims own, attribute cls own j = None -> In j (dkeys dims) -> NoDup (dkeys dims) -> attribute cls own "name" = None -> set_dims cls own dims = Err AttributeError.
Proof.
  induction dims as [|[k v] dims IH]; intros own A I ND N; [destruct I|]. cbn [set_dims]. inversion ND as [|? ? N1 N2]; subst. destruct (attribute cls own k) eqn:K; [|now rewrite N].
  destruct I as [I|I]; [cbn in I; congruence|]. assert (k <> "name") by congruence. assert (j <> k) by congruence.
  apply IH; [|exact I|exact N2|]; rewrite attribute_dset; [destruct (String.eqb j k) eqn:E; [apply String.eqb_eq in E; congruence|exact A]|].
  destruct (String.eqb "name" k) eqn:E; [apply String.eqb_eq in E; congruence|exact N].
Qed.

(** ** docstrings *)
Lemma lookup_nearest k d : forall l a, lookup k l = Some a -> a_doc a = Some d -> nearest k l = Some d.
Proof.
  induction l as [|c r IH]; intros a L D; cbn in *; [discriminate|]. destruct (dget k c) as [a'|]; [assert (a' = a) as -> by congruence; now rewrite D|]. exact (IH a L D).
Qed.
Lemma find_chain k : forall l, find_doc k (chain l) = nearest k l.
Proof.
  induction l as [|c r IH]; cbn [chain find_doc nearest]; [reflexivity|]. cbn [lookup]. destruct (dget k c) as [a|]; [now destruct (a_doc a)|].
  destruct (lookup k r) as [a|] eqn:L; [|exact IH]. destruct (a_doc a) as [d|] eqn:D; [|exact IH]. symmetry. exact (lookup_nearest k d r a L D).
Qed.
Lemma heads_chain : forall l, concat (map (firstn 1) (chain l)) = l.
Proof. induction l as [|c r IH]; cbn [chain map concat firstn app]; [reflexivity|]. cbn. now f_equal. Qed.
Lemma lookup_In k a : forall l, lookup k l = Some a -> exists c, In c l /\ dget k c = Some a.
Proof.
  induction l as [|c r IH]; cbn; [discriminate|]. destruct (dget k c) as [a'|] eqn:D; intros H; [exists c; split; [now left|congruence]|]. destruct (IH H) as (c' & I & E). exists c'. auto.
Qed.
Lemma find_In k d : forall mros, find_doc k mros = Some d -> exists m a, In m mros /\ lookup k m = Some a /\ a_doc a = Some d.
Proof.
  induction mros as [|m r IH]; cbn; [discriminate|]. destruct (lookup k m) as [a|] eqn:L.
  - destruct (a_doc a) as [d'|] eqn:D; intros H; [exists m, a; repeat split; [now left|exact L|congruence]|]. destruct (IH H) as (m' & a' & I & X). exists m', a'. auto.
  - intros H. destruct (IH H) as (m' & a' & I & X). exists m', a'. auto.
Qed.
Lemma find_none k : forall mros, find_doc k mros = None -> forall m a, In m mros -> lookup k m = Some a -> a_doc a = None.
Proof.
  induction mros as [|m r IH]; cbn; intros H m' a' I L; [destruct I|]. destruct (lookup k m) as [a|] eqn:LM.
  - destruct (a_doc a) eqn:D; [discriminate|]. destruct I as [<-|I]; [congruence|exact (IH H m' a' I L)].
  - destruct I as [<-|I]; [congruence|exact (IH H m' a' I L)].
Qed.
Lemma dget_map {V} (f : string -> V -> V) k : forall d : dict V, dget k (map (fun ka => (fst ka, f (fst ka) (snd ka))) d) = match dget k d with Some v => Some (f k v) | None => None end.
Proof. induction d as [|[j v] d IH]; cbn; [reflexivity|]. destruct (String.eqb k j) eqn:E; [apply String.eqb_eq in E; now subst|exact IH]. Qed.
Lemma inherit_get mros own k : dget k (inherit_docs mros own) =
  match dget k own with
  | Some a => Some (match a_doc a with Some _ => a | None => match find_doc k mros with Some d => if a_writable a then Attr (Some d) (a_writable a) else a | None => a end end)
  | None => None
  end.
Proof.
  exact (dget_map (fun k a => match a_doc a with Some _ => a | None => match find_doc k mros with Some d => if a_writable a then Attr (Some d) (a_writable a) else a | None => a end end) k own).
Qed.
Lemma inherit_keys mros own : dkeys (inherit_docs mros own) = dkeys own.
Proof. unfold inherit_docs, dkeys. rewrite map_map. apply map_ext. now intros [k a]. Qed.
(** the documented definitions in any of the classes *)
Lemma new_class_doc mros own k a : orders mros -> dget k own = Some a -> a_doc a = None -> a_writable a = true ->
  exists a', dget k (new_class mros own) = Some a' /\
    (forall d, a_doc a' = Some d -> exists c r b, In (c :: r) mros /\ dget k c = Some b /\ a_doc b = Some d) /\
    ((exists c r b d, In (c :: r) mros /\ dget k c = Some b /\ a_doc b = Some d) -> a_doc a' <> None).
Proof.
  intros O G D W. unfold new_class. rewrite inherit_get, G, D, W. set (all := ([] :: concat (map (firstn 1) mros)) :: mros).
  assert (HD : forall c, In c (concat (map (firstn 1) mros)) -> exists r, In (c :: r) mros).
  { intros c I. apply in_concat in I. destruct I as (x & X & I). apply in_map_iff in X. destruct X as (m & <- & M). destruct m as [|c' r']; [destruct I|]. destruct I as [<-|[]]. eauto. }
  assert (MEM : forall m c, In m mros -> In c m -> exists r, In (c :: r) mros).
  { intros m c M I. destruct (O m M) as (c0 & r0 & -> & K). destruct I as [<-|I]; [eauto|]. destruct (K c I) as (m' & r' & M' & ->). eauto. }
  eexists. split; [reflexivity|]. split.
  - intros d. destruct (find_doc k all) as [d'|] eqn:F; [|intros X; cbn in X; congruence]. cbn [a_doc]. intros X. assert (d' = d) as -> by congruence. destruct (find_In k d all F) as (m & b & I & L & B).
    destruct (lookup_In k b m L) as (c & IC & GC). destruct I as [<-|I].
    + destruct IC as [<-|IC]; [discriminate|]. destruct (HD c IC) as [r R]. exists c, r, b. auto.
    + destruct (MEM m c I IC) as [r R]. exists c, r, b. auto.
  - intros (c & r & b & d & I & GB & DB). destruct (find_doc k all) as [d'|] eqn:F; [discriminate|]. exfalso.
    pose proof (find_none k all F (c :: r) b (or_intror I)) as X. cbn [lookup] in X. rewrite GB in X. specialize (X eq_refl). congruence.
Qed.
Lemma new_class_chain l own k a : dget k own = Some a ->
  dget k (new_class (chain l) own) = Some (match a_doc a with Some _ => a | None => match nearest k l with Some d => if a_writable a then Attr (Some d) true else a | None => a end end).
Proof.
  intros G. unfold new_class. rewrite heads_chain, inherit_get, G. destruct (a_doc a); [reflexivity|]. cbn [find_doc lookup dget].
  assert (E : match lookup k l with Some b => match a_doc b with Some d => Some d | None => find_doc k (chain l) end | None => find_doc k (chain l) end = nearest k l).
  { rewrite find_chain. destruct (lookup k l) as [b|] eqn:L; [|reflexivity]. destruct (a_doc b) as [d|] eqn:D; [|reflexivity]. symmetry. exact (lookup_nearest k d l b L D). }
  rewrite E. destruct (nearest k l); [|reflexivity]. destruct (a_writable a) eqn:W; reflexivity.
Qed.

(** ** plot properties *)
Lemma plot_fold {V} (d : displaydict V) : forall traits acc,
  fold_left (fun acc n => bind acc (fun l => if dd_in d n then bind (dd_getitem d n) (fun v => Ok (l ++ [(n, v)])) else Ok l)) traits (Ok acc) =
  Ok (acc ++ concat (map (fun n => match dget n (dd_items d) with Some v => [(n, v)] | None => [] end) traits)).
Proof.
  induction traits as [|n r IH]; intros acc; cbn [fold_left map concat]; [now rewrite app_nil_r|]. cbn [bind]. destruct (dget n (dd_items d)) as [v|] eqn:G.
  - assert (I : dd_in d n = true) by (apply din_dget; eauto). rewrite I. unfold dd_getitem at 2. rewrite G. cbn [bind]. now rewrite IH, <- app_assoc.
  - assert (I : dd_in d n = false). { unfold dd_in. destruct (din n (dd_items d)) eqn:X; [|reflexivity]. apply din_dget in X. destruct X as [v X]. congruence. }
    rewrite I. now rewrite IH.
Qed.
