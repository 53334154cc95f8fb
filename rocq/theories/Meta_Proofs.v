(** Lemmas about [Meta_Model]. *)
From Coq Require Import Qabs Lqa.
From Verif Require Import Base_Proofs Meta_Model.
Open Scope nat_scope.

Lemma hval_eqb_eq a b : hval_eqb a b = true <-> a = b.
Proof.
  destruct a as [a1 a2], b as [b1 b2]. unfold hval_eqb. cbn [fst snd]. rewrite andb_true_iff, !String.eqb_eq.
  split; [intros [-> ->]; reflexivity|intros E; injection E as -> ->; now split].
Qed.

(** *** tags *)
Lemma dget_dset (k k' : string) (v : hval) d : dget k (dset k' v d) = if String.eqb k k' then Some v else dget k d.
Proof.
  destruct (String.eqb k k') eqn:E; [apply String.eqb_eq in E; subst; apply dget_dset_eq|].
  apply dget_dset_neq. now apply String.eqb_neq.
Qed.
Lemma NoDup_ddel k (d : dict hval) : NoDup (dkeys d) -> NoDup (dkeys (ddel k d)).
Proof.
  unfold ddel, dkeys. induction d as [|[a b] d IH]; intros H; cbn [filter map fst] in *; [constructor|].
  inversion H as [|? ? N H']; subst. destruct (negb (String.eqb k a)); cbn [map fst]; [|auto]. constructor; [|auto].
  intros X. apply N. rewrite in_map_iff in *. destruct X as ([a' b'] & E & X). apply filter_In in X. exists (a', b'). tauto.
Qed.
Lemma tag_init_NoDup v o c kw : NoDup (dkeys kw) -> NoDup (dkeys (tag_init v o c kw)).
Proof.
  intros H. unfold tag_init.
  destruct (ver_git v), (ver_dirty v); repeat apply NoDup_dset; now apply NoDup_ddel.
Qed.
Definition automatic (k : string) : bool := inb k ["MARXSVER"; "MARXSGIT"; "MARXSTIM"; "DATE"].
Lemma tag_init_get v o c kw k : k <> "name" -> automatic k = false -> dget k (tag_init v o c kw) = dget k kw.
Proof.
  intros N A. apply inb_false in A. cbn [In] in A. unfold tag_init.
  destruct (ver_git v), (ver_dirty v); rewrite ?dget_dset_neq by (intros ->; tauto); now apply dget_ddel_neq.
Qed.
Lemma dget_dupdate (d d2 : dict hval) k : NoDup (dkeys d2) ->
  dget k (dupdate d d2) = match dget k d2 with Some v => Some v | None => dget k d end.
Proof.
  intros N. destruct (dget k d2) as [v|] eqn:E; [now apply dget_dupdate_in|].
  apply dget_dupdate_notin. now apply dget_none_notin.
Qed.
Lemma tag_call_get date tags kw meta k : NoDup (dkeys tags) -> NoDup (dkeys kw) ->
  dget k (tag_call date tags kw meta) =
    match dget k kw with Some v => Some v | None =>
    match dget k tags with Some v => Some v | None =>
    if String.eqb k "DATE" then Some (date, "Date/time of computation") else dget k meta end end.
Proof. intros H1 H2. unfold tag_call. rewrite !dget_dupdate by assumption. now rewrite dget_dset. Qed.
Lemma tag_version v o c kw : dget "MARXSVER" (tag_init v o c kw) = Some (ver_version v, "MARXS code version").
Proof.
  unfold tag_init. destruct (ver_git v), (ver_dirty v); rewrite ?dget_dset; reflexivity.
Qed.

(** *** consistency *)
Definition agree (m1 m2 : dict hval) (allow_missing : bool) (k : string) : Prop :=
  dget k m1 = dget k m2 /\ (allow_missing = false -> dget k m1 <> None).
Lemma check_meta_iff m1 m2 ks am : check_meta m1 m2 ks am = Ok tt <-> Forall (agree m1 m2 am) ks.
Proof.
  induction ks as [|k ks IH]; cbn [check_meta]; [split; auto|]. unfold agree in *.
  destruct (dget k m1) as [a|] eqn:E1, (dget k m2) as [b|] eqn:E2.
  - destruct (hval_eqb a b) eqn:E.
    + apply hval_eqb_eq in E. subst b. rewrite IH. split; intros H.
      * constructor; [|exact H]. rewrite E1, E2. split; [reflexivity|discriminate].
      * now inversion H.
    + split; [discriminate|]. intros H. inversion H as [|? ? [X _] _]; subst. rewrite E1, E2 in X. injection X as X.
      apply hval_eqb_eq in X. congruence.
  - split; [discriminate|]. intros H. inversion H as [|? ? [X _] _]; subst. congruence.
  - split; [discriminate|]. intros H. inversion H as [|? ? [X _] _]; subst. congruence.
  - destruct am.
    + rewrite IH. split; intros H; [|now inversion H]. constructor; [|exact H]. rewrite E1, E2. split; [reflexivity|discriminate].
    + split; [discriminate|]. intros H. inversion H as [|? ? [_ X] _]; subst. destruct (X eq_refl). exact E1.
Qed.
Lemma check_meta_errors m1 m2 ks am e : check_meta m1 m2 ks am = Err e ->
  exists ks1 k ks2, ks = ks1 ++ k :: ks2 /\ Forall (agree m1 m2 am) ks1 /\
    ((e = AssertionError /\ exists a b, dget k m1 = Some a /\ dget k m2 = Some b /\ a <> b) \/
     (e = KeyError /\ (dget k m1 = None \/ dget k m2 = None) /\ ~ agree m1 m2 am k)).
Proof.
  induction ks as [|k ks IH]; cbn [check_meta]; [discriminate|]. intros H.
  assert (STEP : check_meta m1 m2 ks am = Err e -> agree m1 m2 am k -> exists ks1 k0 ks2, k :: ks = ks1 ++ k0 :: ks2 /\
    Forall (agree m1 m2 am) ks1 /\ ((e = AssertionError /\ exists a b, dget k0 m1 = Some a /\ dget k0 m2 = Some b /\ a <> b) \/
     (e = KeyError /\ (dget k0 m1 = None \/ dget k0 m2 = None) /\ ~ agree m1 m2 am k0))).
  { intros H' A. destruct (IH H') as (ks1 & k0 & ks2 & -> & F & R). exists (k :: ks1), k0, ks2.
    split; [reflexivity|]. split; [now constructor|exact R]. }
  unfold agree in *. destruct (dget k m1) as [a|] eqn:E1, (dget k m2) as [b|] eqn:E2.
  - destruct (hval_eqb a b) eqn:E.
    + apply STEP; [exact H|]. apply hval_eqb_eq in E. subst. split; [reflexivity|discriminate].
    + injection H as <-. exists [], k, ks. split; [reflexivity|]. split; [constructor|]. left. split; [reflexivity|].
      exists a, b. split; [assumption|]. split; [assumption|]. intros X. apply hval_eqb_eq in X. congruence.
  - injection H as <-. exists [], k, ks. split; [reflexivity|]. split; [constructor|]. right. split; [reflexivity|].
    split; [now right|]. intros [X _]. congruence.
  - injection H as <-. exists [], k, ks. split; [reflexivity|]. split; [constructor|]. right. split; [reflexivity|].
    split; [now left|]. intros [X _]. congruence.
  - destruct am.
    + apply STEP; [exact H|]. split; [reflexivity|discriminate].
    + injection H as <-. exists [], k, ks. split; [reflexivity|]. split; [constructor|]. right. split; [reflexivity|].
      split; [now left|]. intros [_ X]. destruct (X eq_refl). exact E1.
Qed.
Lemma agree_trans m0 m1 m2 am k : agree m0 m1 am k -> agree m0 m2 am k -> agree m1 m2 am k.
Proof. unfold agree. intros [A B] [C D]. rewrite <- A. split; [exact C|exact B]. Qed.

(** *** energy *)
Lemma check_energy_iff es : check_energy (Some es) = Ok tt <->
  exists q, nth_error es 0 = Some (Some q) /\ forall x, In x es -> exists y, x = Some y /\ (Qabs (y - q) <= atol + rtol * Qabs q)%Q.
Proof.
  destruct es as [|e0 es]; [split; [discriminate|intros (q & H & _); discriminate]|]. cbn [check_energy nth_error].
  destruct (forallb (fun e => isclose e e0) (e0 :: es)) eqn:F.
  - split; [|reflexivity]. intros _. rewrite forallb_forall in F. destruct e0 as [q|]; [|specialize (F None (or_introl eq_refl)); discriminate].
    exists q. split; [reflexivity|]. intros x Hx. specialize (F x Hx). destruct x as [y|]; [|discriminate]. exists y. split; [reflexivity|]. now apply Qle_bool_iff.
  - split; [discriminate|]. intros (q & [= ->] & H). exfalso. apply Bool.not_true_iff_false in F. apply F. apply forallb_forall. intros x Hx.
    destruct (H x Hx) as (y & -> & B). cbn. now apply Qle_bool_iff.
Qed.
Lemma check_energy_bound e es : check_energy (Some es) = Ok tt -> nth_error es 0 = Some e ->
  exists q, e = Some q /\ forall i x, nth_error es i = Some x ->
    exists y, x = Some y /\ (Qabs (y - q) <= atol + rtol * Qabs q)%Q.
Proof.
  destruct es as [|e0 es]; [discriminate|]. cbn [check_energy nth_error]. intros H E. injection E as <-.
  destruct (forallb _ (e0 :: es)) eqn:F; [|discriminate]. rewrite forallb_forall in F.
  destruct e0 as [q|]; [|specialize (F None (or_introl eq_refl)); discriminate].
  exists q. split; [reflexivity|]. intros i x Hx. apply nth_error_In in Hx. specialize (F x Hx).
  destruct x as [y|]; [|discriminate]. exists y. split; [reflexivity|]. now apply Qle_bool_iff.
Qed.
Lemma check_energy_pairs es i j x y : check_energy (Some es) = Ok tt -> nth_error es i = Some x -> nth_error es j = Some y ->
  exists e0 a b, nth_error es 0 = Some (Some e0) /\ x = Some a /\ y = Some b /\
    (Qabs (a - b) <= 2 * (atol + rtol * Qabs e0))%Q.
Proof.
  intros H Hi Hj. destruct es as [|e0 es]; [discriminate|].
  destruct (check_energy_bound e0 (e0 :: es) H eq_refl) as (q & -> & B).
  destruct (B i x Hi) as (a & -> & Ba). destruct (B j y Hj) as (b & -> & Bb).
  exists q, a, b. split; [reflexivity|]. split; [reflexivity|]. split; [reflexivity|].
  apply Qabs_Qle_condition in Ba. apply Qabs_Qle_condition in Bb. apply Qabs_Qle_condition. lra.
Qed.
