(** Lemmas about the shared primitives of [Base.v]. *)
From Coq Require Import Permutation.
From Verif Require Export Base.

Lemma inb_In x l : inb x l = true <-> In x l.
Proof.
  unfold inb. rewrite existsb_exists. split.
  - intros (y & Hy & E). apply String.eqb_eq in E. now subst.
  - intros H. exists x. split; [exact H|apply String.eqb_refl].
Qed.

Lemma inb_false x l : inb x l = false <-> ~ In x l.
Proof.
  rewrite <- inb_In. destruct (inb x l); split; congruence.
Qed.

Section Dict.
Context {V : Type}.
Implicit Types d : dict V.

Lemma dget_dset_eq k v d : dget k (dset k v d) = Some v.
Proof.
  induction d as [|[k' v'] d IH]; cbn [dset dget].
  - now rewrite String.eqb_refl.
  - destruct (String.eqb k k') eqn:E; cbn [dget]; rewrite E; [reflexivity|exact IH].
Qed.

Lemma dget_dset_neq k k' v d : k <> k' -> dget k (dset k' v d) = dget k d.
Proof.
  intros N. induction d as [|[a b] d IH]; cbn [dset dget].
  - apply String.eqb_neq in N. now rewrite N.
  - destruct (String.eqb k' a) eqn:E; cbn [dget].
    + apply String.eqb_eq in E. subst a. apply String.eqb_neq in N. now rewrite N.
    + destruct (String.eqb k a); [reflexivity|exact IH].
Qed.

Lemma dget_none_notin k d : dget k d = None <-> ~ In k (dkeys d).
Proof.
  induction d as [|[a b] d IH]; cbn [dget dkeys map fst].
  - split; [intros _ []|reflexivity].
  - destruct (String.eqb k a) eqn:E.
    + apply String.eqb_eq in E. subst. split; [discriminate|]. intros H. exfalso. apply H. now left.
    + apply String.eqb_neq in E. rewrite IH. unfold dkeys. cbn [In]. split.
      * intros H [H'|H']; [congruence|contradiction].
      * intros H H'. apply H. now right.
Qed.

Lemma din_dget k d : din k d = true <-> exists v, dget k d = Some v.
Proof.
  unfold din. rewrite inb_In. destruct (dget k d) as [v|] eqn:E.
  - split; [eauto|]. intros _. destruct (in_dec string_dec k (dkeys d)) as [H|H]; [exact H|].
    apply dget_none_notin in H. congruence.
  - apply dget_none_notin in E. split; [contradiction|]. intros [v Hv]. discriminate.
Qed.

Lemma din_false k d : din k d = false <-> dget k d = None.
Proof.
  destruct (din k d) eqn:E.
  - apply din_dget in E. destruct E as [v ->]. split; discriminate.
  - split; [|reflexivity]. intros _. destruct (dget k d) eqn:G; [|reflexivity].
    assert (din k d = true) by (apply din_dget; eauto). congruence.
Qed.

Lemma dget_ddel_neq k k' d : k <> k' -> dget k (ddel k' d) = dget k d.
Proof.
  intros N. unfold ddel. induction d as [|[a b] d IH]; cbn [filter dget fst]; [reflexivity|].
  destruct (String.eqb k' a) eqn:E; cbn [negb].
  - apply String.eqb_eq in E. subst. apply String.eqb_neq in N. now rewrite N.
  - cbn [dget]. destruct (String.eqb k a); [reflexivity|exact IH].
Qed.

Lemma dkeys_dset k v d : dkeys (dset k v d) = if din k d then dkeys d else dkeys d ++ [k].
Proof.
  unfold din, dkeys. induction d as [|[a b] d IH]; cbn [dset map fst inb existsb]; [reflexivity|].
  destruct (String.eqb k a) eqn:E; cbn [map fst orb].
  - reflexivity.
  - rewrite IH. unfold inb. destruct (existsb (String.eqb k) (map fst d)); reflexivity.
Qed.

Lemma NoDup_dset k v d : NoDup (dkeys d) -> NoDup (dkeys (dset k v d)).
Proof.
  intros H. rewrite dkeys_dset. destruct (din k d) eqn:E; [exact H|].
  apply din_false in E. apply dget_none_notin in E.
  apply (Permutation_NoDup (Permutation_cons_append _ _)). now constructor.
Qed.

Lemma dget_ddel_eq k d : dget k (ddel k d) = None.
Proof.
  unfold ddel. induction d as [|[a b] d IH]; cbn [filter dget fst]; [reflexivity|].
  destruct (String.eqb k a) eqn:E; cbn [negb]; [exact IH|]. cbn [dget]. rewrite E. exact IH.
Qed.

Lemma dupdate_app d d1 d2 : dupdate d (d1 ++ d2) = dupdate (dupdate d d1) d2.
Proof. unfold dupdate. now rewrite fold_left_app. Qed.

Lemma dget_dupdate_notin k d d2 : ~ In k (dkeys d2) -> dget k (dupdate d d2) = dget k d.
Proof.
  revert d. induction d2 as [|[a b] d2 IH]; intros d N; [reflexivity|].
  change (dupdate d ((a, b) :: d2)) with (dupdate (dset a b d) d2).
  cbn [dkeys map fst In] in N. rewrite IH by tauto. apply dget_dset_neq. intuition congruence.
Qed.

Lemma dget_dupdate_in k d d2 v : NoDup (dkeys d2) -> dget k d2 = Some v -> dget k (dupdate d d2) = Some v.
Proof.
  revert d. induction d2 as [|[a b] d2 IH]; intros d N H; [discriminate|].
  change (dupdate d ((a, b) :: d2)) with (dupdate (dset a b d) d2).
  cbn [dkeys map fst] in N. inversion N as [|? ? Hn N']; subst.
  cbn [dget] in H. destruct (String.eqb k a) eqn:E.
  - apply String.eqb_eq in E. subst. injection H as ->.
    rewrite dget_dupdate_notin by exact Hn. apply dget_dset_eq.
  - now apply IH.
Qed.
End Dict.

(** [nth_error] facts used all over the place *)
Lemma nth_error_repeat {A} (x : A) n i : i < n -> nth_error (repeat x n) i = Some x.
Proof.
  revert i. induction n as [|n IH]; intros i H; [lia|].
  destruct i as [|i]; cbn [repeat nth_error]; [reflexivity|]. apply IH. lia.
Qed.

Lemma nth_error_ext {A} (l l' : list A) : (forall i, nth_error l i = nth_error l' i) -> l = l'.
Proof.
  revert l'. induction l as [|x l IH]; intros [|y l'] H.
  - reflexivity.
  - specialize (H 0). discriminate.
  - specialize (H 0). discriminate.
  - f_equal.
    + specialize (H 0). now injection H.
    + apply IH. intros i. exact (H (S i)).
Qed.

Lemma nth_error_lt {A} (l : list A) i x : nth_error l i = Some x -> i < length l.
Proof. intros H. apply nth_error_Some. congruence. Qed.
