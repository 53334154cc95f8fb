From Verif Require Import Marx_Model Base_Proofs.
From Coq Require Import Permutation Sorted.
Open Scope nat_scope.

Section P.
Context {D P : Type}.
Notation photon := (photon D P). Notation cphoton := (cphoton D).

Lemma ins_perm : forall {A} (key : A -> Z) x l, Permutation (x :: l) (ins key x l).
Proof.
  induction l; cbn; [auto|]. destruct (Z.leb _ _); [auto|].
  eapply Permutation_trans; [apply perm_swap|]. now constructor.
Qed.
Lemma sorted_perm : forall {A} (key : A -> Z) l, Permutation l (sorted_by key l).
Proof. induction l; cbn; [auto|]. eapply Permutation_trans; [constructor; exact IHl|]. apply ins_perm. Qed.
Lemma ins_sorted : forall {A} (key : A -> Z) x l, StronglySorted (fun a b => (key a <= key b)%Z) l -> StronglySorted (fun a b => (key a <= key b)%Z) (ins key x l).
Proof.
  induction 1; cbn; [repeat constructor|]. destruct (Z.leb_spec (key x) (key a)).
  - constructor; [constructor; auto|]. constructor; [auto|]. eapply Forall_impl; [|exact H0]. cbn. intros. lia.
  - constructor; [auto|]. eapply Permutation_Forall; [apply ins_perm|]. constructor; [lia|auto].
Qed.
Lemma sorted_by_sorted : forall {A} (key : A -> Z) l, StronglySorted (fun a b => (key a <= key b)%Z) (sorted_by key l).
Proof. induction l; cbn; [constructor|]. now apply ins_sorted. Qed.

Lemma search_found : forall (l : list photon) p, StronglySorted (fun a b => (tag a <= tag b)%Z) l -> NoDup (map tag l) -> In p l ->
  nth_error l (searchsorted (map tag l) (tag p)) = Some p.
Proof.
  induction 1; cbn; intros N I; [tauto|]. inversion N; subst. destruct I as [->|I].
  - now rewrite Z.ltb_irrefl.
  - rewrite Forall_forall in H0. pose proof (H0 _ I). destruct (Z.ltb_spec (tag a) (tag p)); [cbn; auto|].
    exfalso. apply H3. replace (tag a) with (tag p) by lia. now apply in_map.
Qed.
Lemma filter_tag : forall (l : list photon) p t, NoDup (map tag l) -> In p l -> tag p = t -> filter (fun q => Z.eqb (tag q) t) l = [p].
Proof.
  induction l; cbn; intros p t N I E; [tauto|]. inversion N; subst. destruct I as [->|I].
  - rewrite Z.eqb_refl. f_equal. rewrite <- (app_nil_r (filter _ _)). clear - H1. induction l; cbn in *; [reflexivity|].
    destruct (Z.eqb_spec (tag a) (tag p)) as [E|E]; [exfalso; apply H1; auto|]. apply IHl. tauto.
  - destruct (Z.eqb_spec (tag a) (tag p)) as [E|E]; [exfalso; apply H1; rewrite E; now apply in_map|]. now apply IHl.
Qed.
Lemma join_spec : forall new inn, NoDup (map (@tag D P) inn) -> (forall c, In c new -> In (ctag c) (map tag inn)) ->
  Forall2 (fun c r => fst r = c /\ In (snd r) inn /\ tag (snd r) = ctag c) (sorted_by ctag new) (join new inn).
Proof.
  intros new inn N S. unfold join.
  assert (S' : forall c, In c (sorted_by ctag new) -> In (ctag c) (map tag inn)) by (intros; apply S; eapply Permutation_in; [apply Permutation_sym, (sorted_perm ctag)|auto]).
  revert S'. generalize (sorted_by ctag new) as l. induction l; intros S'; cbn; [constructor|].
  pose proof (S' a (or_introl eq_refl)) as I. apply in_map_iff in I as (p & E & I).
  rewrite (filter_tag inn p (ctag a)) by auto. cbn. constructor; [auto|]. apply IHl. intros; apply S'; now right.
Qed.
Lemma collect_ok : forall {A B} (f : A -> result B) g l, (forall x, In x l -> f x = Ok (g x)) -> collect (map f l) = Ok (map g l).
Proof. induction l; cbn; intros H; [reflexivity|]. rewrite H, IHl by auto. reflexivity. Qed.
Lemma sorted_nodup : forall {A} (key : A -> Z) l, NoDup (map key l) -> NoDup (map key (sorted_by key l)).
Proof. intros. eapply Permutation_NoDup; [apply Permutation_map, sorted_perm|auto]. Qed.
Lemma new_prob_ok : forall new inn, NoDup (map (@tag D P) inn) -> (forall c, In c new -> In (ctag c) (map tag inn)) ->
  collect (map (new_prob (sorted_by tag inn)) (join new inn)) =
  Ok (map (fun r => if (unreflected (fst r) || vblocked (fst r))%bool then 0%Q else (prob (snd r) * prob (snd r))%Q) (join new inn)).
Proof.
  intros new inn N S. apply collect_ok. intros r I.
  assert (R : In (snd r) inn /\ tag (snd r) = ctag (fst r)).
  { pose proof (join_spec new inn N S) as F. clear - F I. induction F; cbn in I; [tauto|]. destruct I as [->|I]; [|auto]. destruct H as (<- & H1 & H2). auto. }
  destruct R as [R1 R2]. unfold new_prob. rewrite <- R2. rewrite search_found; [reflexivity|apply sorted_by_sorted|now apply sorted_nodup|].
  eapply Permutation_in; [apply sorted_perm|auto].
Qed.
Lemma join_length : forall new inn, NoDup (map (@tag D P) inn) -> (forall c, In c new -> In (ctag c) (map tag inn)) -> length (join new inn) = length new.
Proof.
  intros. rewrite <- (Permutation_length (Permutation_sym (sorted_perm ctag new))). symmetry. pose proof (join_spec new inn H H0) as F.
  clear - F. induction F; cbn; auto.
Qed.
Lemma lost_photons : forall transport new inn, NoDup (map (@tag D P) inn) -> c_contract new inn -> 2 <= length inn -> length new < length inn ->
  marx_call transport new inn = Err ValueError.
Proof.
  intros tr new inn N [_ C] L M. unfold marx_call. rewrite new_prob_ok by auto. cbn. unfold new_pol.
  rewrite join_length by auto. rewrite <- (Permutation_length (sorted_perm tag inn)).
  rewrite (proj2 (Nat.eqb_neq _ _)) by lia. pose proof (Permutation_length (sorted_perm tag inn)) as E.
  destruct (sorted_by tag inn) as [|a [|b l]]; cbn in E; [reflexivity|lia|reflexivity].
Qed.
Lemma sorted_keys_eq : forall l1 l2 : list Z, StronglySorted Z.le l1 -> StronglySorted Z.le l2 -> Permutation l1 l2 -> l1 = l2.
Proof.
  induction l1; intros l2 S1 S2 Pm.
  - now apply Permutation_nil in Pm.
  - destruct l2 as [|b l2]; [now apply Permutation_sym, Permutation_nil in Pm|].
    inversion S1; inversion S2; subst. rewrite Forall_forall in H2, H6.
    assert (a = b).
    { assert (In b (a :: l1)) by (eapply Permutation_in; [apply Permutation_sym; exact Pm|left; auto]).
      assert (In a (b :: l2)) by (eapply Permutation_in; [exact Pm|left; auto]).
      destruct H as [|H]; [auto|]. destruct H0 as [|H0]; [auto|]. pose proof (H2 _ H). pose proof (H6 _ H0). lia. }
    subst. f_equal. apply IHl1; auto. eapply Permutation_cons_inv; exact Pm.
Qed.
Lemma sorted_map : forall {A} (key : A -> Z) l, StronglySorted (fun a b => (key a <= key b)%Z) l -> StronglySorted Z.le (map key l).
Proof. induction 1; cbn; constructor; auto. rewrite Forall_forall in *. intros x I. apply in_map_iff in I as (y & <- & I). auto. Qed.

Lemma all_survive : forall transport new inn, NoDup (map (@tag D P) inn) -> c_contract new inn -> length new = length inn ->
  marx_call transport new inn = Ok (map (fun cp : cphoton * photon => let (c, p) := cp in
      (ctag c, if (unreflected c || vblocked c)%bool then 0%Q else (prob p * prob p)%Q, transport (dir p) (cdir c) (pol p))) (combine (sorted_by ctag new) (sorted_by tag inn)))
  /\ map ctag (sorted_by ctag new) = map tag (sorted_by tag inn).
Proof.
  intros tr new inn N [NC C] L.
  assert (K : map ctag (sorted_by ctag new) = map tag (sorted_by tag inn)).
  { apply sorted_keys_eq; try apply sorted_map, sorted_by_sorted.
    eapply Permutation_trans; [apply Permutation_sym, Permutation_map, sorted_perm|].
    eapply Permutation_trans; [|apply Permutation_map, sorted_perm].
    apply NoDup_Permutation_bis; [auto|rewrite !map_length; lia|]. intros t I. apply in_map_iff in I as (c & <- & I). auto. }
  split; [|exact K]. unfold marx_call. rewrite new_prob_ok by auto. cbn. unfold new_pol.
  rewrite join_length by auto. rewrite <- (Permutation_length (sorted_perm tag inn)), L, Nat.eqb_refl. cbn.
  assert (J : join new inn = combine (sorted_by ctag new) (sorted_by tag inn)).
  { pose proof (join_spec new inn N C) as F. pose proof (sorted_nodup tag inn N) as N'.
    assert (I' : forall p, In p inn -> In p (sorted_by tag inn)) by (intros; eapply Permutation_in; [apply sorted_perm|auto]).
    revert F K. generalize (join new inn) as j.
    assert (G : forall (lc : list cphoton) (lp : list photon) (j : list (cphoton * photon)), NoDup (map (@tag D P) lp) -> Forall2 (fun c r => fst r = c /\ In (snd r) inn /\ tag (snd r) = ctag c) lc j -> map ctag lc = map tag lp ->
        (forall r, In r j -> In (snd r) lp) -> j = combine lc lp).
    { intros lc lp j N1 F. revert lp N1. induction F as [|c r lc j H F IH]; intros lp N1 E I; cbn; [reflexivity|].
      destruct lp as [|p lp]; [discriminate|]. cbn in E. injection E as E1 E2. inversion N1 as [|x l NI N2]; subst x l. cbn.
      destruct H as (H1 & H2 & H3). destruct r as [rc rp]. cbn in *. subst rc.
      assert (rp = p). { destruct (I (c, rp) (or_introl eq_refl)) as [|X]; [auto|]. cbn in X. exfalso. apply NI. rewrite <- E1, <- H3. now apply in_map. }
      subst rp. f_equal. apply IH; auto. intros r Ir. destruct (I r (or_intror Ir)) as [X|]; [|auto]. exfalso.
      assert (In (tag (snd r)) (map ctag lc)). { clear - F Ir. induction F; cbn in Ir; [tauto|]. destruct Ir as [->|Ir]; [left; now destruct H as (_ & _ & ->)|right; auto]. }
      apply NI. rewrite <- E2. now rewrite X. }
    intros j F K. apply G; auto. intros r Ir. apply I'. clear - F Ir. induction F; cbn in Ir; [tauto|]. destruct Ir as [->|Ir]; [tauto|auto]. }
  rewrite J. clear. revert inn. intros inn. generalize (sorted_by tag inn) as lp. induction (sorted_by ctag new) as [|c lc IH]; intros lp; cbn.
  - now destruct lp.
  - destruct lp as [|p lp]; cbn; [reflexivity|]. specialize (IH lp). injection IH as IH. rewrite IH. reflexivity.
Qed.
End P.
