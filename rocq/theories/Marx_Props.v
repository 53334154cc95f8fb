(** Property C43. *)
From Verif Require Import Marx_Proofs Marx_Model.
Open Scope Q_scope.

(** If no photon is lost in the C code, the rows of the result are matched to the photons by tag, in order of the tag; blocked photons have
    probability zero, the polarization is transported between the directions of the same photon - but the probability is squared. *)
Theorem C43_matched_by_tag_partial : forall {D P} (transport : D -> D -> P -> P) new inn, NoDup (map tag inn) -> c_contract new inn -> length new = length inn ->
  marx_call transport new inn = Ok (map (fun cp : cphoton D * photon D P => let (c, p) := cp in
      (ctag c, if (unreflected c || vblocked c)%bool then 0 else prob p * prob p, transport (dir p) (cdir c) (pol p))) (combine (sorted_by ctag new) (sorted_by tag inn)))
  /\ map ctag (sorted_by ctag new) = map tag (sorted_by tag inn).
Proof. intros D P. exact all_survive. Qed.
Print Assumptions C43_matched_by_tag_partial.
(** If the C code drops a photon of a list of at least two, the call fails. *)
Theorem C43_lost_photon_fails : forall {D P} (transport : D -> D -> P -> P) new inn, NoDup (map tag inn) -> c_contract new inn ->
  (2 <= length inn)%nat -> (length new < length inn)%nat -> marx_call transport new inn = Err ValueError.
Proof. intros D P. exact lost_photons. Qed.
Print Assumptions C43_lost_photon_fails.

Definition half_photon : photon unit unit := mkPh 7 (1 # 2) tt tt.
Definition sure_photon : photon unit unit := mkPh 3 1 tt tt.
(** The probability is not multiplied by the (unit) efficiency once. *)
Theorem C43_probability_once_refuted :
  ~ (forall {D P} (transport : D -> D -> P -> P) new inn rows, NoDup (map tag inn) -> c_contract new inn -> length new = length inn ->
      marx_call transport new inn = Ok rows ->
      Forall2 (fun row cp => snd (fst row) == mirror_prob (fst cp) (snd cp)) rows (combine (sorted_by ctag new) (sorted_by tag inn))).
Proof.
  intros H. specialize (H unit unit (fun _ _ x => x) [mkC 7 tt false false] [half_photon] [(7%Z, (1 # 2) * (1 # 2), tt)]).
  assert (F := H ltac:(repeat constructor; cbn; tauto) ltac:(split; [repeat constructor; cbn; tauto|cbn; intuition (subst; auto)]) eq_refl eq_refl).
  cbn in F. inversion F; subst. cbn in *. discriminate.
Qed.
Print Assumptions C43_probability_once_refuted.
(** A photon list in which the probabilities are zero or one is treated right. *)
Theorem C43_probability_zero_or_one : forall {D P} (transport : D -> D -> P -> P) new inn rows, NoDup (map tag inn) -> c_contract new inn -> length new = length inn ->
  (forall p, In p inn -> prob p == 0 \/ prob p == 1) -> marx_call transport new inn = Ok rows ->
  Forall2 (fun row cp => snd (fst row) == mirror_prob (fst cp) (snd cp)) rows (combine (sorted_by ctag new) (sorted_by tag inn)).
Proof.
  intros D P tr new inn rows N C L Pr E. destruct (all_survive tr new inn N C L) as [E' _]. rewrite E' in E. injection E as <-. clear E'.
  assert (I : forall cp, In cp (combine (sorted_by ctag new) (sorted_by tag inn)) -> In (snd cp) inn).
  { intros [c p] I. apply in_combine_r in I. cbn. eapply Permutation.Permutation_in; [apply Permutation.Permutation_sym, (sorted_perm tag)|exact I]. }
  revert I. induction (combine _ _) as [|[c p] l IH]; cbn; intros I; [constructor|]. constructor; [|apply IH; auto].
  cbn. unfold mirror_prob. destruct (_ || _)%bool; [reflexivity|]. destruct (Pr p (I (c, p) (or_introl eq_refl))) as [Z|Z]; rewrite Z; reflexivity.
Qed.
Print Assumptions C43_probability_zero_or_one.
Example C43_example : marx_call (fun (_ _ : unit) (x : unit) => x) [mkC 7 tt false false; mkC 3 tt true false] [half_photon; sure_photon]
  = Ok [(3%Z, 0, tt); (7%Z, (1 # 2) * (1 # 2), tt)].
Proof. reflexivity. Qed.
Example C43_example_hyp : NoDup (map tag [half_photon; sure_photon]) /\ c_contract [mkC 7 tt false false; mkC 3 tt true false] [half_photon; sure_photon].
Proof.
  split; [repeat constructor; cbn; intuition discriminate|]. split; [repeat constructor; cbn; intuition discriminate|].
  cbn. intuition (subst; auto).
Qed.
