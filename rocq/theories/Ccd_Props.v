(** Property C39. *)
From Verif Require Import Ccd_Proofs.
Open Scope nat_scope.

(** If all photons hit, every photon gets an energy computed from its own energy and its own draw. *)
Theorem C39_all_hit_partial : forall sigma draws en t ipos icoos n, wf t -> nrows t = S n -> getcol t "energy" = Some en -> length draws = S n ->
  In "pos"%string (colnames t) -> length ipos = S n -> length icoos = S n ->
  exists t', process_photons (ccd sigma draws) (repeat true (S n)) ipos icoos t = (t', None) /\
    getcol t' "energy_detected" = Some (map (fun ed => redist sigma (fst ed) (snd ed)) (combine en draws)).
Proof. exact ccd_all. Qed.
Print Assumptions C39_all_hit_partial.
(** This is the energy plus the width at that energy times the draw; photons without energy have none. *)
Theorem C39_values : forall sigma e d c, redist sigma (CNum (Some e)) d = CNum (Some (e + sigma e * d)%Q) /\ redist sigma (CNum None) d = nan /\
  ((forall x, sigma x == 0)%Q -> redist sigma (CNum (Some e)) d = c -> exists x, c = CNum (Some x) /\ (x == e)%Q).
Proof.
  intros sigma e d c. split; [reflexivity|]. split; [reflexivity|]. intros S <-. exists (e + sigma e * d)%Q. split; [reflexivity|].
  rewrite (S e). ring.
Qed.
Print Assumptions C39_values.
(** If some photons hit and some do not, the call fails - always, for lists of at least two photons. *)
Theorem C39_some_hit_fails : forall sigma draws en t m ipos icoos, wf t -> getcol t "energy" = Some en -> length draws = nrows t ->
  length m = nrows t -> length ipos = nrows t -> length icoos = nrows t -> 2 <= nrows t -> In true m -> In false m ->
  snd (process_photons (ccd sigma draws) m ipos icoos t) = Some ValueError.
Proof. exact ccd_some. Qed.
Print Assumptions C39_some_hit_fails.
Definition photons2 : table := mkT 2 [("energy"%string, [CNum (Some 1%Q); CNum (Some 2%Q)]); ("pos"%string, [CVec []; CVec []])].
Lemma photons2_wf : wf photons2.
Proof.
  split; [repeat constructor; cbn; intuition discriminate|]. intros c l. unfold getcol. cbn. destruct (String.eqb "energy" c) eqn:E.
  - rewrite String.eqb_sym, E. now intros [= <-].
  - rewrite String.eqb_sym, E. destruct (String.eqb c "pos"); [now intros [= <-]|discriminate].
Qed.
Theorem C39_any_hit_refuted :
  ~ (forall sigma draws en t m ipos icoos, wf t -> getcol t "energy" = Some en -> length draws = nrows t -> In "pos"%string (colnames t) ->
       length m = nrows t -> length ipos = nrows t -> length icoos = nrows t ->
       snd (process_photons (ccd sigma draws) m ipos icoos t) = None).
Proof.
  intros H. specialize (H (fun _ => 1%Q) [0%Q; 0%Q] _ photons2 [true; false] [CVec []; CVec []] [(nan, nan); (nan, nan)] photons2_wf eq_refl eq_refl).
  rewrite C39_some_hit_fails with (en := [CNum (Some 1%Q); CNum (Some 2%Q)]) in H; try reflexivity; cbn; auto using photons2_wf.
  discriminate H; cbn; auto.
Qed.
Print Assumptions C39_any_hit_refuted.
Example C39_example : getcol (fst (process_photons (ccd (fun e => e) [0%Q; 1%Q]) [true; true] [CVec []; CVec []] [(nan, nan); (nan, nan)] photons2)) "energy_detected"
  = Some [CNum (Some (1 + 1 * 0)%Q); CNum (Some (2 + 2 * 1)%Q)].
Proof. reflexivity. Qed.
