(** Lemmas about [Shared_Model]. *)
From Verif Require Import Base_Proofs Photons_Model Photons_Proofs Shared_Model.

Lemma set_nth_length {A} i (x : A) l : length (set_nth i x l) = length l.
Proof.
  unfold set_nth. rewrite app_length. revert i. induction l as [|a l IH]; intros i.
  - rewrite firstn_nil, skipn_nil. reflexivity.
  - destruct i; cbn [firstn skipn length plus]; [reflexivity|]. now rewrite IH.
Qed.
Lemma set_nth_neq {A} i j (x : A) l : i <> j -> nth_error (set_nth i x l) j = nth_error l j.
Proof.
  unfold set_nth. revert i j. induction l as [|a l IH]; intros i j N.
  - rewrite firstn_nil, skipn_nil. reflexivity.
  - destruct i, j; cbn [firstn skipn app nth_error]; try lia; try reflexivity. apply IH. lia.
Qed.
Lemma set_nth_eq {A} i (x y : A) l : nth_error l i = Some y -> nth_error (set_nth i x l) i = Some x.
Proof.
  unfold set_nth. revert i. induction l as [|a l IH]; intros i H.
  - destruct i; discriminate.
  - destruct i; cbn [firstn skipn app nth_error] in *; [reflexivity|]. now apply IH.
Qed.

(** *** columns *)
Definition names_only (sps : list colspec) : Prop := Forall (fun s => exists n, s = SName n) sps.

Lemma add_specs_names sps : forall objs t, names_only sps ->
  exists t', add_specs sps (objs, t) = ((objs, t'), None) /\ nrows t' = nrows t /\
    (forall c, In c (colnames t) -> getcol t' c = getcol t c) /\
    (forall c, In c (colnames t') <-> In c (colnames t) \/ In (SName c) sps) /\
    (forall c, In (SName c) sps -> ~ In c (colnames t) -> getcol t' c = Some (repeat nan (nrows t))).
Proof.
  induction sps as [|s sps IH]; intros objs t H.
  - exists t. repeat split; auto; cbn [In]; tauto.
  - inversion H as [|? ? [n ->] H']; subst. cbn [add_specs add_spec]. destruct (inb n (colnames t)) eqn:E.
    + destruct (IH objs t H') as (t' & E1 & N & E2 & E3 & E4). exists t'. split; [exact E1|]. split; [exact N|]. split; [exact E2|].
      apply inb_In in E. split.
      * intros c. rewrite E3. cbn [In]. split; intros [X|X]; auto. destruct X as [X|X]; [injection X as ->|]; auto.
      * intros c [X|X] Nc; [injection X as ->; contradiction|]. now apply E4.
    + assert (En : ~ In n (colnames t)) by (intros X; apply inb_In in X; congruence).
      set (t1 := mkT (nrows t) (cols t ++ [(n, repeat nan (nrows t))])).
      destruct (IH objs t1 H') as (t' & E1 & N & E2 & E3 & E4). exists t'. split; [exact E1|]. split; [exact N|].
      assert (C1 : forall c, In c (colnames t1) <-> In c (colnames t) \/ c = n).
      { intros c. unfold t1, colnames, dkeys. cbn [cols]. rewrite map_app, in_app_iff. cbn [map fst In]. intuition. }
      split; [|split].
      * intros c Hc. rewrite E2 by (apply C1; now left). unfold t1, getcol. cbn [cols]. now apply dget_app_l.
      * intros c. rewrite E3, C1. cbn [In]. split.
        -- intros [[X|X]|X]; subst; auto.
        -- intros [X|[X|X]]; auto. injection X as ->. auto.
      * intros c [X|X] Nc.
        -- injection X as ->. rewrite E2 by (apply C1; now right). unfold t1, getcol. cbn [cols].
           rewrite dget_app_r by exact En. cbn [dget]. now rewrite String.eqb_refl.
        -- destruct (string_dec c n) as [->|Nn].
           ++ rewrite E2 by (apply C1; now right). unfold t1, getcol. cbn [cols].
              rewrite dget_app_r by exact En. cbn [dget]. now rewrite String.eqb_refl.
           ++ apply E4; [exact X|]. rewrite C1. tauto.
Qed.

Lemma history_names sps hist : forall objs, names_only sps -> objs_after sps objs hist = objs.
Proof.
  induction hist as [|t h IH]; intros objs H; [reflexivity|]. cbn [objs_after].
  destruct (add_specs_names sps objs t H) as (t' & E & _). rewrite E. cbn [fst]. now apply IH.
Qed.

(** after the first photon list every dictionary has lost its value *)
Lemma add_spec_forgets a objs t o : nth_error objs a = Some o ->
  nth_error (fst (fst (add_spec (SDict a) (objs, t)))) a = Some (mkCD (cd_name o) None).
Proof.
  intros H. unfold add_spec. rewrite H. destruct (inb (cd_name o) (colnames t)); cbn [fst]; eapply set_nth_eq; eassumption.
Qed.

(** *** geometries *)
Lemma gstep_old s o g : g < length (geos s) -> touches g o = false ->
  nth_error (geos (gstep s o)) g = nth_error (geos s) g.
Proof.
  intros L T. destruct o as [|r ok|[h|] a]; cbn [gstep touches] in *.
  - cbn [geos]. now rewrite nth_error_app1.
  - destruct ok; cbn [geos]; [|reflexivity]. now rewrite nth_error_app1.
  - destruct (nth_error (geos s) h); [|reflexivity]. cbn [geos]. apply set_nth_neq. now apply Nat.eqb_neq.
  - cbn [geos]. now rewrite nth_error_app1.
Qed.
Lemma gstep_length s o : length (geos s) <= length (geos (gstep s o)).
Proof.
  destruct o as [|r ok|[h|] a]; cbn [gstep].
  - cbn [geos]. rewrite app_length. lia.
  - destruct ok; cbn [geos]; [rewrite app_length|]; lia.
  - destruct (nth_error (geos s) h); [|lia]. cbn [geos]. now rewrite set_nth_length.
  - cbn [geos]. rewrite app_length. lia.
Qed.
Lemma gruns_old l : forall s g, g < length (geos s) -> forallb (fun o => negb (touches g o)) l = true ->
  forall k, param (gruns s l) g k = param s g k.
Proof.
  induction l as [|o l IH]; intros s g L H k; [reflexivity|]. cbn [gruns fold_left forallb] in *.
  apply andb_true_iff in H. destruct H as [H1 H2]. apply negb_true_iff in H1.
  fold (gruns (gstep s o) l). rewrite IH; [|pose proof (gstep_length s o); lia|exact H2].
  unfold param. now rewrite gstep_old.
Qed.
Lemma new_hole s r : param (gstep s (NewHole (Some r) true)) (length (geos s)) "r_inner" = Some r.
Proof.
  unfold param. cbn [gstep geos]. rewrite nth_error_app2 by lia. rewrite Nat.sub_diag. cbn [nth_error]. apply dget_dset_eq.
Qed.
(** only the groove angle of a shared geometry can change *)
Lemma gruns_other l : forall s g k, g < length (geos s) -> k <> "groove_angle" -> param (gruns s l) g k = param s g k.
Proof.
  induction l as [|o l IH]; intros s g k L N; [reflexivity|]. cbn [gruns fold_left]. fold (gruns (gstep s o) l).
  rewrite IH; [|pose proof (gstep_length s o); lia|exact N].
  destruct (touches g o) eqn:T; [|unfold param; now rewrite gstep_old].
  destruct o as [|r ok|[h|] a]; try discriminate. cbn [touches] in T. apply Nat.eqb_eq in T. subst h.
  unfold param. cbn [gstep]. destruct (nth_error (geos s) g) as [d|] eqn:E; [|now rewrite E]. cbn [geos].
  rewrite (set_nth_eq _ _ _ _ E). apply dget_dset_neq. congruence.
Qed.
