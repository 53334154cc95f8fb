(** Lemmas about [Poisson_Model]. *)
From Coq Require Import Sorted.
From Verif Require Import Vec_Proofs.
From Verif Require Export Poisson_Model.
Open Scope R_scope.

Section Draws.
Variables (draws : nat -> R) (T rate : R).
Hypothesis Pos : forall i, 0 <= draws i.
Lemma arrival_mono i j : (i <= j)%nat -> arrival draws i <= arrival draws j.
Proof. induction 1; [lra|]. cbn. specialize (Pos m). lra. Qed.
Lemma loop_ok fuel : forall n m, poisson_loop fuel draws T rate n = Ok m -> T <= arrival draws m.
Proof.
  induction fuel as [|f IH]; intros n m; cbn; destruct (Rltb (arrival draws n) T) eqn:B; try discriminate.
  - intros H. injection H as <-. now apply Rltb_false in B.
  - apply IH.
  - intros H. injection H as <-. now apply Rltb_false in B.
Qed.
Lemma filter_prefix m : T <= arrival draws m -> exists k, (k <= m)%nat /\ T <= arrival draws k /\ (forall i, (i < k)%nat -> arrival draws i < T) /\
  filter (fun t => Rltb t T) (map (arrival draws) (seq 1 m)) = map (arrival draws) (seq 1 (pred k)).
Proof.
  intros H.
  assert (E : exists k, (k <= m)%nat /\ T <= arrival draws k /\ (forall i, (i < k)%nat -> arrival draws i < T)).
  { clear Pos. induction m as [|m IH].
    - exists 0%nat. repeat split; auto. intros i L. lia.
    - destruct (Rlt_le_dec (arrival draws m) T) as [L|L].
      + destruct (Rlt_le_dec T (arrival draws 0)) as [Z|Z].
        * exists 0%nat. repeat split; [lia|lra|intros i Li; lia].
        * assert (D : (forall i, (i <= m)%nat -> arrival draws i < T) \/ exists i, (i <= m)%nat /\ T <= arrival draws i).
          { clear - m. induction m as [|m IH].
            - destruct (Rlt_le_dec (arrival draws 0) T); [left; intros i Li; now replace i with 0%nat by lia|right; exists 0%nat; auto].
            - destruct IH as [IH|(i & Li & Q)]; [|right; exists i; split; [lia|exact Q]].
              destruct (Rlt_le_dec (arrival draws (S m)) T) as [P|P]; [|right; exists (S m); auto].
              left. intros i Li. destruct (Nat.eq_dec i (S m)) as [->|N]; [exact P|apply IH; lia]. }
          destruct D as [D|(i & Li & Q)].
          { exists (S m). repeat split; auto. intros j Lj. apply D. lia. }
          clear IH L. revert Li Q. induction i as [i IHi] using lt_wf_ind. intros Li Q.
          assert (D : (forall j, (j < i)%nat -> arrival draws j < T) \/ exists j, (j < i)%nat /\ T <= arrival draws j).
          { clear. induction i as [|i IH]; [left; intros j Lj; lia|].
            destruct IH as [IH|(j & Lj & Q)]; [|right; exists j; split; [lia|exact Q]].
            destruct (Rlt_le_dec (arrival draws i) T) as [P|P]; [|right; exists i; auto].
            left. intros j Lj. destruct (Nat.eq_dec j i) as [->|N]; [exact P|apply IH; lia]. }
          destruct D as [D|(j & Lj & Q')]; [exists i; repeat split; auto|apply (IHi j Lj); [lia|exact Q']].
      + destruct (IH L) as (k & Lk & Q & F). exists k. repeat split; auto. }
  destruct E as (k & Lk & Q & F). exists k. split; [exact Lk|]. split; [exact Q|]. split; [exact F|].
  assert (A : forall l, (forall i, In i l -> arrival draws i < T) -> filter (fun t => Rltb t T) (map (arrival draws) l) = map (arrival draws) l).
  { induction l as [|a l IH]; intros G; [reflexivity|]. cbn. rewrite (proj2 (Rltb_true _ _)) by (apply G; now left). f_equal. apply IH. intros i I. apply G. now right. }
  assert (B : forall l, (forall i, In i l -> T <= arrival draws i) -> filter (fun t => Rltb t T) (map (arrival draws) l) = []).
  { induction l as [|a l IH]; intros G; [reflexivity|]. cbn. rewrite (proj2 (Rltb_false _ _)) by (apply G; now left). apply IH. intros i I. apply G. now right. }
  replace m with (pred k + (m - pred k))%nat by lia. rewrite seq_app, map_app, filter_app. rewrite A, B, app_nil_r; [reflexivity| |].
  - intros i I. apply in_seq in I. pose proof (arrival_mono k i ltac:(lia)). lra.
  - intros i I. apply in_seq in I. apply F. lia.
Qed.
Lemma sorted_arrivals s n : StronglySorted Rle (map (arrival draws) (seq s n)).
Proof.
  revert s. induction n as [|n IH]; intros s; cbn; constructor; [apply IH|]. apply Forall_forall. intros t I. apply in_map_iff in I.
  destruct I as (i & <- & I). apply in_seq in I. apply arrival_mono. lia.
Qed.
Lemma poisson_ok fuel ts : poisson_rate fuel draws T rate = Ok ts ->
  StronglySorted Rle ts /\ (forall t, In t ts <-> exists k, (1 <= k)%nat /\ t = arrival draws k /\ t < T) /\
  exists k, ts = map (arrival draws) (seq 1 k) /\ T <= arrival draws (S k).
Proof.
  unfold poisson_rate. destruct (poisson_loop fuel draws T rate (batch rate T)) as [m|] eqn:L; [|discriminate].
  cbn [bind]. intros H. assert (E : ts = filter (fun t => Rltb t T) (map (arrival draws) (seq 1 m))) by congruence. clear H.
  pose proof (loop_ok _ _ _ L) as M. destruct (filter_prefix m M) as (k & Lk & Q & F & FE). rewrite FE in E. subst ts.
  split; [apply sorted_arrivals|]. split.
  - intros t. rewrite in_map_iff. split.
    + intros (i & <- & I). apply in_seq in I. exists i. repeat split; [lia|]. apply F. lia.
    + intros (i & Li & -> & Lt). exists i. split; [reflexivity|]. apply in_seq.
      destruct (Nat.lt_ge_cases i k) as [C|C]; [lia|]. pose proof (arrival_mono k i C). lra.
  - exists (pred k). split; [reflexivity|]. pose proof (arrival_mono k (S (pred k)) ltac:(lia)). lra.
Qed.
End Draws.
Lemma batch_0 rate time : time * rate * (11 / 10) < 1 -> batch rate time = 0%nat.
Proof.
  intros H. unfold batch. destruct (Rfloor_spec (time * rate * (11 / 10))) as [L _].
  assert (Rfloor (time * rate * (11 / 10)) < 1)%Z by (apply lt_IZR; lra). lia.
Qed.
Lemma loop_stuck fuel : forall draws T rate n, arrival draws n < T -> (T - arrival draws n) * rate * (11 / 10) < 1 ->
  poisson_loop fuel draws T rate n = Err NonTermination.
Proof.
  induction fuel as [|f IH]; intros draws T rate n L B; cbn; rewrite (proj2 (Rltb_true _ _) L); [reflexivity|].
  rewrite batch_0, Nat.add_0_r by exact B. now apply IH.
Qed.
(** the loop ends if every batch is at least one draw and the draws pass [T] *)
Lemma loop_ends draws T rate : (forall i, 0 <= draws i) -> forall N, T <= arrival draws N ->
  (forall n, arrival draws n < T -> 1 <= (T - arrival draws n) * rate * (11 / 10)) ->
  forall n, exists m, poisson_loop N draws T rate n = Ok m.
Proof.
  intros Pos N H B.
  assert (G : forall fuel n, (N <= n + fuel)%nat -> exists m, poisson_loop fuel draws T rate n = Ok m).
  { induction fuel as [|f IH]; intros n L; cbn; destruct (Rltb (arrival draws n) T) eqn:C; eauto.
    - apply Rltb_true in C. pose proof (arrival_mono draws Pos N n ltac:(lia)). lra.
    - apply Rltb_true in C. specialize (B n C). apply IH. unfold batch.
      destruct (Rfloor_spec ((T - arrival draws n) * rate * (11 / 10))) as [_ F].
      assert (0 < Rfloor ((T - arrival draws n) * rate * (11 / 10)))%Z by (apply lt_IZR; lra). lia. }
  intros n. apply G. lia.
Qed.
