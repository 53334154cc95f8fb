(** Property C31: arrival times of a Poisson process. *)
From Coq Require Import Sorted.
From Verif Require Import Vec_Proofs Poisson_Model Poisson_Proofs.
Open Scope R_scope.

(** Whenever times are returned they are in order and they are exactly the arrivals before the end of the exposure: none is missing
    and none is too late. *)
Theorem C31_times_partial : forall draws T rate fuel ts, (forall i, 0 <= draws i) -> poisson_rate fuel draws T rate = Ok ts ->
  StronglySorted Rle ts /\ (forall t, In t ts <-> exists k, (1 <= k)%nat /\ t = arrival draws k /\ t < T) /\
  exists k, ts = map (arrival draws) (seq 1 k) /\ T <= arrival draws (S k).
Proof. intros draws T rate fuel ts P. now apply poisson_ok. Qed.
Print Assumptions C31_times_partial.
(** Times are returned if the draws pass the exposure time and the loop never asks for less than one more draw. *)
Theorem C31_ends_partial : forall draws T rate N, (forall i, 0 <= draws i) -> T <= arrival draws N ->
  (forall n, arrival draws n < T -> 1 <= (T - arrival draws n) * rate * (11 / 10)) -> exists ts, poisson_rate N draws T rate = Ok ts.
Proof.
  intros draws T rate N P H B. destruct (loop_ends draws T rate P N H B (batch rate T)) as [m E]. unfold poisson_rate. rewrite E. cbn. eauto.
Qed.
Print Assumptions C31_ends_partial.
(** If fewer than 1 / 1.1 photons are expected in the exposure time nothing is drawn and the loop runs forever: an exposure of half a
    second at a rate of one photon per second never returns, whatever the draws are. *)
Theorem C31_hangs_refuted : (forall draws T rate fuel, 0 < T -> T * rate * (11 / 10) < 1 -> poisson_rate fuel draws T rate = Err NonTermination) /\
  forall draws fuel, poisson_rate fuel draws (1 / 2) 1 = Err NonTermination.
Proof.
  assert (G : forall draws T rate fuel, 0 < T -> T * rate * (11 / 10) < 1 -> poisson_rate fuel draws T rate = Err NonTermination).
  { intros draws T rate fuel P B. unfold poisson_rate. rewrite batch_0 by exact B. rewrite loop_stuck; [reflexivity|exact P|].
    cbn [arrival]. now rewrite Rminus_0_r. }
  split; [exact G|]. intros draws fuel. apply G; lra.
Qed.
Print Assumptions C31_hangs_refuted.
(** The same happens later: once the remaining time is too short for the next batch to have one draw. *)
Theorem C31_stuck_refuted : forall draws T rate n fuel, arrival draws n < T -> (T - arrival draws n) * rate * (11 / 10) < 1 ->
  poisson_loop fuel draws T rate n = Err NonTermination.
Proof. intros draws T rate n fuel. now apply loop_stuck. Qed.
Print Assumptions C31_stuck_refuted.
(** Draws of 0.6 s, exposure 2 s, rate 2 / s: the arrivals 0.6, 1.2, 1.8 are returned. *)
Example C31_example : exists ts, poisson_rate 0 (fun _ => 6 / 10) 2 2 = Ok ts /\ In (18 / 10) ts.
Proof.
  assert (B : batch 2 2 = 4%nat) by (unfold batch; rewrite (Rfloor_unique _ 4); [reflexivity|lra]).
  assert (E : exists ts, poisson_rate 0 (fun _ => 6 / 10) 2 2 = Ok ts).
  { unfold poisson_rate. rewrite B. cbn [poisson_loop arrival]. rewrite (proj2 (Rltb_false _ _)) by lra. cbn [bind]. eauto. }
  destruct E as [ts E]. exists ts. split; [exact E|].
  apply (C31_times_partial (fun _ => 6 / 10) 2 2 0 ts); [intros; lra|exact E|]. exists 3%nat. cbn [arrival]. repeat split; [lia|lra|lra].
Qed.
