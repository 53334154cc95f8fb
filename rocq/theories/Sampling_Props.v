(** Properties C30 and C32: draws from histograms and of grating orders. *)
From Coq Require Import Permutation.
From Verif Require Import Vec_Proofs Sampling_Model Sampling_Proofs.
Open Scope R_scope.

(** ** C30: a histogram is accepted exactly if it makes sense *)
Theorem C30_accepted : forall x pdf, x <> [] ->
  ((exists h, hist_init x pdf = Ok h) <-> length x = length pdf /\ nonneg pdf /\ increasing x) /\
  (forall e, hist_init x pdf = Err e -> e = ValueError).
Proof. exact hist_init_ok. Qed.
Print Assumptions C30_accepted.
(** In whatever order the bins are kept, every draw above 0 leads to a bin with positive probability density and width and to a
    value inside of this bin. *)
Theorem C30_bin_partial : forall x pdf h order c v randomize, hist_init x pdf = Ok h -> x <> [] -> Permutation order (seq 0 (length x)) ->
  0 < c <= Rsum (h_mass h) -> 0 <= v < 1 ->
  exists i val, hist_index h order c = Ok (S i) /\ hist_draw h order randomize c v = Ok val /\ (S i < length x)%nat /\
    0 < nth (S i) pdf 0 /\ nth i x 0 < nth (S i) x 0 /\
    if randomize then nth i x 0 <= val < nth (S i) x 0 /\ val = nth i x 0 + (nth (S i) x 0 - nth i x 0) * v else val = nth (S i) x 0.
Proof. intros x pdf h order c v randomize I N P. now apply draw_bin. Qed.
Print Assumptions C30_bin_partial.
(** The draws that lead to a bin form an interval; its length is density times width of the bin, the whole range of draws is the sum
    of these. *)
Theorem C30_share : forall x pdf h order, hist_init x pdf = Ok h -> x <> [] -> Permutation order (seq 0 (length x)) ->
  h_mass h = 0 :: map (fun i => nth (S i) pdf 0 * (nth (S i) x 0 - nth i x 0)) (seq 0 (pred (length x))) /\
  forall i, (i < length x)%nat -> exists lo, 0 <= lo /\ lo + nth i (h_mass h) 0 <= Rsum (h_mass h) /\
    forall c, 0 < c <= Rsum (h_mass h) -> (hist_index h order c = Ok i <-> lo < c <= lo + nth i (h_mass h) 0).
Proof.
  intros x pdf h order I N P. split; [|intros i Li; now apply (draw_share x pdf h order I N P)].
  destruct (hist_init_inv x pdf h I N) as (_ & LM & _ & _ & M0 & MS & _).
  assert (L : (0 < length x)%nat) by (destruct x; [contradiction|cbn; lia]).
  apply nth_ext with (d := 0) (d' := 0); [cbn [length]; rewrite map_length, seq_length; lia|]. intros i Li. rewrite LM in Li.
  destruct i as [|i]; [exact M0|]. rewrite MS by exact Li. cbn [nth]. rewrite (nth_map_lt _ _ i 0%nat) by (rewrite seq_length; lia).
  rewrite seq_nth by lia. reflexivity.
Qed.
Print Assumptions C30_share.
(** The uniform draw can be exactly 0. Then the first bin in the internal order is taken, which never has any probability: with bins
    1-2 and 2-3 of which only the first has a non-zero density the value 3 (or, without randomization, 1) is returned. *)
Theorem C30_zero_refuted : exists h, hist_init [1; 2; 3] [0; 1; 0] = Ok h /\ Permutation [0; 2; 1]%nat (seq 0 3) /\
  hist_index h [0; 2; 1]%nat 0 = Ok 0%nat /\ nth 0 (h_mass h) 0 = 0 /\
  (forall v, hist_draw h [0; 2; 1]%nat true 0 v = Ok 3) /\ (forall v, hist_draw h [0; 2; 1]%nat false 0 v = Ok 1).
Proof.
  destruct (proj1 (hist_init_ok [1; 2; 3] [0; 1; 0] ltac:(discriminate))) as [_ H].
  destruct H as [h H].
  { split; [reflexivity|]. split; [intros v [<-|[<-|[<-|[]]]]; lra|].
    intros i L. cbn [length] in L. destruct i as [|[|i]]; cbn; try lra. lia. }
  exists h. split; [exact H|]. split; [apply perm_skip, perm_swap|].
  destruct (hist_init_inv _ _ _ H ltac:(discriminate)) as (HX & LM & LW & _ & M0 & _ & _).
  assert (I : hist_index h [0; 2; 1]%nat 0 = Ok 0%nat).
  { unfold hist_index, hist_cdf, cumsum. cbn [map cumsum_from ss_left]. rewrite M0, Rplus_0_r. now rewrite (proj2 (Rleb_true 0 0) (Rle_refl 0)). }
  split; [exact I|]. split; [exact M0|].
  assert (W : nth 0 (h_width h) 0 = 0).
  { unfold hist_init in H. destruct (negb _); [discriminate|]. destruct (negb _); [discriminate|]. destruct (negb _); [discriminate|].
    apply (f_equal (fun r => match r with Ok h => nth 0 (h_width h) 0 | Err _ => 0 end)) in H. cbn in H. cbn. now symmetry. }
  split; intros v; unfold hist_draw; rewrite I; cbn [bind hist_value nth_before]; rewrite HX; cbn [last nth].
  - rewrite W. f_equal. ring.
  - reflexivity.
Qed.
Print Assumptions C30_zero_refuted.
(** The histogram of the docstring: bins 1-2 and 2-3 with densities 1 and 6. *)
Example C30_example : exists h, hist_init [1; 2; 3] [1 / 5; 1; 6] = Ok h.
Proof.
  apply (hist_init_ok [1; 2; 3] [1 / 5; 1; 6]); [discriminate|]. split; [reflexivity|]. split; [intros v [<-|[<-|[<-|[]]]]; lra|].
  intros i L. cbn [length] in L. destruct i as [|[|i]]; cbn; try lra. lia.
Qed.

(** ** C32: the probabilities of an OrderSelector *)
Theorem C32_selector_accepted : forall (A : Type) (o : list A) p,
  (exists q, orders_init o (Some p) = Ok q) <-> length p = length o /\ nonneg p /\ Rsum p <= 1.
Proof. exact @orders_init_iff. Qed.
Print Assumptions C32_selector_accepted.
Theorem C32_selector_default : forall (A : Type) (o : list A) p q, o <> [] -> orders_init o p = Ok q ->
  length q = length o /\ nonneg q /\ Rsum q <= 1 /\ match p with Some p => q = p | None => q = repeat (/ INR (length o)) (length o) end.
Proof. exact @orders_init_ok. Qed.
Print Assumptions C32_selector_default.
(** Every draw gives an order with positive probability, the draws for entry [j] form an interval of the length p_j / sum, the sum is
    returned as transmission. *)
Theorem C32_selector : forall (A : Type) (o : list A) p u, length o = length p -> nonneg p -> 0 < Rsum p -> 0 <= u < 1 ->
  exists a j, orders_call o p u = Ok (a, Rsum p) /\ nth_error o j = Some a /\ 0 < nth j p 0 /\
    forall u', 0 <= u' < 1 -> psum p j / Rsum p <= u' < psum p j / Rsum p + nth j p 0 / Rsum p -> orders_call o p u' = Ok (a, Rsum p).
Proof.
  intros A o p u L NN Pos U. destruct (pick_index p u NN Pos U) as (j & J & Lj & Pj). unfold orders_call.
  destruct (nth_error o j) as [a|] eqn:O; [|apply nth_error_None in O; lia]. exists a, j.
  split; [rewrite np_choice_ok, J, O by exact Pos; reflexivity|]. split; [exact O|]. split; [exact Pj|]. intros u' U' I. rewrite np_choice_ok by exact Pos.
  rewrite (proj2 (normalized_iff p u' j NN Pos U') (conj Lj I)). now rewrite O.
Qed.
Print Assumptions C32_selector.
Theorem C32_selector_interval : forall (A : Type) (o : list A) p u j a, length o = length p -> nonneg p -> 0 < Rsum p -> 0 <= u < 1 -> NoDup o ->
  nth_error o j = Some a ->
  (orders_call o p u = Ok (a, Rsum p) <-> psum p j / Rsum p <= u < psum p j / Rsum p + nth j p 0 / Rsum p).
Proof.
  intros A o p u j a L NN Pos U ND J. unfold orders_call. rewrite np_choice_ok by exact Pos.
  destruct (pick_index p u NN Pos U) as (i & I & Li & _). assert (Lj : (j < length p)%nat) by (rewrite <- L; apply nth_error_Some; congruence). rewrite I.
  destruct (nth_error o i) as [b|] eqn:O; [|apply nth_error_None in O; lia]. cbn [bind]. split.
  - intros H. assert (b = a) by congruence. subst b.
    assert (Q : i = j) by (apply (proj1 (NoDup_nth_error o) ND); [lia|congruence]). rewrite Q in I. now apply (proj1 (normalized_iff p u j NN Pos U)) in I.
  - intros H. pose proof (proj2 (normalized_iff p u j NN Pos U) (conj Lj H)) as I'. assert (Q : i = j) by congruence. rewrite Q in O. congruence.
Qed.
Print Assumptions C32_selector_interval.
(** A photon in an efficiency file uses the row with the nearest energy; within this row the same holds. *)
Theorem C32_file : forall (A : Type) (rows : list (R * list R)) (orders : list A) e u, rows <> [] ->
  (forall r, In r rows -> length (snd r) = length orders /\ nonneg (snd r) /\ 0 < Rsum (snd r)) -> 0 <= u < 1 ->
  exists en p o j, In (en, p) rows /\ (forall r, In r rows -> Rabs (en - e) <= Rabs (fst r - e)) /\
    efffile_call rows orders e u = Ok (o, Rsum p) /\ nth_error orders j = Some o /\ 0 < nth j p 0 /\
    psum p j / Rsum p <= u < psum p j / Rsum p + nth j p 0 / Rsum p.
Proof. exact @efffile_spec. Qed.
Print Assumptions C32_file.
(** A file is accepted if and only if it has rows and as many columns with probabilities as there are orders. *)
Theorem C32_file_accepted : forall (A : Type) (rows : list (R * list R)) (orders : list A), (forall r r', In r rows -> In r' rows -> length (snd r) = length (snd r')) ->
  (efffile_init rows orders = Ok tt <-> rows <> [] /\ forall r, In r rows -> length (snd r) = length orders) /\
  (rows = [] -> efffile_init rows orders = Err IndexError) /\ (forall r, In r rows -> length (snd r) <> length orders -> efffile_init rows orders = Err ValueError).
Proof.
  intros A rows orders SQ. destruct rows as [|[e p] rows]; cbn [efffile_init].
  - split; [split; [discriminate|intros [N _]; now destruct N]|]. split; [reflexivity|intros r []].
  - destruct (Nat.eqb_spec (length orders) (length p)) as [E|E].
    + split; [split; [|reflexivity]; intros _; split; [discriminate|]; intros r I; rewrite E; exact (SQ r (e, p) I (or_introl eq_refl))|]. split; [discriminate|]. intros r I N. exfalso. apply N. rewrite E. exact (SQ r (e, p) I (or_introl eq_refl)).
    + split; [split; [discriminate|]; intros [_ F]; exfalso; apply E; symmetry; exact (F (e, p) (or_introl eq_refl))|]. split; [discriminate|reflexivity].
Qed.
Print Assumptions C32_file_accepted.
Example C32_ex_file : efffile_init [(1, [1 / 2; 1 / 4]); (2, [1 / 3; 0])] [0; 1]%Z = Ok tt /\ efffile_init [(1, [1 / 2; 1 / 4]); (2, [1 / 3; 0])] [0]%Z = Err ValueError.
Proof. split; reflexivity. Qed.
(** The same for interpolated tables; where all probabilities vanish the transmission is 0. *)
Theorem C32_table : forall (A : Type) (o : list A) p u, length o = length p -> nonneg p -> 0 <= u < 1 -> o <> [] ->
  (0 < Rsum p -> exists a j, interp_call o p u = Ok (a, Rsum p) /\ nth_error o j = Some a /\ 0 < nth j p 0 /\
     psum p j / Rsum p <= u < psum p j / Rsum p + nth j p 0 / Rsum p) /\
  (Rsum p = 0 -> exists a, interp_call o p u = Ok (a, 0)).
Proof.
  intros A o p u L NN U NE. split.
  - intros Pos. rewrite interp_ok by assumption. destruct (pick_index p u NN Pos U) as (j & J & Lj & Pj). rewrite J.
    destruct (nth_error o j) as [a|] eqn:O; [|apply nth_error_None in O; lia]. exists a, j. repeat split; auto; now apply (proj1 (normalized_iff p u j NN Pos U)) in J.
  - intros Z. unfold interp_call. rewrite Z, (proj2 (Reqb_true 0 0) eq_refl). destruct o as [|a o]; [contradiction|]. exists a. reflexivity.
Qed.
Print Assumptions C32_table.
(** Orders -1, 0, 1 with probabilities 0.1, 0.5, 0.2: half of the draws plus an eighth reach order 0. *)
Example C32_example : orders_call [-1; 0; 1]%Z [1 / 10; 5 / 10; 2 / 10] (1 / 2) = Ok (0%Z, 8 / 10).
Proof.
  assert (S : Rsum [1 / 10; 5 / 10; 2 / 10] = 8 / 10) by (cbn; lra).
  rewrite (proj2 (C32_selector_interval Z [-1; 0; 1]%Z [1 / 10; 5 / 10; 2 / 10] (1 / 2) 1 0%Z eq_refl
    ltac:(intros v [<-|[<-|[<-|[]]]]; lra) ltac:(lra) ltac:(lra) ltac:(repeat constructor; cbn; intuition discriminate) eq_refl)).
  - now rewrite S.
  - unfold psum. cbn [firstn nth]. rewrite S. cbn. lra.
Qed.
