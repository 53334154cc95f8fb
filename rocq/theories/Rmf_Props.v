(** Properties C51-C54, C58, C91 and C92. *)
From Coq Require Import Permutation.
From Verif Require Import Rmf_Proofs2.
Open Scope R_scope.

(** *** C51 *)
Theorem C51_round_trip : forall arr tlmin threshold lo hi, exists ngrp fchan nchan matrix,
  arr_to_rmf_matrix_row arr tlmin threshold = Ok (ngrp, fchan, nchan, matrix) /\
  full_rmf (length arr) tlmin (Mrow lo hi ngrp (Arr fchan) (Arr nchan) matrix) = Ok (cut threshold arr).
Proof. exact round_trip. Qed.
Print Assumptions C51_round_trip.
(** Group [k] is not empty, has only entries above the threshold, can not be extended on either side, and ends before the next starts with
    a gap between them. Channel numbers start at [tlmin]. *)
Theorem C51_groups : forall arr tlmin threshold ngrp fchan nchan matrix, arr_to_rmf_matrix_row arr tlmin threshold = Ok (ngrp, fchan, nchan, matrix) ->
  length fchan = ngrp /\ length nchan = ngrp /\ sumZ nchan = Z.of_nat (length matrix) /\
  forall k f n, nth_error fchan k = Some f -> nth_error nchan k = Some n ->
    (tlmin <= f)%Z /\ (0 < n)%Z /\
    (forall c, (f - tlmin <= c < f - tlmin + n)%Z -> exists x, nth_error arr (Z.to_nat c) = Some x /\ threshold < x) /\
    (forall x, nth_error arr (Z.to_nat (f - tlmin + n)) = Some x -> x <= threshold) /\
    (forall x, (tlmin < f)%Z -> nth_error arr (Z.to_nat (f - tlmin - 1)) = Some x -> x <= threshold) /\
    (forall f', nth_error fchan (S k) = Some f' -> (f + n < f')%Z).
Proof.
  intros arr tl thr ngrp fchan nchan matrix H. destruct (to_row_spec arr tl thr) as (gs & RU & E). rewrite H in E. injection E as -> -> -> ->.
  split; [apply map_length|]. split; [apply map_length|]. split; [apply sum_lengths|]. intros k f n F N. rewrite nth_error_map in F, N.
  destruct (nth_error gs k) as [[s B]|] eqn:G; [|discriminate]. cbn [option_map fst snd] in F, N. injection F as <-. injection N as <-.
  destruct (runs_groups thr 0 arr gs RU k s B G) as (_ & NB & Q1 & Q2 & Q3 & Q4). rewrite Nat.sub_0_r in Q1, Q2, Q3.
  replace (Z.of_nat s + tl - tl)%Z with (Z.of_nat s) by lia. unfold above in *.
  split; [lia|]. split; [destruct B; [congruence|cbn [length]; lia]|]. split; [|split; [|split]].
  - intros c C. destruct (Q1 (Z.to_nat c - s)%nat) as (x & X & T); [lia|]. exists x. apply Rltb_true in T. split; [|exact T]. rewrite <- X. f_equal. lia.
  - intros x X. apply Rltb_false. apply Q2. rewrite <- X. f_equal. lia.
  - intros x L X. apply Rltb_false. apply Q3; [lia|]. rewrite <- X. f_equal. lia.
  - intros f' F'. rewrite nth_error_map in F'. destruct (nth_error gs (S k)) as [[s' B']|]; [|discriminate]. cbn in F'. injection F' as <-. specialize (Q4 s' B' eq_refl). lia.
Qed.
Print Assumptions C51_groups.
Example C51_example : arr_to_rmf_matrix_row [0; 1; 2; 0; 3] 1 0 = Ok (2%nat, [2; 5]%Z, [2; 1]%Z, [1; 2; 3]).
Proof.
  unfold arr_to_rmf_matrix_row. cbn [map filter]. unfold above.
  rewrite !(proj2 (Rltb_false 0 0)) by lra. rewrite (proj2 (Rltb_true 0 1)), (proj2 (Rltb_true 0 2)), (proj2 (Rltb_true 0 3)) by lra. reflexivity.
Qed.

(** *** C52 *)
(** First channel 1, at least one entry above the threshold: channels, bounds and values agree. *)
Theorem C52_agree_partial : forall arr threshold lo hi e_min e_max, Exists (fun x => above threshold x = true) arr -> length e_min = length arr -> length e_max = length arr ->
  exists ngrp fchan nchan matrix, arr_to_rmf_matrix_row arr 1 threshold = Ok (ngrp, fchan, nchan, matrix) /\
  let row := Mrow lo hi ngrp (Arr fchan) (Arr nchan) matrix in exists full, full_rmf (length arr) 1 row = Ok full /\
    rmf e_min e_max row = Ok (selected threshold arr e_min, selected threshold arr e_max, selected threshold arr full).
Proof.
  intros arr thr lo hi e_min e_max EX L1 L2. destruct (compact_agrees arr thr lo hi e_min e_max EX L1 L2) as (a & b & c & d & E & R).
  destruct (round_trip arr 1 thr lo hi) as (a' & b' & c' & d' & E' & R'). rewrite E in E'. injection E' as <- <- <- <-. exists a, b, c, d. split; [exact E|]. eexists. split; [exact R'|exact R].
Qed.
Print Assumptions C52_agree_partial.
(** For another first channel all channel numbers of the compact view are off by [tlmin - 1]. *)
Theorem C52_channels_shifted : forall arr tlmin threshold lo hi, Exists (fun x => above threshold x = true) arr ->
  exists ngrp fchan nchan matrix channels, arr_to_rmf_matrix_row arr tlmin threshold = Ok (ngrp, fchan, nchan, matrix) /\
  rmf_channels (Mrow lo hi ngrp (Arr fchan) (Arr nchan) matrix) = Ok (map (fun c => (c + (tlmin - 1))%Z) channels) /\
  fancy arr channels = Ok matrix.
Proof.
  intros arr tl thr lo hi EX. destruct (to_row_spec arr tl thr) as (gs & H & E). rewrite E. eexists _, _, _, _, (chans gs). split; [reflexivity|]. split.
  - apply channels_row. intros ->. inversion H as [i A F|]; subst. rewrite Forall_forall in F. rewrite Exists_exists in EX. destruct EX as (x & I & X). rewrite F in X by exact I. discriminate.
  - rewrite <- (filter_runs _ _ _ _ H). change arr with ([] ++ arr) at 1. rewrite (fancy_runs thr 0 arr gs H [] arr) by reflexivity. f_equal. clear. unfold selected. induction arr as [|x arr IH]; [reflexivity|]. cbn. destruct (above thr x); cbn; [now rewrite IH|exact IH].
Qed.
Print Assumptions C52_channels_shifted.
(** a row with the single entry in channel 1 of a matrix with first channel 0: the compact view gives the bounds of channel 0 *)
Theorem C52_other_first_channel_refuted : ~ (forall e_min e_max row tlmin full lo hi vals, full_rmf (length e_min) tlmin row = Ok full -> rmf e_min e_max row = Ok (lo, hi, vals) ->
  exists ind, fancy full ind = Ok vals /\ fancy e_min ind = Ok lo /\ fancy e_max ind = Ok hi).
Proof.
  intros H. specialize (H [1; 2] [2; 3] (Mrow 1 2 1 (Arr [1%Z]) (Arr [1%Z]) [7]) 0%Z [0; 7] [1] [2] [7] eq_refl eq_refl). destruct H as (ind & F & L & _).
  assert (X : forall {A} (a b : A) ind v, fancy [a; b] ind = Ok [v] -> exists i, ind = [i] /\ py_nth [a; b] i = Ok v).
  { intros A a b [|i [|j r]] v E; cbn in E; [discriminate| |].
    - exists i. split; [reflexivity|]. destruct (py_nth [a; b] i); [|discriminate]. cbn in E. congruence.
    - destruct (py_nth [a; b] i); [|discriminate]. destruct (py_nth [a; b] j); [|discriminate]. cbn in E. destruct (sequence (map (py_nth [a; b]) r)); discriminate. }
  destruct (X _ _ _ _ _ F) as (i & -> & F1). destruct (X _ _ _ _ _ L) as (j & E & L1). injection E as <-.
  unfold py_nth in F1, L1. cbn [length Z.of_nat] in *. set (k := if (i <? 0)%Z then (i + Z.pos (Pos.of_succ_nat 1))%Z else i) in *. destruct (k <? 0)%Z; [discriminate|].
  destruct (Z.to_nat k) as [|[|n]]; cbn in *; try (destruct n; discriminate).
  - injection F1 as F1. lra.
  - injection L1 as L1. lra.
Qed.
Print Assumptions C52_other_first_channel_refuted.
(** a row without entries has no compact view *)
Theorem C52_empty_row : forall e_min e_max lo hi mat, rmf e_min e_max (Mrow lo hi 0 (Arr []) (Arr []) mat) = Err ValueError /\
  full_rmf (length e_min) 1 (Mrow lo hi 0 (Arr []) (Arr []) mat) = Ok (repeat 0 (length e_min)).
Proof. intros. split; reflexivity. Qed.
Print Assumptions C52_empty_row.
(** the values of a row of fixed length arrays include the padding *)
Example C52_example : rmf [1; 2; 3] [2; 3; 4] (Mrow 1 2 1 (Arr [2]%Z) (Arr [1]%Z) [7]) = Ok ([2], [3], [7]) /\
  rmf [1; 2; 3] [2; 3; 4] (Mrow 1 2 1 (Arr [2; 0]%Z) (Arr [1; 0]%Z) [7; 0; 0]) = Ok ([2], [3], [7; 0; 0]).
Proof. split; reflexivity. Qed.

(** *** C53 *)
(** Conversion works for two or more rows ... *)
Theorem C53_conversion_defined : forall f32 m, Forall well_formed m -> (2 <= length m)%nat -> Exists (fun r => r_ngrp r <> 0%nat) m -> exists x, to_fixed_length f32 m = Ok x.
Proof. exact fixed_ok. Qed.
Print Assumptions C53_conversion_defined.
(** ... and keeps the meaning if a row has two or more groups, if numbers are exact in single precision and none of the columns is constant. *)
Theorem C53_unchanged_partial : forall f32 m x, Forall well_formed m -> (2 <= length m)%nat -> Exists (fun r => (2 <= r_ngrp r)%nat) m ->
  (forall r v, In r m -> In v (r_matrix r) -> f32 v = v) -> to_fixed_length f32 m = Ok x -> x_fchan x <> Keyword -> x_nchan x <> Keyword -> x_matrix x <> Keyword ->
  forall nchannels tlmin j r, nth_error m j = Some r -> full_rmf_fixed nchannels tlmin m x j = full_rmf nchannels tlmin r.
Proof. exact fixed_same. Qed.
Print Assumptions C53_unchanged_partial.
(** If no row has more than one group, no row with a group can be expanded any more. *)
Theorem C53_single_group : forall f32 m x, Forall (fun r => (r_ngrp r <= 1)%nat) m -> to_fixed_length f32 m = Ok x ->
  forall nchannels tlmin j r, nth_error m j = Some r -> r_ngrp r = 1%nat -> exists e, full_rmf_fixed nchannels tlmin m x j = Err e.
Proof. exact fixed_single. Qed.
Print Assumptions C53_single_group.
Definition c53_m : list mrow := [Mrow 1 2 1 (Arr [1]%Z) (Arr [1]%Z) [1]; Mrow 2 3 1 (Arr [2]%Z) (Arr [1]%Z) [1]].
Theorem C53_refuted : ~ (forall m x, Forall well_formed m -> to_fixed_length (fun v => v) m = Ok x ->
  forall nchannels tlmin j r, nth_error m j = Some r -> full_rmf_fixed nchannels tlmin m x j = full_rmf nchannels tlmin r).
Proof.
  intros H. assert (W : Forall well_formed c53_m).
  { apply Forall_forall. intros r [<-|[<-|[]]]; eexists _, _; (split; [reflexivity|]; split; [reflexivity|]; split; [reflexivity|]; split; [reflexivity|]; split; [|reflexivity]); constructor; try lia; constructor. }
  destruct (fixed_ok (fun v => v) c53_m W) as [x X]; [cbn; lia|apply Exists_exists; eexists; split; [left; reflexivity|discriminate]|].
  destruct (fixed_single (fun v => v) c53_m x) with (nch := 2%nat) (tl := 1%Z) (j := 0%nat) (r := Mrow 1 2 1 (Arr [1]%Z) (Arr [1]%Z) [1]) as [e E]; [repeat constructor|exact X|reflexivity|reflexivity|].
  rewrite (H _ _ W X 2%nat 1%Z 0%nat _ eq_refl) in E. discriminate.
Qed.
Print Assumptions C53_refuted.
(** the hypotheses of C53_unchanged_partial can be met *)
Example C53_example : let m := [Mrow 1 2 2 (Arr [1; 4]%Z) (Arr [1; 2]%Z) [1; 2; 3]; Mrow 2 3 1 (Arr [2]%Z) (Arr [1]%Z) [5]] in
  exists x, to_fixed_length (fun v => v) m = Ok x /\ x_fchan x = Column [Arr [1; 4]%Z; Arr [2; 0]%Z] /\ x_nchan x = Column [Arr [1; 2]%Z; Arr [1; 0]%Z] /\
  x_matrix x = Column [[1; 2; 3]; [5; 0; 0]] /\ full_rmf_fixed 5 1 m x 0 = Ok [1; 0; 0; 2; 3].
Proof.
  eexists. split; [reflexivity|]. cbn [x_fchan x_nchan x_matrix]. split; [reflexivity|]. split; [reflexivity|].
  assert (E : all_first eqb_reals [[1; 2; 3]; [5; 0; 0]] = false).
  { unfold all_first, forallb, eqb_reals. cbn [combine forallb fst snd]. rewrite (proj2 (Reqb_false 5 1)) by lra. cbn [andb]. now rewrite !andb_false_r. }
  match goal with |- context [all_first eqb_reals ?l] => change l with [[1; 2; 3]; [5; 0; 0]] end. rewrite E. split; reflexivity.
Qed.

(** *** C54 *)
(** The value last assigned was constant: it is returned (as scalar). *)
Theorem C54_last_constant : forall (V : Type) (eqb : V -> V -> bool) ops t' k v, ck_run eqb (CK [] []) ops = Ok t' ->
  last_assigned k ops None = Some v -> constant eqb v = true -> exists w, ck_get t' k = Ok w /\ represents eqb w v.
Proof.
  intros V eqb ops t' k v H L C. destruct (ck_last_const eqb k ops (CK [] []) t' None H ltac:(discriminate) v L C) as (G & w & W & R). exists w. rewrite W in G. auto.
Qed.
Print Assumptions C54_last_constant.
(** Nothing constant was ever assigned to this name: the last value is returned. *)
Theorem C54_last_variable_partial : forall (V : Type) (eqb : V -> V -> bool) ops t' k v, ck_run eqb (CK [] []) ops = Ok t' -> (forall w, In (k, w) ops -> constant eqb w = false) ->
  last_assigned k ops None = Some v -> ck_get t' k = Ok v.
Proof. intros V eqb ops t' k v H NC L. apply (ck_last_var eqb k ops (CK [] []) t' None H NC eq_refl); [discriminate|exact L]. Qed.
Print Assumptions C54_last_variable_partial.
(** A keyword hides every array that is assigned later. *)
Theorem C54_keyword_hides : forall (V : Type) (eqb : V -> V -> bool) t t' k v w, dget k (ck_meta t) = Some w -> constant eqb v = false -> ck_set eqb t k v = Ok t' -> ck_get t' k = Ok w.
Proof. exact @ck_stale. Qed.
Print Assumptions C54_keyword_hides.
Theorem C54_refuted : ~ (forall ops t' k v, ck_run Nat.eqb (CK [] []) ops = Ok t' -> last_assigned k ops None = Some v -> exists w, ck_get t' k = Ok w /\ represents Nat.eqb w v).
Proof.
  intros H. destruct (H [("a", Scalar 1%nat); ("a", Array [1%nat; 2%nat])] _ "a" _ eq_refl eq_refl) as (w & G & R). cbn in G. injection G as <-.
  destruct R as [R|(x & r & R & A & _)]; [discriminate|]. injection R as <- <-. discriminate.
Qed.
Print Assumptions C54_refuted.
Example C54_example : ck_run Nat.eqb (CK [] []) [("a", Array [1; 2]%nat); ("a", Array [3; 3]%nat)] = Ok (CK [("a", Scalar 3%nat)] []).
Proof. reflexivity. Qed.

(** *** C58 *)
Theorem C58_ebounds : forall conv edges channel e_min e_max, ebounds_from_edges conv edges = (channel, e_min, e_max) ->
  channel = seq 0 (length edges - 1) /\ length e_min = (length edges - 1)%nat /\ length e_max = (length edges - 1)%nat /\
  (forall i a b, nth_error e_min i = Some a -> nth_error e_max i = Some b -> a <= b) /\
  (forall i, (S i < length e_min)%nat -> nth_error e_max i = nth_error e_min (S i)) /\
  ((2 <= length edges)%nat -> forall x, In x e_min \/ In x e_max <-> In x (map conv edges)).
Proof. exact ebounds_spec. Qed.
Print Assumptions C58_ebounds.
(** Every energy between the lowest and the highest edge is in exactly one channel ... *)
Lemma asc_le : forall l i j x y, ascending l -> (i <= j)%nat -> nth_error l i = Some x -> nth_error l j = Some y -> x <= y.
Proof.
  intros l i j x y A L X. revert y. induction L as [|j L IH]; intros y Y; [rewrite X in Y; injection Y as ->; lra|].
  destruct (nth_error l j) as [z|] eqn:Z; [|apply nth_error_None in Z; assert (S j < length l)%nat by (apply nth_error_Some; congruence); lia]. apply Rle_trans with z; [now apply IH|]. exact (ascending_nth l j z y A Z Y).
Qed.
Lemma asc_between : forall l x, (exists a, In a l /\ a <= x) -> (exists b, In b l /\ x < b) -> ascending l -> exists i a b, nth_error l i = Some a /\ nth_error l (S i) = Some b /\ a <= x < b.
Proof.
  induction l as [|z l IH]; intros x (a & IA & A) (b & IB & B) H; [destruct IA|]. pose proof (proj1 (ascending_cons z l) H) as [H1 H2]. destruct l as [|y l].
  - destruct IA as [<-|[]]. destruct IB as [<-|[]]. lra.
  - cbn in H1. destruct (Rle_lt_dec y x) as [Y|Y].
    + destruct (IH x) as (i & u & v & U & V & W); [exists y; split; [now left|exact Y]| |exact H2|exists (S i), u, v; repeat split; try assumption; apply W].
      destruct IB as [<-|IB]; [lra|]. now exists b.
    + exists 0%nat, z, y. split; [reflexivity|]. split; [reflexivity|]. split; [|exact Y]. destruct IA as [<-|IA]; [exact A|]. apply In_nth_error in IA. destruct IA as [k K]. pose proof (asc_le (y :: l) 0 k y a H2 ltac:(lia) eq_refl K). lra.
Qed.
Theorem C58_one_channel : forall conv edges channel e_min e_max x, ebounds_from_edges conv edges = (channel, e_min, e_max) ->
  (exists a, In a (map conv edges) /\ a <= x) -> (exists b, In b (map conv edges) /\ x < b) ->
  exists! i, exists a b, nth_error e_min i = Some a /\ nth_error e_max i = Some b /\ a <= x < b.
Proof.
  intros conv edges ch lo hi x H (a & IA & A) (b & IB & B). unfold ebounds_from_edges in H. injection H as _ <- <-. set (s := sortR (map conv edges)). pose proof (sortR_perm (map conv edges)) as P. pose proof (sortR_asc (map conv edges)) as S. fold s in P, S.
  destruct (asc_between s x) as (i & u & v & U & V & W); [exists a; split; [|exact A]; revert IA; apply Permutation_in; now apply Permutation_sym|exists b; split; [|exact B]; revert IB; apply Permutation_in; now apply Permutation_sym|exact S|].
  assert (N : forall k, (exists r, nth_error (removelast s) k = Some r) -> nth_error (removelast s) k = nth_error s k).
  { intros k (r & E). apply removelast_nth. assert (k < length (removelast s))%nat by (apply nth_error_Some; congruence). rewrite removelast_len in *. lia. }
  exists i. split.
  - exists u, v. rewrite tl_nth, removelast_nth; [repeat split; try assumption; apply W|]. apply nth_error_Some. congruence.
  - intros j (p & q & X & Y & Z). rewrite tl_nth in Y. rewrite N in X by eauto. destruct (Nat.lt_trichotomy i j) as [L|[L|L]]; [|exact L|].
    + pose proof (asc_le s (Datatypes.S i) j v p S L V X). lra.
    + pose proof (asc_le s (Datatypes.S j) i q u S L Y U). lra.
Qed.
Print Assumptions C58_one_channel.
(** ... and the order in which the edges are given does not matter. *)
Lemma asc_unique : forall l l', Permutation l l' -> ascending l -> ascending l' -> l = l'.
Proof.
  induction l as [|x l IH]; intros l' P A A'; [apply Permutation_nil in P; now subst|]. destruct l' as [|y l']; [apply Permutation_sym, Permutation_nil in P; discriminate|].
  assert (M : forall z m, ascending (z :: m) -> forall w, In w (z :: m) -> z <= w) by (intros z m Q w I; apply In_nth_error in I; destruct I as [k K]; exact (asc_le (z :: m) 0 k z w Q ltac:(lia) eq_refl K)).
  assert (x = y) as <-. { apply Rle_antisym; [apply (M x l A); apply (Permutation_in _ (Permutation_sym P)); now left|apply (M y l' A'); apply (Permutation_in _ P); now left]. }
  f_equal. apply IH; [now apply Permutation_cons_inv in P|now apply ascending_cons in A|now apply ascending_cons in A'].
Qed.
Theorem C58_any_order : forall conv edges edges', Permutation edges edges' -> ebounds_from_edges conv edges = ebounds_from_edges conv edges'.
Proof.
  intros conv edges edges' P. unfold ebounds_from_edges. rewrite (Permutation_length P). assert (sortR (map conv edges) = sortR (map conv edges')) as ->; [|reflexivity]. apply asc_unique; try apply sortR_asc.
  rewrite !sortR_perm. now apply Permutation_map.
Qed.
Print Assumptions C58_any_order.
(** Channels are empty if and only if two edges have the same energy. *)
Theorem C58_widths : forall conv edges channel e_min e_max, ebounds_from_edges conv edges = (channel, e_min, e_max) ->
  (NoDup (map conv edges) <-> forall i a b, nth_error e_min i = Some a -> nth_error e_max i = Some b -> a < b).
Proof.
  intros conv edges ch lo hi H. unfold ebounds_from_edges in H. injection H as _ <- <-. set (s := sortR (map conv edges)). pose proof (sortR_perm (map conv edges)) as P. pose proof (sortR_asc (map conv edges)) as S. fold s in P, S.
  assert (E : NoDup (map conv edges) <-> NoDup s) by (split; apply Permutation_NoDup; [now apply Permutation_sym|exact P]). rewrite E. clear E P. clearbody s. split.
  - intros N i a b A B. rewrite tl_nth in B. rewrite removelast_nth in A by (apply nth_error_Some; congruence). destruct (ascending_nth s i a b S A B) as [L|L]; [exact L|]. exfalso. subst b.
    assert (i = Datatypes.S i); [|lia]. apply (proj1 (NoDup_nth_error s) N); [apply nth_error_Some; congruence|congruence].
  - intros L. apply NoDup_nth_error. assert (W : forall i j, (i < j)%nat -> (j < length s)%nat -> nth_error s i <> nth_error s j).
    { intros i j IJ J Q. destruct (nth_error s i) as [x|] eqn:X; [|symmetry in Q; apply nth_error_None in Q; lia]. destruct (nth_error s (Datatypes.S i)) as [z|] eqn:Z; [|apply nth_error_None in Z; lia].
      assert (x < z) by (apply (L i); [rewrite removelast_nth by lia; exact X|rewrite tl_nth; exact Z]). pose proof (asc_le s (Datatypes.S i) j z x S IJ Z (eq_sym Q)). lra. }
    intros i j I Q. destruct (Nat.lt_trichotomy i j) as [T|[T|T]]; [|exact T|].
    + exfalso. apply (W i j T); [|exact Q]. apply nth_error_Some. rewrite <- Q. now apply nth_error_Some.
    + exfalso. exact (W j i T I (eq_sym Q)).
Qed.
Print Assumptions C58_widths.
Example C58_example : ebounds_from_edges (fun x => 6 / x) [1; 2; 3] = ([0; 1]%nat, [6 / 3; 6 / 2], [6 / 2; 6 / 1]).
Proof.
  unfold ebounds_from_edges, sortR. cbn [map fold_right insR length Nat.sub seq].
  rewrite (proj2 (Rleb_false (6 / 2) (6 / 3))) by lra. cbn [insR]. rewrite (proj2 (Rleb_false (6 / 1) (6 / 3))) by lra. rewrite (proj2 (Rleb_false (6 / 1) (6 / 2))) by lra. reflexivity.
Qed.

(** *** C91 *)
(** The keyword is right for the table of channels, and for the matrix if it has as many rows as there are channels. *)
Theorem C91_detchans_partial : forall n_matrix n_ebounds, snd (detchans n_matrix n_ebounds) = n_ebounds /\
  (fst (detchans n_matrix n_ebounds) = n_ebounds <-> n_matrix = n_ebounds).
Proof. intros. cbn. split; [reflexivity|tauto]. Qed.
Print Assumptions C91_detchans_partial.
Theorem C91_detchans_refuted : ~ (forall n_matrix n_ebounds, fst (detchans n_matrix n_ebounds) = n_ebounds).
Proof. intros H. specialize (H 1%nat 2%nat). discriminate. Qed.
Print Assumptions C91_detchans_refuted.
Example C91_example : detchans 100 50 = (100, 50)%nat.
Proof. reflexivity. Qed.

(** *** C92 *)
(** [conv] converts the energies of the table to the unit of the argument; for an energy in keV it is the identity. *)
Theorem C92_row_found : forall e m r, find_row (fun x => x) e m = Ok r -> exists j, nth_error m j = Some r /\ r_lo r <= e < r_hi r /\
  forall i q, (i < j)%nat -> nth_error m i = Some q -> ~ (r_lo q <= e < r_hi q).
Proof. exact (find_row_ok (fun x => x)). Qed.
Print Assumptions C92_row_found.
Theorem C92_row_missing : forall e m, (forall r, In r m -> ~ (r_lo r <= e < r_hi r)) <-> find_row (fun x => x) e m = Err IndexError.
Proof. split; [apply (find_row_none (fun x => x))|intros H r I; exact (proj2 (find_row_err (fun x => x) e m _ H) r I)]. Qed.
Print Assumptions C92_row_missing.
(** A wavelength is never found, in any table: after conversion of the bounds lower and upper bound are swapped. *)
Theorem C92_wavelength : forall hc wave m, 0 < hc -> Forall (fun r => 0 < r_lo r <= r_hi r) m -> find_row (fun en => hc / en) wave m = Err IndexError.
Proof.
  intros hc wave m H F. apply find_row_none. intros r I [A B]. rewrite Forall_forall in F. specialize (F r I).
  assert (hc / r_hi r <= hc / r_lo r); [|lra]. unfold Rdiv. apply Rmult_le_compat_l; [lra|]. apply Rinv_le_contravar; lra.
Qed.
Print Assumptions C92_wavelength.
Theorem C92_wavelength_refuted : ~ (forall hc wave m r, 0 < hc -> In r m -> 0 < r_lo r < r_hi r -> r_lo r < hc / wave < r_hi r -> 0 < wave -> exists q, find_row (fun en => hc / en) wave m = Ok q).
Proof.
  intros H. destruct (H 6 3 [Mrow 1 3 0 (Arr []) (Arr []) []] (Mrow 1 3 0 (Arr []) (Arr []) []) ltac:(lra) (or_introl eq_refl)) as [q Q]; cbn [r_lo r_hi]; try lra.
  rewrite C92_wavelength in Q; [discriminate|lra|]. constructor; [cbn; lra|constructor].
Qed.
Print Assumptions C92_wavelength_refuted.
Example C92_example : find_row (fun x => x) 2 [Mrow 1 2 0 (Arr []) (Arr []) []; Mrow 2 3 0 (Arr []) (Arr []) []] = Ok (Mrow 2 3 0 (Arr []) (Arr []) []).
Proof.
  cbn [find_row r_lo r_hi]. rewrite (proj2 (Rltb_false 2 2)) by lra. rewrite andb_false_r. rewrite (proj2 (Rleb_true 2 2)), (proj2 (Rltb_true 2 3)) by lra. reflexivity.
Qed.

(** Slices, as used to expand a row (C52): elements from start to stop, negative numbers count from the end, and everything before the first element is the first element. *)
Theorem C52_slices : forall (A : Type) (l : list A) a b, let n := Z.of_nat (length l) in
  ((0 <= a)%Z -> (a <= b <= n)%Z -> slice_get l a b = firstn (Z.to_nat (b - a)) (skipn (Z.to_nat a) l)) /\
  ((0 < a <= n)%Z -> slice_get l (- a) b = slice_get l (n - a) b) /\ ((0 < b <= n)%Z -> slice_get l a (- b) = slice_get l a (n - b)) /\
  ((a < - n)%Z -> slice_get l a b = slice_get l 0 b) /\ ((n < b)%Z -> slice_get l a b = slice_get l a n).
Proof.
  intros A l a b n. unfold slice_get. fold n.
  assert (P : forall i, py_clip n i = if (i <? 0)%Z then Z.max 0 (i + n) else Z.min i n) by reflexivity. assert (NN : (0 <= n)%Z) by (unfold n; lia).
  split; [|split; [|split; [|split]]]; intros H.
  - intros B. rewrite !P. destruct (Z.ltb_spec a 0), (Z.ltb_spec b 0); try lia. rewrite !Z.min_l by lia. reflexivity.
  - replace (py_clip n (- a)) with (py_clip n (n - a)); [reflexivity|]. rewrite !P. destruct (Z.ltb_spec (- a) 0), (Z.ltb_spec (n - a) 0); lia.
  - replace (py_clip n (- b)) with (py_clip n (n - b)); [reflexivity|]. rewrite !P. destruct (Z.ltb_spec (- b) 0), (Z.ltb_spec (n - b) 0); lia.
  - replace (py_clip n a) with (py_clip n 0); [reflexivity|]. rewrite !P. destruct (Z.ltb_spec a 0), (Z.ltb_spec 0 0); lia.
  - replace (py_clip n b) with (py_clip n n); [reflexivity|]. rewrite !P. destruct (Z.ltb_spec b 0), (Z.ltb_spec n 0); lia.
Qed.
Print Assumptions C52_slices.
Example C52_slices_example : slice_get [1; 2; 3]%nat (-5) 2 = [1; 2]%nat /\ slice_get [1; 2; 3]%nat (-2) 9 = [2; 3]%nat.
Proof. split; reflexivity. Qed.
(** C53, false: a table with one row of two or more groups can not be converted, unless all groups begin in the same channel. *)
Theorem C53_single_row_refuted : forall f32 lo hi n a b c fs ns mat, a <> b -> to_fixed_length f32 [Mrow lo hi n (Arr (a :: b :: fs)) (Arr (c :: ns)) mat] = Err ValueError.
Proof.
  intros f32 lo hi n a b c fs ns mat N. unfold to_fixed_length. cbn [flat_map as_list r_fchan app].
  match goal with |- context [if ?x then _ else Err ValueError] => destruct x eqn:EX end; [|reflexivity].
  match goal with |- context [squeeze_assign ?g _] => set (g0 := g) in * end.
  assert (G : (2 <= g0)%nat).
  { cbn [forallb r_fchan as_list length] in EX. rewrite !andb_true_iff in EX. destruct EX as [[[EX _] _] _]. apply Nat.leb_le in EX. lia. }
  cbn [map squeeze_assign r_fchan as_list]. destruct (Nat.eqb_spec g0 1); [lia|].
  replace (all_first Z.eqb (pad 0%Z g0 (a :: b :: fs))) with false; [reflexivity|]. symmetry. unfold pad. cbn [app all_first forallb]. destruct (Z.eqb_spec b a); [congruence|]. now rewrite andb_false_r.
Qed.
Print Assumptions C53_single_row_refuted.
Example C53_single_row_example : to_fixed_length (fun v => v) [Mrow 1 2 2 (Arr [1; 4]%Z) (Arr [1; 2]%Z) [1; 2; 3]] = Err ValueError.
Proof. reflexivity. Qed.
(** C54: a constant value is stored as a keyword, and no longer as a column; other names are not touched. *)
Theorem C54_one_place : forall (V : Type) (eqb : V -> V -> bool) t t' k v, ck_set eqb t k v = Ok t' -> constant eqb v = true ->
  (exists w, dget k (ck_meta t') = Some w) /\ dget k (ck_cols t') = None /\
  forall k', k' <> k -> dget k' (ck_meta t') = dget k' (ck_meta t) /\ dget k' (ck_cols t') = dget k' (ck_cols t).
Proof.
  intros V eqb t t' k v H C.
  assert (X : exists w, t' = CK (dset k w (ck_meta t)) (ddel k (ck_cols t))).
  { destruct v as [v|[|x r]]; cbn [ck_set] in H; [|discriminate|].
    - injection H as <-. eexists; reflexivity.
    - change (constant eqb (Array (x :: r))) with (all_first eqb (x :: r)) in C. rewrite C in H. injection H as <-. eexists; reflexivity. }
  destruct X as (w & ->). cbn [ck_meta ck_cols]. split; [exists w; apply Base_Proofs.dget_dset_eq|]. split; [apply Base_Proofs.dget_ddel_eq|]. intros k' N. split; [now apply Base_Proofs.dget_dset_neq|now apply Base_Proofs.dget_ddel_neq].
Qed.
Print Assumptions C54_one_place.
(** C52: rows whose first channel is a number and not an array can not be read *)
Theorem C52_numbers : forall r z, r_fchan r = Num z -> (0 < r_ngrp r)%nat -> rmf_channels r = Err IndexError /\ forall nch tl, full_rmf nch tl r = Err IndexError.
Proof.
  intros r z F G. unfold rmf_channels, full_rmf. destruct (r_ngrp r) as [|n]; [lia|]. cbn [seq map sequence loop_while]. split; [|intros nch tl]; unfold full_step; rewrite F; reflexivity.
Qed.
Print Assumptions C52_numbers.
