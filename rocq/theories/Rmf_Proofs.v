(** Proofs about Rmf_Model. *)
From Coq Require Import Permutation.
From Verif Require Export Base_Proofs Vec_Proofs Rmf_Model.
Open Scope R_scope.

(** ** runs of entries above the threshold *)
Section Runs.
Variable thr : R.
Notation hi := (above thr).
Definition low_head (l : list R) : Prop := match l with [] => True | x :: _ => hi x = false end.
Inductive runs : nat -> list R -> list (nat * list R) -> Prop :=
| runs_nil i A : Forall (fun x => hi x = false) A -> runs i A []
| runs_cons i A B C gs : Forall (fun x => hi x = false) A -> B <> [] -> Forall (fun x => hi x = true) B -> low_head C ->
    runs (i + length A + length B) C gs -> runs i (A ++ B ++ C) ((i + length A, B) :: gs)%nat.

Lemma runs_exist : forall arr i, exists gs, runs i arr gs.
Proof.
  induction arr as [|x arr IH]; intros i; [exists []; constructor; constructor|]. destruct (IH (S i)) as [gs H]. destruct (hi x) eqn:E.
  - assert (N : low_head arr -> exists gs, runs i (x :: arr) gs).
    { intros L. exists ((i + 0, [x])%nat :: gs). apply (runs_cons i [] [x] arr gs); [constructor|discriminate|constructor; auto|exact L|]. cbn. now replace (i + 0 + 1)%nat with (S i) by lia. }
    inversion H as [i' A FA|i' A B C gs' FA NB FB LC R]; subst.
    + apply N. destruct FA; cbn; auto.
    + destruct A as [|a A]; [|apply N; cbn; now inversion FA]. cbn [app length] in *. exists ((i + 0, x :: B)%nat :: gs').
      apply (runs_cons i [] (x :: B) C gs'); [constructor|discriminate|constructor; auto|exact LC|]. cbn [length]. now replace (i + 0 + S (length B))%nat with (S i + 0 + length B)%nat by lia.
  - inversion H as [i' A FA|i' A B C gs' FA NB FB LC R]; subst.
    + exists []. constructor. constructor; auto.
    + exists ((i + length (x :: A), B)%nat :: gs'). apply (runs_cons i (x :: A) B C gs'); auto.
      cbn [length]. now replace (i + S (length A) + length B)%nat with (S i + length A + length B)%nat by lia.
Qed.

Lemma diff_false : forall A l i, Forall (fun x => hi x = false) A -> diff_pos false (map hi A ++ l) i = diff_pos false l (i + length A).
Proof.
  induction A as [|x A IH]; intros l i F; cbn [map app length]; [now rewrite Nat.add_0_r|]. inversion F as [|y z F1 F2]; subst. cbn [diff_pos]. rewrite F1. cbn [xorb app].
  rewrite IH by exact F2. f_equal. lia.
Qed.
Lemma diff_true : forall B l i, Forall (fun x => hi x = true) B -> diff_pos true (map hi B ++ l) i = diff_pos true l (i + length B).
Proof.
  induction B as [|x B IH]; intros l i F; cbn [map app length]; [now rewrite Nat.add_0_r|]. inversion F as [|y z F1 F2]; subst. cbn [diff_pos]. rewrite F1. cbn [xorb app].
  rewrite IH by exact F2. f_equal. lia.
Qed.
Lemma diff_end : forall C i, low_head C -> diff_pos true (map hi C ++ [false]) i = i :: diff_pos false (map hi C ++ [false]) i.
Proof. intros [|x C] i L; cbn in *; [reflexivity|]. rewrite L. reflexivity. Qed.
Lemma diff_runs : forall i arr gs, runs i arr gs -> diff_pos false (map hi arr ++ [false]) i = flat_map (fun g => [fst g; fst g + length (snd g)]%nat) gs.
Proof.
  induction 1 as [i A F|i A B C gs FA NB FB LC R IH].
  - rewrite diff_false by exact F. reflexivity.
  - rewrite !map_app, <- !app_assoc, diff_false by exact FA. destruct B as [|x B]; [congruence|]. inversion FB as [|y z FB1 FB2]; subst.
    cbn [map app diff_pos flat_map fst snd length]. rewrite FB1. cbn [xorb app]. f_equal. rewrite diff_true by exact FB2. rewrite diff_end by exact LC. f_equal; [lia|].
    cbn [length] in IH. rewrite <- IH. f_equal. lia.
Qed.
Lemma pairs_flat : forall {X A} (f g : X -> A) l, pairs (flat_map (fun x => [f x; g x]) l) = Ok (map (fun x => (f x, g x)) l).
Proof. induction l as [|x l IH]; [reflexivity|]. cbn. now rewrite IH. Qed.
Lemma filter_all : forall {A} (p : A -> bool) l, Forall (fun x => p x = true) l -> filter p l = l.
Proof. induction 1 as [|x l H F IH]; cbn; [reflexivity|]. now rewrite H, IH. Qed.
Lemma filter_none : forall {A} (p : A -> bool) l, Forall (fun x => p x = false) l -> filter p l = [].
Proof. induction 1 as [|x l H F IH]; cbn; [reflexivity|]. now rewrite H. Qed.
Lemma filter_runs : forall i arr gs, runs i arr gs -> filter hi arr = concat (map snd gs).
Proof.
  induction 1 as [i A F|i A B C gs FA NB FB LC R IH].
  - now apply filter_none.
  - rewrite !filter_app, (filter_none _ A FA), (filter_all _ B FB), IH. reflexivity.
Qed.
Lemma cut_low : forall A, Forall (fun x => hi x = false) A -> cut thr A = repeat 0 (length A).
Proof. induction 1 as [|x A H F IH]; cbn; [reflexivity|]. unfold cut in IH. now rewrite H, IH. Qed.
Lemma cut_high : forall A, Forall (fun x => hi x = true) A -> cut thr A = A.
Proof. induction 1 as [|x A H F IH]; cbn; [reflexivity|]. unfold cut in IH. now rewrite H, IH. Qed.
Lemma cut_app : forall a b, cut thr (a ++ b) = cut thr a ++ cut thr b.
Proof. intros. apply map_app. Qed.

Definition put (l : list R) (g : nat * list R) : list R := firstn (fst g) l ++ snd g ++ skipn (fst g + length (snd g)) l.
Lemma put_mid : forall P Z1 B Z2, length Z1 = length B -> put (P ++ Z1 ++ Z2) (length P, B) = P ++ B ++ Z2.
Proof.
  intros P Z1 B Z2 L. unfold put. cbn [fst snd]. rewrite firstn_app, Nat.sub_diag, firstn_all, app_nil_r. f_equal. f_equal.
  rewrite skipn_app. rewrite (skipn_all2 P) by lia. replace (length P + length B - length P)%nat with (length Z1) by lia. rewrite skipn_app, skipn_all, Nat.sub_diag. reflexivity.
Qed.
Lemma put_runs : forall i arr gs, runs i arr gs -> forall pre, length pre = i -> fold_left put gs (pre ++ repeat 0 (length arr)) = pre ++ cut thr arr.
Proof.
  induction 1 as [i A F|i A B C gs FA NB FB LC R IH]; intros pre L; cbn [fold_left].
  - now rewrite cut_low.
  - rewrite !app_length, !repeat_app, !cut_app, (cut_low A FA), (cut_high B FB).
    replace (i + length A)%nat with (length (pre ++ repeat 0 (length A))) by (rewrite app_length, repeat_length; lia).
    rewrite (app_assoc pre). rewrite put_mid by (now rewrite repeat_length).
    replace ((pre ++ repeat 0 (length A)) ++ B ++ repeat 0 (length C)) with (((pre ++ repeat 0 (length A)) ++ B) ++ repeat 0 (length C)) by (now rewrite <- !app_assoc).
    rewrite IH by (rewrite !app_length, repeat_length; lia). now rewrite <- !app_assoc.
Qed.
(** all groups are inside the row *)
Lemma runs_inside : forall i arr gs, runs i arr gs -> Forall (fun g => (i <= fst g /\ fst g + length (snd g) <= i + length arr)%nat) gs.
Proof.
  induction 1 as [i A F|i A B C gs FA NB FB LC R IH]; constructor; cbn [fst snd]; rewrite ?app_length; [lia|].
  rewrite Forall_forall in IH |- *. intros g I. specialize (IH g I). lia.
Qed.
End Runs.

Lemma to_row_spec : forall arr tl thr, exists gs, runs thr 0 arr gs /\
  arr_to_rmf_matrix_row arr tl thr = Ok (length gs, map (fun g => (Z.of_nat (fst g) + tl)%Z) gs, map (fun g => Z.of_nat (length (snd g))) gs, concat (map snd gs)).
Proof.
  intros. destruct (runs_exist thr arr 0) as [gs H]. exists gs. split; [exact H|]. unfold arr_to_rmf_matrix_row.
  rewrite (diff_runs _ _ _ _ H). rewrite pairs_flat. cbn [bind]. rewrite !map_map, map_length, (filter_runs _ _ _ _ H). cbn [fst snd].
  do 3 f_equal. apply map_ext. intros g. lia.
Qed.

(** ** expanding *)
Lemma clip_in : forall n i, (0 <= i <= n)%Z -> py_clip n i = i.
Proof. intros n i H. unfold py_clip. destruct (Z.ltb_spec i 0); lia. Qed.
Lemma slice_set_put : forall (l : list R) s B, (s + length B <= length l)%nat -> slice_set l (Z.of_nat s) (Z.of_nat s + Z.of_nat (length B)) B = Ok (put l (s, B)).
Proof.
  intros l s B H. unfold slice_set. rewrite !clip_in by lia. replace (Z.to_nat (Z.of_nat s + Z.of_nat (length B) - Z.of_nat s)) with (length B) by lia.
  rewrite Nat.eqb_refl, Nat2Z.id. reflexivity.
Qed.
Lemma put_len : forall l s B, (s + length B <= length l)%nat -> length (put l (s, B)) = length l.
Proof. intros. unfold put. cbn [fst snd]. rewrite !app_length, firstn_length, skipn_length. lia. Qed.
Lemma cumsum0_nth : forall l acc i, (i <= length l)%nat -> nth_error (cumsum0 acc l) i = Some (acc + sumZ (firstn i l))%Z.
Proof.
  induction l as [|x l IH]; intros acc [|i] L; cbn [length] in L; try lia; cbn [cumsum0 nth_error firstn sumZ fold_right]; try (f_equal; lia).
  rewrite IH by lia. f_equal. unfold sumZ. lia.
Qed.
Lemma sumZ_app : forall a b, sumZ (a ++ b) = (sumZ a + sumZ b)%Z.
Proof. induction a as [|x a IH]; intros; [reflexivity|]. cbn [app sumZ fold_right]. unfold sumZ in IH. rewrite IH. unfold sumZ. lia. Qed.
Lemma sum_lengths : forall (gs : list (nat * list R)), sumZ (map (fun g => Z.of_nat (length (snd g))) gs) = Z.of_nat (length (concat (map snd gs))).
Proof. induction gs as [|g gs IH]; [reflexivity|]. cbn [map sumZ fold_right concat]. fold (sumZ (map (fun g => Z.of_nat (length (snd g))) gs)). rewrite IH, app_length. lia. Qed.
Lemma slice_mid : forall {A} (P B Q : list A), slice_get (P ++ B ++ Q) (Z.of_nat (length P)) (Z.of_nat (length P) + Z.of_nat (length B)) = B.
Proof.
  intros. unfold slice_get. rewrite !clip_in by (rewrite !app_length; lia). replace (Z.to_nat (Z.of_nat (length P) + Z.of_nat (length B) - Z.of_nat (length P))) with (length B) by lia.
  rewrite Nat2Z.id, skipn_app, skipn_all, Nat.sub_diag. cbn. now rewrite firstn_app, Nat.sub_diag, firstn_all, app_nil_r.
Qed.
Lemma nth_mid : forall {A B} (f : A -> B) P g Q, nth_error (map f (P ++ g :: Q)) (length P) = Some (f g).
Proof. intros. rewrite nth_error_map, nth_error_app2, Nat.sub_diag by lia. reflexivity. Qed.
(** the cells of a row made from groups *)
Definition row_of (lo hi : R) (tl : Z) (gs : list (nat * list R)) : mrow :=
  Mrow lo hi (length gs) (Arr (map (fun g => (Z.of_nat (fst g) + tl)%Z) gs)) (Arr (map (fun g => Z.of_nat (length (snd g))) gs)) (concat (map snd gs)).
Lemma full_step_put : forall lo hi tl P g Q l, (fst g + length (snd g) <= length l)%nat ->
  full_step (row_of lo hi tl (P ++ g :: Q)) tl l (length P) = Ok (put l g).
Proof.
  intros lo hi tl P g Q l L. unfold full_step, row_of. cbn [r_fchan r_nchan r_matrix cell_get]. rewrite !nth_mid. cbn [bind].
  rewrite !cumsum0_nth by (rewrite map_length, app_length; cbn; lia). rewrite !firstn_map.
  assert (F1 : firstn (length P) (P ++ g :: Q) = P) by (rewrite firstn_app, Nat.sub_diag, firstn_all; cbn; now rewrite app_nil_r).
  assert (F2 : firstn (S (length P)) (P ++ g :: Q) = P ++ [g]).
  { rewrite firstn_app, firstn_all2 by lia. replace (S (length P) - length P)%nat with 1%nat by lia. reflexivity. }
  rewrite F1, F2. rewrite (map_app _ P [g]). rewrite sumZ_app. cbn [map]. change (sumZ [Z.of_nat (length (snd g))]) with (Z.of_nat (length (snd g)) + 0)%Z. rewrite Z.add_0_r.
  rewrite sum_lengths. rewrite map_app, concat_app. cbn [map concat]. rewrite !Z.add_0_l, slice_mid.
  replace (Z.of_nat (fst g) + tl - tl)%Z with (Z.of_nat (fst g)) by lia.
  replace (Z.of_nat (fst g) + tl + Z.of_nat (length (snd g)) - tl)%Z with (Z.of_nat (fst g) + Z.of_nat (length (snd g)))%Z by lia.
  rewrite slice_set_put by exact L. now destruct g.
Qed.
Lemma full_loop : forall lo hi tl Q P l n, length l = n -> Forall (fun g => (fst g + length (snd g) <= n)%nat) Q ->
  loop_while (full_step (row_of lo hi tl (P ++ Q)) tl) (seq (length P) (length Q)) l = Ok (fold_left put Q l).
Proof.
  induction Q as [|g Q IH]; intros P l n L F; [reflexivity|]. inversion F as [|g' Q' F1 F2]; subst g' Q'. cbn [length seq loop_while fold_left].
  rewrite full_step_put by lia. cbn [bind]. replace (P ++ g :: Q) with ((P ++ [g]) ++ Q) by (now rewrite <- app_assoc).
  replace (S (length P)) with (length (P ++ [g])) by (rewrite app_length; cbn; lia). apply (IH _ _ n); [|exact F2]. rewrite (surjective_pairing g), put_len; cbn [fst snd]; lia.
Qed.
Lemma round_trip : forall arr tl thr lo hi, exists ngrp fchan nchan matrix, arr_to_rmf_matrix_row arr tl thr = Ok (ngrp, fchan, nchan, matrix) /\
  full_rmf (length arr) tl (Mrow lo hi ngrp (Arr fchan) (Arr nchan) matrix) = Ok (cut thr arr).
Proof.
  intros. destruct (to_row_spec arr tl thr) as (gs & H & E). rewrite E. eexists _, _, _, _. split; [reflexivity|]. unfold full_rmf. cbn [r_ngrp].
  fold (row_of lo hi tl gs). change gs with ([] ++ gs) at 1. rewrite (full_loop lo hi tl gs [] _ (length arr)).
  - f_equal. exact (put_runs thr 0 arr gs H [] eq_refl).
  - apply repeat_length.
  - eapply Forall_impl; [|exact (runs_inside _ _ _ _ H)]. cbn. lia.
Qed.
(** structure of the groups *)
Lemma runs_groups : forall thr i arr gs, runs thr i arr gs -> forall k s B, nth_error gs k = Some (s, B) ->
  (i <= s)%nat /\ B <> [] /\ (forall j, (j < length B)%nat -> exists x, nth_error arr (s - i + j) = Some x /\ above thr x = true) /\
  (forall x, nth_error arr (s - i + length B) = Some x -> above thr x = false) /\
  (forall x, (i < s)%nat -> nth_error arr (s - i - 1) = Some x -> above thr x = false) /\
  (forall s' B', nth_error gs (S k) = Some (s', B') -> (s + length B < s')%nat).
Proof.
  induction 1 as [i A F|i A B C gs FA NB FB LC R IH]; intros k s B0 K; [destruct k; discriminate|]. destruct k as [|k]; cbn [nth_error] in K.
  - injection K as <- <-. split; [lia|]. split; [exact NB|]. replace (i + length A - i)%nat with (length A) by lia. split; [|split; [|split]].
    + intros j J. destruct (nth_error B j) as [x|] eqn:X; [|apply nth_error_None in X; lia]. exists x. split.
      * rewrite nth_error_app2 by lia. replace (length A + j - length A)%nat with j by lia. now rewrite nth_error_app1.
      * rewrite Forall_forall in FB. apply FB. eapply nth_error_In; eauto.
    + intros x X. rewrite nth_error_app2 in X by lia. rewrite nth_error_app2 in X by lia. replace (length A + length B - length A - length B)%nat with 0%nat in X by lia.
      destruct C; [discriminate|]. cbn in X. injection X as <-. exact LC.
    + intros x L X. rewrite nth_error_app1 in X by lia. rewrite Forall_forall in FA. apply FA. eapply nth_error_In; eauto.
    + intros s' B' N. cbn [nth_error] in N. destruct (IH 0%nat s' B' N) as (L & NB' & Q & _).
      assert (s' <> i + length A + length B)%nat; [|lia]. intros ->. destruct (Q 0%nat) as (x & X & HX); [destruct B'; [congruence|cbn; lia]|].
      replace (i + length A + length B - (i + length A + length B) + 0)%nat with 0%nat in X by lia. destruct C; [discriminate|]. cbn in X. injection X as ->. cbn in LC. congruence.
  - destruct (IH k s B0 K) as (L & NB' & Q1 & Q2 & Q3 & Q4).
    assert (SH : forall m, nth_error (A ++ B ++ C) (length A + length B + m) = nth_error C m).
    { intros m. rewrite nth_error_app2 by lia. rewrite nth_error_app2 by lia. f_equal. lia. }
    split; [lia|]. split; [exact NB'|]. split; [|split; [|split]].
    + intros j J. destruct (Q1 j J) as (x & X & HX). exists x. split; [|exact HX]. rewrite <- SH in X. rewrite <- X. f_equal. lia.
    + intros x X. apply Q2. rewrite <- SH. rewrite <- X. f_equal. lia.
    + intros x _ X. destruct (Nat.eq_dec s (i + length A + length B)) as [->|N].
      * exfalso. destruct (Q1 0%nat) as (y & Y & HY); [destruct B0; [congruence|cbn; lia]|].
        replace (i + length A + length B - (i + length A + length B) + 0)%nat with 0%nat in Y by lia. destruct C; [discriminate|]. cbn in Y. injection Y as ->. cbn in LC. congruence.
      * apply Q3; [lia|]. rewrite <- SH. rewrite <- X. f_equal. lia.
    + intros s' B' N. cbn [nth_error] in N. now apply (Q4 s' B').
Qed.
