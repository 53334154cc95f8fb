(** More proofs about Rmf_Model: compact view, fixed length arrays, tables, bounds. *)
From Coq Require Import Permutation.
From Verif Require Export Rmf_Proofs.
Open Scope R_scope.

(** ** compact view *)
Lemma sequence_app : forall {A} (a b : list (result A)) x y, sequence a = Ok x -> sequence b = Ok y -> sequence (a ++ b) = Ok (x ++ y).
Proof.
  induction a as [|r a IH]; intros b x y HA HB; cbn in *; [injection HA as <-; exact HB|]. destruct r as [v|]; [|discriminate]. cbn in *.
  destruct (sequence a) as [xs|]; [|discriminate]. cbn in HA. injection HA as <-. rewrite (IH b xs y eq_refl HB). reflexivity.
Qed.
Lemma py_nth_in : forall {A} (l : list A) i x, nth_error l i = Some x -> py_nth l (Z.of_nat i) = Ok x.
Proof. intros A l i x H. unfold py_nth. destruct (Z.ltb_spec (Z.of_nat i) 0); [lia|]. destruct (Z.ltb_spec (Z.of_nat i) 0); [lia|]. now rewrite Nat2Z.id, H. Qed.
Lemma seq_map_py : forall {A} B (P Q : list A), sequence (map (fun i => py_nth (P ++ B ++ Q) (Z.of_nat i)) (seq (length P) (length B))) = Ok B.
Proof.
  induction B as [|x B IH]; intros P Q; [reflexivity|]. cbn [length seq map sequence]. rewrite (py_nth_in _ _ x) by (rewrite nth_error_app2 by lia; now rewrite Nat.sub_diag).
  cbn [bind]. specialize (IH (P ++ [x]) Q). rewrite app_length in IH. cbn [length] in IH. rewrite Nat.add_1_r in IH.
  replace (P ++ (x :: B) ++ Q) with ((P ++ [x]) ++ B ++ Q) by (now rewrite <- app_assoc). rewrite IH. reflexivity.
Qed.
Lemma fancy_block : forall {A} (P B Q : list A), fancy (P ++ B ++ Q) (arangeZ (Z.of_nat (length P)) (Z.of_nat (length P) + Z.of_nat (length B))) = Ok B.
Proof.
  intros. unfold fancy, arangeZ. replace (Z.to_nat (Z.of_nat (length P) + Z.of_nat (length B) - Z.of_nat (length P))) with (length B) by lia. rewrite map_map.
  rewrite <- (seq_map_py B P Q). f_equal. replace (seq (length P) (length B)) with (map (fun i => (length P + i)%nat) (seq 0 (length B))).
  - rewrite map_map. apply map_ext. intros i. f_equal. lia.
  - clear. generalize (length P) as p. intros p. induction (length B) as [|n IH] in p |- *; [reflexivity|]. cbn [seq map]. f_equal; [lia|]. rewrite <- seq_shift, map_map.
    rewrite <- (IH (S p)). apply map_ext. intros; lia.
Qed.
Definition chans (gs : list (nat * list R)) : list Z := concat (map (fun g => arangeZ (Z.of_nat (fst g)) (Z.of_nat (fst g) + Z.of_nat (length (snd g)))) gs).
Lemma selected_low : forall {A} thr arr (l : list A) , Forall (fun x => above thr x = false) arr -> selected thr arr l = [].
Proof. intros A thr arr l F. unfold selected. rewrite filter_none; [reflexivity|]. apply Forall_forall. intros [x y] I. rewrite Forall_forall in F. apply F. eapply in_combine_l; eauto. Qed.
Lemma selected_high : forall {A} thr arr (l : list A), length arr = length l -> Forall (fun x => above thr x = true) arr -> selected thr arr l = l.
Proof.
  intros A thr arr l L F. unfold selected. rewrite filter_all. { clear F. revert l L. induction arr as [|x arr IH]; intros [|y l] L; try discriminate; [reflexivity|]. cbn. f_equal. apply IH. now injection L. }
  apply Forall_forall. intros [x y] I. rewrite Forall_forall in F. apply F. eapply in_combine_l; eauto.
Qed.
Lemma combine_app : forall {A B} (a : list A) (b : list B) a' b', length a = length b -> combine (a ++ a') (b ++ b') = combine a b ++ combine a' b'.
Proof. induction a as [|x a IH]; intros [|y b] a' b' L; try discriminate; [reflexivity|]. cbn. f_equal. apply IH. now injection L. Qed.
Lemma selected_app : forall {A} thr a (l : list A) a' l', length a = length l -> selected thr (a ++ a') (l ++ l') = selected thr a l ++ selected thr a' l'.
Proof. intros. unfold selected. rewrite combine_app by assumption. now rewrite filter_app, map_app. Qed.
Lemma fancy_runs : forall {A} thr i arr gs, runs thr i arr gs -> forall (pre l : list A), length pre = i -> length l = length arr -> fancy (pre ++ l) (chans gs) = Ok (selected thr arr l).
Proof.
  induction 1 as [i X F|i X B C gs FA NB FB LC R IH]; intros pre l LP LL.
  - rewrite selected_low by exact F. reflexivity.
  - rewrite !app_length in LL. set (lx := firstn (length X) l). set (lb := firstn (length B) (skipn (length X) l)). set (lc := skipn (length B) (skipn (length X) l)).
    assert (E : l = lx ++ lb ++ lc) by (unfold lx, lb, lc; now rewrite !firstn_skipn).
    assert (L1 : length lx = length X) by (unfold lx; rewrite firstn_length; lia).
    assert (L2 : length lb = length B) by (unfold lb; rewrite firstn_length, skipn_length; lia).
    assert (L3 : length lc = length C) by (unfold lc; rewrite !skipn_length; lia).
    clearbody lx lb lc. subst l. rewrite !selected_app by (symmetry; assumption). rewrite selected_low by exact FA. rewrite (selected_high thr B lb) by (try (symmetry; assumption); exact FB).
    cbn [app]. unfold fancy, chans. cbn [map concat fst snd]. rewrite map_app. apply sequence_app.
    + fold (fancy (pre ++ lx ++ lb ++ lc) (arangeZ (Z.of_nat (i + length X)) (Z.of_nat (i + length X) + Z.of_nat (length B)))).
      replace (i + length X)%nat with (length (pre ++ lx)) by (rewrite app_length; lia). rewrite <- L2. rewrite (app_assoc pre). apply fancy_block.
    + specialize (IH (pre ++ lx ++ lb) lc). rewrite !app_length in IH. specialize (IH ltac:(lia) L3). unfold fancy, chans in IH. rewrite <- IH. now rewrite <- !app_assoc.
Qed.
Lemma seq_ok : forall {A B} (f : A -> result B) g l, (forall x, In x l -> f x = Ok (g x)) -> sequence (map f l) = Ok (map g l).
Proof. induction l as [|x l IH]; intros H; cbn; [reflexivity|]. rewrite H by (now left). cbn. rewrite IH by (intros; apply H; now right). reflexivity. Qed.
Lemma map_seq_nth : forall {A B} (f : A -> B) d l, map (fun i => f (nth i l d)) (seq 0 (length l)) = map f l.
Proof.
  induction l as [|x l IH]; [reflexivity|]. cbn [length seq map nth]. f_equal. rewrite <- seq_shift, map_map. exact IH.
Qed.
Lemma channels_row : forall lo hi tl gs, gs <> [] -> rmf_channels (row_of lo hi tl gs) = Ok (map (fun c => (c + (tl - 1))%Z) (chans gs)).
Proof.
  intros lo hi tl gs N. unfold rmf_channels, row_of. cbn [r_fchan r_nchan r_ngrp].
  rewrite (seq_ok _ (fun i => let g := nth i gs (0%nat, []) in arangeZ (Z.of_nat (fst g) + tl - 1) (Z.of_nat (fst g) + tl + Z.of_nat (length (snd g)) - 1))).
  - rewrite (map_seq_nth (fun g => arangeZ (Z.of_nat (fst g) + tl - 1) (Z.of_nat (fst g) + tl + Z.of_nat (length (snd g)) - 1))). destruct gs as [|g gs]; [congruence|].
    set (l := g :: gs). cbn [bind]. match goal with |- match ?m with [] => _ | _ => _ end = _ => assert (E : m = map (fun g => map (fun c => (c + (tl - 1))%Z) (arangeZ (Z.of_nat (fst g)) (Z.of_nat (fst g) + Z.of_nat (length (snd g))))) l) end.
    { apply map_ext. intros h. unfold arangeZ. rewrite map_map. replace (Z.of_nat (fst h) + tl + Z.of_nat (length (snd h)) - 1 - (Z.of_nat (fst h) + tl - 1))%Z with (Z.of_nat (fst h) + Z.of_nat (length (snd h)) - Z.of_nat (fst h))%Z by lia.
      apply map_ext. intros; lia. }
    rewrite E. unfold chans. rewrite concat_map, map_map. subst l. reflexivity.
  - intros i I. apply in_seq in I. cbn [cell_get]. rewrite !nth_error_map. rewrite (nth_error_nth' gs (0%nat, [])) by lia. reflexivity.
Qed.
Lemma compact_agrees : forall arr thr lo hi e_min e_max, Exists (fun x => above thr x = true) arr -> length e_min = length arr -> length e_max = length arr ->
  exists ngrp fchan nchan matrix, arr_to_rmf_matrix_row arr 1 thr = Ok (ngrp, fchan, nchan, matrix) /\
  rmf e_min e_max (Mrow lo hi ngrp (Arr fchan) (Arr nchan) matrix) = Ok (selected thr arr e_min, selected thr arr e_max, selected thr arr (cut thr arr)).
Proof.
  intros arr thr lo hi e_min e_max EX LM LX. destruct (to_row_spec arr 1 thr) as (gs & H & E). rewrite E. eexists _, _, _, _. split; [reflexivity|]. fold (row_of lo hi 1 gs).
  assert (N : gs <> []).
  { intros ->. inversion H as [i A F|]; subst. rewrite Forall_forall in F. rewrite Exists_exists in EX. destruct EX as (x & I & X). rewrite F in X by exact I. discriminate. }
  unfold rmf. rewrite channels_row by exact N. cbn [bind]. assert (M : map (fun c => (c + (1 - 1))%Z) (chans gs) = chans gs) by (rewrite <- (map_id (chans gs)) at 2; apply map_ext; intros; lia).
  rewrite M. change e_min with ([] ++ e_min) at 1. change e_max with ([] ++ e_max) at 1. rewrite !(fancy_runs thr 0 arr gs H []) by auto. cbn [bind row_of r_matrix].
  do 2 f_equal. rewrite <- (filter_runs _ _ _ _ H). clear. unfold selected, cut. induction arr as [|x arr IH]; [reflexivity|]. cbn. destruct (above thr x) eqn:X; cbn; [|exact IH]. now rewrite IH.
Qed.

(** ** fixed length arrays *)
Lemma pad_len : forall {A} (d : A) w l, (length l <= w)%nat -> length (pad d w l) = w.
Proof. intros. unfold pad. rewrite app_length, repeat_length. lia. Qed.
Lemma pad_nth : forall {A} (d : A) w l i, (i < length l)%nat -> nth_error (pad d w l) i = nth_error l i.
Proof. intros. unfold pad. now apply nth_error_app1. Qed.
Lemma pad_firstn : forall {A} (d : A) w l i, (i <= length l)%nat -> firstn i (pad d w l) = firstn i l.
Proof. intros. unfold pad. rewrite firstn_app. replace (i - length l)%nat with 0%nat by lia. cbn. now rewrite app_nil_r. Qed.
Lemma pad_slice : forall {A} (d : A) w l a b, (0 <= a)%Z -> (a <= b)%Z -> (b <= Z.of_nat (length l))%Z -> slice_get (pad d w l) a b = slice_get l a b.
Proof.
  intros A d w l a b HA HAB HB. unfold slice_get, pad. rewrite !clip_in by (rewrite ?app_length; lia). rewrite skipn_app. rewrite firstn_app.
  rewrite skipn_length. replace (Z.to_nat (b - a) - (length l - Z.to_nat a))%nat with 0%nat by lia. cbn. now rewrite app_nil_r.
Qed.
Lemma sumZ_nonneg : forall l, Forall (fun z => (0 <= z)%Z) l -> (0 <= sumZ l)%Z.
Proof. induction 1 as [|x l H F IH]; cbn [sumZ fold_right]; [lia|]. unfold sumZ in IH. lia. Qed.
Lemma sumZ_firstn_mono : forall l i, Forall (fun z => (0 <= z)%Z) l -> (0 <= sumZ (firstn i l) <= sumZ (firstn (S i) l))%Z /\ (sumZ (firstn (S i) l) <= sumZ l)%Z.
Proof.
  induction l as [|x l IH]; intros i F; [destruct i; cbn; lia|]. inversion F as [|y z F1 F2]; subst. assert (X := sumZ_nonneg l F2).
  assert (SC : forall k, sumZ (firstn (S k) (x :: l)) = (x + sumZ (firstn k l))%Z) by reflexivity. assert (SL : sumZ (x :: l) = (x + sumZ l)%Z) by reflexivity.
  rewrite SC, SL. destruct i as [|i]; [change (sumZ (firstn 0 (x :: l))) with 0%Z; change (sumZ (firstn 0 l)) with 0%Z; lia|]. rewrite SC. destruct (IH i F2). lia.
Qed.
Lemma step_pad : forall r f n g w mat tl l i, r_fchan r = Arr f -> r_nchan r = Arr n -> length f = r_ngrp r -> length n = r_ngrp r ->
  Forall (fun z => (0 <= z)%Z) n -> Z.of_nat (length (r_matrix r)) = sumZ n -> mat = r_matrix r -> (i < r_ngrp r)%nat ->
  full_step (Mrow (r_lo r) (r_hi r) (r_ngrp r) (Arr (pad 0%Z g f)) (Arr (pad 0%Z g n)) (pad 0 w mat)) tl l i = full_step r tl l i.
Proof.
  intros r f n g w mat tl l i RF RN LF LN FN LM -> I. unfold full_step. rewrite RF, RN. cbn [r_fchan r_nchan r_matrix cell_get]. rewrite !pad_nth by lia.
  destruct (nth_error f i) as [fi|]; [|reflexivity]. cbn [bind]. destruct (nth_error n i) as [ni|]; [|reflexivity]. cbn [bind].
  rewrite !cumsum0_nth by (unfold pad; rewrite ?app_length; lia). rewrite !pad_firstn by lia. rewrite pad_slice; [reflexivity| | |]; destruct (sumZ_firstn_mono n i FN); lia.
Qed.
Lemma loop_ext : forall {A} (s1 s2 : A -> nat -> result A) is, (forall x i, In i is -> s1 x i = s2 x i) -> forall x, loop_while s1 is x = loop_while s2 is x.
Proof.
  induction is as [|i is IH]; intros H x; [reflexivity|]. cbn. rewrite H by (now left). destruct (s2 x i); [|reflexivity]. cbn. apply IH. intros; apply H. now right.
Qed.
Lemma squeeze_column : forall g rows x, (2 <= g)%nat -> (2 <= length rows)%nat -> squeeze_assign g rows = Ok x -> x = Keyword \/ x = Column (map Arr rows).
Proof.
  intros g [|r1 [|r2 rows]] x G L H; cbn in L; try lia. unfold squeeze_assign in H. destruct (Nat.eqb_spec g 1); [lia|].
  destruct (all_first eqb_cells _); injection H as <-; auto.
Qed.
Lemma squeeze_ok : forall g rows, (2 <= length rows)%nat -> exists x, squeeze_assign g rows = Ok x.
Proof. intros g [|r1 [|r2 rows]] L; cbn in L; try lia. unfold squeeze_assign. destruct (Nat.eqb g 1); destruct (all_first _ _); eauto. Qed.
Lemma max_nat_ge : forall l x, In x l -> (x <= fold_right Nat.max 0 l)%nat.
Proof. induction l as [|y l IH]; intros x I; [destruct I|]. destruct I as [<-|I]; cbn; [lia|]. specialize (IH x I). lia. Qed.
Lemma max_Z_ge : forall l x, In x l -> (x <= max_list l)%Z.
Proof. induction l as [|y l IH]; intros x I; [destruct I|]. destruct I as [<-|I]; cbn [max_list fold_right]; [lia|]. specialize (IH x I). unfold max_list in IH. lia. Qed.
Lemma fits : forall m, Forall well_formed m ->
  forallb (fun r => Nat.leb (length (as_list (r_fchan r))) (fold_right Nat.max 0%nat (map r_ngrp m)) && Nat.leb (length (as_list (r_nchan r))) (fold_right Nat.max 0%nat (map r_ngrp m)) &&
    Nat.leb (length (r_matrix r)) (Z.to_nat (max_list (map (fun r => sumZ (as_list (r_nchan r))) m))))%bool m = true.
Proof.
  intros m F. apply forallb_forall. intros r I. rewrite Forall_forall in F. destruct (F r I) as (f & n & RF & RN & LF & LN & FN & LM). rewrite RF, RN. cbn [as_list].
  assert (G := max_nat_ge (map r_ngrp m) (r_ngrp r) (in_map _ _ _ I)).
  assert (W := max_Z_ge (map (fun r => sumZ (as_list (r_nchan r))) m) _ (in_map (fun r => sumZ (as_list (r_nchan r))) _ _ I)). cbn beta in W. rewrite RN in W. cbn [as_list] in W.
  rewrite !andb_true_iff, !Nat.leb_le. lia.
Qed.
Lemma fixed_ok : forall f32 m, Forall well_formed m -> (2 <= length m)%nat -> Exists (fun r => r_ngrp r <> 0%nat) m -> exists x, to_fixed_length f32 m = Ok x.
Proof.
  intros f32 m F L EX. unfold to_fixed_length. destruct (flat_map (fun r => as_list (r_fchan r)) m) eqn:E.
  - exfalso. apply Exists_exists in EX. destruct EX as (r & I & N). rewrite Forall_forall in F. destruct (F r I) as (f & n & RF & RN & LF & LN & _).
    assert (X : f = []). { destruct f as [|z f]; [reflexivity|]. assert (In z (flat_map (fun r => as_list (r_fchan r)) m)) as J by (apply in_flat_map; exists r; split; [exact I|rewrite RF; now left]). rewrite E in J. destruct J. }
    subst f. cbn in LF. congruence.
  - rewrite fits by exact F. destruct (squeeze_ok (fold_right Nat.max 0%nat (map r_ngrp m)) (map (fun r => pad 0%Z (fold_right Nat.max 0%nat (map r_ngrp m)) (as_list (r_fchan r))) m)) as [a ->]; [now rewrite map_length|].
    destruct (squeeze_ok (fold_right Nat.max 0%nat (map r_ngrp m)) (map (fun r => pad 0%Z (fold_right Nat.max 0%nat (map r_ngrp m)) (as_list (r_nchan r))) m)) as [b ->]; [now rewrite map_length|]. cbn [bind]. eauto.
Qed.
Lemma fixed_same : forall f32 m x, Forall well_formed m -> (2 <= length m)%nat -> Exists (fun r => (2 <= r_ngrp r)%nat) m ->
  (forall r v, In r m -> In v (r_matrix r) -> f32 v = v) -> to_fixed_length f32 m = Ok x -> x_fchan x <> Keyword -> x_nchan x <> Keyword -> x_matrix x <> Keyword ->
  forall nch tl j r, nth_error m j = Some r -> full_rmf_fixed nch tl m x j = full_rmf nch tl r.
Proof.
  intros f32 m x F L EX F32 H KF KN KM nch tl j r J. unfold to_fixed_length in H. destruct (flat_map _ m) as [|? ?]; [discriminate|]. rewrite fits in H by exact F.
  set (g := fold_right Nat.max 0%nat (map r_ngrp m)) in *. set (w := Z.to_nat _) in *.
  assert (G : (2 <= g)%nat). { apply Exists_exists in EX. destruct EX as (q & I & Q). assert (X := max_nat_ge (map r_ngrp m) (r_ngrp q) (in_map _ _ _ I)). fold g in X. lia. }
  destruct (squeeze_assign g (map (fun r => pad 0%Z g (as_list (r_fchan r))) m)) as [a|] eqn:EA; [|discriminate].
  destruct (squeeze_assign g (map (fun r => pad 0%Z g (as_list (r_nchan r))) m)) as [b|] eqn:EB; [|discriminate]. cbn [bind] in H. injection H as <-. cbn [x_fchan x_nchan x_matrix] in *.
  apply squeeze_column in EA; [|exact G|now rewrite map_length]. apply squeeze_column in EB; [|exact G|now rewrite map_length].
  destruct EA as [->| ->]; [congruence|]. destruct EB as [->| ->]; [congruence|]. destruct (all_first eqb_reals _); [congruence|].
  unfold full_rmf_fixed. rewrite J. cbn [x_fchan x_nchan x_matrix]. rewrite map_map. rewrite !nth_error_map, J. cbn [option_map].
  assert (I : In r m) by (eapply nth_error_In; eauto). rewrite Forall_forall in F. destruct (F r I) as (f & n & RF & RN & LF & LN & FN & LM).
  destruct (r_ngrp r) as [|k] eqn:NG; [unfold full_rmf; now rewrite NG|]. rewrite RF, RN. cbn [as_list]. unfold full_rmf. cbn [r_ngrp]. rewrite NG. apply loop_ext. intros y i IS. apply in_seq in IS.
  rewrite <- NG. apply step_pad; auto; try lia. rewrite <- (map_id (r_matrix r)) at 2. apply map_ext_in. intros v V. now apply (F32 r).
Qed.
Lemma fixed_single : forall f32 m x, Forall (fun r => (r_ngrp r <= 1)%nat) m -> to_fixed_length f32 m = Ok x -> 
  forall nch tl j r, nth_error m j = Some r -> r_ngrp r = 1%nat -> exists e, full_rmf_fixed nch tl m x j = Err e.
Proof.
  intros f32 m x F H nch tl j r J NG. unfold to_fixed_length in H. destruct (flat_map _ m) as [|? ?]; [discriminate|].
  assert (G : fold_right Nat.max 0%nat (map r_ngrp m) = 1%nat).
  { assert (A : (1 <= fold_right Nat.max 0 (map r_ngrp m))%nat) by (rewrite <- NG; apply max_nat_ge, in_map; eapply nth_error_In; eauto).
    assert (B : (fold_right Nat.max 0 (map r_ngrp m) <= 1)%nat); [|lia]. clear - F. induction F as [|q m Q F IH]; cbn; lia. }
  rewrite G in H. destruct (forallb _ m); [|discriminate]. destruct (squeeze_assign 1 _) as [a|] eqn:EA; [|discriminate]. cbn [bind] in H.
  destruct (squeeze_assign 1 (map (fun r => pad 0%Z 1 (as_list (r_nchan r))) m)) as [b|] eqn:EB; [|discriminate]. cbn [bind] in H. injection H as <-.
  unfold full_rmf_fixed. rewrite J. cbn [x_fchan x_nchan x_matrix].
  assert (X : a = Keyword \/ exists l, a = Column l /\ nth_error l j = option_map (fun r => Num (nth 0 (pad 0%Z 1 (as_list (r_fchan r))) 0%Z)) (nth_error m j)).
  { clear - EA. destruct m as [|q [|q2 m]]; cbn [map] in EA.
    - cbn in EA. injection EA as <-. auto.
    - cbn in EA. injection EA as <-. auto.
    - unfold squeeze_assign in EA. destruct (Nat.eqb_spec 1 1); [|lia]. destruct (all_first _ _); injection EA as <-; auto. right. eexists. split; [reflexivity|].
      set (mm := q :: q2 :: m). match goal with |- nth_error ?l j = _ => replace l with (map (fun r => Num (nth 0 (pad 0%Z 1 (as_list (r_fchan r))) 0%Z)) mm) end; [apply nth_error_map|].
      subst mm. cbn [map]. now rewrite map_map. }
  destruct X as [->|(cl & -> & E)]; [eauto|]. rewrite NG, E, J. cbn [option_map]. eauto.
Qed.

(** ** energy bounds *)
Lemma insR_perm : forall x l, Permutation (insR x l) (x :: l).
Proof. induction l as [|y l IH]; [reflexivity|]. cbn. destruct (Rleb x y); [reflexivity|]. rewrite IH. apply perm_swap. Qed.
Lemma sortR_perm : forall l, Permutation (sortR l) l.
Proof. induction l as [|x l IH]; [reflexivity|]. cbn. rewrite insR_perm. now constructor. Qed.
Definition le_head (x : R) (l : list R) : Prop := match l with [] => True | y :: _ => x <= y end.
Lemma ascending_cons : forall x l, ascending (x :: l) <-> le_head x l /\ ascending l.
Proof. intros x [|y l]; cbn; intuition. Qed.
Lemma insR_asc : forall x l, ascending l -> ascending (insR x l) /\ forall y, y <= x -> le_head y l -> le_head y (insR x l).
Proof.
  induction l as [|z l IH]; intros A; [cbn; auto|]. cbn [insR]. destruct (Rleb x z) eqn:E.
  - apply Rleb_true in E. split; [apply ascending_cons; split; [exact E|exact A]|]. intros; assumption.
  - apply Rleb_false in E. apply ascending_cons in A. destruct A as [A1 A2]. destruct (IH A2) as [B1 B2]. split; [|intros; assumption]. apply ascending_cons. split; [|exact B1]. apply B2; [lra|exact A1].
Qed.
Lemma sortR_asc : forall l, ascending (sortR l).
Proof. induction l as [|x l IH]; [exact I|]. cbn [sortR fold_right]. now apply insR_asc. Qed.
Lemma removelast_nth : forall {A} (l : list A) i, (S i < length l)%nat -> nth_error (removelast l) i = nth_error l i.
Proof.
  induction l as [|x l IH]; intros i H; [cbn in H; lia|]. destruct l as [|y l]; [cbn in H; lia|]. change (removelast (x :: y :: l)) with (x :: removelast (y :: l)).
  destruct i as [|i]; [reflexivity|]. cbn [nth_error]. apply IH. cbn in *. lia.
Qed.
Lemma removelast_len : forall {A} (l : list A), length (removelast l) = (length l - 1)%nat.
Proof. induction l as [|x l IH]; [reflexivity|]. destruct l as [|y l]; [reflexivity|]. change (removelast (x :: y :: l)) with (x :: removelast (y :: l)). cbn [length] in *. rewrite IH. lia. Qed.
Lemma tl_nth : forall {A} (l : list A) i, nth_error (tl l) i = nth_error l (S i).
Proof. destruct l; [destruct i; reflexivity|reflexivity]. Qed.
Lemma ascending_nth : forall l i x y, ascending l -> nth_error l i = Some x -> nth_error l (S i) = Some y -> x <= y.
Proof.
  induction l as [|z l IH]; intros i x y A X Y; [destruct i; discriminate|]. apply ascending_cons in A. destruct A as [A1 A2]. destruct i as [|i].
  - cbn in X. injection X as ->. cbn in Y. destruct l; [discriminate|]. cbn in Y. injection Y as ->. exact A1.
  - cbn in X. apply (IH i); auto.
Qed.
Lemma ebounds_spec : forall conv edges ch lo hi, ebounds_from_edges conv edges = (ch, lo, hi) ->
  ch = seq 0 (length edges - 1) /\ length lo = (length edges - 1)%nat /\ length hi = (length edges - 1)%nat /\
  (forall i a b, nth_error lo i = Some a -> nth_error hi i = Some b -> a <= b) /\
  (forall i, (S i < length lo)%nat -> nth_error hi i = nth_error lo (S i)) /\
  ((2 <= length edges)%nat -> forall x, In x lo \/ In x hi <-> In x (map conv edges)).
Proof.
  intros conv edges ch lo hi H. unfold ebounds_from_edges in H. injection H as <- <- <-. set (s := sortR (map conv edges)).
  assert (P : Permutation s (map conv edges)) by apply sortR_perm. assert (LS : length s = length edges) by (rewrite (Permutation_length P); apply map_length).
  assert (LT : length (tl s) = (length s - 1)%nat) by (destruct s; cbn; lia).
  split; [reflexivity|]. split; [rewrite removelast_len; lia|]. split; [rewrite LT; lia|]. split; [|split].
  - intros i a b A B. assert (LI : (i < length (tl s))%nat) by (apply nth_error_Some; congruence). rewrite removelast_nth in A by lia. rewrite tl_nth in B. apply (ascending_nth s i); auto. apply sortR_asc.
  - intros i L. rewrite removelast_len in L. rewrite tl_nth, removelast_nth by lia. reflexivity.
  - intros L x. assert (Q : In x s <-> In x (map conv edges)) by (split; apply Permutation_in; [exact P|now apply Permutation_sym]). rewrite <- Q. clear P Q. clearbody s.
    split.
    + intros [I|I].
      * destruct s as [|a s]; [cbn in LS; lia|]. rewrite (app_removelast_last 0) by discriminate. apply in_or_app. now left.
      * destruct s; [destruct I|]. now right.
    + destruct s as [|a [|b s]]; cbn in LS; try lia. intros [<-|I]; [left; now left|]. right. exact I.
Qed.

(** ** row lookup *)
Lemma find_row_ok : forall conv e m r, find_row conv e m = Ok r -> exists j, nth_error m j = Some r /\ conv (r_lo r) <= e < conv (r_hi r) /\
  forall i q, (i < j)%nat -> nth_error m i = Some q -> ~ (conv (r_lo q) <= e < conv (r_hi q)).
Proof.
  induction m as [|q m IH]; intros r H; [discriminate|]. cbn in H. destruct (Rleb (conv (r_lo q)) e && Rltb e (conv (r_hi q)))%bool eqn:E.
  - injection H as <-. apply andb_true_iff in E. destruct E as [E1 E2]. apply Rleb_true in E1. apply Rltb_true in E2. exists 0%nat. split; [reflexivity|]. split; [lra|]. intros; lia.
  - destruct (IH r H) as (j & J & B & C). exists (S j). split; [exact J|]. split; [exact B|]. intros [|i] s L N; cbn in N.
    + injection N as <-. intros [B1 B2]. apply andb_false_iff in E. destruct E as [E|E]; [apply Rleb_false in E|apply Rltb_false in E]; lra.
    + apply (C i); [lia|exact N].
Qed.
Lemma find_row_err : forall conv e m x, find_row conv e m = Err x -> x = IndexError /\ forall r, In r m -> ~ (conv (r_lo r) <= e < conv (r_hi r)).
Proof.
  induction m as [|q m IH]; intros x H; cbn in H; [injection H as <-; split; [reflexivity|intros r []]|].
  destruct (Rleb (conv (r_lo q)) e && Rltb e (conv (r_hi q)))%bool eqn:E; [discriminate|]. destruct (IH x H) as [-> C]. split; [reflexivity|]. intros r [<-|I]; [|now apply C].
  intros [B1 B2]. apply andb_false_iff in E. destruct E as [E|E]; [apply Rleb_false in E|apply Rltb_false in E]; lra.
Qed.
Lemma find_row_none : forall conv e m, (forall r, In r m -> ~ (conv (r_lo r) <= e < conv (r_hi r))) -> find_row conv e m = Err IndexError.
Proof.
  induction m as [|q m IH]; intros H; [reflexivity|]. cbn. destruct (Rleb (conv (r_lo q)) e && Rltb e (conv (r_hi q)))%bool eqn:E; [|apply IH; intros; apply H; now right].
  exfalso. apply andb_true_iff in E. destruct E as [E1 E2]. apply Rleb_true in E1. apply Rltb_true in E2. apply (H q); [now left|lra].
Qed.

(** ** ColOrKeyTable *)
Section CK.
Context {V : Type}.
Variable eqb : V -> V -> bool.
Implicit Types t : @cktable V.
Lemma ck_set_other : forall t t' k k' v, ck_set eqb t k' v = Ok t' -> k <> k' -> dget k (ck_meta t') = dget k (ck_meta t) /\ dget k (ck_cols t') = dget k (ck_cols t).
Proof.
  intros t t' k k' v H N. destruct v as [v|[|x l]]; cbn [ck_set] in H; [|discriminate|destruct (all_first eqb (x :: l))]; injection H as <-; cbn [ck_meta ck_cols];
  rewrite ?dget_dset_neq, ?dget_ddel_neq by congruence; auto.
Qed.
Lemma ck_set_const : forall t t' k v, ck_set eqb t k v = Ok t' -> constant eqb v = true -> exists w, dget k (ck_meta t') = Some w /\ represents eqb w v.
Proof.
  intros t t' k v H C. destruct v as [v|[|x l]]; cbn [ck_set] in H; [|discriminate|].
  - injection H as <-. cbn. rewrite dget_dset_eq. eexists. split; [reflexivity|]. now left.
  - cbn in C. cbn in H. rewrite C in H. injection H as <-. cbn. rewrite dget_dset_eq. eexists. split; [reflexivity|]. right. exists x, l. auto.
Qed.
Lemma ck_set_var : forall t t' k v, ck_set eqb t k v = Ok t' -> constant eqb v = false -> dget k (ck_meta t') = dget k (ck_meta t) /\ exists l, v = Array l /\ dget k (ck_cols t') = Some l.
Proof.
  intros t t' k v H C. destruct v as [v|[|x l]]; cbn [ck_set] in H; [discriminate|discriminate|]. cbn in C, H. rewrite C in H. injection H as <-. cbn. split; [reflexivity|].
  exists (x :: l). split; [reflexivity|]. apply dget_dset_eq.
Qed.
Lemma ck_last_const : forall k ops t t' vo, ck_run eqb t ops = Ok t' ->
  (forall v, vo = Some v -> constant eqb v = true -> exists w, dget k (ck_meta t) = Some w /\ represents eqb w v) ->
  forall v, last_assigned k ops vo = Some v -> constant eqb v = true -> ck_get t' k = Ok (match dget k (ck_meta t') with Some w => w | None => v end) /\ exists w, dget k (ck_meta t') = Some w /\ represents eqb w v.
Proof.
  intros k. induction ops as [|[k' v'] ops IH]; intros t t' vo H INV v L C; cbn in H, L.
  - injection H as <-. destruct (INV v L C) as (w & W & R). split; [unfold ck_get; now rewrite W|]. eauto.
  - destruct (ck_set eqb t k' v') as [t1|] eqn:E; [|discriminate]. cbn in H. eapply IH; [exact H| |exact L|exact C].
    intros u U CU. destruct (String.eqb_spec k k') as [->|N].
    + injection U as ->. eapply ck_set_const; eauto.
    + destruct (ck_set_other _ _ k _ _ E N) as [-> _]. now apply INV.
Qed.
Lemma ck_last_var : forall k ops t t' vo, ck_run eqb t ops = Ok t' -> (forall v, In (k, v) ops -> constant eqb v = false) ->
  dget k (ck_meta t) = None -> (forall v, vo = Some v -> exists l, v = Array l /\ dget k (ck_cols t) = Some l) ->
  forall v, last_assigned k ops vo = Some v -> ck_get t' k = Ok v.
Proof.
  intros k. induction ops as [|[k' v'] ops IH]; intros t t' vo H NC M INV v L; cbn in H, L.
  - injection H as <-. destruct (INV v L) as (l & -> & G). unfold ck_get. now rewrite M, G.
  - destruct (ck_set eqb t k' v') as [t1|] eqn:E; [|discriminate]. cbn in H. destruct (String.eqb_spec k k') as [->|N].
    + destruct (ck_set_var _ _ _ _ E) as [M1 (l & -> & G)]; [apply NC; now left|]. eapply IH; [exact H|intros; apply NC; now right|congruence| |exact L].
      intros u U. injection U as <-. eauto.
    + destruct (ck_set_other _ _ k _ _ E N) as [M1 G1]. eapply IH; [exact H|intros; apply NC; now right|congruence| |exact L]. intros u U. rewrite G1. now apply INV.
Qed.
(** a keyword hides a column that is assigned later *)
Lemma ck_stale : forall t t' k v w, dget k (ck_meta t) = Some w -> constant eqb v = false -> ck_set eqb t k v = Ok t' -> ck_get t' k = Ok w.
Proof. intros t t' k v w M C H. destruct (ck_set_var _ _ _ _ H C) as [M1 _]. unfold ck_get. now rewrite M1, M. Qed.
End CK.
