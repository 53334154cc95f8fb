(** Lemmas about [Sampling_Model]. *)
From Coq Require Import Permutation.
From Verif Require Import Vec_Proofs.
From Verif Require Export Sampling_Model.
Open Scope R_scope.

Lemma Rsum_nonneg l : nonneg l -> 0 <= Rsum l.
Proof.
  induction l as [|x l IH]; intros H; cbn; [lra|]. assert (0 <= x) by (apply H; now left).
  assert (0 <= Rsum l) by (apply IH; intros v V; apply H; now right). unfold Rsum in *. lra.
Qed.
Lemma Rsum_perm l l' : Permutation l l' -> Rsum l = Rsum l'.
Proof. induction 1; cbn in *; unfold Rsum in *; lra. Qed.
Lemma nonneg_cons x l : nonneg (x :: l) <-> 0 <= x /\ nonneg l.
Proof.
  split.
  - intros H. split; [apply H; now left|]. intros v V. apply H. now right.
  - intros [H H'] v [->|V]; auto.
Qed.
Lemma psum_0 l : psum l 0 = 0. Proof. reflexivity. Qed.
Lemma psum_S l j : (j < length l)%nat -> psum l (S j) = psum l j + nth j l 0.
Proof.
  unfold psum. revert j. induction l as [|x l IH]; intros j H; [cbn in H; lia|]. destruct j as [|j].
  - cbn. lra.
  - cbn [firstn nth]. cbn [Rsum fold_right]. change (fold_right Rplus 0) with Rsum in *. cbn [length] in H.
    specialize (IH j ltac:(lia)). cbn [firstn] in IH. cbn [Rsum fold_right] in *. change (fold_right Rplus 0) with Rsum in *. lra.
Qed.
Lemma psum_all l : psum l (length l) = Rsum l.
Proof. unfold psum. now rewrite firstn_all. Qed.
Lemma nonneg_nth l j : nonneg l -> 0 <= nth j l 0.
Proof.
  intros H. destruct (Nat.lt_ge_cases j (length l)) as [L|L]; [|rewrite nth_overflow by exact L; lra]. apply H. now apply nth_In.
Qed.
Lemma psum_le_S l j : nonneg l -> psum l j <= psum l (S j).
Proof.
  intros H. destruct (Nat.lt_ge_cases j (length l)) as [L|L].
  - rewrite psum_S by exact L. pose proof (nonneg_nth l j H). lra.
  - unfold psum. rewrite !firstn_all2 by lia. lra.
Qed.
Lemma psum_mono l i j : nonneg l -> (i <= j)%nat -> psum l i <= psum l j.
Proof. intros H L. induction L; [lra|]. pose proof (psum_le_S l m H). lra. Qed.

(** the index found by a left / right search in a cumulative sum *)
Lemma ss_left_spec l c : forall acc, nonneg l -> acc < c -> c <= acc + Rsum l ->
  let j := ss_left (cumsum_from acc l) c in (j < length l)%nat /\ acc + psum l j < c <= acc + psum l (S j).
Proof.
  induction l as [|x l IH]; intros acc N A B; cbn [cumsum_from ss_left length].
  - cbn in B. exfalso. lra.
  - apply nonneg_cons in N. destruct N as [X N]. cbn [Rsum fold_right] in B. change (fold_right Rplus 0) with Rsum in B.
    destruct (Rleb c (acc + x)) eqn:L.
    + apply Rleb_true in L. split; [lia|]. cbn. lra.
    + apply Rleb_false in L. specialize (IH (acc + x) N L ltac:(lra)). cbn zeta in IH. destruct IH as [I1 I2]. split; [lia|].
      unfold psum in *. cbn [firstn Rsum fold_right] in *. change (fold_right Rplus 0) with Rsum in *. lra.
Qed.
Lemma ss_right_spec l c : forall acc, nonneg l -> acc <= c -> c < acc + Rsum l ->
  let j := ss_right (cumsum_from acc l) c in (j < length l)%nat /\ acc + psum l j <= c < acc + psum l (S j).
Proof.
  induction l as [|x l IH]; intros acc N A B; cbn [cumsum_from ss_right length].
  - cbn in B. exfalso. lra.
  - apply nonneg_cons in N. destruct N as [X N]. cbn [Rsum fold_right] in B. change (fold_right Rplus 0) with Rsum in B.
    destruct (Rltb c (acc + x)) eqn:L.
    + apply Rltb_true in L. split; [lia|]. cbn. lra.
    + apply Rltb_false in L. specialize (IH (acc + x) N L ltac:(lra)). cbn zeta in IH. destruct IH as [I1 I2]. split; [lia|].
      unfold psum in *. cbn [firstn Rsum fold_right] in *. change (fold_right Rplus 0) with Rsum in *. lra.
Qed.
Lemma ss_left_iff l c j : nonneg l -> 0 < c <= Rsum l -> (ss_left (cumsum l) c = j <-> (j < length l)%nat /\ psum l j < c <= psum l (S j)).
Proof.
  intros N [A B]. pose proof (ss_left_spec l c 0 N A ltac:(lra)) as [H1 H2]. fold (cumsum l) in *.
  set (i := ss_left (cumsum l) c) in *. split.
  - intros <-. split; [exact H1|lra].
  - intros [L P]. destruct (Nat.lt_trichotomy i j) as [Q|[Q|Q]]; [|exact Q|].
    + pose proof (psum_mono l (S i) j N Q). lra.
    + pose proof (psum_mono l (S j) i N Q). lra.
Qed.
Lemma ss_right_iff l c j : nonneg l -> 0 <= c < Rsum l -> (ss_right (cumsum l) c = j <-> (j < length l)%nat /\ psum l j <= c < psum l (S j)).
Proof.
  intros N [A B]. pose proof (ss_right_spec l c 0 N A ltac:(lra)) as [H1 H2]. fold (cumsum l) in *.
  set (i := ss_right (cumsum l) c) in *. split.
  - intros <-. split; [exact H1|lra].
  - intros [L P]. destruct (Nat.lt_trichotomy i j) as [Q|[Q|Q]]; [|exact Q|].
    + pose proof (psum_mono l (S i) j N Q). lra.
    + pose proof (psum_mono l (S j) i N Q). lra.
Qed.
Lemma ss_right_norm l t u : 0 < t -> ss_right (map (fun x => x / t) l) u = ss_right l (u * t).
Proof.
  intros T. induction l as [|x l IH]; [reflexivity|]. cbn. rewrite IH.
  assert (E : Rltb u (x / t) = Rltb (u * t) x); [|now rewrite E].
  destruct (Rltb u (x / t)) eqn:A, (Rltb (u * t) x) eqn:B; try reflexivity; exfalso.
  - apply Rltb_true in A. apply Rltb_false in B. apply (Rmult_lt_compat_r t) in A; [|exact T].
    unfold Rdiv in A. rewrite Rmult_assoc, Rinv_l, Rmult_1_r in A; lra.
  - apply Rltb_false in A. apply Rltb_true in B. apply (Rmult_le_compat_r t) in A; [|lra].
    unfold Rdiv in A. rewrite Rmult_assoc, Rinv_l, Rmult_1_r in A; lra.
Qed.
(** the draws that lead to entry [j] of a list of weights *)
Lemma normalized_iff l u j : nonneg l -> 0 < Rsum l -> 0 <= u < 1 ->
  (ss_right (map (fun x => x / Rsum l) (cumsum l)) u = j <->
   (j < length l)%nat /\ psum l j / Rsum l <= u < psum l j / Rsum l + nth j l 0 / Rsum l).
Proof.
  intros N P U. rewrite ss_right_norm by exact P. rewrite ss_right_iff by (auto; split; nra).
  assert (I : 0 < / Rsum l) by (now apply Rinv_0_lt_compat).
  assert (G : forall a, a / Rsum l <= u <-> a <= u * Rsum l).
  { intros a. split; intros H.
    - apply (Rmult_le_compat_r (Rsum l)) in H; [|lra]. unfold Rdiv in H. rewrite Rmult_assoc, Rinv_l, Rmult_1_r in H; lra.
    - apply (Rmult_le_compat_r (/ Rsum l)) in H; [|lra]. rewrite Rmult_assoc, Rinv_r, Rmult_1_r in H; lra. }
  split; intros [L H].
  - rewrite psum_S in H by exact L. split; [exact L|]. split; [apply G; lra|].
    destruct (Rlt_le_dec u (psum l j / Rsum l + nth j l 0 / Rsum l)) as [Q|Q]; [exact Q|].
    replace (psum l j / Rsum l + nth j l 0 / Rsum l) with ((psum l j + nth j l 0) / Rsum l) in Q by (field; lra). apply G in Q. lra.
  - split; [exact L|]. rewrite psum_S by exact L. split; [apply G; lra|].
    destruct (Rlt_le_dec (u * Rsum l) (psum l j + nth j l 0)) as [Q|Q]; [exact Q|]. apply G in Q.
    replace ((psum l j + nth j l 0) / Rsum l) with (psum l j / Rsum l + nth j l 0 / Rsum l) in Q by (field; lra). lra.
Qed.

Lemma nth_map_lt {A B} (f : A -> B) l i d e : (i < length l)%nat -> nth i (map f l) e = f (nth i l d).
Proof. intros H. rewrite (nth_indep _ e (f d)) by (now rewrite map_length). apply map_nth. Qed.
(** ** RandomArbitraryPdf *)
Lemma forallb_nonneg l : forallb (fun v => Rleb 0 v) l = true <-> nonneg l.
Proof. rewrite forallb_forall. unfold nonneg. split; intros H v V; specialize (H v V); now apply Rleb_true. Qed.
Lemma diff_length l : length (diff l) = pred (length l).
Proof. induction l as [|x [|y l] IH]; [reflexivity|reflexivity|]. cbn [diff length pred] in *. now rewrite IH. Qed.
Lemma diff_nth l i : (S i < length l)%nat -> nth i (diff l) 0 = nth (S i) l 0 - nth i l 0.
Proof.
  revert i. induction l as [|x [|y l] IH]; intros i H; [cbn in H; lia|cbn in H; lia|]. destruct i as [|i]; [reflexivity|].
  transitivity (nth i (diff (y :: l)) 0); [reflexivity|]. rewrite IH by (cbn in *; lia). reflexivity.
Qed.
Lemma increasing_diff l : nonneg (diff l) <-> increasing l.
Proof.
  unfold increasing. split.
  - intros H i L. pose proof (nonneg_nth (diff l) i H) as D. rewrite diff_nth in D by exact L. lra.
  - intros H v V. destruct (In_nth _ _ 0 V) as (i & L & <-). rewrite diff_length in L. rewrite diff_nth by lia. specialize (H i ltac:(lia)). lra.
Qed.
Lemma hist_init_ok x pdf : x <> [] ->
  ((exists h, hist_init x pdf = Ok h) <-> length x = length pdf /\ nonneg pdf /\ increasing x) /\
  (forall e, hist_init x pdf = Err e -> e = ValueError).
Proof.
  intros NE. unfold hist_init. destruct (Nat.eqb (length x) (length pdf)) eqn:E; cbn [negb].
  2:{ apply Nat.eqb_neq in E. split; [|congruence]. split; [intros [h ?]; discriminate|tauto]. }
  apply Nat.eqb_eq in E. destruct (forallb _ pdf) eqn:P; cbn [negb].
  2:{ split; [|congruence]. split; [intros [h ?]; discriminate|]. intros (_ & N & _). apply forallb_nonneg in N. congruence. }
  apply forallb_nonneg in P. destruct x as [|a x]; [contradiction|].
  destruct (forallb _ (0 :: diff (a :: x))) eqn:W; cbn [negb].
  - apply forallb_nonneg in W. apply nonneg_cons in W. destruct W as [_ W]. apply increasing_diff in W. split; [|congruence]. split; eauto.
  - split; [|congruence]. split; [intros [h ?]; discriminate|]. intros (_ & _ & I). apply increasing_diff in I.
    assert (nonneg (0 :: diff (a :: x))) by (apply nonneg_cons; split; [lra|exact I]). apply forallb_nonneg in H. congruence.
Qed.
Lemma hist_init_inv x pdf h : hist_init x pdf = Ok h -> x <> [] ->
  h_x h = x /\ length (h_mass h) = length x /\ length (h_width h) = length x /\ nonneg (h_mass h) /\
  nth 0 (h_mass h) 0 = 0 /\ (forall i, (S i < length x)%nat -> nth (S i) (h_mass h) 0 = nth (S i) pdf 0 * (nth (S i) x 0 - nth i x 0)) /\
  (forall i, (S i < length x)%nat -> nth (S i) (h_width h) 0 = nth (S i) x 0 - nth i x 0 /\ nth i x 0 <= nth (S i) x 0).
Proof.
  intros H NE. pose proof (proj1 (proj1 (hist_init_ok x pdf NE)) (ex_intro _ h H)) as (L & P & I). unfold hist_init in H.
  destruct (negb _); [discriminate|]. destruct (negb _); [discriminate|]. destruct x as [|a x]; [contradiction|].
  destruct (negb _); [discriminate|]. set (xs := a :: x) in *.
  assert (E : h = Hist xs (0 :: diff xs) (map (fun pw => fst pw * snd pw) (combine pdf (0 :: diff xs)))) by congruence. subst h. clear H. cbn [h_x h_mass h_width].
  assert (LW : length (0 :: diff xs) = length xs) by (cbn [length]; rewrite diff_length; reflexivity).
  assert (M : forall i, (i < length xs)%nat -> nth i (map (fun pw => fst pw * snd pw) (combine pdf (0 :: diff xs))) 0 = nth i pdf 0 * nth i (0 :: diff xs) 0).
  { intros i Li. rewrite (nth_map_lt _ _ i (0, 0)) by (rewrite combine_length; lia). rewrite combine_nth by lia. reflexivity. }
  assert (LM : length (map (fun pw => fst pw * snd pw) (combine pdf (0 :: diff xs))) = length xs) by (rewrite map_length, combine_length; lia).
  assert (W : forall i, (S i < length xs)%nat -> nth (S i) (0 :: diff xs) 0 = nth (S i) xs 0 - nth i xs 0) by (intros i Li; change (nth (S i) (0 :: diff xs) 0) with (nth i (diff xs) 0); now apply diff_nth).
  split; [reflexivity|]. split; [exact LM|]. split; [exact LW|]. split.
  { intros v V. destruct (In_nth _ _ 0 V) as (i & Li & <-). rewrite LM in Li. rewrite M by exact Li. apply Rmult_le_pos; [now apply nonneg_nth|].
    destruct i as [|i]; [cbn; lra|]. rewrite W by exact Li. specialize (I i Li). lra. }
  split; [rewrite M by (cbn; lia); cbn [nth]; ring|]. split; intros i Li.
  - rewrite M, W by exact Li. reflexivity.
  - split; [now apply W|now apply I].
Qed.
Lemma map_seq_nth (l : list R) : map (fun i => nth i l 0) (seq 0 (length l)) = l.
Proof.
  apply nth_ext with (d := 0) (d' := 0); [now rewrite map_length, seq_length|]. intros i H. rewrite map_length, seq_length in H.
  rewrite (nth_map_lt _ _ i 0%nat) by (now rewrite seq_length). now rewrite seq_nth by exact H.
Qed.
Section Draw.
Variables (x pdf : list R) (h : histogram) (order : list nat).
Hypothesis Init : hist_init x pdf = Ok h.
Hypothesis NE : x <> [].
Hypothesis Perm : Permutation order (seq 0 (length x)).
Let om := map (fun i => nth i (h_mass h) 0) order.
Lemma om_sum : Rsum om = Rsum (h_mass h).
Proof.
  destruct (hist_init_inv x pdf h Init NE) as (_ & LM & _). unfold om.
  rewrite (Rsum_perm _ _ (Permutation_map _ Perm)), <- LM, map_seq_nth. reflexivity.
Qed.
Lemma om_nonneg : nonneg om.
Proof.
  destruct (hist_init_inv x pdf h Init NE) as (_ & _ & _ & NN & _). intros v V. unfold om in V. apply in_map_iff in V.
  destruct V as (i & <- & _). now apply nonneg_nth.
Qed.
Lemma om_nth j : (j < length order)%nat -> nth j om 0 = nth (nth j order 0%nat) (h_mass h) 0.
Proof.
  intros H. unfold om. now rewrite (nth_map_lt _ _ j 0%nat) by exact H.
Qed.
Lemma order_length : length order = length x.
Proof. rewrite (Permutation_length Perm). apply seq_length. Qed.
Lemma order_nodup : NoDup order.
Proof. apply (Permutation_NoDup (Permutation_sym Perm)). apply seq_NoDup. Qed.
(** the draws that lead to bin [i] are an interval whose length is the mass of the bin *)
Lemma draw_share i : (i < length x)%nat -> exists lo, 0 <= lo /\ lo + nth i (h_mass h) 0 <= Rsum (h_mass h) /\
  forall c, 0 < c <= Rsum (h_mass h) -> (hist_index h order c = Ok i <-> lo < c <= lo + nth i (h_mass h) 0).
Proof.
  intros Li. assert (V : In i order) by (apply (Permutation_in _ (Permutation_sym Perm)); apply in_seq; lia).
  destruct (In_nth _ _ 0%nat V) as (j & Lj & E). exists (psum om j). pose proof om_nonneg as NN.
  assert (LO : length om = length order) by (unfold om; apply map_length).
  assert (S : psum om (S j) = psum om j + nth i (h_mass h) 0) by (rewrite psum_S by lia; rewrite om_nth, E by exact Lj; reflexivity).
  split; [rewrite <- (psum_0 om); apply psum_mono; [exact NN|lia]|]. split.
  { rewrite <- S, <- om_sum, <- (psum_all om). apply psum_mono; [exact NN|lia]. }
  intros c C. rewrite <- om_sum in C. unfold hist_index, hist_cdf. fold om. rewrite <- S.
  pose proof (ss_left_iff om c (ss_left (cumsum om) c) NN C) as [K _]. destruct (K eq_refl) as [K1 K2]. split.
  - intros H. assert (Q : nth_error order (ss_left (cumsum om) c) = Some i) by (destruct (nth_error _ _); congruence).
    assert (Q2 : nth_error order j = Some i) by (rewrite <- E; apply nth_error_nth'; exact Lj).
    assert (J : ss_left (cumsum om) c = j).
    { apply (proj1 (NoDup_nth_error order) order_nodup); [rewrite <- LO; exact K1|congruence]. }
    rewrite J in K2. exact K2.
  - intros H. assert (J : ss_left (cumsum om) c = j) by (apply ss_left_iff; auto; split; [lia|exact H]).
    rewrite J, <- E. now rewrite (nth_error_nth' order 0%nat Lj).
Qed.
(** every positive draw leads to a bin with positive mass, the value is inside of it *)
Lemma draw_bin c v randomize : 0 < c <= Rsum (h_mass h) -> 0 <= v < 1 ->
  exists i val, hist_index h order c = Ok (S i) /\ hist_draw h order randomize c v = Ok val /\ (S i < length x)%nat /\
    0 < nth (S i) pdf 0 /\ nth i x 0 < nth (S i) x 0 /\
    if randomize then nth i x 0 <= val < nth (S i) x 0 /\ val = nth i x 0 + (nth (S i) x 0 - nth i x 0) * v else val = nth (S i) x 0.
Proof.
  intros C V. destruct (hist_init_inv x pdf h Init NE) as (HX & LM & LW & NN & M0 & MS & WS). pose proof om_nonneg as NO.
  assert (LO : length om = length order) by (unfold om; apply map_length). pose proof order_length as OL.
  rewrite <- om_sum in C. pose proof (ss_left_iff om c (ss_left (cumsum om) c) NO C) as [K _]. destruct (K eq_refl) as [K1 K2].
  set (j := ss_left (cumsum om) c) in *. rewrite psum_S in K2 by exact K1. rewrite om_nth in K2 by lia.
  assert (Q : nth_error order j = Some (nth j order 0%nat)) by (apply nth_error_nth'; lia).
  assert (Li : (nth j order 0 < length x)%nat).
  { apply nth_error_In in Q. apply (Permutation_in _ Perm) in Q. apply in_seq in Q. lia. }
  set (i := nth j order 0%nat) in *. unfold hist_draw, hist_index, hist_cdf. fold om. fold j. rewrite Q. cbn [bind].
  destruct i as [|i]; [lra|]. rewrite MS in K2 by exact Li. destruct (WS i Li) as [W I]. exists i, (hist_value h randomize (S i) v).
  split; [reflexivity|]. split; [reflexivity|]. split; [exact Li|].
  assert (P : 0 <= nth (S i) pdf 0).
  { pose proof (proj1 (proj1 (hist_init_ok x pdf NE)) (ex_intro _ h Init)) as (_ & P & _). now apply nonneg_nth. }
  assert (P' : 0 < nth (S i) pdf 0 * (nth (S i) x 0 - nth i x 0)) by lra.
  assert (P1 : nth (S i) pdf 0 <> 0) by (intros Z; rewrite Z in P'; lra).
  assert (P2 : nth (S i) x 0 - nth i x 0 <> 0) by (intros Z; rewrite Z in P'; lra).
  split; [lra|]. split; [lra|]. unfold hist_value, nth_before. rewrite HX, W. destruct randomize; [|reflexivity].
  split; [split; nra|reflexivity].
Qed.
End Draw.

(** ** Orders *)
Lemma uniform_p_sum n : (0 < n)%nat -> Rsum (uniform_p n) = 1.
Proof.
  intros H. assert (E : forall k v, Rsum (repeat v k) = INR k * v).
  { induction k as [|k IH]; intros v; [cbn; ring|]. cbn [repeat Rsum fold_right]. change (fold_right Rplus 0) with Rsum. rewrite IH, S_INR. ring. }
  unfold uniform_p. rewrite E. apply Rinv_r. apply not_0_INR. lia.
Qed.
Lemma orders_init_ok {A} (o : list A) p q : o <> [] -> orders_init o p = Ok q ->
  length q = length o /\ nonneg q /\ Rsum q <= 1 /\ match p with Some p => q = p | None => q = repeat (/ INR (length o)) (length o) end.
Proof.
  intros NE. unfold orders_init. destruct p as [p|].
  - destruct (Nat.eqb _ _) eqn:E; cbn [negb]; [|discriminate]. destruct (Rltb _ _) eqn:S; [discriminate|]. destruct (existsb _ _) eqn:X; [discriminate|].
    intros H. injection H as <-. apply Nat.eqb_eq in E. apply Rltb_false in S. repeat split; auto.
    intros v V. destruct (Rle_lt_dec 0 v) as [L|L]; [exact L|]. exfalso.
    assert (Y : existsb (fun v => Rltb v 0) p = true) by (apply existsb_exists; exists v; split; [exact V|now apply Rltb_true]). congruence.
  - intros H. injection H as <-. unfold uniform_p. assert (L : (0 < length o)%nat) by (destruct o; [contradiction|cbn; lia]).
    split; [apply repeat_length|]. split.
    + intros v V. apply repeat_spec in V. subst v. left. apply Rinv_0_lt_compat. now apply lt_0_INR.
    + split; [|reflexivity]. fold (uniform_p (length o)). rewrite uniform_p_sum by exact L. lra.
Qed.
Lemma orders_init_iff {A} (o : list A) p : (exists q, orders_init o (Some p) = Ok q) <-> length p = length o /\ nonneg p /\ Rsum p <= 1.
Proof.
  split.
  - intros [q H]. unfold orders_init in H. destruct (Nat.eqb _ _) eqn:E; cbn [negb] in H; [|discriminate]. destruct (Rltb _ _) eqn:S; [discriminate|].
    destruct (existsb _ _) eqn:X; [discriminate|]. apply Nat.eqb_eq in E. apply Rltb_false in S. repeat split; auto.
    intros v V. destruct (Rle_lt_dec 0 v) as [L|L]; [exact L|]. exfalso.
    assert (Y : existsb (fun v => Rltb v 0) p = true) by (apply existsb_exists; exists v; split; [exact V|now apply Rltb_true]). congruence.
  - intros (L & N & S). unfold orders_init. rewrite (proj2 (Nat.eqb_eq _ _) L). cbn [negb]. rewrite (proj2 (Rltb_false _ _) S).
    destruct (existsb _ _) eqn:X; [|eauto]. apply existsb_exists in X. destruct X as (v & V & B). apply Rltb_true in B. specialize (N v V). lra.
Qed.
Section Pick.
Context {A : Type}.
Variables (o : list A) (p : list R) (u : R).
Hypothesis L : length o = length p.
Hypothesis NN : nonneg p.
Hypothesis Pos : 0 < Rsum p.
Hypothesis U : 0 <= u < 1.
Lemma pick_index : exists j, ss_right (map (fun x => x / Rsum p) (cumsum p)) u = j /\ (j < length p)%nat /\ 0 < nth j p 0.
Proof.
  exists (ss_right (map (fun x => x / Rsum p) (cumsum p)) u). split; [reflexivity|].
  destruct (proj1 (normalized_iff p u _ NN Pos U) eq_refl) as [J I]. split; [exact J|].
  assert (0 < nth (ss_right (map (fun x => x / Rsum p) (cumsum p)) u) p 0 / Rsum p) by lra.
  apply (Rmult_lt_compat_r (Rsum p)) in H; [|exact Pos]. unfold Rdiv in H. rewrite Rmult_assoc, Rinv_l, Rmult_1_r, Rmult_0_l in H; lra.
Qed.
Lemma np_choice_ok : np_choice o p u = match nth_error o (ss_right (map (fun x => x / Rsum p) (cumsum p)) u) with Some a => Ok a | None => Err IndexError end.
Proof. unfold np_choice. now rewrite (proj2 (Reqb_false _ _)) by lra. Qed.
Lemma interp_ok : interp_call o p u = match nth_error o (ss_right (map (fun x => x / Rsum p) (cumsum p)) u) with Some a => Ok (a, Rsum p) | None => Err IndexError end.
Proof.
  unfold interp_call. rewrite (proj2 (Reqb_false _ _)) by lra. destruct pick_index as (j & -> & J & _).
  now rewrite (proj2 (Nat.ltb_lt _ _) J).
Qed.
End Pick.
(** [argmin] finds the nearest row *)
Lemma argmin_from_spec l : forall i best bv, (best < i)%nat ->
  let k := argmin_from l i best bv in
  (k = best /\ (forall v, In v l -> bv <= v)) \/ ((i <= k < i + length l)%nat /\ nth (k - i) l 0 < bv /\ (forall v, In v l -> nth (k - i) l 0 <= v)).
Proof.
  induction l as [|x l IH]; intros i best bv H; cbn [argmin_from]; [left; split; [reflexivity|intros v []]|].
  destruct (Rltb x bv) eqn:B.
  - apply Rltb_true in B. destruct (IH (S i) i x ltac:(lia)) as [[K M]|(K & V & M)]; cbn zeta in *.
    + right. rewrite K. rewrite Nat.sub_diag. cbn. split; [lia|]. split; [exact B|]. intros v [->|I]; [lra|now apply M].
    + right. set (k := argmin_from l (S i) i x) in *. destruct (k - i)%nat as [|d] eqn:D; [lia|]. replace (k - S i)%nat with d in * by lia.
      cbn [length nth]. split; [lia|]. split; [lra|]. intros v [->|I]; [lra|now apply M].
  - apply Rltb_false in B. destruct (IH (S i) best bv ltac:(lia)) as [[K M]|(K & V & M)]; cbn zeta in *.
    + left. split; [exact K|]. intros v [->|I]; [lra|now apply M].
    + right. set (k := argmin_from l (S i) best bv) in *. destruct (k - i)%nat as [|d] eqn:D; [lia|]. replace (k - S i)%nat with d in * by lia.
      cbn [length nth]. split; [lia|]. split; [lra|]. intros v [->|I]; [lra|now apply M].
Qed.
Lemma argmin_spec l : l <> [] -> (argmin l < length l)%nat /\ forall v, In v l -> nth (argmin l) l 0 <= v.
Proof.
  destruct l as [|x l]; [contradiction|]. intros _. unfold argmin. destruct (argmin_from_spec l 1 0 x ltac:(lia)) as [[K M]|(K & V & M)]; cbn zeta in *.
  - rewrite K. cbn. split; [lia|]. intros v [->|I]; [lra|now apply M].
  - set (k := argmin_from l 1 0 x) in *. destruct k as [|k]; [lia|]. replace (S k - 1)%nat with k in * by lia. cbn [length nth]. split; [lia|].
    intros v [->|I]; [lra|now apply M].
Qed.
Lemma efffile_spec {A} (rows : list (R * list R)) (orders : list A) e u : rows <> [] ->
  (forall r, In r rows -> length (snd r) = length orders /\ nonneg (snd r) /\ 0 < Rsum (snd r)) -> 0 <= u < 1 ->
  exists en p o j, In (en, p) rows /\ (forall r, In r rows -> Rabs (en - e) <= Rabs (fst r - e)) /\
    efffile_call rows orders e u = Ok (o, Rsum p) /\ nth_error orders j = Some o /\ 0 < nth j p 0 /\
    psum p j / Rsum p <= u < psum p j / Rsum p + nth j p 0 / Rsum p.
Proof.
  intros NE H U. unfold efffile_call. set (ds := map (fun r => Rabs (fst r - e)) rows).
  assert (NEd : ds <> []) by (destruct rows; [contradiction|discriminate]). destruct (argmin_spec ds NEd) as [L M].
  assert (LD : length ds = length rows) by (apply map_length). rewrite LD in L.
  destruct (nth (argmin ds) rows (0, [])) as [en p] eqn:E.
  assert (I : In (en, p) rows) by (rewrite <- E; now apply nth_In). destruct (H _ I) as (Lp & NN & Pos). cbn [snd] in *.
  rewrite (proj2 (Reqb_false _ _)) by lra. destruct (pick_index p u NN Pos U) as (j & J & Lj & Pj). rewrite J, (proj2 (Nat.ltb_lt _ _) Lj).
  destruct (nth_error orders j) as [o|] eqn:O; [|apply nth_error_None in O; lia].
  exists en, p, o, j. split; [exact I|]. split.
  { intros r R. assert (D : nth (argmin ds) ds 0 = Rabs (en - e)).
    { unfold ds at 2. rewrite (nth_map_lt _ _ _ (0, [])) by exact L. now rewrite E. }
    rewrite <- D. apply M. unfold ds. apply in_map_iff. now exists r. }
  split; [reflexivity|]. split; [exact O|]. split; [exact Pj|]. now apply (proj1 (normalized_iff p u j NN Pos U)) in J.
Qed.
