(** Lemmas on elements that are written for one photon at a time *)
From Verif Require Import Base_Proofs Photons_Proofs Photons_Proofs2 Photons_Proofs3 Photons_Proofs4.
From Verif Require Export PerPhoton_Model.
Open Scope nat_scope.

Lemma single_from n : forall k i, nth_error (map (Nat.eqb (k + i)) (List.seq k n)) i = if i <? n then Some true else None.
Proof.
  intros k i. destruct (Nat.ltb_spec i n) as [H|H].
  - rewrite (map_nth_error (Nat.eqb (k + i)) i (List.seq k n) (d := k + i)); [now rewrite Nat.eqb_refl|]. rewrite (nth_error_nth' _ 0) by (now rewrite seq_length). f_equal. now apply seq_nth.
  - apply nth_error_None. rewrite map_length, seq_length. exact H.
Qed.
Lemma single_hit n i : i < n -> nth_error (single n i) i = Some true.
Proof. intros H. unfold single. pose proof (single_from n 0 i) as E. cbn [plus] in E. rewrite E. now apply Nat.ltb_lt in H as ->. Qed.
Lemma single_length n i : length (single n i) = n.
Proof. unfold single. now rewrite map_length, seq_length. Qed.
Lemma count_single_from n : forall k i, count (map (Nat.eqb i) (List.seq k n)) = if (k <=? i) && (i <? k + n) then 1 else 0.
Proof.
  induction n as [|n IH]; intros k i.
  - destruct (Nat.leb_spec k i), (Nat.ltb_spec i (k + 0)); cbn [andb]; try reflexivity; lia.
  - cbn [List.seq map]. unfold count in *. cbn [filter]. specialize (IH (S k) i). destruct (Nat.eqb_spec i k) as [->|N].
    + cbn [length]. rewrite IH. destruct (Nat.leb_spec (S k) k); [lia|]. cbn [andb]. destruct (Nat.leb_spec k k), (Nat.ltb_spec k (k + S n)); cbn; try reflexivity; lia.
    + rewrite IH. destruct (Nat.leb_spec (S k) i), (Nat.leb_spec k i), (Nat.ltb_spec i (S k + n)), (Nat.ltb_spec i (k + S n)); cbn; try reflexivity; lia.
Qed.
Lemma count_single n i : i < n -> count (single n i) = 1.
Proof. intros H. unfold single. rewrite count_single_from. cbn [plus]. cbn [Nat.leb andb]. now apply Nat.ltb_lt in H as ->. Qed.
Lemma rank_single n i : i < n -> rank (single n i) i = 0.
Proof. intros H. pose proof (rank_lt (single n i) i (single_hit n i H)) as R. rewrite count_single in R by exact H. lia. Qed.
Lemma getcell_in t c i : wf t -> In c (colnames t) -> i < nrows t -> exists x, getcell t c i = Some x.
Proof.
  intros [_ W] I H. destruct (In_getcol t c I) as [l G]. unfold getcell. rewrite G. specialize (W c l G). destruct (nth_error l i) eqn:E; [eauto|]. apply nth_error_None in E. lia.
Qed.
Definition one_ok (t : table) (i : nat) (c : string) (v : cell) : Prop := c = "probability" -> exists q pr, v = CNum (Some q) /\ (0 <= q <= 1)%Q /\ probability t i = Some pr.
Lemma assign_one t i c v : wf t -> i < nrows t -> In c (colnames t) -> one_ok t i c v ->
  exists t', assign_col_value (Some c) (single (nrows t) i) (Scalar v) t = (t', None) /\ wf t' /\ nrows t' = nrows t /\ colnames t' = colnames t /\
  (c <> "probability" -> getcell t' c i = Some v) /\ (forall q pr, c = "probability" -> v = CNum (Some q) -> probability t i = Some pr -> probability t' i = Some (pr * q)%Q) /\
  (forall c' j, c' <> c \/ j <> i -> getcell t' c' j = getcell t c' j).
Proof.
  intros W H I K. assert (X : exists t', assign_col_value (Some c) (single (nrows t) i) (Scalar v) t = (t', None)).
  { destruct (In_getcol t c I) as [old G]. unfold assign_col_value. cbn [broadcast]. rewrite count_single by exact H. rewrite G. destruct (String.eqb_spec c "probability") as [->|N]; [|eauto].
    destruct (K eq_refl) as (q & pr & -> & Q & P). cbn [value_bad cell_bad num_bad]. assert (B : (Qltb q 0 || Qltb 1 q)%bool = false).
    { apply orb_false_iff. split; destruct (Qltb _ _) eqn:E; try reflexivity; apply Qltb_true in E; exfalso; destruct Q as [Q1 Q2]; [apply (Qlt_not_le _ _ E Q1)|apply (Qlt_not_le _ _ E Q2)]. }
    rewrite B. apply probability_cell in P. unfold getcell in P. rewrite G in P. destruct W as [_ W]. specialize (W _ _ G). pose proof (select_length (single (nrows t) i) old) as L. rewrite single_length, W in L. specialize (L eq_refl). rewrite count_single in L by exact H.
    pose proof (select_nth (single (nrows t) i) old i) as S. rewrite single_length, W, rank_single, P in S by exact H. specialize (S eq_refl (single_hit _ _ H)). destruct (select (single (nrows t) i) old) as [|a [|b r]]; try discriminate. cbn in S. injection S as ->. cbn. eauto. }
  destruct X as [t' X]. exists t'. split; [exact X|]. pose proof (sw_assign (Some c) (single (nrows t) i) (Scalar v) t W) as W'. rewrite X in W'. cbn [fst] in W'. split; [exact W'|].
  pose proof (assign_nrows (Some c) (single (nrows t) i) (Scalar v) t) as NR. rewrite X in NR. cbn [fst] in NR. split; [exact NR|]. pose proof (assign_colnames (Some c) (single (nrows t) i) (Scalar v) t) as CN. rewrite X in CN. cbn [fst] in CN. split; [exact CN|].
  split; [|split].
  - intros N. destruct (assign_get c _ _ t t' i W (single_length _ _) X (single_hit _ _ H) N) as (vs & B & E). cbn [broadcast] in B. rewrite count_single in B by exact H. injection B as <-. rewrite rank_single in E by exact H. exact E.
  - intros q pr -> -> P. destruct (assign_prob_get _ _ t t' i W (single_length _ _) X (single_hit _ _ H)) as (vs & old & fac & new & B & O & F & C & E). cbn [broadcast] in B. rewrite count_single in B by exact H. injection B as <-. rewrite rank_single in F by exact H. cbn in F. injection F as <-.
    apply probability_cell in P. rewrite P in O. injection O as <-. cbn in C. injection C as <-. apply probability_cell. exact E.
  - intros c' j [N|N]; [apply (assign_other _ _ _ _ _ _ _ X); congruence|]. destruct (in_dec string_dec c' (colnames t)) as [J|J].
    + destruct (sc_assign (single (nrows t) i) [] (Some c) (Scalar v) t) as (_ & _ & Y & _). rewrite X in Y. apply Y; [exact J|]. intros Z. apply nth_single in Z. contradiction.
    + unfold getcell. destruct (getcol t' c') as [l|] eqn:G; [apply getcol_In in G; rewrite CN in G; contradiction|]. destruct (getcol t c') as [l|] eqn:G2; [apply getcol_In in G2; contradiction|reflexivity].
Qed.
Lemma assigns_one l : forall t i, wf t -> i < nrows t -> NoDup (map fst l) -> incl (map fst l) (colnames t) -> (forall c v, In (c, v) l -> one_ok t i c v) ->
  exists t', steps (map (fun cb => assign_col_value (Some (fst cb)) (single (nrows t) i) (Scalar (snd cb))) l) t = (t', None) /\ wf t' /\ nrows t' = nrows t /\ colnames t' = colnames t /\
  (forall c v, In (c, v) l -> c <> "probability" -> getcell t' c i = Some v) /\ (forall q pr, In ("probability", CNum (Some q)) l -> probability t i = Some pr -> probability t' i = Some (pr * q)%Q) /\
  (forall c' j, ~ In c' (map fst l) \/ j <> i -> getcell t' c' j = getcell t c' j).
Proof.
  induction l as [|[c v] l IH]; intros t i W H D I K.
  - exists t. split; [reflexivity|]. split; [exact W|]. repeat split; try reflexivity; intros; contradiction.
  - cbn [map fst snd] in *. inversion D as [|? ? D1 D2]. subst. destruct (assign_one t i c v W H (I c (or_introl eq_refl)) (K c v (or_introl eq_refl))) as (t1 & E1 & W1 & N1 & C1 & V1 & P1 & O1).
    destruct (IH t1 i W1) as (t' & E' & W' & N' & C' & V' & P' & O').
    { now rewrite N1. }
    { exact D2. }
    { rewrite C1. intros x X. apply I. now right. }
    { intros c' v' J ->. destruct (K "probability" v' (or_intror J) eq_refl) as (q & pr & Q & B & P). exists q, pr. split; [exact Q|]. split; [exact B|]. unfold probability in *. rewrite O1; [exact P|]. left. intros <-. apply D1. apply (in_map fst) in J. exact J. }
    exists t'. unfold steps in *. cbn [fold_right]. unfold andthen. rewrite E1. rewrite N1 in E'. split; [exact E'|]. split; [exact W'|]. split; [congruence|]. split; [congruence|]. split; [|split].
    + intros c' v' [J|J] N; [|now apply V']. injection J as -> ->. rewrite O' by (now left). now apply V1.
    + intros q pr [J|J] P.
      * injection J as -> ->. assert (X := P1 q pr eq_refl eq_refl P). unfold probability in X |- *. rewrite O' by (now left). exact X.
      * apply P'; [exact J|]. unfold probability. rewrite O1; [exact P|]. left. intros <-. apply D1. apply (in_map fst) in J. exact J.
    + intros c' j X. rewrite O', O1; [reflexivity| |]; destruct X as [X|X]; try (now right); left; intros Y; apply X; cbn; auto.
Qed.
(** ** one photon *)
Lemma map_fst_combine {A B} (l : list A) : forall (r : list B), length l = length r -> map fst (combine l r) = l.
Proof. induction l as [|a l IH]; intros [|b r] H; try discriminate; [reflexivity|]. cbn. f_equal. apply IH. now injection H. Qed.
Lemma nth_combine {A B} (l : list A) : forall (r : list B) k a b, nth_error l k = Some a -> nth_error r k = Some b -> In (a, b) (combine l r).
Proof. induction l as [|x l IH]; intros [|y r] [|k] a b H H'; try discriminate; cbn in *; [left; congruence|right; eapply IH; eassumption]. Qed.
Lemma combine_nth_in {A B} (l : list A) : forall (r : list B) a b, In (a, b) (combine l r) -> exists k, nth_error l k = Some a /\ nth_error r k = Some b.
Proof. induction l as [|x l IH]; intros [|y r] a b H; cbn in H; try contradiction. destruct H as [H|H]; [injection H as -> ->; exists 0; auto|]. destruct (IH r a b H) as [k K]. exists (S k). exact K. Qed.
Lemma photon_step e f t0 t i outs q pr : wf t -> nrows t = nrows t0 -> i < nrows t -> NoDup (five ++ output_columns e) -> incl (five ++ output_columns e) (colnames t) -> photon_ok e f t0 i outs q pr -> probability t i = Some pr ->
  exists t', per_photon_step e f t0 i t = (t', None) /\ wf t' /\ nrows t' = nrows t /\ colnames t' = colnames t /\
  (forall k c, nth_error (five ++ output_columns e) k = Some c -> c <> "probability" -> getcell t' c i = nth_error outs k) /\ probability t' i = Some (pr * q)%Q /\
  (forall c' j, j <> i -> getcell t' c' j = getcell t c' j).
Proof.
  intros W NR H D I (d & p & en & po & Hd & Hp & He & Ho & F & L & Q & B & P0) P. unfold per_photon_step. rewrite Hd, Hp, He, Ho, F. fold five.
  assert (LL : length (five ++ output_columns e) = length outs) by (rewrite app_length; cbn [five length]; lia). assert (MF := map_fst_combine (five ++ output_columns e) outs LL).
  assert (PK : forall k, nth_error (five ++ output_columns e) k = Some "probability" -> k = 4).
  { intros k K. apply (proj1 (NoDup_nth_error _) D); [apply nth_error_Some; congruence|]. rewrite K. reflexivity. }
  destruct (assigns_one (combine (five ++ output_columns e) outs) t i W H) as (t' & E & W' & N' & C' & V & PP & O).
  - now rewrite MF.
  - now rewrite MF.
  - intros c v J ->. apply combine_nth_in in J. destruct J as (k & K1 & K2). rewrite (PK k K1) in K2. exists q, pr. split; [congruence|]. auto.
  - exists t'. rewrite <- NR. split; [exact E|]. split; [exact W'|]. split; [exact N'|]. split; [exact C'|]. split; [|split].
    + intros k c K N. destruct (nth_error outs k) as [v|] eqn:KV; [|exfalso; apply nth_error_None in KV; assert (k < length (five ++ output_columns e)) by (apply nth_error_Some; congruence); lia]. apply V; [eapply nth_combine; eassumption|exact N].
    + apply PP; [|exact P]. apply (nth_combine _ _ 4); [reflexivity|exact Q].
    + intros c' j N. apply O. now right.
Qed.
(** the loop over photons *)
Lemma photon_loop e f t0 l : forall t, wf t -> nrows t = nrows t0 -> colnames t = colnames t0 -> NoDup l -> NoDup (five ++ output_columns e) -> incl (five ++ output_columns e) (colnames t0) ->
  (forall i, In i l -> i < nrows t0 /\ (exists outs q pr, photon_ok e f t0 i outs q pr) /\ probability t i = probability t0 i) ->
  exists t', steps (map (per_photon_step e f t0) l) t = (t', None) /\ wf t' /\ nrows t' = nrows t0 /\ colnames t' = colnames t0 /\
  (forall i outs q pr, In i l -> photon_ok e f t0 i outs q pr -> probability t' i = Some (pr * q)%Q /\ forall k c, nth_error (five ++ output_columns e) k = Some c -> c <> "probability" -> getcell t' c i = nth_error outs k) /\
  (forall c j, ~ In j l -> getcell t' c j = getcell t c j).
Proof.
  induction l as [|i l IH]; intros t W NR CN DL D I K.
  - exists t. split; [reflexivity|]. repeat split; try assumption; try apply W; intros; contradiction.
  - inversion DL as [|? ? D1 D2]. subst. destruct (K i (or_introl eq_refl)) as (H & (outs & q & pr & OK) & P). assert (P0 : probability t i = Some pr) by (rewrite P; destruct OK as (? & ? & ? & ? & ? & ? & ? & ? & ? & ? & ? & ? & Z); exact Z).
    destruct (photon_step e f t0 t i outs q pr W NR) as (t1 & E1 & W1 & N1 & C1 & V1 & P1 & O1); [now rewrite NR|exact D|now rewrite CN|exact OK|exact P0|].
    destruct (IH t1 W1) as (t' & E' & W' & N' & C' & V' & O'); [congruence|congruence|exact D2|exact D|exact I| |].
    { intros j J. destruct (K j (or_intror J)) as (A & B & C). split; [exact A|]. split; [exact B|]. unfold probability in *. rewrite O1; [exact C|]. intros ->. contradiction. }
    exists t'. unfold steps in *. cbn [map fold_right]. unfold andthen. rewrite E1. split; [exact E'|]. split; [exact W'|]. split; [exact N'|]. split; [exact C'|]. split.
    + intros j outs' q' pr' [<-|J] OK'; [|now apply V'].
      assert (SAME : outs' = outs /\ q' = q /\ pr' = pr). { destruct OK as (d & p & en & po & A1 & A2 & A3 & A4 & A5 & _ & A6 & _ & A7), OK' as (d' & p' & en' & po' & B1 & B2 & B3 & B4 & B5 & _ & B6 & _ & B7). rewrite A1 in B1. rewrite A2 in B2. rewrite A3 in B3. rewrite A4 in B4. injection B1 as <-. injection B2 as <-. injection B3 as <-. injection B4 as <-. rewrite A5 in B5. injection B5 as <-. rewrite A6 in B6. rewrite A7 in B7. repeat split; congruence. }
      destruct SAME as (-> & -> & ->). split; [unfold probability in *; rewrite O' by exact D1; exact P1|]. intros k c KC N. rewrite O' by exact D1. now apply (V1 k).
    + intros c j J. rewrite O' by (intros X; apply J; now right). apply O1. intros ->. apply J. now left.
Qed.
Lemma nonzero_NoDup m : forall k, NoDup (nonzero_from k m).
Proof.
  induction m as [|b m IH]; intros k; cbn; [constructor|]. destruct b; [|apply IH]. constructor; [|apply IH]. intros X. apply nonzero_from_spec in X. lia.
Qed.
Theorem present e f m ipos icoos t : meth e = PerPhoton f -> loc_coos_name e = None -> id_col e = None -> wf t -> length m = nrows t -> length ipos = nrows t -> length icoos = nrows t ->
  NoDup (five ++ output_columns e) -> incl (five ++ output_columns e) (colnames t) -> (forall i, nth_error m i = Some true -> exists outs q pr, photon_ok e f t i outs q pr) ->
  exists t', process_photons e m ipos icoos t = (t', None) /\ colnames t' = colnames t /\ forall i outs q pr, nth_error m i = Some true -> photon_ok e f t i outs q pr ->
  probability t' i = Some (pr * q)%Q /\ getcell t' "pos" i = nth_error ipos i /\ forall k c, nth_error (five ++ output_columns e) k = Some c -> c <> "probability" -> c <> "pos" -> getcell t' c i = nth_error outs k.
Proof.
  intros EM EL EI W LM LP LI D I K. unfold process_photons. rewrite LM, LP, LI, Nat.eqb_refl. cbn [andb negb]. destruct (existsb (fun b => b) m) eqn:EX; cbn [negb].
  - destruct (photon_loop e f t (nonzero m) t W eq_refl eq_refl (nonzero_NoDup m 0) D I) as (t1 & E1 & W1 & N1 & C1 & V1 & _).
    { intros i J. apply nonzero_spec in J. split; [rewrite <- LM; apply nth_error_Some; congruence|]. split; [now apply K|reflexivity]. }
    assert (IP : In "pos" (colnames t1)) by (rewrite C1; apply I; cbn; auto). destruct (In_getcol t1 "pos" IP) as [old G]. unfold steps at 1. cbn [fold_right]. rewrite EL, EI. unfold andthen at 1. unfold process_values. rewrite EM, E1.
    unfold andthen, ret, write_col. rewrite G. eexists. split; [reflexivity|]. split; [rewrite colnames_setcol by exact IP; exact C1|]. intros i outs q pr H OK. assert (J : In i (nonzero m)) by exact (nonzero_from_complete m 0 i H). destruct (V1 i outs q pr J OK) as [P V].
    split; [unfold probability in *; rewrite getcell_setcol_neq by discriminate; exact P|]. destruct W1 as [_ W1]. specialize (W1 _ _ G). split.
    + rewrite getcell_setcol_eq, mask_write_hit; [|congruence|rewrite select_length; congruence|exact H]. apply select_nth; congruence.
    + intros k c KC N1' N2'. rewrite getcell_setcol_neq by exact N2'. now apply (V k).
  - exists t. split; [reflexivity|]. split; [reflexivity|]. intros i outs q pr H. exfalso. assert (X : existsb (fun b => b) m = true) by (apply existsb_exists; exists true; split; [eapply nth_error_In; exact H|reflexivity]). congruence.
Qed.
