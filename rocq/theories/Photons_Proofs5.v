(** Lemmas about [Photons_Model]: values written by the per photon interface. *)
From Verif Require Import Base_Proofs Photons_Model Photons_Proofs Photons_Proofs2 Photons_Proofs3 Photons_Proofs4.
Open Scope nat_scope.

Lemma outside01_bad c : outside01 c <-> cell_bad c = true.
Proof.
  assert (N : forall q : Q, (q < 0 \/ 1 < q)%Q <-> Qltb q 0 || Qltb 1 q = true).
  { intros q. rewrite orb_true_iff, !Qltb_true. reflexivity. }
  destruct c as [[q|]|z|v]; cbn [outside01 cell_bad num_bad].
  - apply N.
  - split; [contradiction|discriminate].
  - rewrite orb_true_iff, !Z.ltb_lt. reflexivity.
  - rewrite existsb_exists. split.
    + intros (q & H1 & H2). exists (Some q). split; [exact H1|]. now apply N.
    + intros ([q|] & H1 & H2); [|discriminate]. exists q. split; [exact H1|]. now apply N.
Qed.

Lemma nth_single_eq n i : i < n -> nth_error (single n i) i = Some true.
Proof.
  intros H. unfold single. rewrite nth_error_map. rewrite (nth_error_nth' _ 0) by (rewrite seq_length; exact H).
  rewrite seq_nth by exact H. cbn. now rewrite Nat.eqb_refl.
Qed.
Lemma single_length n i : length (single n i) = n.
Proof. unfold single. now rewrite map_length, seq_length. Qed.
Lemma sw_per_photon e f t0 i : step_wf (per_photon_step e f t0 i).
Proof.
  unfold per_photon_step.
  destruct (getcell t0 "dir" i) as [d|]; [|apply sw_raise].
  destruct (getcell t0 "pos" i) as [p|]; [|apply sw_raise].
  destruct (getcell t0 "energy" i) as [en|]; [|apply sw_raise].
  destruct (getcell t0 "polarization" i) as [po|]; [|apply sw_raise].
  destruct (f d p en po) as [outs|er]; [|apply sw_raise].
  apply sw_steps. apply Forall_forall. intros g Hg. apply in_map_iff in Hg. destruct Hg as (cb & <- & _). apply sw_assign.
Qed.
Lemma co_other m ids t t' c i : changes_only m ids t t' -> In c (colnames t) -> nth_error m i <> Some true -> getcell t' c i = getcell t c i.
Proof. intros (_ & _ & H & _) A B. now apply H. Qed.

(** the loop over photons: what happens to one of them *)
Lemma photon_loop e f t0 i L : forall t t', wf t -> nrows t = nrows t0 -> NoDup L -> In i L -> (forall j, In j L -> j < nrows t0) ->
  steps (map (per_photon_step e f t0) L) t = (t', None) ->
  exists ta tb, per_photon_step e f t0 i ta = (tb, None) /\ wf ta /\ nrows ta = nrows t0 /\ colnames ta = colnames t /\ colnames t' = colnames t /\ colnames tb = colnames t /\
    (forall c, In c (colnames t) -> getcell ta c i = getcell t c i) /\ (forall c, In c (colnames t) -> getcell t' c i = getcell tb c i).
Proof.
  induction L as [|k L IH]; intros t t' W N ND Hin B H; [contradiction|].
  cbn [map] in H. unfold steps in H. cbn [fold_right] in H. apply andthen_ok in H. destruct H as (t1 & H1 & H2).
  inversion ND as [|? ? Hnot ND']; subst.
  assert (Hk : k < nrows t0) by (apply B; now left).
  pose proof (sc_per_photon (single (nrows t0) k) e f t0 k (nth_single_eq _ _ Hk) t) as C1. rewrite H1 in C1. cbn [fst] in C1.
  pose proof (sw_per_photon e f t0 k t W) as W1. rewrite H1 in W1. cbn [fst] in W1.
  pose proof (per_photon_colnames e f t0 k t) as CN. rewrite H1 in CN. cbn [fst] in CN.
  assert (N1 : nrows t1 = nrows t0) by (destruct C1 as [X _]; congruence).
  destruct Hin as [->|Hin].
  - exists t, t1. split; [exact H1|]. split; [exact W|]. split; [exact N|]. split; [reflexivity|].
    assert (R : forall L' s s', (forall j, In j L' -> j < nrows t0) -> ~ In i L' -> steps (map (per_photon_step e f t0) L') s = (s', None) ->
              colnames s' = colnames s /\ forall c, In c (colnames s) -> getcell s' c i = getcell s c i).
    { induction L' as [|j L' IHL]; intros s s' BB NI HH.
      - cbn in HH. injection HH as <-. split; reflexivity.
      - cbn [map] in HH. unfold steps in HH. cbn [fold_right] in HH. apply andthen_ok in HH. destruct HH as (s1 & G1 & G2).
        destruct (IHL s1 s' (fun j' Hj' => BB j' (or_intror Hj')) (fun X => NI (or_intror X)) G2) as [IA IB].
        pose proof (sc_per_photon (single (nrows t0) j) e f t0 j (nth_single_eq _ _ (BB j (or_introl eq_refl))) s) as CC. rewrite G1 in CC. cbn [fst] in CC.
        pose proof (per_photon_colnames e f t0 j s) as CJ. rewrite G1 in CJ. cbn [fst] in CJ.
        split; [congruence|]. intros c Hc. rewrite IB by congruence. apply (co_other _ _ _ _ _ _ CC Hc).
        intros X. apply nth_single in X. apply NI. left. congruence. }
    destruct (R L t1 t' (fun j Hj => B j (or_intror Hj)) Hnot H2) as [RA RB].
    split; [congruence|]. split; [exact CN|]. split; [reflexivity|]. intros c Hc. apply RB. congruence.
  - destruct (IH t1 t' W1 N1 ND' Hin (fun j Hj => B j (or_intror Hj)) H2) as (ta & tb & A1 & A2 & A3 & A4 & A5 & A6 & A7 & A8).
    exists ta, tb. split; [exact A1|]. split; [exact A2|]. split; [exact A3|]. split; [congruence|]. split; [congruence|]. split; [congruence|].
    split; intros c Hc.
    + rewrite A7 by congruence. apply (co_other _ _ _ _ _ _ C1 Hc). intros X. apply nth_single in X. subst. contradiction.
    + apply A8. congruence.
Qed.

Lemma nonzero_from_NoDup m : forall k, NoDup (nonzero_from k m) /\ forall j, In j (nonzero_from k m) -> k <= j < k + length m.
Proof.
  induction m as [|b m IH]; intros k; [split; [constructor|contradiction]|].
  destruct (IH (S k)) as [A B]. destruct b; cbn [nonzero_from length].
  - split; [constructor; [|exact A]; intros X; apply B in X; lia|]. intros j [<-|Hj]; [lia|]. apply B in Hj. lia.
  - split; [exact A|]. intros j Hj. apply B in Hj. lia.
Qed.

Definition photon_columns (e : element) : list string := ["dir"; "pos"; "energy"; "polarization"; "probability"] ++ output_columns e.

Lemma map_fst_some (l : list (string * cell)) : map fst (map (fun cb => (Some (fst cb), Scalar (snd cb))) l) = map Some (map fst l).
Proof. rewrite !map_map. reflexivity. Qed.
Lemma combine_fst_NoDup {A B} (l : list A) (r : list B) : NoDup l -> NoDup (map fst (combine l r)).
Proof.
  intros H. revert r. induction H as [|x l Hx H IH]; intros [|y r]; try constructor.
  - intros X. apply Hx. apply in_map_iff in X. destruct X as ([a b] & E & X). cbn in E. subst a. now apply in_combine_l in X.
  - apply IH.
Qed.
Lemma NoDup_map_Some {A} (l : list A) : NoDup l -> NoDup (map Some l).
Proof.
  induction 1 as [|x l Hx H IH]; constructor; [|exact IH]. intros X. apply in_map_iff in X. destruct X as (y & E & X). injection E as ->. contradiction.
Qed.
Lemma nth_error_combine {A B} (l : list A) (r : list B) k a b : nth_error l k = Some a -> nth_error r k = Some b -> In (a, b) (combine l r).
Proof.
  revert l r. induction k as [|k IH]; intros [|x l] [|y r] H1 H2; try discriminate; cbn in *; [left; congruence|right; now apply IH].
Qed.
Lemma count_single n i : i < n -> count (single n i) = 1.
Proof.
  intros H. unfold single, count. assert (G : forall s, s <= i < s + n -> length (filter (fun b => b) (map (Nat.eqb i) (seq s n))) = 1).
  { clear H. induction n as [|n IH]; intros s Hs; [lia|]. cbn [seq map filter]. destruct (Nat.eqb i s) eqn:E.
    - apply Nat.eqb_eq in E. subst s. cbn [length]. f_equal. clear. assert (Z : forall k s, i < s -> filter (fun b : bool => b) (map (Nat.eqb i) (seq s k)) = []).
      { induction k as [|k IHk]; intros s Hs; [reflexivity|]. cbn [seq map filter]. rewrite (proj2 (Nat.eqb_neq i s)) by lia. apply IHk. lia. }
      rewrite Z by lia. reflexivity.
    - apply Nat.eqb_neq in E. apply IH. lia. }
  apply G. lia.
Qed.

Lemma per_photon_values e f m ipos icoos t t' i d p en po outs :
  wf t -> meth e = PerPhoton f -> process_photons e m ipos icoos t = (t', None) -> nth_error m i = Some true ->
  getcell t "dir" i = Some d -> getcell t "pos" i = Some p -> getcell t "energy" i = Some en -> getcell t "polarization" i = Some po ->
  f d p en po = Ok outs -> NoDup (photon_columns e) ->
  (forall k c x, nth_error (photon_columns e) k = Some c -> nth_error outs k = Some x -> c <> "probability" -> c <> "pos" -> ~ In c (loc_list e) -> id_col e <> Some c ->
     getcell t' c i = Some x) /\
  (forall x q, nth_error outs 4 = Some x -> probability t i = Some q -> ~ In "probability" (loc_list e) -> id_col e <> Some "probability" ->
     exists y, cmul (CNum (Some q)) x = Some y /\ getcell t' "probability" i = Some y).
Proof.
  intros W Em H Hi G1 G2 G3 G4 Ef ND.
  assert (Hex : existsb (fun b => b) m = true).
  { apply existsb_exists. exists true. split; [|reflexivity]. eapply nth_error_In. exact Hi. }
  destruct (process_photons_stages e m ipos icoos t t' H Hex W)
    as (L1 & L2 & L3 & t1 & t2 & t3 & H1 & H2 & H3 & H4 & W1 & W2 & W3 & N1 & N2 & N3).
  unfold process_values in H1. rewrite Em in H1.
  destruct (nonzero_from_NoDup m 0) as [NN BB].
  assert (Hn : In i (nonzero m)) by (apply (nonzero_from_complete m 0 i Hi)).
  destruct (photon_loop e f t i (nonzero m) t t1 W eq_refl NN Hn (fun j Hj => ltac:(specialize (BB j Hj); lia)) H1) as (ta & tb & A1 & A2 & A3 & A4 & A5 & A6 & A7 & A8).
  unfold per_photon_step in A1. rewrite G1, G2, G3, G4, Ef in A1.
  assert (Hlt : i < nrows t) by (rewrite <- L1; apply nth_error_Some; congruence).
  set (l := combine _ outs) in A1. set (g := fun cb : string * cell => (Some (fst cb), Scalar (snd cb))).
  assert (A1' : steps (map (fun cv => assign_col_value (fst cv) (single (nrows t) i) (snd cv)) (map g l)) ta = (tb, None)).
  { rewrite map_map. exact A1. }
  assert (NDg : NoDup (map fst (map g l))).
  { unfold g. rewrite map_fst_some. apply NoDup_map_Some. unfold l. apply combine_fst_NoDup. exact ND. }
  assert (LS : length (single (nrows t) i) = nrows ta) by (rewrite single_length; congruence).
  assert (RS : rank (single (nrows t) i) i = 0).
  { assert (X := rank_lt _ _ (nth_single_eq _ _ Hlt)). rewrite (count_single _ _ Hlt) in X. lia. }
  assert (Last : forall c y, In c (colnames t) -> c <> "pos" -> ~ In c (loc_list e) -> id_col e <> Some c -> getcell tb c i = Some y -> getcell t' c i = Some y).
  { intros c y Hc Np Nl Ni Gy. rewrite (write_col_other _ c _ _ _ _ i H4 Np), (id_stage_other e m t2 t3 c i H3 Ni).
    eapply loc_stage_other; [exact H2|exact Nl|]. rewrite A8 by exact Hc. exact Gy. }
  split.
  - intros k c x Hc Hx Nc Np Nl Ni.
    assert (Inl : In (Some c, Scalar x) (map g l)).
    { apply in_map_iff. exists (c, x). split; [reflexivity|]. unfold l. exact (nth_error_combine _ _ k _ _ Hc Hx). }
    destruct (assigns_get _ _ ta tb c (Scalar x) i A2 LS A1' NDg Inl (nth_single_eq _ _ Hlt) Nc) as (vs & B & Gv).
    cbn [broadcast] in B. rewrite (count_single _ _ Hlt) in B. injection B as <-. rewrite RS in Gv. cbn in Gv.
    apply Last; try assumption. rewrite <- A6. eapply getcell_some_in. exact Gv.
  - intros x q Hx Hq Nl Ni.
    assert (Inl : In (Some "probability", Scalar x) (map g l)).
    { apply in_map_iff. exists ("probability", x). split; [reflexivity|]. unfold l. apply (nth_error_combine _ _ 4); [reflexivity|exact Hx]. }
    destruct (assigns_prob _ _ ta tb (Scalar x) i A2 LS A1' NDg Inl (nth_single_eq _ _ Hlt)) as (vs & old & fac & new & B1 & B2 & B3 & B4 & B5).
    cbn [broadcast] in B1. rewrite (count_single _ _ Hlt) in B1. injection B1 as <-. rewrite RS in B3. cbn in B3. injection B3 as <-.
    apply probability_cell in Hq. assert (Hp : In "probability" (colnames t)) by (eapply getcell_some_in; exact Hq).
    rewrite A7, Hq in B2 by exact Hp. injection B2 as <-. exists new. split; [exact B4|]. apply Last; try assumption. discriminate.
Qed.
