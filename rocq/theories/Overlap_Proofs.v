(** Lemmas on overlapping orders *)
From Verif Require Import Base_Proofs Vec_Proofs Rowland_Proofs Spectro_Proofs.
From Verif Require Import Overlap_Model.
Open Scope R_scope.
Open Scope list_scope.

Lemma hc_pos : 0 < energy2wave. Proof. unfold energy2wave. lra. Qed.
Lemma sgn_mul m n : same_side m n -> m <> 0%Z -> (0 < m * n)%Z /\ (n <> 0)%Z.
Proof. intros [N S] M. split; [|exact N]. destruct (Z.lt_trichotomy m 0) as [A|[A|A]], (Z.lt_trichotomy n 0) as [B|[B|B]]; try lia; rewrite ?(Z.sgn_neg m), ?(Z.sgn_neg n), ?(Z.sgn_pos m), ?(Z.sgn_pos n) in S by lia; lia. Qed.
Lemma side_abs m n : same_side m n -> m <> 0%Z -> IZR n / IZR m = IZR (Z.abs n) / IZR (Z.abs m).
Proof.
  intros S M. destruct (sgn_mul m n S M) as [P N]. destruct (Z.lt_trichotomy m 0) as [A|[A|A]]; [|lia|].
  - assert (n < 0)%Z by nia. rewrite !Z.abs_neq, !opp_IZR by lia. field; repeat split; apply not_0_IZR; lia.
  - assert (0 < n)%Z by nia. now rewrite !Z.abs_eq by lia.
Qed.
Lemma nominal s per so m e n : s <> 0 -> per <> 0 -> 0 < e -> (m <> 0)%Z -> so = s * (IZR m * (energy2wave / e) / per) -> line_energy s per so n = e / IZR m * IZR n.
Proof. intros S P E M ->. unfold line_energy. pose proof hc_pos. assert (IZR m <> 0) by now apply not_0_IZR. field. repeat split; lra || assumption. Qed.
Lemma abs_pos m : (m <> 0)%Z -> 0 < IZR (Z.abs m). Proof. intros M. apply (IZR_lt 0). lia. Qed.
(** the window of order n in units of the distance of the orders *)
Lemma window_units f e m n E : 0 < e -> (m <> 0)%Z -> same_side m n ->
  in_window (base_range (fractional_tab f)) (e / IZR m * IZR n) n E <-> IZR (Z.abs n) - f / 2 < E * IZR (Z.abs m) / e < IZR (Z.abs n) + f / 2.
Proof.
  intros He M S. pose proof (abs_pos m M) as A. pose proof (abs_pos n (proj1 S)) as B. unfold in_window, base_range, fractional_tab. cbn [fst snd].
  assert (EN : e / IZR m * IZR n = IZR (Z.abs n) * (e / IZR (Z.abs m))).
  { replace (e / IZR m * IZR n) with (e * (IZR n / IZR m)) by (unfold Rdiv; ring). rewrite (side_abs m n S M). unfold Rdiv; ring. }
  rewrite EN. set (u := e / IZR (Z.abs m)). assert (U : 0 < u) by (apply Rdiv_lt_0_compat; assumption).
  replace (IZR (Z.abs n) * u / IZR (Z.abs n)) with u by (field; lra). assert (X : E * IZR (Z.abs m) / e = E / u) by (unfold u; field; lra). rewrite X.
  assert (Y : E = E / u * u) by (field; lra). split; intros [H1 H2]; split.
  - apply (Rmult_lt_reg_r u); [exact U|]. rewrite <- Y. lra.
  - apply (Rmult_lt_reg_r u); [exact U|]. rewrite <- Y. lra.
  - apply (Rmult_lt_compat_r u) in H1; [|exact U]. rewrite <- Y in H1. lra.
  - apply (Rmult_lt_compat_r u) in H2; [|exact U]. rewrite <- Y in H2. lra.
Qed.
Lemma abs_side m n : same_side m n -> m <> 0%Z -> Z.abs n = Z.abs m -> n = m.
Proof. intros S M E. destruct (sgn_mul m n S M). nia. Qed.
Lemma window_unique f e m n n' E : 0 < e -> (m <> 0)%Z -> f <= 1 -> same_side m n -> same_side m n' ->
  in_window (base_range (fractional_tab f)) (e / IZR m * IZR n) n E -> in_window (base_range (fractional_tab f)) (e / IZR m * IZR n') n' E -> n = n'.
Proof.
  intros He M F S S' H H'. apply (window_units f e m n E He M S) in H. apply (window_units f e m n' E He M S') in H'.
  assert (A : IZR (Z.abs n) - IZR (Z.abs n') < 1) by lra. assert (B : IZR (Z.abs n') - IZR (Z.abs n) < 1) by lra.
  rewrite <- minus_IZR in A, B. apply (lt_IZR _ 1) in A. apply (lt_IZR _ 1) in B. destruct (sgn_mul m n S M), (sgn_mul m n' S' M). nia.
Qed.
Lemma window_own f e m E : 0 < e -> (m <> 0)%Z -> Rabs (E - e) < f / 2 * (e / IZR (Z.abs m)) -> in_window (base_range (fractional_tab f)) (e / IZR m * IZR m) m E.
Proof.
  intros He M H. assert (S : same_side m m) by (split; [exact M|reflexivity]). apply (window_units f e m m E He M S). pose proof (abs_pos m M) as A. apply Rabs_def2 in H. destruct H as [H1 H2].
  assert (K : 0 < IZR (Z.abs m) / e) by (apply Rdiv_lt_0_compat; assumption). replace (E * IZR (Z.abs m) / e) with (IZR (Z.abs m) + (E - e) * (IZR (Z.abs m) / e)) by (field; lra).
  apply (Rmult_lt_compat_r (IZR (Z.abs m) / e)) in H1; [|exact K]. apply (Rmult_lt_compat_r (IZR (Z.abs m) / e)) in H2; [|exact K].
  replace (f / 2 * (e / IZR (Z.abs m)) * (IZR (Z.abs m) / e)) with (f / 2) in H1 by (field; lra). replace (- (f / 2 * (e / IZR (Z.abs m))) * (IZR (Z.abs m) / e)) with (- (f / 2)) in H2 by (field; lra). lra.
Qed.
Lemma same_side_abs m k : (m <> 0)%Z -> (0 < k)%Z -> same_side m (Z.sgn m * k) /\ Z.abs (Z.sgn m * k) = k.
Proof.
  intros M K. destruct (Z.lt_trichotomy m 0) as [A|[A|A]]; [|lia|].
  - rewrite (Z.sgn_neg m) by lia. split; [|lia]. split; [lia|]. rewrite (Z.sgn_neg m), Z.sgn_neg by lia. reflexivity.
  - rewrite (Z.sgn_pos m) by lia. split; [|lia]. split; [lia|]. rewrite (Z.sgn_pos m), Z.sgn_pos by lia. reflexivity.
Qed.
Lemma window_some e m E : 0 < e -> (m <> 0)%Z -> e / (2 * IZR (Z.abs m)) < E -> (forall k, E * IZR (Z.abs m) / e <> IZR k + 1 / 2) ->
  exists n, same_side m n /\ in_window (base_range (fractional_tab 1)) (e / IZR m * IZR n) n E.
Proof.
  intros He M H NB. pose proof (abs_pos m M) as A. set (x := E * IZR (Z.abs m) / e). destruct (Rfloor_spec (x + 1 / 2)) as [F1 F2]. set (k := Rfloor (x + 1 / 2)) in *.
  assert (X : 1 / 2 < x).
  { unfold x. apply (Rmult_lt_compat_r (IZR (Z.abs m) / e)) in H; [|apply Rdiv_lt_0_compat; assumption]. replace (e / (2 * IZR (Z.abs m)) * (IZR (Z.abs m) / e)) with (1 / 2) in H by (field; lra). replace (E * IZR (Z.abs m) / e) with (E * (IZR (Z.abs m) / e)) by (unfold Rdiv; ring). exact H. }
  assert (K : (0 < k)%Z) by (apply lt_IZR; apply Rnot_le_lt; intros C; change (IZR 0) with 0 in C; lra).
  destruct (same_side_abs m k M K) as [S EA]. exists (Z.sgn m * k)%Z. split; [exact S|]. apply (window_units 1 e m _ E He M S). fold x. rewrite EA.
  pose proof (NB (k - 1)%Z) as N1. fold x in N1. rewrite minus_IZR in N1. split; [|lra]. destruct (Req_dec x (IZR k - 1 / 2)) as [Q|Q]; [exfalso; apply N1; lra|lra].
Qed.
