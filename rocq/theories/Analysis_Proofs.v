(** Proofs about Analysis_Model. *)
From Coq Require Import Permutation.
From Verif Require Export Vec_Proofs Coords_Proofs Plane_Proofs Rowland_Proofs2 Osip_Proofs Analysis_Model.
Open Scope R_scope.

(** ** sums *)
Lemma Rsum_cons : forall x l, Rsum (x :: l) = x + Rsum l. Proof. reflexivity. Qed.
Lemma Rsum_scale : forall c l, Rsum (map (fun x => c * x) l) = c * Rsum l.
Proof. induction l as [|x l IH]; [cbn; lra|]. cbn [map]. rewrite !Rsum_cons, IH. lra. Qed.
Lemma Rsum_ge0 : forall l, Forall (fun x => 0 <= x) l -> 0 <= Rsum l.
Proof. induction 1; [cbn; lra|]. rewrite Rsum_cons. lra. Qed.
Lemma prob_cons : forall p ph o, prob_in (p :: ph) o = (if Z.eqb (a_order p) o then a_prob p else 0) + prob_in ph o.
Proof. intros. unfold prob_in. cbn [filter]. destruct (Z.eqb (a_order p) o); [reflexivity|]. lra. Qed.
Lemma prob_sum_cons : forall p ph orders, NoDup orders ->
  Rsum (map (prob_in (p :: ph)) orders) = (if existsb (Z.eqb (a_order p)) orders then a_prob p else 0) + Rsum (map (prob_in ph) orders).
Proof.
  intros p ph orders N. induction N as [|o orders NI N IH]; [cbn; lra|]. cbn [map existsb]. rewrite !Rsum_cons, IH, prob_cons. destruct (Z.eqb_spec (a_order p) o) as [E|E]; cbn [orb].
  - replace (existsb (Z.eqb (a_order p)) orders) with false; [lra|]. symmetry. apply not_true_is_false. intros H. apply existsb_exists in H. destruct H as (x & I & H). apply Z.eqb_eq in H. congruence.
  - lra.
Qed.
Lemma prob_total : forall orders, NoDup orders -> forall ph, Rsum (map (prob_in ph) orders) = Rsum (map a_prob (filter (fun p => existsb (Z.eqb (a_order p)) orders) ph)).
Proof.
  intros orders N. induction ph as [|p ph IH].
  - cbn. induction orders as [|o l IHl]; [reflexivity|]. cbn [map]. rewrite Rsum_cons. inversion N as [|x y A B]; subst. rewrite IHl by exact B. cbn. lra.
  - rewrite prob_sum_cons by exact N. cbn [filter]. destruct (existsb _ orders); [cbn [map]; rewrite Rsum_cons, IH; lra|]. rewrite IH. lra.
Qed.
Lemma effectivearea_some : forall ph orders n A, n <> 0%nat -> effectivearea ph orders n A = map Some (map (fun o => A / INR n * prob_in ph o) orders).
Proof.
  intros ph orders n A N. unfold effectivearea. rewrite map_map. apply map_ext. intros o. assert (INR n <> 0) by (now apply not_0_INR). rewrite num_div_some by assumption. cbn. f_equal. field. assumption.
Qed.
Lemma area_total : forall ph orders n A, n <> 0%nat -> NoDup orders -> exists l, effectivearea ph orders n A = map Some l /\ length l = length orders /\
  Rsum l = A / INR n * Rsum (map a_prob (filter (fun p => existsb (Z.eqb (a_order p)) orders) ph)).
Proof.
  intros ph orders n A N ND. exists (map (fun o => A / INR n * prob_in ph o) orders). split; [now apply effectivearea_some|]. split; [apply map_length|].
  rewrite <- (prob_total orders ND), <- Rsum_scale, map_map. reflexivity.
Qed.
Lemma fraction_some : forall ph labels, ph <> [] -> detected_fraction ph labels = map Some (map (fun o => prob_in ph o / INR (length ph)) labels).
Proof.
  intros ph labels N. unfold detected_fraction. rewrite map_map. apply map_ext. intros o. apply num_div_some. apply not_0_INR. destruct ph; [congruence|discriminate].
Qed.
Lemma prob_le_len : forall ph (f : aphot -> bool), Forall (fun p => 0 <= a_prob p <= 1) ph -> 0 <= Rsum (map a_prob (filter f ph)) <= INR (length ph).
Proof.
  induction 1 as [|p l P F IH]; [cbn; lra|]. cbn [filter length]. rewrite S_INR. destruct (f p); [cbn [map]; rewrite Rsum_cons|]; lra.
Qed.
Lemma fraction_total : forall ph labels, ph <> [] -> NoDup labels -> Forall (fun p => 0 <= a_prob p <= 1) ph ->
  exists l, detected_fraction ph labels = map Some l /\ Forall (fun x => 0 <= x <= 1) l /\ 0 <= Rsum l <= 1.
Proof.
  intros ph labels NE N P. assert (PL : 0 < INR (length ph)) by (apply lt_0_INR; destruct ph; [congruence|cbn; lia]).
  assert (B : forall x, 0 <= x <= INR (length ph) -> 0 <= x / INR (length ph) <= 1).
  { intros x [A C]. split; [apply Rmult_le_pos; [exact A|]; apply Rlt_le, Rinv_0_lt_compat; exact PL|]. apply Rmult_le_reg_r with (INR (length ph)); [exact PL|]. unfold Rdiv. rewrite Rmult_assoc, Rinv_l by lra. lra. }
  exists (map (fun o => prob_in ph o / INR (length ph)) labels). split; [now apply fraction_some|]. split.
  - apply Forall_forall. intros x I. apply in_map_iff in I. destruct I as (o & <- & _). apply B. apply prob_le_len. exact P.
  - replace (map (fun o => prob_in ph o / INR (length ph)) labels) with (map (fun x => / INR (length ph) * x) (map (prob_in ph) labels)) by (rewrite map_map; apply map_ext; intros; unfold Rdiv; ring).
    rewrite Rsum_scale, Rmult_comm. rewrite prob_total by exact N. apply B. now apply prob_le_len.
Qed.

(** ** averages *)
Lemma wavg_bounds : forall l lo hi, weights_ok l -> between lo hi l -> exists a, wavg l = Some a /\ lo <= a <= hi.
Proof.
  intros l lo hi [W P] B. unfold wavg. rewrite num_div_some by lra. eexists. split; [reflexivity|].
  assert (X : lo * Rsum (map snd l) <= Rsum (map (fun p => fst p * snd p) l) <= hi * Rsum (map snd l)).
  { clear P. revert B. induction W as [|p l W1 W IH]; intros B; [cbn; lra|]. inversion B as [|q r B1 B2]; subst. cbn [map]. rewrite !Rsum_cons. specialize (IH B2). nra. }
  split; [apply Rmult_le_reg_r with (Rsum (map snd l)); [exact P|]|apply Rmult_le_reg_r with (Rsum (map snd l)); [exact P|]]; unfold Rdiv; rewrite Rmult_assoc, Rinv_l by lra; lra.
Qed.
Lemma wavg_const : forall l v, weights_ok l -> Forall (fun p => fst p = v) l -> wavg l = Some v.
Proof.
  intros l v W F. destruct (wavg_bounds l v v W) as (a & -> & A); [eapply Forall_impl; [|exact F]; cbn; intros; lra|]. f_equal. lra.
Qed.
Lemma wavg_perm : forall l l', Permutation l l' -> wavg l = wavg l'.
Proof. intros l l' P. unfold wavg. now rewrite (Rsum_perm _ _ (Permutation_map (fun p => fst p * snd p) P)), (Rsum_perm _ _ (Permutation_map snd P)). Qed.
Lemma wavg_zero_weight : forall a b v, wavg (a ++ (v, 0) :: b) = wavg (a ++ b).
Proof.
  intros. rewrite (wavg_perm (a ++ (v, 0) :: b) ((v, 0) :: a ++ b)) by (apply Permutation_sym, Permutation_middle). unfold wavg. cbn [map]. rewrite !Rsum_cons. cbn [fst snd]. now rewrite Rmult_0_r, !Rplus_0_l.
Qed.
Lemma valid_nan : forall r1 w1 r2 w2 w, length r1 = length w1 -> valid (r1 ++ None :: r2) (w1 ++ w :: w2) = valid (r1 ++ r2) (w1 ++ w2).
Proof. induction r1 as [|x r1 IH]; intros [|a w1] r2 w2 w L; try discriminate; [reflexivity|]. cbn [app valid]. injection L as L. destruct x; rewrite IH by exact L; reflexivity. Qed.
Lemma valid_some : forall r w, length r = length w -> valid (map Some r) w = combine r w.
Proof. induction r as [|x r IH]; intros [|a w] L; try discriminate; [reflexivity|]. cbn. f_equal. apply IH. now injection L. Qed.

(** ** interpolation *)
Lemma interp_seg_bounds : forall r x x0 y0 lo hi, x0 <= x -> lo <= y0 <= hi -> Forall (fun p => lo <= snd p <= hi) r -> lo <= interp_seg x x0 y0 r <= hi.
Proof.
  induction r as [|[x1 y1] r IH]; intros x x0 y0 lo hi X Y F; [exact Y|]. cbn [interp_seg]. inversion F as [|p q F1 F2]; subst. cbn in F1. destruct (Rltb x x1) eqn:E.
  - apply Rltb_true in E. set (t := (x - x0) / (x1 - x0)). assert (T : 0 <= t <= 1).
    { unfold t. split; [apply Rmult_le_pos; [lra|]; apply Rlt_le, Rinv_0_lt_compat; lra|]. apply Rmult_le_reg_r with (x1 - x0); [lra|]. unfold Rdiv. rewrite Rmult_assoc, Rinv_l by lra. lra. }
    replace ((y1 - y0) / (x1 - x0) * (x - x0) + y0) with (y0 + t * (y1 - y0)) by (unfold t; field; lra). nra.
  - apply Rltb_false in E. apply IH; [lra|exact F1|exact F2].
Qed.
Lemma interp_bounds : forall pts x lo hi, pts <> [] -> Forall (fun p => lo <= snd p <= hi) pts -> exists y, interp pts x = Ok y /\ lo <= y <= hi.
Proof.
  intros [|[x0 y0] r] x lo hi N F; [congruence|]. cbn. eexists. split; [reflexivity|]. inversion F as [|p q F1 F2]; subst. destruct (Rltb x x0) eqn:E; [exact F1|]. apply Rltb_false in E.
  apply interp_seg_bounds; [lra|exact F1|exact F2].
Qed.
Lemma interp_seg_node : forall r x0 y0 x y, ascP ((x0, y0) :: r) -> In (x, y) ((x0, y0) :: r) -> interp_seg x x0 y0 r = y.
Proof.
  induction r as [|[x1 y1] r IH]; intros x0 y0 x y A I.
  - destruct I as [I|[]]. injection I as -> ->. reflexivity.
  - destruct A as [A1 A2]. cbn [fst] in A1. cbn [interp_seg]. destruct I as [I|I].
    + injection I as -> ->. rewrite (proj2 (Rltb_true x x1)) by exact A1. rewrite Rminus_diag_eq with (r1 := x) (r2 := x) by reflexivity. lra.
    + assert (x1 <= x). { clear - A2 I. revert x1 y1 A2 I. induction r as [|[x2 y2] r IHr]; intros x1 y1 A I; [destruct I as [I|[]]; injection I as -> _; lra|]. destruct I as [I|I]; [injection I as -> _; lra|].
        destruct A as [A1 A2]. cbn in A1. specialize (IHr x2 y2 A2 I). lra. }
      rewrite (proj2 (Rltb_false x x1)) by lra. now apply IH.
Qed.
Lemma asc_le_head : forall r x0 y0 p, ascP ((x0, y0) :: r) -> In p ((x0, y0) :: r) -> x0 <= fst p.
Proof.
  induction r as [|[x1 y1] r IHr]; intros x0 y0 p A I; [destruct I as [<-|[]]; cbn; lra|]. destruct I as [<-|I]; [cbn; lra|]. destruct A as [A1 A2]. cbn in A1. specialize (IHr x1 y1 p A2 I). lra.
Qed.
Lemma interp_node : forall pts x y, ascP pts -> In (x, y) pts -> interp pts x = Ok y.
Proof.
  intros [|[x0 y0] r] x y A I; [destruct I|]. cbn. assert (L := asc_le_head _ _ _ _ A I). cbn in L. rewrite (proj2 (Rltb_false x x0)) by lra. f_equal. now apply interp_seg_node.
Qed.
(** sorting by energy *)
Lemma insP_perm : forall p l, Permutation (insP p l) (p :: l).
Proof. induction l as [|q l IH]; [reflexivity|]. cbn. destruct (Rltb (fst p) (fst q)); [reflexivity|]. rewrite IH. apply perm_swap. Qed.
Lemma sortP_perm : forall l, Permutation (sortP l) l.
Proof. induction l as [|x l IH]; [reflexivity|]. cbn. rewrite insP_perm. now constructor. Qed.
Definition lt_headP (x : R) (l : list (R * R)) : Prop := match l with [] => True | y :: _ => x < fst y end.
Lemma ascP_cons : forall x l, ascP (x :: l) <-> lt_headP (fst x) l /\ ascP l.
Proof. intros x [|y l]; cbn; intuition. Qed.
Lemma insP_asc : forall p l, ascP l -> ~ In (fst p) (map fst l) -> ascP (insP p l) /\ forall y, y < fst p -> lt_headP y l -> lt_headP y (insP p l).
Proof.
  induction l as [|z l IH]; intros A N; [cbn; auto|]. cbn [insP]. destruct (Rltb (fst p) (fst z)) eqn:E.
  - apply Rltb_true in E. split; [apply ascP_cons; split; [exact E|exact A]|]. intros; assumption.
  - apply Rltb_false in E. apply ascP_cons in A. destruct A as [A1 A2]. destruct (IH A2) as [B1 B2]; [intros I; apply N; now right|]. split; [|intros; assumption]. apply ascP_cons. split; [|exact B1].
    apply B2; [|exact A1]. assert (fst p <> fst z) by (intros X; apply N; left; congruence). lra.
Qed.
Lemma sortP_asc : forall l, NoDup (map fst l) -> ascP (sortP l).
Proof.
  induction l as [|x l IH]; intros N; [exact I|]. cbn [map] in N. inversion N as [|a b NI N2]; subst. cbn [sortP fold_right]. apply insP_asc; [now apply IH|]. intros J. apply NI.
  eapply Permutation_in; [|exact J]. apply Permutation_map, sortP_perm.
Qed.
Lemma ascP_unique : forall l l', ascP l -> ascP l' -> Permutation l l' -> l = l'.
Proof.
  induction l as [|p l IH]; intros l' A A' P; [apply Permutation_nil in P; now subst|]. destruct l' as [|q l']; [symmetry in P; apply Permutation_nil in P; discriminate|].
  assert (E : p = q).
  { assert (I : In p (q :: l')) by (eapply Permutation_in; [exact P|now left]). assert (J : In q (p :: l)) by (eapply Permutation_in; [symmetry; exact P|now left]).
    destruct p as [px py], q as [qx qy]. assert (X := asc_le_head _ _ _ _ A J). assert (Y := asc_le_head _ _ _ _ A' I). cbn in X, Y. destruct I as [I|I]; [congruence|]. exfalso.
    destruct l' as [|[zx zy] l']; [destruct I|]. destruct A' as [A1 A2]. assert (Z := asc_le_head _ _ _ _ A2 I). cbn in A1, Z. lra. }
  subst q. f_equal. apply IH; [apply ascP_cons in A; tauto|apply ascP_cons in A'; tauto|now apply Permutation_cons_inv in P].
Qed.
Lemma sortP_unique : forall l l', NoDup (map fst l) -> Permutation l l' -> sortP l = sortP l'.
Proof.
  intros l l' N P. apply ascP_unique; [now apply sortP_asc|apply sortP_asc; eapply Permutation_NoDup; [apply Permutation_map; exact P|exact N]|].
  rewrite !sortP_perm. exact P.
Qed.
(** ** weighted_per_order *)
Lemma eff_points_perm : forall eff eff' j, NoDup (map fst eff) -> Permutation eff eff' -> eff_points eff j = eff_points eff' j.
Proof.
  intros eff eff' j N P. unfold eff_points. apply sortP_unique; [rewrite map_map; exact N|]. now apply Permutation_map.
Qed.
Lemma weighted_row_order : forall data orders energy eo eff eff', NoDup (map fst eff) -> Permutation eff eff' ->
  weighted_per_order data orders energy eo eff = weighted_per_order data orders energy eo eff'.
Proof.
  intros data orders energy eo eff eff' N P. unfold weighted_per_order. replace (map (order_weights eo eff' energy) orders) with (map (order_weights eo eff energy) orders); [reflexivity|].
  apply map_ext. intros o. unfold order_weights. destruct (positions o eo 0) as [|j [|k r]]; try reflexivity. now rewrite (eff_points_perm eff eff').
Qed.
Lemma sequence_Forall2 : forall {A B} (f : A -> result B) l r, sequence (map f l) = Ok r -> Forall2 (fun x y => f x = Ok y) l r.
Proof.
  induction l as [|x l IH]; intros r H; cbn in H; [injection H as <-; constructor|]. destruct (f x) as [y|] eqn:E; [|discriminate]. cbn in H. destruct (sequence (map f l)) as [ys|] eqn:E2; [|discriminate].
  injection H as <-. constructor; [exact E|]. now apply IH.
Qed.
Lemma Forall2_nth_ok : forall {A B} (P : A -> B -> Prop) l r k a b, Forall2 P l r -> (k < length l)%nat -> P (nth k l a) (nth k r b).
Proof.
  intros A B P l r k a b F. revert k. induction F as [|x y l r H F IH]; intros k L; [cbn in L; lia|]. destruct k; [exact H|]. cbn. apply IH. cbn in L. lia.
Qed.
Lemma weights_of_order : forall eo eff energy o ws, order_weights eo eff energy o = Ok ws -> Forall (fun row => Forall (fun x => 0 <= x) (snd row)) eff ->
  length ws = length energy /\ Forall (fun w => 0 <= w) ws.
Proof.
  intros eo eff energy o ws H F. unfold order_weights in H. destruct (positions o eo 0) as [|j [|k r]]; try discriminate. apply sequence_Forall2 in H.
  split; [clear - H; induction H; cbn; congruence|]. induction H as [|e w l l' H1 H2 IH]; constructor; [|exact IH].
  destruct (eff_points eff j) as [|p pts] eqn:E; [discriminate|]. 
  assert (FP : Forall (fun q => 0 <= snd q) (p :: pts)).
  { rewrite <- E. unfold eff_points. apply Forall_forall. intros q I. assert (J : In q (map (fun row => (fst row, nth j (snd row) 0)) eff)) by (eapply Permutation_in; [apply sortP_perm|exact I]).
    apply in_map_iff in J. destruct J as (row & <- & J). cbn [snd]. rewrite Forall_forall in F. specialize (F row J). rewrite Forall_forall in F. destruct (Nat.lt_ge_cases j (length (snd row))) as [L|L]; [apply F; now apply nth_In|rewrite nth_overflow by exact L; lra]. }
  clear IH. 
  assert (Z : exists hi, Forall (fun q => 0 <= snd q <= hi) (p :: pts)).
  { clear - FP. induction FP as [|q l Q F (hi & H)]; [exists 0; constructor|]. exists (Rmax hi (snd q)). constructor; [split; [exact Q|apply Rmax_r]|]. eapply Forall_impl; [|exact H]. cbn. intros a [A B]. split; [exact A|]. eapply Rle_trans; [exact B|apply Rmax_l]. }
  destruct Z as (hi & Z). destruct (interp_bounds (p :: pts) e 0 hi ltac:(discriminate) Z) as (y & Y & B). rewrite Y in H1. injection H1 as <-. lra.
Qed.
Lemma weighted_bounds : forall data orders energy eo eff res, weighted_per_order data orders energy eo eff = Ok res ->
  Forall (fun row => Forall (fun x => 0 <= x) (snd row)) eff ->
  length res = length energy /\
  forall k lo hi, (k < length energy)%nat -> Forall (fun row => lo <= nth k row 0 <= hi) data -> match nth k res None with Some a => lo <= a <= hi | None => True end.
Proof.
  intros data orders energy eo eff res H F. unfold weighted_per_order in H. destruct (Nat.eqb_spec (length orders) (length data)) as [L|]; [|discriminate]. cbn [negb] in H.
  destruct (forallb _ data); [|discriminate]. cbn [negb] in H. destruct (sequence (map (order_weights eo eff energy) orders)) as [ws|] eqn:S; [|discriminate]. cbn [bind] in H. injection H as <-.
  split; [now rewrite map_length, seq_length|]. intros k lo hi K B.
  set (g := fun k0 => wavg (combine (map (fun row => nth k0 row 0) data) (map (fun row => nth k0 row 0) ws))).
  replace (nth k (map g (seq 0 (length energy))) None) with (g k).
  2:{ symmetry. rewrite nth_indep with (d' := g 0%nat) by (now rewrite map_length, seq_length). rewrite map_nth, seq_nth by exact K. reflexivity. }
  unfold g. apply sequence_Forall2 in S. set (l := combine _ _).
  assert (W : Forall (fun p => 0 <= snd p) l).
  { apply Forall_forall. intros [a b] I. apply in_combine_r in I. apply in_map_iff in I. destruct I as (row & <- & I). cbn [snd].
    assert (X : exists o, order_weights eo eff energy o = Ok row). { clear - S I. induction S as [|x y l r H S IH]; [destruct I|]. destruct I as [<-|I]; [eauto|]. now apply IH. }
    destruct X as (o & X). destruct (weights_of_order _ _ _ _ _ X F) as [LW FW]. rewrite Forall_forall in FW. apply FW, nth_In. lia. }
  assert (BB : between lo hi l).
  { apply Forall_forall. intros [a b] I. apply in_combine_l in I. apply in_map_iff in I. destruct I as (row & <- & I). rewrite Forall_forall in B. cbn. now apply B. }
  destruct (Rle_lt_dec (Rsum (map snd l)) 0) as [Z|Z].
  - assert (0 <= Rsum (map snd l)) by (apply Rsum_ge0, Forall_map; exact W). unfold wavg. replace (Rsum (map snd l)) with 0 by lra. now rewrite num_div_zero.
  - destruct (wavg_bounds l lo hi (conj W Z) BB) as (a & -> & A). exact A.
Qed.
