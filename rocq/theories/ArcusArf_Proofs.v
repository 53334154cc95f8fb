(** Lemmas about the effective areas of Arcus *)
From Coq Require Import String Ascii Permutation.
From Verif Require Import Base_Proofs Vec_Proofs Cylinder_Proofs Chandra_Proofs Rmf_Proofs2 Osip_Proofs Analysis_Proofs.
From Verif Require Export ArcusArf_Model.
From Coq Require Import List Lra Lia.
Open Scope R_scope.

(** *** OnCCD *)
Lemma atan2_front y x : 0 < x -> - (PI / 2) < atan2 y x < PI / 2 /\ exists r, 0 < r /\ r * cos (atan2 y x) = x /\ r * sin (atan2 y x) = y.
Proof.
  intros X. set (r := sqrt (x * x + y * y)). pose proof (Rle_0_sqr y) as Y. unfold Rsqr in Y. pose proof (Rmult_lt_0_compat x x X X) as XX.
  assert (R0 : 0 < r) by (apply sqrt_lt_R0; lra). assert (RR : r * r = x * x + y * y) by (apply sqrt_sqrt; lra).
  destruct (atan2_polar y x) as [C S]. fold r in C, S. split; [|exists r; auto].
  assert (CP : 0 < cos (atan2 y x)) by (apply Rmult_lt_reg_l with r; lra).
  assert (B : - PI <= atan2 y x <= PI).
  { unfold atan2. pose proof (acos_bound (x / r)). pose proof PI_RGT_0. fold r. destruct (Reqb r 0); [lra|]. destruct (Rleb 0 y); lra. }
  pose proof PI_RGT_0. split.
  - destruct (Rlt_le_dec (- (PI / 2)) (atan2 y x)) as [|L]; [auto|]. exfalso. assert (N : cos (- atan2 y x) <= 0) by (apply cos_le_0; lra). rewrite cos_neg in N. lra.
  - destruct (Rlt_le_dec (atan2 y x) (PI / 2)) as [|L]; [auto|]. exfalso. assert (N : cos (atan2 y x) <= 0) by (apply cos_le_0; lra). lra.
Qed.
Lemma sin_sign d : - PI < d < PI -> (0 < d <-> 0 < sin d) /\ (d < 0 <-> sin d < 0).
Proof.
  intros B. assert (P : 0 < d -> 0 < sin d) by (intros; apply sin_gt_0; lra).
  assert (N : d < 0 -> sin d < 0) by (intros; apply sin_lt_0_var; lra).
  assert (Z : d = 0 -> sin d = 0) by (intros ->; apply sin_0).
  destruct (Rtotal_order d 0) as [H|[H|H]]; split; split; intros; try lra; auto; exfalso; try (specialize (N H)); try (specialize (Z H)); try (specialize (P H)); lra.
Qed.
Lemma angle_side th y x : 0 < x -> - (PI / 2) <= th <= PI / 2 ->
  (atan2 y x < th <-> 0 < x * sin th - y * cos th) /\ (th < atan2 y x <-> x * sin th - y * cos th < 0).
Proof.
  intros X T. destruct (atan2_front y x X) as [B (r & R0 & C & S)]. set (a := atan2 y x) in *.
  assert (E : x * sin th - y * cos th = r * sin (th - a)) by (rewrite sin_minus; rewrite <- C, <- S; ring). rewrite E.
  destruct (sin_sign (th - a)) as [P N]; [lra|]. split.
  - split; intros H. + apply Rmult_lt_0_compat; [exact R0|]. apply P. lra. + assert (0 < sin (th - a)) by (apply Rmult_lt_reg_l with r; lra). apply P in H0. lra.
  - split; intros H. + assert (sin (th - a) < 0) by (apply N; lra). rewrite <- (Rmult_0_r r). now apply Rmult_lt_compat_l. + assert (sin (th - a) < 0) by (apply Rmult_lt_reg_l with r; lra). apply N in H0. lra.
Qed.
Lemma between_minmax a b t : (Rmin a b < t /\ t < Rmax a b) <-> (a < t < b \/ b < t < a).
Proof. unfold Rmin, Rmax. destruct (Rle_dec a b); lra. Qed.
Lemma sign_sq x : x <> 0 -> sign x * sign x = 1.
Proof. intros H. unfold sign. destruct (Rltb x 0) eqn:A; [ring|]. destruct (Rltb 0 x) eqn:B; [ring|]. apply Rltb_false in A. apply Rltb_false in B. lra. Qed.
Lemma crosses_sides ox f sg s c c0 c1 : sg * sg = 1 -> s * s + c * c = 1 -> 0 <= c -> snd c0 < f -> snd c1 < f ->
  let g p := (f - snd p) * s - sg * (fst p - ox) * c in
  crosses ox f sg s c c0 c1 <-> (g c0 < 0 < g c1 \/ g c1 < 0 < g c0).
Proof.
  intros SG SC CP Z0 Z1 g. destruct c0 as [x0 z0], c1 as [x1 z1]. cbn [fst snd] in *. unfold crosses. cbn [fst snd].
  assert (GL : forall t, g ((1 - t) * x0 + t * x1, (1 - t) * z0 + t * z1) = (1 - t) * g (x0, z0) + t * g (x1, z1)) by (intros t; unfold g; cbn; ring).
  assert (ON : forall x z, z < f -> g (x, z) = 0 -> exists k, 0 < k /\ x = ox + sg * (k * s) /\ z = f - k * c).
  { intros x z L G. unfold g in G. cbn [fst snd] in G. assert (C0 : 0 < c).
    { destruct (Req_dec c 0) as [E|]; [|lra]. exfalso. subst c. assert (s <> 0) by (intros ->; lra). assert ((f - z) * s = 0) by lra. apply Rmult_integral in H0. lra. }
    exists ((f - z) / c). split; [apply Rdiv_lt_0_compat; lra|]. split; [|field; lra].
    assert (E : (f - z) / c * s = sg * (x - ox)) by (apply Rmult_eq_reg_r with c; [|lra]; transitivity ((f - z) * s); [field; lra|lra]). rewrite E, <- Rmult_assoc, SG. ring. }
  assert (NO : forall x z k, x = ox + sg * (k * s) -> z = f - k * c -> g (x, z) = 0).
  { intros x z k -> ->. unfold g. cbn [fst snd]. transitivity (k * c * s - sg * sg * (k * s) * c); [ring|]. rewrite SG. ring. }
  split.
  - intros ((t & k & T & K & X & Z) & N). pose proof (NO _ _ _ X Z) as G. rewrite GL in G.
    assert (G0 : g (x0, z0) <> 0) by (intros H; apply N, ON; auto).
    set (u := g (x0, z0)) in *. set (v := g (x1, z1)) in *. clearbody u v.
    assert (E : t * v = - ((1 - t) * u)) by lra. destruct (Rtotal_order u 0) as [U|[U|U]]; [left|tauto|right]; split; auto.
    + apply Rmult_lt_reg_l with t; [lra|]. rewrite E, Rmult_0_r. assert (0 < (1 - t) * - u) by (apply Rmult_lt_0_compat; lra). lra.
    + apply Rmult_lt_reg_l with t; [lra|]. rewrite E, Rmult_0_r. assert (0 < (1 - t) * u) by (apply Rmult_lt_0_compat; lra). lra.
  - intros H. set (u := g (x0, z0)) in *. set (v := g (x1, z1)) in *. split.
    + set (t := u / (u - v)). assert (UV : u - v <> 0) by lra.
      assert (T : 0 < t < 1).
      { unfold t. destruct H as [H|H].
        - replace (u / (u - v)) with (- u / (v - u)) by (field; lra). split; [apply Rdiv_lt_0_compat; lra|]. apply Rmult_lt_reg_r with (v - u); [lra|]. unfold Rdiv. rewrite Rmult_assoc, Rinv_l; lra.
        - split; [apply Rdiv_lt_0_compat; lra|]. apply Rmult_lt_reg_r with (u - v); [lra|]. unfold Rdiv. rewrite Rmult_assoc, Rinv_l; lra. }
      assert (G : g ((1 - t) * x0 + t * x1, (1 - t) * z0 + t * z1) = 0) by (rewrite GL; fold u v; unfold t; field; exact UV).
      assert (LZ : (1 - t) * z0 + t * z1 < f).
      { assert (A1 : 0 < (1 - t) * (f - z0)) by (apply Rmult_lt_0_compat; lra). assert (A2 : 0 < t * (f - z1)) by (apply Rmult_lt_0_compat; lra). lra. }
      destruct (ON _ _ LZ G) as (k & K & X & Z).
      exists t, k. auto.
    + intros (k & K & X & Z). pose proof (NO _ _ _ X Z) as G. fold u in G. lra.
Qed.
Lemma theta_some order wave period th : theta order wave period = Some th <->
  (-1 <= IZR order * wave / period <= 1 /\ th = asin (IZR order * wave / period)).
Proof.
  unfold theta. set (s := IZR order * wave / period). destruct (Rleb (-1) s && Rleb s 1)%bool eqn:B.
  - apply Bool.andb_true_iff in B as [B1 B2]. apply Rleb_true in B1. apply Rleb_true in B2. split; [intros [= <-]; auto|intros [_ ->]; auto].
  - split; [discriminate|]. intros [[H1 H2] _]. rewrite (proj2 (Rleb_true _ _) H1), (proj2 (Rleb_true _ _) H2) in B. discriminate.
Qed.
Lemma on_ccd_crosses ccds ox f period order wave : ox <> 0 -> Forall (below f) ccds ->
  on_ccd ccds ox f period order wave = true <->
  let s := IZR order * wave / period in -1 <= s <= 1 /\
  exists m, In m ccds /\ crosses ox f (sign ox) s (sqrt (1 - s * s)) (fst (ccd_corners m)) (snd (ccd_corners m)).
Proof.
  intros OX B. cbv zeta. set (s := IZR order * wave / period). unfold on_ccd. destruct (theta order wave period) as [th|] eqn:T.
  2: { split; [discriminate|]. intros [S _]. assert (H : theta order wave period = Some (asin s)) by (apply theta_some; auto). congruence. }
  apply theta_some in T as [S T]. fold s in S, T.
  assert (TB : - (PI / 2) <= th <= PI / 2) by (rewrite T; pose proof (asin_bound s); lra).
  assert (SI : sin th = s) by (rewrite T; apply sin_asin; exact S).
  assert (CI : cos th = sqrt (1 - s * s)) by (rewrite T, cos_asin by exact S; unfold Rsqr; reflexivity).
  assert (CP : 0 <= cos th) by (rewrite CI; apply sqrt_pos).
  assert (ONE : s * s + sqrt (1 - s * s) * sqrt (1 - s * s) = 1) by (rewrite <- CI, <- SI; pose proof (sin2_cos2 th); unfold Rsqr in *; lra).
  rewrite existsb_exists. split.
  - intros (m & M & H). split; [exact S|]. exists m. split; [exact M|]. rewrite Forall_forall in B. destruct (B m M) as [Z0 Z1].
    destruct (ccd_corners m) as [c0 c1]. cbn [fst snd] in *. apply Bool.andb_true_iff in H as [H1 H2]. apply Rltb_true in H1. apply Rltb_true in H2.
    apply (crosses_sides ox f (sign ox) s (sqrt (1 - s * s)) c0 c1 (sign_sq ox OX) ONE); auto; [apply sqrt_pos|].
    unfold corner_angle in H1, H2. pose proof (proj1 (between_minmax _ _ _) (conj H1 H2)) as BT.
    destruct (angle_side th (sign ox * (fst c0 - ox)) (f - snd c0)) as [P0 N0]; [lra|exact TB|].
    destruct (angle_side th (sign ox * (fst c1 - ox)) (f - snd c1)) as [P1 N1]; [lra|exact TB|]. rewrite SI, CI in *.
    destruct BT as [[U V]|[U V]]; [right|left]; split; first [apply N0|apply N1|apply P0|apply P1]; assumption.
  - intros (_ & m & M & H). exists m. split; [exact M|]. rewrite Forall_forall in B. destruct (B m M) as [Z0 Z1].
    destruct (ccd_corners m) as [c0 c1]. cbn [fst snd] in *.
    apply (crosses_sides ox f (sign ox) s (sqrt (1 - s * s)) c0 c1 (sign_sq ox OX) ONE) in H; auto; [|apply sqrt_pos].
    destruct (angle_side th (sign ox * (fst c0 - ox)) (f - snd c0)) as [P0 N0]; [lra|exact TB|].
    destruct (angle_side th (sign ox * (fst c1 - ox)) (f - snd c1)) as [P1 N1]; [lra|exact TB|]. rewrite SI, CI in *.
    assert (BT : Rmin (corner_angle ox f c0) (corner_angle ox f c1) < th /\ th < Rmax (corner_angle ox f c0) (corner_angle ox f c1)).
    { apply between_minmax. unfold corner_angle. destruct H as [[U V]|[U V]]; [right|left]; split; first [apply N0|apply N1|apply P0|apply P1]; assumption. }
    destruct BT as [B1 B2]. rewrite (proj2 (Rltb_true _ _) B1), (proj2 (Rltb_true _ _) B2). reflexivity.
Qed.
Lemma sign_neg x : sign (- x) = - sign x.
Proof.
  unfold sign. destruct (Rtotal_order x 0) as [H|[H|H]].
  - rewrite (proj2 (Rltb_true x 0)) by lra. rewrite (proj2 (Rltb_false (- x) 0)) by lra. rewrite (proj2 (Rltb_true 0 (- x))) by lra. lra.
  - subst. rewrite Ropp_0, (proj2 (Rltb_false 0 0)) by lra. lra.
  - rewrite (proj2 (Rltb_false x 0)) by lra. rewrite (proj2 (Rltb_true 0 x)) by lra. rewrite (proj2 (Rltb_true (- x) 0)) by lra. lra.
Qed.
Lemma on_ccd_mirror ccds ox f period order wave : on_ccd (map mirror_x ccds) (- ox) f period order wave = on_ccd ccds ox f period order wave.
Proof.
  unfold on_ccd. destruct (theta order wave period) as [th|]; [|reflexivity]. induction ccds as [|m ccds IH]; [reflexivity|]. cbn [map existsb]. rewrite IH. f_equal.
  destruct m as [m0 [x1 y1 z1 w1] m2 [x3 y3 z3 w3]]. unfold ccd_corners, mirror_x, center, v_y, corner_angle, sub4, add4. cbn. rewrite sign_neg.
  replace (- sign ox * (- x3 - - x1 - - ox)) with (sign ox * (x3 - x1 - ox)) by ring. replace (- sign ox * (- x3 + - x1 - - ox)) with (sign ox * (x3 + x1 - ox)) by ring. reflexivity.
Qed.
Lemma on_ccd_axis ccds f period order wave : Forall (below f) ccds -> on_ccd ccds 0 f period order wave = false.
Proof.
  intros B. unfold on_ccd. destruct (theta order wave period) as [th|]; [|reflexivity]. induction ccds as [|m ccds IH]; [reflexivity|]. cbn [existsb].
  inversion B as [|? ? [Z0 Z1] B']; subst. rewrite IH by exact B'. destruct (ccd_corners m) as [c0 c1]. cbn [fst snd] in *.
  assert (E : forall c, snd c < f -> corner_angle 0 f c = 0).
  { intros c Hc. unfold corner_angle. assert (S0 : sign 0 = 0) by (unfold sign; rewrite (proj2 (Rltb_false 0 0)) by lra; reflexivity). rewrite S0, Rmult_0_l.
    unfold atan2. rewrite Rmult_0_l, Rplus_0_r. rewrite sqrt_square by lra. rewrite (proj2 (Reqb_false _ _)) by lra. rewrite (proj2 (Rleb_true 0 0)) by lra.
    unfold Rdiv. rewrite Rinv_r by lra. apply acos_1. }
  rewrite !E by assumption. rewrite Rmin_left, Rmax_left by lra. destruct (Rltb 0 th) eqn:U; cbn; [|reflexivity]. apply Rltb_true in U. rewrite (proj2 (Rltb_false th 0)) by lra. reflexivity.
Qed.

(** *** mkarf *)
Lemma midpoints_nth l i a b : nth_error l i = Some a -> nth_error l (S i) = Some b -> nth_error (midpoints l) i = Some ((a + b) / 2).
Proof.
  revert i. induction l as [|x l IH]; intros i A B; [destruct i; discriminate|]. destruct l as [|y l]; [destruct i; discriminate|]. destruct i as [|i].
  - cbn in A, B. injection A as ->. injection B as ->. cbn. f_equal. lra.
  - cbn [midpoints nth_error]. apply IH; assumption.
Qed.
Lemma midpoints_length l : List.length (midpoints l) = (List.length l - 1)%nat.
Proof. induction l as [|x l IH]; [reflexivity|]. destruct l as [|y l]; [reflexivity|]. cbn [midpoints List.length] in *. lia. Qed.
Lemma zip3_nth f a b c i x y z : nth_error a i = Some x -> nth_error b i = Some y -> nth_error c i = Some z -> nth_error (zip3 f a b c) i = Some (f x y z).
Proof. revert b c i. induction a as [|a0 a IH]; intros b c i A B C; [destruct i; discriminate|]. destruct b as [|b0 b]; [destruct i; discriminate|]. destruct c as [|c0 c]; [destruct i; discriminate|]. destruct i; cbn in *; [congruence|auto]. Qed.
Lemma zip3_length f a b c : List.length a = List.length b -> List.length b = List.length c -> List.length (zip3 f a b c) = List.length a.
Proof. revert b c. induction a as [|a0 a IH]; intros [|b0 b] [|c0 c] A B; try discriminate; [reflexivity|]. cbn in *. f_equal. apply IH; lia. Qed.
Lemma add_on_spec default conf hc order en channels : forall all out, List.length all = List.length en ->
  add_on default conf hc order en channels all = Ok out ->
  List.length out = List.length en /\ (forall c, In c channels -> In c default /\ din c (ac_axes conf) = true) /\
  forall i v e, nth_error all i = Some v -> nth_error en i = Some e -> nth_error out i = Some (v + INR (n_on conf hc order channels e)).
Proof.
  induction channels as [|chan rest IH]; intros all out L E; cbn [add_on] in E.
  - injection E as <-. split; [exact L|]. split; [cbn; tauto|]. intros i v e V _. rewrite V. unfold n_on. cbn. f_equal. lra.
  - destruct (inb chan default) eqn:D; [|discriminate]. cbn [negb] in E. destruct (dget chan (ac_axes conf)) as [ax|] eqn:A; [|discriminate].
    set (g := fun ae : R * R => _) in E. destruct (IH (map g (combine all en)) out) as (L' & C & N); [rewrite map_length, combine_length; lia|exact E|].
    split; [exact L'|]. split.
    + intros c [<-|H]; [|auto]. split; [now apply inb_In|]. apply din_dget. eauto.
    + intros i v e V Ei. assert (CE : nth_error (combine all en) i = Some (v, e)).
      { clear -V Ei. revert en i V Ei. induction all as [|a all IH]; intros [|e0 en] [|i] V Ei; try discriminate; cbn in *; [congruence|auto]. }
      rewrite (N i (g (v, e)) e); [|now apply map_nth_error|exact Ei]. f_equal. unfold n_on. cbn [filter]. rewrite A. unfold g. cbn [fst snd].
      destruct (on_ccd (ac_ccds conf) (x4 ax) (ac_f conf) (ac_period conf) order (hc / e)); cbn [List.length]; [rewrite S_INR; ring|ring].
Qed.
Lemma mkarf_spec default conf hc tab filt conv edges order channels a :
  mkarf default conf hc tab filt conv edges order channels = Ok a ->
  exists s, Permutation s (map conv edges) /\ ascending s /\ ar_lo a = removelast s /\ ar_hi a = tl s /\
  ar_blo a = map (fun e => hc / e) (ar_hi a) /\ ar_bhi a = map (fun e => hc / e) (ar_lo a) /\
  List.length (ar_resp a) = (List.length edges - 1)%nat /\
  forall i lo hi, nth_error s i = Some lo -> nth_error s (S i) = Some hi -> exists mg,
    let e := (lo + hi) / 2 in let on := INR (n_on conf hc order channels e) in
    mirr_grat tab hc order e = Ok mg /\ nth_error (ar_mirr a) i = Some mg /\ nth_error (ar_filt a) i = Some (filt e) /\ nth_error (ar_on a) i = Some on /\
    nth_error (ar_resp a) i = Some (mg * filt e * on).
Proof.
  unfold mkarf. set (s := sortR (map conv edges)). destruct (sequence (map (mirr_grat tab hc order) (midpoints s))) as [sim|] eqn:Q; [|discriminate]. cbn [bind].
  destruct (add_on default conf hc order (midpoints s) channels (repeat 0 (List.length (midpoints s)))) as [all|] eqn:A; [|discriminate]. cbn [bind]. intros E.
  pose proof (sequence_Forall2 _ _ _ Q) as F2. destruct (add_on_spec _ _ _ _ _ _ _ _ (repeat_length _ _) A) as (LA & _ & N).
  assert (P : Permutation s (map conv edges)) by apply sortR_perm.
  assert (LS : List.length s = List.length edges) by (rewrite (Permutation_length P); apply map_length).
  assert (LM : List.length sim = List.length (midpoints s)) by (clear -F2; induction F2; cbn; congruence).
  exists s. split; [exact P|]. split; [apply sortR_asc|].
  assert (EA : a = Arf (removelast s) (tl s) (zip3 (fun a b c => a * b * c) sim (map filt (midpoints s)) all) sim (map filt (midpoints s)) all (map (fun e => hc / e) (tl s)) (map (fun e => hc / e) (removelast s)) (arcchan conf channels) order) by congruence.
  subst a. cbn [ar_lo ar_hi ar_blo ar_bhi ar_resp ar_mirr ar_filt ar_on]. repeat (split; [reflexivity|]). split.
  { rewrite zip3_length; rewrite ?map_length; try lia. rewrite LM, midpoints_length, LS. reflexivity. }
  intros i lo hi I1 I2. pose proof (midpoints_nth _ _ _ _ I1 I2) as M.
  assert (X : exists mg, nth_error sim i = Some mg /\ mirr_grat tab hc order ((lo + hi) / 2) = Ok mg).
  { clear -F2 M. revert i M. induction F2 as [|x y l r H F IH]; intros i M; [destruct i; discriminate|]. destruct i; cbn in *; [injection M as <-; eauto|auto]. }
  destruct X as (mg & X1 & X2). exists mg. cbn zeta. split; [exact X2|]. split; [exact X1|]. split; [now apply map_nth_error|].
  assert (O : nth_error all i = Some (INR (n_on conf hc order channels ((lo + hi) / 2)))).
  { rewrite (N i 0 ((lo + hi) / 2)); [f_equal; ring| |exact M]. apply nth_error_repeat. apply nth_error_Some. congruence. }
  split; [exact O|]. exact (zip3_nth (fun a b c => a * b * c) _ _ _ _ _ _ _ X1 (map_nth_error filt _ _ M) O).
Qed.
Lemma mkarf_channels default conf hc tab filt conv edges order channels a :
  mkarf default conf hc tab filt conv edges order channels = Ok a -> forall c, In c channels -> In c default /\ din c (ac_axes conf) = true.
Proof.
  unfold mkarf. destruct (sequence _) as [sim|]; [|discriminate]. cbn [bind].
  destruct (add_on _ _ _ _ _ _ _) as [all|] eqn:A; [|discriminate]. intros _. apply (add_on_spec _ _ _ _ _ _ _ _ (repeat_length _ _) A).
Qed.
Lemma n_on_le conf hc order channels e : (n_on conf hc order channels e <= List.length channels)%nat.
Proof. unfold n_on. induction channels as [|c l IH]; cbn; [lia|]. destruct (dget c (ac_axes conf)); [destruct (on_ccd _ _ _ _ _ _)|]; cbn; lia. Qed.
Lemma mirr_grat_pos tab hc order e v : mirr_grat tab hc order e = Ok v -> 0 <= v.
Proof. unfold mirr_grat. destruct (dget (str_int order) tab); [|discriminate]. intros E. injection E as <-. apply Rmax_r. Qed.
Lemma concat_nth (f : string -> string) l : (forall k, exists c, f k = String c EmptyString) ->
  String.length (String.concat "" (map f l)) = List.length l /\
  forall i k, nth_error l i = Some k -> exists c, f k = String c EmptyString /\ String.get i (String.concat "" (map f l)) = Some c.
Proof.
  intros F. induction l as [|k l [IH1 IH2]]; [split; [reflexivity|intros [|i] k; discriminate]|].
  assert (E : exists c, f k = String c EmptyString /\ String.concat "" (map f (k :: l)) = String c (String.concat "" (map f l))).
  { destruct (F k) as [c C]. exists c. split; [exact C|]. cbn. rewrite C. destruct (map f l); reflexivity. }
  destruct E as (c & C1 & C2). rewrite C2. split; [cbn; congruence|]. intros [|i] x X; cbn in *; [injection X as <-; eauto|auto].
Qed.
Lemma arcchan_spec conf channels : String.length (arcchan conf channels) = List.length (ac_axes conf) /\
  forall i k, nth_error (dkeys (ac_axes conf)) i = Some k -> (String.get i (arcchan conf channels) = Some "1"%char <-> In k channels).
Proof.
  unfold arcchan. destruct (concat_nth (fun k => if inb k channels then "1"%string else "0"%string) (dkeys (ac_axes conf))) as [L N].
  - intros k. destruct (inb k channels); eauto.
  - split; [rewrite L; unfold dkeys; apply map_length|]. intros i k K. destruct (N i k K) as (c & C1 & C2). rewrite C2. destruct (inb k channels) eqn:I.
    + injection C1 as <-. split; [intros _; now apply inb_In|reflexivity].
    + injection C1 as <-. split; [discriminate|]. intros H. apply inb_In in H. congruence.
Qed.

(** *** names *)
Lemma ogip_underscore ft kw n : filename_from_meta ft kw = Ok n -> exists r, n = String "_" r.
Proof.
  unfold filename_from_meta. destruct (dget "CCDORDER" kw); [destruct (dget "TRUEORD" kw)|destruct (dget "ORDER" kw)]; try discriminate; cbn [bind]; intros E; injection E as <-; cbn; eauto.
Qed.
Lemma arcus_name ft kw s : dget "ARCCHAN" kw = Some (KStr s) ->
  arcus_filename ft kw = bind (filename_from_meta ft (ddel "ARCCHAN" kw)) (fun r => Ok (String.append "chan_" (String.append (chan_text s) r))).
Proof.
  intros E. unfold arcus_filename. rewrite E. fold (chan_text s). destruct (filename_from_meta ft (ddel "ARCCHAN" kw)); [|reflexivity]. cbn [bind]. now rewrite append_assoc.
Qed.
Lemma arcus_name_inj ft ft' kw kw' s s' n : dget "ARCCHAN" kw = Some (KStr s) -> dget "ARCCHAN" kw' = Some (KStr s') -> no_char "_" s -> no_char "_" s' ->
  arcus_filename ft kw = Ok n -> arcus_filename ft' kw' = Ok n ->
  chan_text s = chan_text s' /\ filename_from_meta ft (ddel "ARCCHAN" kw) = filename_from_meta ft' (ddel "ARCCHAN" kw').
Proof.
  intros E E' U U' H H'. rewrite (arcus_name _ _ _ E) in H. rewrite (arcus_name _ _ _ E') in H'.
  destruct (filename_from_meta ft (ddel "ARCCHAN" kw)) as [r|] eqn:F; [|discriminate]. destruct (filename_from_meta ft' (ddel "ARCCHAN" kw')) as [r'|] eqn:F'; [|discriminate].
  destruct (ogip_underscore _ _ _ F) as [q ->]. destruct (ogip_underscore _ _ _ F') as [q' ->]. cbn [bind] in H, H'.
  assert (A : String.append "chan_" (String.append (chan_text s) (String "_" q)) = String.append "chan_" (String.append (chan_text s') (String "_" q'))) by congruence.
  apply append_inj_l in A. assert (NC : forall t, no_char "_" t -> no_char "_" (chan_text t)).
  { intros t T. unfold chan_text. destruct (String.eqb t "1111"); [cbn; repeat split; discriminate|exact T]. }
  apply split_unique in A; [|now apply NC|now apply NC]. destruct A as [A1 A2]. split; [exact A1|congruence].
Qed.
Lemma chan_text_inj s s' : chan_text s = chan_text s' -> s = s' \/ (s = "1111"%string /\ s' = "all"%string) \/ (s = "all"%string /\ s' = "1111"%string).
Proof.
  unfold chan_text. destruct (String.eqb_spec s "1111"), (String.eqb_spec s' "1111"); intros; subst; auto.
Qed.

(** *** defaults *)
Lemma fill_defaults_get {V} : forall (defaults kwargs : dict V) k, NoDup (dkeys defaults) ->
  dget k (fill_defaults defaults kwargs) = match dget k kwargs with Some v => Some v | None => dget k defaults end.
Proof.
  induction defaults as [|[k0 v0] d IH]; intros kwargs k ND; unfold fill_defaults; cbn [fold_left fst snd].
  - cbn. destruct (dget k kwargs); reflexivity.
  - inversion ND as [|? ? NI ND']; subst. fold (fill_defaults d (if din k0 kwargs then kwargs else dset k0 v0 kwargs)). rewrite IH by exact ND'. cbn [dget].
    destruct (String.eqb_spec k k0) as [->|NE].
    + destruct (din k0 kwargs) eqn:D.
      * apply din_dget in D as [v ->]. reflexivity.
      * rewrite dget_dset_eq. apply din_false in D. now rewrite D.
    + destruct (din k0 kwargs); [reflexivity|]. now rewrite dget_dset_neq by congruence.
Qed.

(** *** the period *)
Lemma Rsum_between lo hi l : Forall (fun d => lo <= d <= hi) l -> lo * INR (List.length l) <= Rsum l <= hi * INR (List.length l).
Proof.
  induction 1 as [|d l D F IH].
  - cbn [List.length INR]. change (Rsum []) with 0. lra.
  - cbn [List.length]. rewrite S_INR, Rsum_cons. lra.
Qed.
Lemma period_between blaze periods lo hi : periods <> [] -> 0 <= cos blaze -> Forall (fun d => lo <= d <= hi) periods -> cos blaze * lo <= effective_period blaze periods <= cos blaze * hi.
Proof.
  intros N C F. assert (P : 0 < INR (List.length periods)) by (destruct periods; [congruence|cbn [List.length]; apply lt_0_INR; lia]). apply Rsum_between in F as [F1 F2]. unfold effective_period.
  split; apply Rmult_le_compat_l; try exact C; apply (Rmult_le_reg_r (INR (List.length periods))); try exact P; field_simplify; lra.
Qed.
Lemma cos_near x : 0 <= 1 - cos x <= x * x / 2.
Proof.
  pose proof (COS_bound x). split; [lra|]. replace x with (2 * (x / 2)) at 1 by field. rewrite cos_2a_sin.
  assert (S : Rabs (sin (x / 2)) <= Rabs (x / 2)).
  { destruct (Rtotal_order (x / 2) 0) as [L|[->|G]].
    - pose proof (sin_lt_x (- (x / 2)) ltac:(lra)) as A. pose proof (SIN_bound (x / 2)). rewrite sin_neg in A. rewrite (Rabs_left (x / 2)) by lra. apply Rabs_le. split; [lra|].
      destruct (Rle_dec (- (x / 2)) PI) as [Q|Q]; [|pose proof PI2_1; lra]. pose proof (sin_ge_0 (- (x / 2)) ltac:(lra) Q) as B. rewrite sin_neg in B. lra.
    - rewrite sin_0. lra.
    - pose proof (sin_lt_x (x / 2) ltac:(lra)) as A. pose proof (SIN_bound (x / 2)). rewrite (Rabs_right (x / 2)) by lra. apply Rabs_le. split; [|lra].
      destruct (Rle_dec (x / 2) PI) as [Q|Q]; [|pose proof PI2_1; lra]. pose proof (sin_ge_0 (x / 2) ltac:(lra) Q). lra. }
  apply Rsqr_le_abs_1 in S. unfold Rsqr in S. lra.
Qed.
Lemma tilted_sine blaze periods d s th : periods <> [] -> Forall (fun x => x = d) periods -> 0 < d -> 0 < cos blaze -> d * (sin blaze + sin (th - blaze)) = s ->
  s / effective_period blaze periods = sin th + tan blaze * (1 - cos th).
Proof.
  intros N F D C E. assert (EP : effective_period blaze periods = cos blaze * d).
  { pose proof (period_between blaze periods d d N ltac:(lra)) as B. assert (F' : Forall (fun x => d <= x <= d) periods) by (eapply Forall_impl; [|exact F]; cbn; intros; lra). specialize (B F'). lra. }
  rewrite EP, <- E, sin_minus. unfold tan. field. lra.
Qed.
Lemma tilted_error blaze periods d s th : periods <> [] -> Forall (fun x => x = d) periods -> 0 < d -> 0 < cos blaze -> d * (sin blaze + sin (th - blaze)) = s ->
  Rabs (s / effective_period blaze periods - sin th) <= Rabs (tan blaze) * (th * th / 2).
Proof.
  intros N F D C E. rewrite (tilted_sine blaze periods d s th N F D C E). replace (sin th + tan blaze * (1 - cos th) - sin th) with (tan blaze * (1 - cos th)) by ring.
  rewrite Rabs_mult. apply Rmult_le_compat_l; [apply Rabs_pos|]. pose proof (cos_near th). rewrite Rabs_right; lra.
Qed.
Lemma tilted_never blaze periods d order wave th : periods <> [] -> Forall (fun x => x = d) periods -> 0 < d -> 0 < blaze < PI / 2 -> d * (sin blaze + sin (th - blaze)) = IZR order * wave ->
  th <> 0 -> theta order wave (effective_period blaze periods) <> Some th.
Proof.
  intros N F D B E T H. assert (C : 0 < cos blaze) by (apply cos_gt_0; lra). apply theta_some in H as [H Q]. rewrite (tilted_sine blaze periods d _ th N F D C E) in H, Q.
  assert (TB : - (PI / 2) <= th <= PI / 2) by (rewrite Q; apply asin_bound). apply (f_equal sin) in Q. rewrite sin_asin in Q by exact H.
  assert (TP : 0 < tan blaze) by (apply tan_gt_0; lra). assert (C1 : cos th = 1) by nra. assert (cos th < 1); [|lra].
  destruct (Rlt_dec 0 th) as [P|P].
  - rewrite <- cos_0. apply cos_decreasing_1; pose proof PI_RGT_0; lra.
  - rewrite <- cos_neg, <- cos_0. apply cos_decreasing_1; pose proof PI_RGT_0; lra.
Qed.
