(** Proofs for CatStack_Model. *)
From Verif Require Export CatStack_Model.
From Verif Require Import Base_Proofs Vec_Proofs Plane_Proofs Position_Proofs Grating_Proofs Scatter_Proofs Sampling_Proofs Lens_Proofs Mission_Proofs Lynx_Proofs.
Open Scope R_scope.

Definition side (x : R) : R := if Rleb x 0 then -1 else 1.
(** the L1 bars are perpendicular to the grating bars *)
Lemma l1_axes ex ey g : e_groove ex ey (PI / 2 + g) = neg3 (e_perp_groove ex ey g) /\ e_perp_groove ex ey (PI / 2 + g) = e_groove ex ey g.
Proof.
  unfold e_groove, e_perp_groove. rewrite !sin_neg, !cos_neg.
  assert (S : sin (PI / 2 + g) = cos g) by (rewrite Rplus_comm, sin_plus, sin_PI2, cos_PI2; ring).
  assert (C : cos (PI / 2 + g) = - sin g) by (rewrite Rplus_comm, cos_plus, sin_PI2, cos_PI2; ring).
  rewrite S, C. generalize (sin g) (cos g). clear. intros s c. split; vring.
Qed.
Lemma norm_self v : norm3 v = 1 -> v = scale3 (/ norm3 v) v.
Proof. intros ->. rewrite Rinv_1. clear. vring. Qed.
Lemma ne0_norm v : norm3 v = 1 -> v <> zero3.
Proof. intros N ->. rewrite (proj2 (norm3_zero zero3) eq_refl) in N. lra. Qed.
Lemma cat_out hc k q p p1 ey ez en u : perpendicular_axes (k_pos k) -> s_dir p <> zero3 -> plane_bases (k_pos k) = Some (ey, ez, en) -> u = scale3 (/ norm3 (s_dir p)) (s_dir p) -> dot3 u (xyz en) <> 0 ->
  layer_cat hc k q p = Some p1 -> let disp := e_perp_groove (xyz ey) (xyz ez) (k_groove k) in let bars := e_groove (xyz ey) (xyz ez) (k_groove k) in
  norm3 (s_dir p1) = 1 /\ dot3 (s_dir p1) bars = dot3 u bars /\ dot3 (s_dir p1) disp = dot3 u disp + side (dot3 u disp) * (IZR (q_m q) * (hc / s_energy p) / k_d k) /\
  0 <= dot3 (s_dir p1) (xyz en) * dot3 u (xyz en) /\ s_prob p1 = s_prob p * q_p q /\ s_energy p1 = s_energy p /\ s_order p1 = q_m q.
Proof.
  intros A D B U N L. unfold layer_cat in L. destruct (grating CATSign true (k_pos k) (k_groove k) (s_dir p) (q_m q) (hc / s_energy p) (k_d k)) as [[dir bl]|] eqn:G; [|discriminate]. injection L as <-. cbn [s_dir s_prob s_energy s_order].
  destruct (grating_main CATSign true _ _ _ _ _ _ dir bl ey ez en u A D B U N G) as (X1 & X2 & X3 & X4). cbv zeta. split; [exact X1|]. split; [exact X2|]. split; [exact X3|]. split; [lra|]. auto.
Qed.
Lemma cat_dispersion hc trans k q p p1 p2 ey ez en u : perpendicular_axes (k_pos k) -> s_dir p <> zero3 -> plane_bases (k_pos k) = Some (ey, ez, en) -> u = scale3 (/ norm3 (s_dir p)) (s_dir p) ->
  dot3 u (xyz en) <> 0 -> layer_cat hc k q p = Some p1 -> dot3 (s_dir p1) (xyz en) <> 0 -> q_u1 q <= l1_open (di_width (k_l1 k)) (di_period (k_l1 k)) ->
  layer_L1 hc trans k q (layer_quality k p1) = Ok (Some p2) ->
  let disp := e_perp_groove (xyz ey) (xyz ez) (k_groove k) in let bars := e_groove (xyz ey) (xyz ez) (k_groove k) in
  norm3 (s_dir p2) = 1 /\ dot3 (s_dir p2) disp = dot3 u disp + side (dot3 u disp) * (IZR (q_m q) * (hc / s_energy p) / k_d k) /\
  dot3 (s_dir p2) bars = dot3 u bars + side (dot3 u bars) * (IZR (q_m1 q) * (hc / s_energy p) / di_period (k_l1 k)) /\
  0 <= dot3 (s_dir p2) (xyz en) * dot3 u (xyz en) /\ s_order p2 = q_m q /\ s_order_L1 p2 = q_m1 q.
Proof.
  intros A D B U N L N1 O L1 disp bars. destruct (cat_out hc k q p p1 ey ez en u A D B U N L) as (X1 & X2 & X3 & X4 & _ & XE & XO). fold disp bars in X2, X3.
  unfold layer_L1 in L1. rewrite (proj2 (Rltb_false _ _)) in L1 by exact O. unfold layer_quality in L1. cbn [s_dir s_prob s_energy s_order s_order_L1] in L1.
  destruct (grating CATSign true (k_pos k) (PI / 2 + k_groove k) (s_dir p1) (q_m1 q) (hc / s_energy p1) (di_period (k_l1 k))) as [[dir bl]|] eqn:G; [|discriminate]. injection L1 as <-. cbn [s_dir s_order s_order_L1].
  rewrite XE in G. pose proof (norm_self _ X1) as US.
  destruct (grating_main CATSign true _ _ _ _ _ _ dir bl ey ez en (s_dir p1) A (ne0_norm _ X1) B US N1 G) as (Y1 & Y2 & Y3 & Y4). destruct (l1_axes (xyz ey) (xyz ez) (k_groove k)) as [E1 E2]. cbv zeta in Y2, Y3. rewrite E1 in Y2. rewrite E2 in Y3. fold disp in Y2. fold bars in Y3.
  assert (Ng : forall v w, dot3 v (neg3 w) = - dot3 v w) by (clear; vring). rewrite !Ng in Y2. split; [exact Y1|]. split; [rewrite <- X3; lra|]. split; [rewrite Y3, X2; reflexivity|]. split; [|auto].
  apply Rmult_le_reg_r with (dot3 (s_dir p1) (xyz en) * dot3 (s_dir p1) (xyz en)); [pose proof (Rsqr_pos_lt _ N1) as Q; unfold Rsqr in Q; exact Q|]. rewrite Rmult_0_l.
  replace (dot3 dir (xyz en) * dot3 u (xyz en) * (dot3 (s_dir p1) (xyz en) * dot3 (s_dir p1) (xyz en))) with ((dot3 dir (xyz en) * dot3 (s_dir p1) (xyz en)) * (dot3 (s_dir p1) (xyz en) * dot3 u (xyz en))) by ring.
  apply Rmult_le_pos; lra.
Qed.
Lemma cat_blocked hc trans k q p1 t : l1_open (di_width (k_l1 k)) (di_period (k_l1 k)) < q_u1 q -> trans (s_energy p1) = Ok t ->
  exists p2, layer_L1 hc trans k q p1 = Ok (Some p2) /\ s_dir p2 = s_dir p1 /\ s_order_L1 p2 = 0%Z /\ s_order p2 = s_order p1 /\ s_prob p2 = s_prob p1 * t.
Proof. intros O T. unfold layer_L1. rewrite (proj2 (Rltb_true _ _)) by exact O. rewrite T. cbn [bind]. eexists. split; [reflexivity|]. auto. Qed.
(** The whole stack, taken apart *)
Lemma cat_parts hc trans k q p r : cat_photon hc trans k q p = Ok (Some r) -> exists p1 p2 sigma, layer_cat hc k q p = Some p1 /\ layer_L1 hc trans k q (layer_quality k p1) = Ok (Some p2) /\
  airy_sigma (k_l2 k) (hc / s_energy p2) = Some sigma /\ random_scatter (s_dir p2) (Some (q_normal q * sigma, q_u2 q)) = Some (s_dir r) /\
  (exists u ey ez en, unit3 (s_dir p2) = Some u /\ plane_bases (k_pos k) = Some (ey, ez, en) /\
    s_prob r = s_prob p2 * l2_probability (di_depth (k_l2 k)) (di_period (k_l2 k)) (di_width (k_l2 k)) (dot3 u (xyz en))) /\ s_order r = s_order p2 /\ s_order_L1 r = s_order_L1 p2.
Proof.
  unfold cat_photon. intros H. destruct (layer_cat hc k q p) as [p1|]; [|discriminate]. destruct (layer_L1 hc trans k q (layer_quality k p1)) as [[p2|]|] eqn:L1; cbn [bind] in H; [|discriminate|discriminate].
  exists p1, p2. unfold layer_L2 in H. destruct (unit3 (s_dir p2)) as [u|]; [|discriminate]. destruct (plane_bases (k_pos k)) as [[[ey ez] en]|]; [|discriminate]. injection H as H. unfold layer_scatter in H. cbn [s_dir s_prob s_energy s_order s_order_L1] in H.
  destruct (airy_sigma (k_l2 k) (hc / s_energy p2)) as [sigma|]; [|discriminate]. exists sigma. destruct (random_scatter (s_dir p2) (Some (q_normal q * sigma, q_u2 q))) as [dir|] eqn:S; [|discriminate]. injection H as <-. cbn [s_dir s_prob s_energy s_order s_order_L1].
  split; [reflexivity|]. split; [exact L1|]. split; [reflexivity|]. split; [first [exact S|reflexivity]|]. split; [|auto]. exists u, ey, ez, en. auto.
Qed.
Lemma L1_prob hc trans k q p1 p2 : layer_L1 hc trans k q p1 = Ok (Some p2) -> s_energy p2 = s_energy p1 /\ s_order p2 = s_order p1 /\
  ((l1_open (di_width (k_l1 k)) (di_period (k_l1 k)) < q_u1 q /\ exists t, trans (s_energy p1) = Ok t /\ s_prob p2 = s_prob p1 * t /\ s_order_L1 p2 = 0%Z) \/
   (q_u1 q <= l1_open (di_width (k_l1 k)) (di_period (k_l1 k)) /\ s_prob p2 = s_prob p1 * q_p1 q /\ s_order_L1 p2 = q_m1 q)).
Proof.
  unfold layer_L1. destruct (Rltb _ (q_u1 q)) eqn:O; [apply Rltb_true in O|apply Rltb_false in O].
  - destruct (trans (s_energy p1)) as [t|] eqn:T; [|discriminate]. cbn [bind]. intros H. injection H as <-. cbn. split; [reflexivity|]. split; [reflexivity|]. left. split; [exact O|]. exists t. auto.
  - destruct (grating _ _ _ _ _ _ _ _) as [[dir bl]|]; [|discriminate]. intros H. injection H as <-. cbn [s_energy s_order s_prob s_order_L1]. split; [reflexivity|]. split; [reflexivity|]. right. auto.
Qed.
Lemma cat_prob hc trans k q p r : cat_photon hc trans k q p = Ok (Some r) -> exists f1 c, 
  s_prob r = s_prob p * q_p q * qf_probability (qf_factor (k_sigma k) (k_qd k)) (q_m q) * f1 * l2_probability (di_depth (k_l2 k)) (di_period (k_l2 k)) (di_width (k_l2 k)) c /\
  ((l1_open (di_width (k_l1 k)) (di_period (k_l1 k)) < q_u1 q /\ trans (s_energy p) = Ok f1 /\ s_order_L1 r = 0%Z) \/ (q_u1 q <= l1_open (di_width (k_l1 k)) (di_period (k_l1 k)) /\ f1 = q_p1 q /\ s_order_L1 r = q_m1 q)) /\
  s_order r = q_m q.
Proof.
  intros H. destruct (cat_parts _ _ _ _ _ _ H) as (p1 & p2 & sigma & L & L1 & _ & _ & (u & ey & ez & en & _ & _ & P) & O & O1). destruct (L1_prob _ _ _ _ _ _ L1) as (E & OO & C).
  unfold layer_cat in L. destruct (grating _ _ _ _ _ _ _ _) as [[dir bl]|]; [|discriminate]. injection L as <-. unfold layer_quality in *. cbn [s_dir s_prob s_energy s_order s_order_L1] in *.
  destruct C as [(A & t & T & P2 & Z)|(A & P2 & Z)].
  - exists t, (dot3 u (xyz en)). rewrite P, P2. split; [ring|]. split; [left; split; [exact A|]; split; [exact T|congruence]|congruence].
  - exists (q_p1 q), (dot3 u (xyz en)). rewrite P, P2. split; [ring|]. split; [right; split; [exact A|]; split; [reflexivity|congruence]|congruence].
Qed.
Lemma dot1_eq a b : dot3 a a = 1 -> dot3 b b = 1 -> dot3 a b = 1 -> a = b.
Proof.
  intros A B C. assert (E : dot3 (sub3 a b) (sub3 a b) = 0). { replace (dot3 (sub3 a b) (sub3 a b)) with (dot3 a a + dot3 b b - 2 * dot3 a b) by (clear; vring). lra. }
  assert (Z : sub3 a b = zero3). { apply norm3_zero. unfold norm3. rewrite E. apply sqrt_0. }
  replace a with (add3 (sub3 a b) b) by (clear; vring). rewrite Z. clear. unfold zero3. vring.
Qed.
Lemma scatter_zero dir u0 p : unit3 dir = Some p -> random_scatter dir (Some (0, u0)) = Some p.
Proof.
  intros U. destruct (random_spec dir 0 u0 p U) as (out & E & N & C). rewrite E. f_equal. apply dot1_eq; [now apply norm3_1|now apply (unit3_spec dir)|rewrite C; apply cos_0].
Qed.
Lemma cat_straight hc trans k q p r ey ez en u : perpendicular_axes (k_pos k) -> s_dir p <> zero3 -> plane_bases (k_pos k) = Some (ey, ez, en) -> u = scale3 (/ norm3 (s_dir p)) (s_dir p) -> dot3 u (xyz en) <> 0 ->
  q_m q = 0%Z -> q_m1 q = 0%Z -> q_normal q = 0 -> cat_photon hc trans k q p = Ok (Some r) -> s_dir r = u.
Proof.
  intros A D B U N M M1 Q H. destruct (cat_parts _ _ _ _ _ _ H) as (p1 & p2 & sigma & L & L1 & _ & S & _). 
  assert (S1 : s_dir p1 = u). { unfold layer_cat in L. rewrite M in L. destruct (grating_zero CATSign (k_pos k) (k_groove k) (s_dir p) (hc / s_energy p) (k_d k) ey ez en u A D B U N) as [Z _]. destruct (grating _ _ _ _ _ _ _ _) as [[dir bl]|]; [|discriminate]. cbn in Z. injection Z as ->. injection L as <-. reflexivity. }
  assert (NU : norm3 u = 1). { apply norm3_1. rewrite U. apply (unit3_spec (s_dir p)). now apply unit3_some. }
  assert (S2 : s_dir p2 = u). { unfold layer_L1 in L1. destruct (Rltb _ _).
    - destruct (trans _); [|discriminate]. cbn [bind] in L1. injection L1 as <-. cbn. exact S1.
    - rewrite M1 in L1. unfold layer_quality in L1. cbn [s_dir s_prob s_energy s_order s_order_L1] in L1. rewrite S1 in L1.
      destruct (grating_zero CATSign (k_pos k) (PI / 2 + k_groove k) u (hc / s_energy p1) (di_period (k_l1 k)) ey ez en u A (ne0_norm _ NU) B (norm_self _ NU) N) as [Z _]. destruct (grating _ _ _ _ _ _ _ _) as [[dir bl]|]; [|discriminate]. cbn in Z. injection Z as ->. injection L1 as <-. reflexivity. }
  rewrite Q, Rmult_0_l in S. rewrite S2 in S. rewrite (scatter_zero u _ u) in S; [congruence|]. rewrite (unit3_some u (ne0_norm _ NU)). f_equal. symmetry. now apply norm_self.
Qed.
Lemma cat_angle hc trans k q p r : cat_photon hc trans k q p = Ok (Some r) -> exists p1 p2 sigma u, layer_cat hc k q p = Some p1 /\ layer_L1 hc trans k q (layer_quality k p1) = Ok (Some p2) /\
  airy_sigma (k_l2 k) (hc / s_energy p) = Some sigma /\ unit3 (s_dir p2) = Some u /\ norm3 (s_dir r) = 1 /\ dot3 (s_dir r) u = cos (q_normal q * sigma).
Proof.
  intros H. destruct (cat_parts _ _ _ _ _ _ H) as (p1 & p2 & sigma & L & L1 & AS & S & (u & ey & ez & en & U & _) & _). exists p1, p2, sigma, u. split; [exact L|]. split; [exact L1|].
  destruct (L1_prob _ _ _ _ _ _ L1) as (E & _). assert (E2 : s_energy p2 = s_energy p). { rewrite E. unfold layer_cat in L. destruct (grating _ _ _ _ _ _ _ _) as [[dir bl]|]; [|discriminate]. injection L as <-. reflexivity. }
  rewrite E2 in AS. split; [exact AS|]. split; [exact U|]. destruct (random_spec (s_dir p2) (q_normal q * sigma) (q_u2 q) u U) as (out & X & N & C). rewrite S in X. injection X as <-. auto.
Qed.
Lemma pos_div a b : 0 < a -> 0 < b -> 0 < a / b. Proof. intros A B. apply Rmult_lt_0_compat; [exact A|now apply Rinv_0_lt_compat]. Qed.
Lemma div_le1 a b : 0 < b -> (a / b <= 1 <-> a <= b).
Proof.
  intros B. split; intros H; [apply Rmult_le_compat_r with (r := b) in H; [|lra]; unfold Rdiv in H; rewrite Rmult_assoc, Rinv_l in H by lra; lra|].
  apply Rmult_le_reg_r with b; [exact B|]. unfold Rdiv. rewrite Rmult_assoc, Rinv_l by lra. lra.
Qed.
Lemma asin_lt x y : -1 <= x -> x < y -> y <= 1 -> asin x < asin y.
Proof. intros A B C. destruct (asin_bound x), (asin_bound y). apply sin_increasing_0; try lra. rewrite !sin_asin by lra. exact B. Qed.
Lemma airy_spec l2 w : 0 < w -> di_width l2 < di_period l2 -> 
  (w <= di_period l2 - di_width l2 -> exists s, airy_sigma l2 w = Some s /\ 0 < s /\ sin (s / (488 / 1000)) = w / (di_period l2 - di_width l2)) /\ (di_period l2 - di_width l2 < w -> airy_sigma l2 w = None).
Proof.
  intros W D. unfold airy_sigma. set (f := di_period l2 - di_width l2). assert (F : 0 < f) by (unfold f; lra). clearbody f. pose proof (pos_div w f W F) as P. rewrite (Rabs_right (w / f)) by lra. split; intros H.
  - pose proof (proj2 (div_le1 w f F) H) as L. rewrite (proj2 (Rleb_true _ _)) by exact L. eexists. split; [reflexivity|]. split.
    + apply Rmult_lt_0_compat; [lra|]. rewrite <- asin_0. apply asin_lt; lra.
    + replace (122 / 100 * (4 / 10) * asin (w / f) / (488 / 1000)) with (asin (w / f)) by field. apply sin_asin. lra.
  - rewrite (proj2 (Rleb_false _ _)); [reflexivity|]. apply Rnot_le_lt. intros L. apply (proj1 (div_le1 w f F)) in L. lra.
Qed.
Lemma airy_mono l2 w w' s s' : 0 < w < w' -> di_width l2 < di_period l2 -> airy_sigma l2 w = Some s -> airy_sigma l2 w' = Some s' -> s < s'.
Proof.
  intros W D. unfold airy_sigma. set (f := di_period l2 - di_width l2). assert (F : 0 < f) by (unfold f; lra). clearbody f.
  assert (Q : w / f < w' / f) by (apply Rmult_lt_compat_r; [now apply Rinv_0_lt_compat|lra]). assert (0 < w / f) by (apply pos_div; lra). rewrite (Rabs_right (w / f)) by lra. rewrite (Rabs_right (w' / f)) by lra.
  destruct (Rleb (w / f) 1) eqn:A; [|discriminate]. destruct (Rleb (w' / f) 1) eqn:B; [|discriminate]. apply Rleb_true in A, B. intros E E'. injection E as <-. injection E' as <-.
  apply Rmult_lt_compat_l; [lra|]. apply asin_lt; lra.
Qed.

(** ** Construction *)
Lemma ddel_comm {V} a b (d : dict V) : ddel a (ddel b d) = ddel b (ddel a d).
Proof.
  unfold ddel. induction d as [|[k v] d IH]; [reflexivity|]. cbn [filter fst]. destruct (String.eqb a k) eqn:A, (String.eqb b k) eqn:B; cbn [negb filter fst]; rewrite ?A, ?B; cbn [negb]; rewrite ?IH; reflexivity.
Qed.
Lemma ddel_dset_eq {V} a (v : V) d : ddel a (dset a v d) = ddel a d.
Proof.
  unfold ddel. induction d as [|[k w] d IH]; cbn; [now rewrite String.eqb_refl|]. destruct (String.eqb a k) eqn:E; cbn; rewrite E; cbn; [reflexivity|]. now rewrite <- IH.
Qed.
Lemma ddel_twice {V} a (d : dict V) : ddel a (ddel a d) = ddel a d.
Proof. unfold ddel. induction d as [|[k w] d IH]; cbn; [reflexivity|]. destruct (String.eqb a k) eqn:E; cbn; rewrite ?E; cbn; [exact IH|now rewrite IH]. Qed.
Lemma dget_del_other {V} a b (d : dict V) : a <> b -> dget a (ddel b d) = dget a d.
Proof. intros N. now apply dget_ddel_neq. Qed.
Definition or_default (d : pyv) (o : option pyv) : pyv := match o with Some v => v | None => d end.
Definition layer_keys : list string := ["l1_dims"; "l2_dims"; "l1_order_selector"; "qualityfactor"; "groove_angle"; "order_selector"; "d"; "elements"; "keywords"]%string.
Definition drop (ks : list string) (d : dict pyv) : dict pyv := fold_left (fun acc k => ddel k acc) ks d.
Lemma drop_keys ks : forall d k, In k (dkeys (drop ks d)) <-> In k (dkeys d) /\ ~ In k ks.
Proof.
  unfold drop. induction ks as [|a ks IH]; intros d k; cbn [fold_left]; [cbn; tauto|]. rewrite IH, keys_ddel. cbn [In]. split; [intros [[A B] C]; split; [exact A|intros [E|E]; [now symmetry in E|auto]]|intros [A B]; split; [split; [exact A|intros E; apply B; now left]|intros E; apply B; now right]].
Qed.
Lemma drop_get ks : forall d k, ~ In k ks -> dget k (drop ks d) = dget k d.
Proof. unfold drop. induction ks as [|a ks IH]; intros d k N; cbn [fold_left]; [reflexivity|]. rewrite IH by (intros I; apply N; now right). apply dget_ddel_neq. intros E. apply N. now left. Qed.
Lemma stack_unfold kw : cat_stack kw = match dget "order_selector"%string kw with
  | None => Err KeyError
  | Some sel => match or_default (Num 0) (dget "groove_angle"%string kw) with
      | Num g => bind (flat_rest (drop layer_keys kw)) (fun m => Ok (m, cat_layers (or_default (Obj 1) (dget "l1_dims" kw)) (or_default (Obj 2) (dget "l2_dims" kw)) (or_default (Obj 3) (dget "l1_order_selector" kw))
          (or_default (Obj 4) (dget "qualityfactor" kw)) sel (or_default (Num (2 / 10000)) (dget "d" kw)) g))
      | _ => Err TypeError
      end
  end%string.
Proof.
  unfold cat_stack, arg, or_default, layer_keys, drop. cbn [fold_left]. rewrite !dget_del_other by discriminate. reflexivity.
Qed.
Definition flat_keys : list string := pos_keys ++ ["preprocess_steps"; "postprocess_steps"; "id_col"; "id_num"; "name"]%string.
Lemma flat_ok kw m : flat_rest kw = Ok m -> (forall k, In k (dkeys kw) -> In k flat_keys) /\ (exists rest, parse_position kw = Ok (m, rest)).
Proof.
  unfold flat_rest. destruct (parse_position kw) as [[m' rest]|] eqn:P; [|discriminate]. cbn [bind]. destruct (ddel _ _) as [|e l] eqn:D; [|discriminate]. intros H. injection H as <-. split; [|now exists rest].
  intros k K. unfold flat_keys. apply in_or_app. destruct (in_dec String.string_dec k pos_keys) as [I|I]; [now left|]. right.
  assert (Q : In k (dkeys rest)) by (apply (parse_keys _ _ _ P); auto). pose proof (proj1 (dict_nil _) D k) as N. rewrite !keys_ddel in N. cbn [In].
  destruct (String.string_dec k "preprocess_steps") as [->|N1]; [tauto|]. destruct (String.string_dec k "postprocess_steps") as [->|N2]; [tauto|]. destruct (String.string_dec k "id_col") as [->|N3]; [tauto|].
  destruct (String.string_dec k "id_num") as [->|N4]; [tauto|]. destruct (String.string_dec k "name") as [->|N5]; [tauto|]. exfalso. tauto.
Qed.
Lemma flat_accepts kw m rest : parse_position kw = Ok (m, rest) -> (forall k, In k (dkeys kw) -> In k flat_keys) -> flat_rest kw = Ok m.
Proof.
  intros P K. unfold flat_rest. rewrite P. cbn [bind]. match goal with |- match ?d with _ => _ end = _ => assert (E : d = []) end; [|now rewrite E].
  apply dict_nil. intros k I. rewrite !keys_ddel in I. destruct I as (((((I & A1) & A2) & A3) & A4) & A5). apply (parse_keys _ _ _ P) in I. destruct I as [I NP]. specialize (K k I). unfold flat_keys in K. apply in_app_or in K. destruct K as [K|K]; [contradiction|].
  cbn in K. intuition congruence.
Qed.
(** The keywords that the stack understands *)
Definition cat_keys : list string := layer_keys ++ flat_keys.
Lemma stack_ok kw m l : cat_stack kw = Ok (m, l) -> (forall k, In k (dkeys kw) -> In k cat_keys) /\
  exists sel g rest, dget "order_selector"%string kw = Some sel /\ or_default (Num 0) (dget "groove_angle"%string kw) = Num g /\ parse_position (drop layer_keys kw) = Ok (m, rest) /\
  l = cat_layers (or_default (Obj 1) (dget "l1_dims" kw)) (or_default (Obj 2) (dget "l2_dims" kw)) (or_default (Obj 3) (dget "l1_order_selector" kw)) (or_default (Obj 4) (dget "qualityfactor" kw)) sel (or_default (Num (2 / 10000)) (dget "d" kw)) g.
Proof.
  rewrite stack_unfold. destruct (dget "order_selector"%string kw) as [sel|]; [|discriminate]. destruct (or_default (Num 0) (dget "groove_angle"%string kw)) as [g| | | | |]; try discriminate.
  destruct (flat_rest (drop layer_keys kw)) as [m'|] eqn:F; [|discriminate]. cbn [bind]. intros H. injection H as <- <-. destruct (flat_ok _ _ F) as [K (rest & P)]. split.
  - intros k I. unfold cat_keys. apply in_or_app. destruct (in_dec String.string_dec k layer_keys) as [J|J]; [now left|right]. apply K. apply drop_keys. auto.
  - exists sel, g, rest. auto.
Qed.
Lemma stack_accepts kw sel g m rest : dget "order_selector"%string kw = Some sel -> or_default (Num 0) (dget "groove_angle"%string kw) = Num g -> parse_position (drop layer_keys kw) = Ok (m, rest) ->
  (forall k, In k (dkeys kw) -> In k cat_keys) -> exists l, cat_stack kw = Ok (m, l).
Proof.
  intros S G P K. rewrite stack_unfold, S, G. rewrite (flat_accepts _ m rest P); [cbn [bind]; now eexists|]. intros k I. apply drop_keys in I. destruct I as [I N]. specialize (K k I). unfold cat_keys in K. apply in_app_or in K. tauto.
Qed.
Lemma drop_cons a ks d : drop (a :: ks) d = drop ks (ddel a d). Proof. reflexivity. Qed.
Lemma drop_dset a v ks : forall d, In a ks -> drop ks (dset a v d) = drop ks d.
Proof.
  intros d I. assert (X : forall ks d, ddel a (drop ks d) = drop ks (ddel a d)). { clear. induction ks as [|b ks IH]; intros d; [reflexivity|]. rewrite !drop_cons, IH, ddel_comm. reflexivity. }
  assert (Y : forall ks d, In a ks -> drop ks d = drop ks (ddel a d)). { clear - X. induction ks as [|b ks IH]; intros d J; [destruct J|]. destruct J as [->|J].
    - rewrite !drop_cons. now rewrite ddel_twice.
    - rewrite !drop_cons, (IH (ddel b d) J), (ddel_comm b a). reflexivity. }
  rewrite (Y ks (dset a v d) I), ddel_dset_eq, <- (Y ks d I). reflexivity.
Qed.
Lemma stack_ignores kw a v : a = "elements"%string \/ a = "keywords"%string -> cat_stack (dset a v kw) = cat_stack kw.
Proof.
  intros A. rewrite !stack_unfold. rewrite drop_dset by (unfold layer_keys; cbn; destruct A as [->| ->]; tauto). rewrite !dget_dset_neq by (destruct A as [->| ->]; discriminate). reflexivity.
Qed.

(** ** Tilted bars *)
Lemma tilt_zero table orders e b u n v : wavy_select table orders 0 n e b u = plain_select table orders e b u /\ tophat_select table orders 0 v e b u = plain_select table orders e b u.
Proof. unfold wavy_select, tophat_select, plain_select, wavy_angle, tophat_angle. rewrite !Rmult_0_l, !Rplus_0_r. auto. Qed.
Lemma tophat_range w v b : 0 < w -> 0 <= v < 1 -> b - w / 2 <= tophat_angle w v b < b + w / 2.
Proof. intros W [A B]. unfold tophat_angle. split; nra. Qed.
Lemma tophat_onto w b a : 0 < w -> b - w / 2 <= a < b + w / 2 -> exists v, 0 <= v < 1 /\ tophat_angle w v b = a /\ forall v', tophat_angle w v' b = a -> v' = v.
Proof.
  intros W [A B]. exists ((a - b) / w + 1 / 2). assert (Q : (a - b) = (a - b) / w * w) by (field; lra). set (x := (a - b) / w) in *. clearbody x. unfold tophat_angle. split; [split; nra|]. split; [lra|]. intros v' E. nra.
Qed.
Lemma tilt_order (p : list R) (o : list Z) u m prob : List.length o = List.length p -> Sampling_Model.nonneg p -> 0 <= u < 1 -> 0 < Rsum p -> interp_call o p u = Ok (m, prob) -> prob = Rsum p /\ exists j, nth_error o j = Some m /\ 0 < nth j p 0.
Proof.
  intros L NN U P E. rewrite interp_ok in E by assumption. destruct (pick_index p u NN P U) as (j & J & Lj & Pj). rewrite J in E. destruct (nth_error o j) as [a|] eqn:O; [|discriminate]. injection E as <- <-. split; [reflexivity|]. exists j. auto.
Qed.

(** ** Bounds and existence *)
Lemma cs_unit a b : dot3 a a = 1 -> dot3 b b = 1 -> Rabs (dot3 a b) <= 1.
Proof.
  intros A B. assert (P : 0 <= dot3 (sub3 a b) (sub3 a b)) by (unfold dot3; nra). assert (Q : 0 <= dot3 (add3 a b) (add3 a b)) by (unfold dot3; nra).
  replace (dot3 (sub3 a b) (sub3 a b)) with (dot3 a a + dot3 b b - 2 * dot3 a b) in P by (clear; vring). replace (dot3 (add3 a b) (add3 a b)) with (dot3 a a + dot3 b b + 2 * dot3 a b) in Q by (clear; vring).
  apply Rabs_le. lra.
Qed.
Lemma normal_unit m ey ez en : perpendicular_axes m -> plane_bases m = Some (ey, ez, en) -> dot3 (xyz en) (xyz en) = 1.
Proof. intros A B. destruct (plane_bases_spec m A) as (a & b & c & E & O & _). rewrite B in E. injection E as <- <- <-. apply O. Qed.
Lemma qf_p_range f m : 0 < f <= 1 -> 0 < qf_probability f m <= 1.
Proof. intros F. unfold qf_probability. generalize (Z.to_nat (m * m)). intros n. induction n as [|n IH]; cbn; [lra|]. split; [nra|]. nra. Qed.
Lemma mul01 a b : 0 <= a -> 0 <= b <= 1 -> 0 <= a * b <= a. Proof. intros A B. split; nra. Qed.
Lemma cat_prob_bound hc trans k q p r : perpendicular_axes (k_pos k) -> cat_photon hc trans k q p = Ok (Some r) -> 0 <= s_prob p -> 0 <= q_p q <= 1 -> 0 <= q_p1 q <= 1 -> (forall e t, trans e = Ok t -> 0 <= t <= 1) ->
  k_l2 k = Dims (1 / 2) (9622504 / 10000000) (962250 / 10000000) -> 0 <= s_prob r <= s_prob p.
Proof.
  intros A H P Q Q1 T D. destruct (cat_parts _ _ _ _ _ _ H) as (p1 & p2 & sigma & L & L1 & _ & _ & (u & ey & ez & en & U & B & PR) & _). destruct (L1_prob _ _ _ _ _ _ L1) as (_ & _ & C).
  assert (U1 : dot3 u u = 1) by (apply (unit3_spec _ _ U)). pose proof (cs_unit u (xyz en) U1 (normal_unit _ _ _ _ A B)) as CS.
  assert (G : 0 <= l2_probability (di_depth (k_l2 k)) (di_period (k_l2 k)) (di_width (k_l2 k)) (dot3 u (xyz en)) <= 1). { rewrite D. cbn [di_depth di_period di_width]. split; [now apply l2_default|]. edestruct (l2_upper (1 / 2) (9622504 / 10000000) (962250 / 10000000) (dot3 u (xyz en))); lra. }
  assert (F : exists f1, 0 <= f1 <= 1 /\ s_prob p2 = s_prob (layer_quality k p1) * f1). { destruct C as [(_ & t & E & X & _)|(_ & X & _)]; [exists t; split; [now apply (T _ _ E)|exact X]|exists (q_p1 q); auto]. }
  destruct F as (f1 & F & E2). unfold layer_cat in L. destruct (grating _ _ _ _ _ _ _ _) as [[dir bl]|]; [|discriminate]. injection L as <-. unfold layer_quality in E2. cbn [s_prob s_order] in E2.
  pose proof (qf_p_range _ (q_m q) (qf_range (k_sigma k) (k_qd k))) as QF. rewrite PR, E2. set (f2 := qf_probability _ _) in *. set (f3 := l2_probability _ _ _ _) in *. clearbody f2 f3.
  destruct (mul01 (s_prob p) (q_p q) P Q) as [P1 P1']. destruct (mul01 (s_prob p * q_p q) f2 P1 ltac:(lra)) as [P2 P2']. destruct (mul01 _ f1 P2 F) as [P3 P3']. destruct (mul01 _ f3 P3 G) as [P4 P4']. lra.
Qed.
Lemma scatter_exists dir a u0 p : unit3 dir = Some p -> exists out, random_scatter dir (Some (a, u0)) = Some out.
Proof. intros U. destruct (random_spec dir a u0 p U) as (out & E & _). now exists out. Qed.
Lemma groove_norm ey ez en g v : orthonormal (M3 (xyz en) (xyz ey) (xyz ez)) -> dot3 v v = dot3 v (e_perp_groove (xyz ey) (xyz ez) g) ^ 2 + dot3 v (e_groove (xyz ey) (xyz ez) g) ^ 2 + dot3 v (xyz en) ^ 2.
Proof.
  intros (X & Y & N & XY & XN & YN). cbn [a0 a1 a2] in *. assert (O : orthonormal (M3 (neg3 (e_perp_groove (xyz ey) (xyz ez) g)) (e_groove (xyz ey) (xyz ez) g) (xyz en))).
  { apply groove_frame. unfold orthonormal. cbn [a0 a1 a2]. rewrite (dot3_comm (xyz ey) (xyz en)), (dot3_comm (xyz ez) (xyz en)). repeat split; assumption. }
  set (d := e_perp_groove _ _ _) in *. set (l := e_groove _ _ _) in *. clearbody d l. assert (Ng : dot3 v (neg3 d) = - dot3 v d) by (clear; vring).
  destruct (comb_dots (neg3 d) l (xyz en) O (dot3 v (neg3 d)) (dot3 v l) (dot3 v (xyz en))) as (_ & _ & _ & E). rewrite <- (frame_expand (neg3 d) l (xyz en) v O) in E. rewrite E, Ng. ring.
Qed.
(** The photon goes on if both equations have a solution and the wavelength is not larger than the hole *)
Lemma cat_exists hc trans k q p ey ez en u : perpendicular_axes (k_pos k) -> s_dir p <> zero3 -> plane_bases (k_pos k) = Some (ey, ez, en) -> u = scale3 (/ norm3 (s_dir p)) (s_dir p) -> dot3 u (xyz en) <> 0 ->
  q_u1 q <= l1_open (di_width (k_l1 k)) (di_period (k_l1 k)) -> 0 < hc / s_energy p <= di_period (k_l2 k) - di_width (k_l2 k) ->
  let disp := e_perp_groove (xyz ey) (xyz ez) (k_groove k) in let bars := e_groove (xyz ey) (xyz ez) (k_groove k) in
  let a := dot3 u disp + side (dot3 u disp) * (IZR (q_m q) * (hc / s_energy p) / k_d k) in
  let b := dot3 u bars + side (dot3 u bars) * (IZR (q_m1 q) * (hc / s_energy p) / di_period (k_l1 k)) in
  a * a + dot3 u bars * dot3 u bars < 1 -> a * a + b * b <= 1 -> exists r, cat_photon hc trans k q p = Ok (Some r).
Proof.
  intros A D B U N O W disp bars a b S1 S2.
  destruct (proj2 (grating_exists CATSign true (k_pos k) (k_groove k) (s_dir p) (q_m q) (hc / s_energy p) (k_d k) ey ez en u A D B U)) as [[dir bl] G]. { cbv zeta. fold disp bars. unfold a, side in S1. lra. }
  assert (L : layer_cat hc k q p = Some (CatStack_Model.SP dir (s_prob p * q_p q) (s_energy p) (q_m q) (s_order_L1 p))) by (unfold layer_cat; now rewrite G).
  destruct (cat_out hc k q p _ ey ez en u A D B U N L) as (X1 & X2 & X3 & _). cbn [s_dir] in X1, X2, X3. fold disp bars in X2, X3.
  destruct (l1_axes (xyz ey) (xyz ez) (k_groove k)) as [E1 E2]. fold disp in E1. fold bars in E2. assert (Ng : forall v w, dot3 v (neg3 w) = - dot3 v w) by (clear; vring).
  destruct (proj2 (grating_exists CATSign true (k_pos k) (PI / 2 + k_groove k) dir (q_m1 q) (hc / s_energy p) (di_period (k_l1 k)) ey ez en dir A (ne0_norm _ X1) B (norm_self _ X1))) as [[dir2 bl2] G2].
  { cbv zeta. rewrite E1, E2, Ng, X2, X3. fold a. unfold b, side in S2. lra. }
  assert (L1 : layer_L1 hc trans k q (layer_quality k (CatStack_Model.SP dir (s_prob p * q_p q) (s_energy p) (q_m q) (s_order_L1 p))) = Ok (Some (CatStack_Model.SP dir2 (s_prob p * q_p q * qf_probability (qf_factor (k_sigma k) (k_qd k)) (q_m q) * q_p1 q) (s_energy p) (q_m q) (q_m1 q)))).
  { unfold layer_L1, layer_quality. cbn [s_dir s_prob s_energy s_order s_order_L1]. rewrite (proj2 (Rltb_false _ _)) by exact O. now rewrite G2. }
  assert (N1 : norm3 dir2 = 1). { exact (proj1 (grating_main CATSign true _ _ _ _ _ _ dir2 bl2 ey ez en dir A (ne0_norm _ X1) B (norm_self _ X1) ltac:(
    intros Z; destruct (plane_bases_spec _ A) as (ey' & ez' & ex' & BB & OO & _); rewrite B in BB; injection BB as <- <- <-;
    pose proof (groove_norm ey ez en (k_groove k) dir OO) as GN; cbv zeta in GN; fold disp bars in GN; rewrite Z, X2, X3 in GN; fold a in GN; apply norm3_1 in X1; rewrite X1 in GN; lra) G2)). }
  unfold cat_photon. rewrite L, L1. cbn [bind]. unfold layer_L2. cbn [s_dir]. rewrite (unit3_some dir2 (ne0_norm _ N1)), B. unfold layer_scatter. cbn [s_energy s_dir].
  destruct (proj1 (airy_spec (k_l2 k) (hc / s_energy p) (proj1 W) ltac:(lra)) (proj2 W)) as (sg & -> & _). destruct (scatter_exists dir2 (q_normal q * sg) (q_u2 q) _ (unit3_some dir2 (ne0_norm _ N1))) as [out ->]. now eexists.
Qed.
