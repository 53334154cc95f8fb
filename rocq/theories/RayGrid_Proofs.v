(** Proofs for RayGrid_Model: the circular detector of Arcus, channels and areas, header of the table. *)
From Coq Require Import Permutation Sorted.
From Verif Require Export RayGrid_Model.
From Verif Require Import Base_Proofs Meta_Proofs Vec_Proofs Angles_Proofs Plane_Proofs Position_Proofs Cylinder_Proofs Placement_Proofs Rowland_Proofs Arcus_Proofs Osip_Proofs Analysis_Proofs Analysis_Proofs2 Fits_Proofs.
Open Scope R_scope.

(** ** circular detector *)
Lemma circ_matrix r d : circ_detector r d = M4 (V4 0 0 (- r) 0) (V4 r 0 0 0) (V4 0 (-20) 0 0) (V4 0 0 (sqrt (r * r - d * d)) 1).
Proof. unfold circ_detector, compose, circ_rot, xyz2zxy, axangle2mat_n. rewrite sin_PI, cos_PI. unfold diag3. vu. f_equal; f_equal; ring. Qed.
Definition circ_inverse (r d : R) : m4 := M4 (V4 0 (/ r) 0 0) (V4 0 0 (- / 20) 0) (V4 (- / r) 0 0 0) (V4 (sqrt (r * r - d * d) / r) 0 0 1).
Lemma circ_inv r d : 0 < r -> mul4 (circ_detector r d) (circ_inverse r d) = id4 /\ mul4 (circ_inverse r d) (circ_detector r d) = id4.
Proof.
  intros P. rewrite circ_matrix. unfold circ_inverse, id4. generalize (sqrt (r * r - d * d)). intros h.
  split; vu; f_equal; f_equal; try ring; try (field; lra).
Qed.
Lemma circ_affine r d : affine (circ_detector r d).
Proof. rewrite circ_matrix. unfold affine. cbn. repeat split; reflexivity. Qed.
Lemma circ_perp r d : 0 < r -> perpendicular_axes (circ_detector r d).
Proof.
  intros P. split; [apply circ_affine|]. rewrite circ_matrix. unfold v_x, v_y, v_z. cbn [b0 b1 b2].
  repeat split; try (intros H; first [apply (f_equal x3) in H; cbn in H; lra | apply (f_equal y3) in H; cbn in H; lra | apply (f_equal z3) in H; cbn in H; lra]); vu; ring.
Qed.
Lemma norm20 : norm3 (xyz (V4 0 (-20) 0 0)) = 20.
Proof. unfold norm3. vu. replace (_ + _) with (20 * 20) by ring. apply sqrt_square. lra. Qed.
Lemma asin_front s phi : - PI < phi <= PI -> sin phi = s -> 0 < cos phi -> phi = asin s.
Proof.
  intros B S C. assert (- (PI / 2) < phi < PI / 2).
  { split.
    - destruct (Rlt_dec (- (PI / 2)) phi) as [|N]; [assumption|]. exfalso. assert (X : cos (phi + PI) >= 0) by (apply Rle_ge, cos_ge_0; lra). rewrite neg_cos in X. lra.
    - destruct (Rlt_dec phi (PI / 2)) as [|N]; [assumption|]. exfalso. assert (X : cos phi <= 0). { apply cos_le_0; lra. } lra. }
  rewrite <- S. symmetry. apply asin_sin. lra.
Qed.
Section Circ.
Variables r d lim0 lim1 : R.
Hypothesis P : 0 < r.
Hypothesis full : forall phi, angle_between phi lim0 lim1 = true.
Lemma circ_hit minv x y z0 : mul4 (circ_detector r d) minv = id4 -> mul4 minv (circ_detector r d) = id4 -> affine minv ->
  Rabs x < r -> Rabs y <= 20 ->
  sqrt (r * r - d * d) - r * cos (asin (x / r)) <= z0 < sqrt (r * r - d * d) + r * cos (asin (x / r)) ->
  cylinder_intersect (circ_detector r d) minv lim0 lim1 true (hom (V3 0 0 (-1)) 0) (hom (V3 x y z0) 1) =
  Ok (true, Some (V4 x y (sqrt (r * r - d * d) - r * cos (asin (x / r))) 1), Some (asin (x / r), - y)).
Proof.
  intros I I' A X Y Z. set (h := sqrt (r * r - d * d)) in *. set (c := cos (asin (x / r))) in *.
  assert (XR : -1 < x / r < 1). { apply Rabs_def2 in X. split; [apply Rmult_lt_reg_r with r; [exact P|]; unfold Rdiv; rewrite Rmult_assoc, Rinv_l; lra|apply Rmult_lt_reg_r with r; [exact P|]; unfold Rdiv; rewrite Rmult_assoc, Rinv_l; lra]. }
  assert (S : sin (asin (x / r)) = x / r) by (apply sin_asin; lra).
  assert (C : 0 < c). { unfold c. apply cos_gt_0; [assert (Q := asin_bound (x / r))|assert (Q := asin_bound (x / r))].
    - destruct (Req_dec (asin (x / r)) (- (PI / 2))) as [E|E]; [|lra]. rewrite E, sin_neg, sin_PI2 in S. lra.
    - destruct (Req_dec (asin (x / r)) (PI / 2)) as [E|E]; [|lra]. rewrite E, sin_PI2 in S. lra. }
  assert (YY : -20 <= y <= 20) by (apply Rabs_def2_le; exact Y).
  destruct (cylinder_hit_iff (circ_detector r d) minv lim0 lim1 (V3 0 0 (-1)) (V3 x y z0) I I' (circ_affine r d) A) as (hh & ip & il & E & H).
  assert (HT : hh = true).
  { apply H. split.
    - intros [s Q]. rewrite circ_matrix in Q. apply (f_equal z3) in Q. cbn in Q. lra.
    - exists (z0 - (h - r * c)), (V3 (cos (asin (x / r))) (sin (asin (x / r))) (- y / 20)). split; [lra|]. split.
      + split; [cbn [x3 y3]; assert (Q := sin2_cos2 (asin (x / r))); unfold Rsqr in Q; lra|]. split; [cbn [z3]; lra|]. exists (asin (x / r)). auto.
      + change (hom (V3 (cos (asin (x / r))) (sin (asin (x / r))) (- y / 20)) 1) with (V4 (cos (asin (x / r))) (sin (asin (x / r))) (- y / 20) 1).
        rewrite circ_place. fold h. rewrite S. fold c. vu. f_equal; try field; lra. }
  subst hh. rewrite E. destruct (cylinder_values _ minv lim0 lim1 _ _ true ip il I I' (circ_affine r d) A E) as [_ V]. destruct (V eq_refl) as (k & u & K & T & Q & -> & _ & L).
  destruct (L (circ_perp r d P)) as (phi & B & U1 & U2 & ->). clear L V H.
  assert (Q' : app4 (circ_detector r d) (V4 (cos phi) (sin phi) (z3 u) 1) = hom (add3 (V3 x y z0) (scale3 k (V3 0 0 (-1)))) 1).
  { rewrite <- Q, <- U1, <- U2. reflexivity. }
  rewrite circ_place in Q'. fold h in Q'.
  assert (Q1 : r * sin phi = x) by (apply (f_equal x4) in Q'; cbn in Q'; lra).
  assert (Q2 : -20 * z3 u = y) by (apply (f_equal y4) in Q'; cbn in Q'; lra).
  assert (Q3 : h - r * cos phi = z0 - k) by (apply (f_equal z4) in Q'; cbn in Q'; lra).
  assert (SP : sin phi = x / r) by (rewrite <- Q1; field; lra).
  assert (CC : cos phi = c \/ cos phi = - c).
  { assert (W1 := sin2_cos2 phi). assert (W2 := sin2_cos2 (asin (x / r))). unfold Rsqr in W1, W2. rewrite S in W2. rewrite SP in W1. fold c in W2.
    assert (W : (cos phi - c) * (cos phi + c) = 0) by lra. apply Rmult_integral in W. destruct W; [left|right]; lra. }
  destruct CC as [CC|CC].
  2:{ exfalso. rewrite CC in Q3. lra. }
  assert (PH : phi = asin (x / r)) by (apply asin_front; [exact B|exact SP|lra]).
  rewrite <- PH in *. rewrite circ_matrix. cbn [b2]. rewrite norm20. f_equal. f_equal; [f_equal|].
  - f_equal. rewrite <- CC. clear - Q3. cbv [hom add3 scale3 x3 y3 z3]. f_equal; [ring|ring|lra].
  - f_equal. f_equal. lra.
Qed.
End Circ.
Lemma arcsin_in x r : 0 < r -> Rabs x < r -> np_arcsin (x / r) = Some (asin (x / r)).
Proof.
  intros P X. unfold np_arcsin. rewrite (proj2 (Rleb_true _ _)); [reflexivity|]. unfold Rdiv. rewrite Rabs_mult, (Rabs_right (/ r)) by (left; now apply Rinv_0_lt_compat).
  apply Rmult_le_reg_r with r; [exact P|]. rewrite Rmult_assoc, Rinv_l; lra.
Qed.
Lemma zeropos_ok channel conf ax : dget channel (gc_axes conf) = Some ax ->
  zeropos "circ_phi" channel conf = Ok (np_arcsin (x4 ax / gc_r conf)) /\ zeropos "circ_y" channel conf = Ok (Some (- y4 ax)) /\
  zeropos "proj_x" channel conf = Ok (Some (x4 ax)) /\ zeropos "proj_y" channel conf = Ok (Some (y4 ax)).
Proof. intros E. unfold zeropos, lookup. cbn [String.eqb Ascii.eqb Bool.eqb]. rewrite E. cbn. auto. Qed.
Lemma circ_zero channel conf x y z d : dget channel (gc_axes conf) = Some (V4 x y z 1) -> 0 < gc_r conf -> Rabs x < gc_r conf -> Rabs y <= 20 ->
  exists phi0 y0 low high, zeropos "circ_phi" channel conf = Ok (Some phi0) /\ zeropos "circ_y" channel conf = Ok (Some y0) /\ low < high /\
  forall minv z0, mul4 (circ_detector (gc_r conf) d) minv = id4 -> mul4 minv (circ_detector (gc_r conf) d) = id4 -> affine minv -> low <= z0 < high ->
    cylinder_intersect (circ_detector (gc_r conf) d) minv (- PI) PI true (hom (V3 0 0 (-1)) 0) (hom (V3 x y z0) 1) = Ok (true, Some (V4 x y low 1), Some (phi0, y0)).
Proof.
  intros E P X Y. destruct (zeropos_ok _ _ _ E) as (E1 & E2 & _). cbn [x4 y4] in *. rewrite arcsin_in in E1 by assumption.
  exists (asin (x / gc_r conf)), (- y), (sqrt (gc_r conf * gc_r conf - d * d) - gc_r conf * cos (asin (x / gc_r conf))), (sqrt (gc_r conf * gc_r conf - d * d) + gc_r conf * cos (asin (x / gc_r conf))).
  split; [exact E1|]. split; [exact E2|]. split.
  - assert (S : sin (asin (x / gc_r conf)) = x / gc_r conf).
    { apply sin_asin. unfold np_arcsin in *. apply Rabs_def2 in X. split; apply Rmult_le_reg_r with (gc_r conf); try exact P; unfold Rdiv; rewrite Rmult_assoc, Rinv_l; lra. }
    assert (0 < cos (asin (x / gc_r conf))).
    { apply Rabs_def2 in X. assert (XR : -1 < x / gc_r conf < 1) by (split; apply Rmult_lt_reg_r with (gc_r conf); try exact P; unfold Rdiv; rewrite Rmult_assoc, Rinv_l; lra).
      assert (Q := asin_bound (x / gc_r conf)). apply cos_gt_0.
      - destruct (Req_dec (asin (x / gc_r conf)) (- (PI / 2))) as [F|F]; [|lra]. rewrite F, sin_neg, sin_PI2 in S. lra.
      - destruct (Req_dec (asin (x / gc_r conf)) (PI / 2)) as [F|F]; [|lra]. rewrite F, sin_PI2 in S. lra. }
    nra.
  - intros. apply circ_hit; try assumption. intros phi. apply angle_between_full. exists 1%Z. unfold twopi. lra.
Qed.

(** ** projection *)
Lemma rot_perp : perpendicular_axes xyz2zxy.
Proof.
  unfold perpendicular_axes, affine, xyz2zxy, v_x, v_y, v_z. cbn.
  repeat split; try (intros H; first [apply (f_equal x3) in H; cbn in H; lra | apply (f_equal y3) in H; cbn in H; lra | apply (f_equal z3) in H; cbn in H; lra]); vu; ring.
Qed.
Lemma project_arcus p : project xyz2zxy (hom p 1) = Ok (Some (x3 p, y3 p)).
Proof.
  destruct (project_spec xyz2zxy (hom p 1) rot_perp eq_refl) as (ex & ey & ez & a & b & h & PB & _ & E & Q). rewrite E.
  unfold plane_bases, e_x, e_y, e_z, v_x, v_y, v_z, xyz2zxy in PB. cbn [b0 b1 b2] in PB.
  assert (U : forall v, dot3 (xyz v) (xyz v) = 1 -> w4 v = 0 -> unit4 v = Some v).
  { intros v D W. assert (N : norm3 (xyz v) = 1) by (apply norm3_1; exact D). rewrite unit4_hom0; [|exact W|].
    - rewrite N, Rinv_1, scale3_1. f_equal. symmetry. now apply hom0.
    - intros Z. rewrite Z in D. revert D. vu. lra. }
  rewrite !U in PB by (try reflexivity; vu; ring). injection PB as <- <- <-.
  f_equal. f_equal. destruct p as [p1 p2 p3]. cbn in Q. injection Q as Q1 Q2 Q3. cbn [x3 y3]. f_equal; lra.
Qed.

(** ** channels *)
Lemma channel_range p : (aper_id p = 0%nat <-> (g_xou p < 0)%Z) /\ (aper_id p = 1%nat <-> (0 <= g_xou p < 1000)%Z) /\ (aper_id p = 2%nat <-> (1000 <= g_xou p < 10000)%Z) /\
  (aper_id p = 3%nat <-> (10000 <= g_xou p < 11000)%Z) /\ (aper_id p = 4%nat <-> (11000 <= g_xou p)%Z).
Proof.
  unfold aper_id, id_num_offset. cbn [map snd digitize].
  destruct (Z.ltb_spec (g_xou p) 0), (Z.ltb_spec (g_xou p) 1000), (Z.ltb_spec (g_xou p) 10000), (Z.ltb_spec (g_xou p) 11000); repeat split; intros; try discriminate; try reflexivity; try assumption; try lia.
Qed.
Definition wsum (f : gphot -> bool) (l : list gphot) : R := Rsum (map (fun p => a_prob (g_ph p)) (filter f l)).
Lemma wsum_cons f p l : wsum f (p :: l) = (if f p then a_prob (g_ph p) else 0) + wsum f l.
Proof. unfold wsum. cbn [filter]. destruct (f p); cbn [map]; [now rewrite Rsum_cons|lra]. Qed.
Lemma wsum_ext f g l : (forall p, f p = g p) -> wsum f l = wsum g l.
Proof. intros E. induction l as [|p l IH]; [reflexivity|]. now rewrite !wsum_cons, E, IH. Qed.
Lemma channel_prob a l o : prob_in (filter on_ccd (channel_photons a l)) o = wsum (fun p => Nat.eqb (aper_id p) a && counts p o)%bool l.
Proof.
  induction l as [|p l IH]; [reflexivity|]. rewrite wsum_cons, <- IH. unfold channel_photons, counts. cbn [filter].
  destruct (Nat.eqb (aper_id p) a); cbn [andb]; [|lra]. destruct (Z.eqb (g_L1 p) 0); cbn [andb]; [|lra]. cbn [map filter]. unfold on_ccd at 1. destruct (0 <=? a_ccd (g_ph p))%Z; cbn [andb]; [|lra].
  now rewrite prob_cons.
Qed.
Lemma nums_none l : nums (None :: l) = Err ValueError.
Proof. reflexivity. Qed.
Lemma capture_area stats flt A orders z ph n c j : capture stats flt A orders z ph (Some n) = Ok c -> (j < List.length orders)%nat ->
  nth j (Aeff c) 0 = A / INR n * prob_in (filter flt ph) (nth j orders 0%Z).
Proof.
  intros H J. unfold capture in H. destruct (Nat.eq_dec n 0) as [->|N].
  - exfalso. destruct orders as [|o orders]; [cbn in J; lia|]. unfold effectivearea in H. cbn [map INR num_div] in H. rewrite (proj2 (Reqb_true 0 0)) in H by reflexivity. cbn [num_mul] in H. rewrite nums_none in H. discriminate.
  - rewrite effectivearea_some in H by exact N. rewrite nums_some in H. cbn [bind] in H.
    destruct (average_R_Aeff _ _) as [avg ag]. injection H as <-. cbn [Aeff].
    rewrite nth_indep with (d' := (fun o => A / INR n * prob_in (filter flt ph) o) 0%Z) by (rewrite map_length; exact J).
    rewrite (map_nth (fun o => A / INR n * prob_in (filter flt ph) o)). reflexivity.
Qed.
Lemma capture_aeff_map stats flt A orders z ph n c : capture stats flt A orders z ph (Some n) = Ok c -> Aeff c = map (fun o => A / INR n * prob_in (filter flt ph) o) orders.
Proof.
  intros H. destruct (capture_areas _ _ _ _ _ _ _ _ H) as (_ & L & _). apply nth_ext with (d := 0) (d' := (fun o => A / INR n * prob_in (filter flt ph) o) 0%Z); [now rewrite map_length|].
  intros j J. rewrite L in J. rewrite (capture_area _ _ _ _ _ _ _ _ _ H J). now rewrite (map_nth (fun o => A / INR n * prob_in (filter flt ph) o)).
Qed.
(** the parts of [analyze_sim] *)
Lemma sim_channels stats conf orders ref s res : analyze_sim stats conf orders ref s = Ok res ->
  Forall2 (fun ac c => analyze_channel stats conf orders s ac = Ok c) [(1%nat, "1"%string); (2%nat, "2"%string); (3%nat, "1m"%string); (4%nat, "2m"%string)] res.
Proof.
  unfold analyze_sim. destruct (match ref with Some m => _ | None => _ end) as [[]|]; [|discriminate]. cbn [bind]. destruct (check_energy (s_en s)) as [[]|]; [|discriminate]. cbn [bind].
  intros H. apply sequence_Forall2 in H. exact H.
Qed.
Definition n_of (e : R) : nat := Z.to_nat (Rfloor e).
Lemma channel_ok stats conf orders s a ch c : analyze_channel stats conf orders s (a, ch) = Ok c -> exists A e z cap,
  s_area s = Some A /\ s_exposure s = Some e /\ zeropos "circ_phi" ch conf = Ok z /\
  capture stats on_ccd A orders (Some (match z with Some z => z | None => 0 end)) (channel_photons a (s_photons s)) (Some (n_of e)) = Ok cap /\
  c = (match z with Some _ => Rper cap | None => repeat None (List.length orders) end, Aeff cap).
Proof.
  unfold analyze_channel, need. cbn [fst snd]. destruct (s_area s) as [A|]; [|discriminate]. cbn [bind]. destruct (zeropos "circ_phi" ch conf) as [z|] eqn:Z; [|discriminate]. cbn [bind].
  destruct (s_exposure s) as [e|]; [|discriminate]. cbn [bind]. fold (n_of e). destruct (capture _ _ _ _ _ _ _) as [cap|] eqn:E; [|discriminate]. cbn [bind]. intros H. injection H as <-.
  exists A, e, z, cap. auto.
Qed.
Lemma channel_area stats conf orders s a ch c A e : analyze_channel stats conf orders s (a, ch) = Ok c -> s_area s = Some A -> s_exposure s = Some e ->
  snd c = map (fun o => A / INR (n_of e) * wsum (fun p => Nat.eqb (aper_id p) a && counts p o)%bool (s_photons s)) orders.
Proof.
  intros H EA EE. destruct (channel_ok _ _ _ _ _ _ _ H) as (A' & e' & z & cap & EA' & EE' & _ & C & ->). cbn [snd]. replace A' with A in * by congruence. replace e' with e in * by congruence.
  rewrite (capture_aeff_map _ _ _ _ _ _ _ _ C). apply map_ext. intros o. now rewrite channel_prob.
Qed.
Lemma wsum_channels l o : wsum (fun p => Nat.eqb (aper_id p) 1 && counts p o)%bool l + (wsum (fun p => Nat.eqb (aper_id p) 2 && counts p o)%bool l +
  (wsum (fun p => Nat.eqb (aper_id p) 3 && counts p o)%bool l + wsum (fun p => Nat.eqb (aper_id p) 4 && counts p o)%bool l)) = wsum (fun p => (0 <=? g_xou p)%Z && counts p o)%bool l.
Proof.
  induction l as [|p l IH]; [cbn; lra|]. rewrite !wsum_cons. destruct (channel_range p) as (C0 & C1 & C2 & C3 & C4). destruct (counts p o); cbn [andb]; rewrite ?andb_false_r, ?andb_true_r; [|lra].
  destruct (Z.leb_spec 0 (g_xou p)) as [X|X].
  - assert (K : aper_id p = 1%nat \/ aper_id p = 2%nat \/ aper_id p = 3%nat \/ aper_id p = 4%nat).
    { rewrite C1, C2, C3, C4. lia. }
    destruct K as [K|[K|[K|K]]]; rewrite K; cbn [Nat.eqb]; lra.
  - apply C0 in X. rewrite X. cbn [Nat.eqb]. lra.
Qed.
Lemma Rsum4 a b c d : Rsum [a; b; c; d] = a + (b + (c + d)).
Proof. cbn. lra. Qed.
Lemma map_nth0 (f : Z -> R) l j : (j < List.length l)%nat -> nth j (map f l) 0 = f (nth j l 0%Z).
Proof. intros J. rewrite nth_indep with (d' := f 0%Z) by (now rewrite map_length). apply map_nth. Qed.
Lemma sum_channels stats conf orders ref s res A e j : analyze_sim stats conf orders ref s = Ok res -> s_area s = Some A -> s_exposure s = Some e -> (j < List.length orders)%nat ->
  Rsum (map (fun c => nth j (snd c) 0) res) = A / INR (n_of e) * wsum (fun p => (0 <=? g_xou p)%Z && counts p (nth j orders 0%Z))%bool (s_photons s).
Proof.
  intros H EA EE J. apply sim_channels in H.
  inversion H as [|x1 c1 l1 r1 H1 T1]; subst. inversion T1 as [|x2 c2 l2 r2 H2 T2]; subst. inversion T2 as [|x3 c3 l3 r3 H3 T3]; subst. inversion T3 as [|x4 c4 l4 r4 H4 T4]; subst. inversion T4; subst.
  cbn [map]. rewrite (channel_area _ _ _ _ _ _ _ _ _ H1 EA EE), (channel_area _ _ _ _ _ _ _ _ _ H2 EA EE), (channel_area _ _ _ _ _ _ _ _ _ H3 EA EE), (channel_area _ _ _ _ _ _ _ _ _ H4 EA EE).
  rewrite !map_nth0 by exact J. rewrite Rsum4, <- wsum_channels. ring.
Qed.
Lemma len_channels stats conf orders ref s res : analyze_sim stats conf orders ref s = Ok res -> List.length res = 4%nat.
Proof. intros H. apply sim_channels in H. apply Forall2_len in H. symmetry. exact H. Qed.
