(** More proofs about Analysis_Model: sub-apertures, resolving power, projection, widths. *)
From Coq Require Import Permutation.
From Verif Require Export Analysis_Proofs.
Open Scope R_scope.

(** ** sub-apertures *)
Lemma twopi_pos : 0 < twopi. Proof. unfold twopi. assert (H := PI_RGT_0). lra. Qed.
Lemma isclose_iff : forall a b t, isclose_atol a b t = true <-> Rabs (a - b) <= t + / 100000 * Rabs b.
Proof. intros. unfold isclose_atol. apply Rleb_true. Qed.
Lemma within_mod : forall angle c t, within angle c t <-> exists j, Rabs (Rmod angle twopi + twopi * IZR j - c) <= t.
Proof.
  intros angle c t. destruct (Rmod_eq angle twopi) as [n E]. split; intros (k & H).
  - exists (k + n)%Z. rewrite plus_IZR. replace (Rmod angle twopi + twopi * (IZR k + IZR n) - c) with (angle + twopi * IZR k - c) by (rewrite E; ring). exact H.
  - exists (k - n)%Z. rewrite minus_IZR. replace (angle + twopi * (IZR k - IZR n) - c) with (Rmod angle twopi + twopi * IZR k - c) by (rewrite E; ring). exact H.
Qed.
Lemma within_turn : forall angle c t n, within angle (c + twopi * IZR n) t <-> within angle c t.
Proof.
  intros angle c t n. split; intros (k & H).
  - exists (k - n)%Z. rewrite minus_IZR. replace (angle + twopi * (IZR k - IZR n) - c) with (angle + twopi * IZR k - (c + twopi * IZR n)) by ring. exact H.
  - exists (k + n)%Z. rewrite plus_IZR. replace (angle + twopi * (IZR k + IZR n) - (c + twopi * IZR n)) with (angle + twopi * IZR k - c) by ring. exact H.
Qed.
Lemma within_minus : forall angle c t, within angle (twopi - c) t <-> within angle (- c) t.
Proof. intros. rewrite <- (within_turn angle (- c) t 1). replace (- c + twopi * 1) with (twopi - c) by ring. reflexivity. Qed.
Lemma sub_sound : forall angle t c, in_subaperture angle t c = true -> within angle c (t + / 100000 * Rabs c) \/ within angle (- c) (t + / 100000 * Rabs (twopi - c)).
Proof.
  intros angle t c H. unfold in_subaperture in H. apply orb_true_iff in H. destruct H as [H|H]; apply isclose_iff in H; [left|right; apply within_minus]; apply within_mod; exists 0%Z; now rewrite Rmult_0_r, Rplus_0_r.
Qed.
Lemma one_sector : forall m c t j, 0 <= m < twopi -> 0 <= c <= twopi -> Rabs (m + twopi * IZR j - c) <= t -> Rabs (m - c) <= t \/ Rabs (m - (twopi - c)) <= t.
Proof.
  intros m c t j M C H. assert (TP := twopi_pos). destruct (Z.lt_trichotomy j 0) as [L|[->|L]].
  - right. assert (IZR j <= -1) by (apply IZR_le; lia). assert (X : twopi * IZR j <= twopi * -1) by (apply Rmult_le_compat_l; lra). unfold Rabs in *. destruct (Rcase_abs _), (Rcase_abs _); lra.
  - left. replace (m - c) with (m + twopi * 0 - c) by ring. exact H.
  - right. assert (1 <= IZR j) by (apply IZR_le; lia). assert (X : twopi * 1 <= twopi * IZR j) by (apply Rmult_le_compat_l; lra). unfold Rabs in *. destruct (Rcase_abs _), (Rcase_abs _); lra.
Qed.
Lemma sub_complete : forall angle t c, 0 <= c <= twopi -> within angle c t \/ within angle (- c) t -> in_subaperture angle t c = true.
Proof.
  intros angle t c C H. assert (M := Rmod_bound angle twopi twopi_pos). unfold in_subaperture. apply orb_true_iff. rewrite !isclose_iff.
  assert (P1 := Rabs_pos c). assert (P2 := Rabs_pos (twopi - c)).
  assert (X : Rabs (Rmod angle twopi - c) <= t \/ Rabs (Rmod angle twopi - (twopi - c)) <= t).
  { destruct H as [H|H].
    - apply within_mod in H. destruct H as (j & H). now apply one_sector with j.
    - apply within_minus in H. apply within_mod in H. destruct H as (j & H). destruct (one_sector _ (twopi - c) t j M ltac:(lra) H) as [X|X]; [now right|left]. now replace (twopi - (twopi - c)) with c in X by ring. }
  destruct X; [left|right]; lra.
Qed.
Lemma sub_too_wide : exists angle t c, 0 <= c <= twopi /\ in_subaperture angle t c = true /\ ~ within angle c t /\ ~ within angle (- c) t.
Proof.
  assert (P := PI2_3_2). assert (P4 := PI_4). unfold PI2 in P. exists (PI / 2 + / 1000000), 0, (PI / 2). unfold within. split; [unfold twopi; lra|]. split; [|split].
  - unfold in_subaperture. apply orb_true_iff. left. apply isclose_iff. rewrite Rmod_small by (unfold twopi; lra). rewrite (Rabs_right (PI / 2)) by lra. rewrite Rabs_right by lra. lra.
  - intros (n & H). assert (X : / 1000000 + 2 * PI * IZR n = 0).
    { assert (Y := Rabs_pos (PI / 2 + / 1000000 + twopi * IZR n - PI / 2)). assert (Z : Rabs (PI / 2 + / 1000000 + twopi * IZR n - PI / 2) = 0) by lra.
      apply Rabs_eq_0 in Z || (destruct (Req_dec (PI / 2 + / 1000000 + twopi * IZR n - PI / 2) 0) as [Z2|Z2]; [|exfalso; now apply (Rabs_no_R0 _ Z2)]). unfold twopi in *. lra. }
    destruct (Z.lt_trichotomy n 0) as [L|[->|L]]; [|lra|].
    + assert (IZR n <= -1) by (apply IZR_le; lia). nra.
    + assert (1 <= IZR n) by (apply IZR_le; lia). nra.
  - intros (n & H). assert (X : PI + / 1000000 + 2 * PI * IZR n = 0).
    { assert (Y := Rabs_pos (PI / 2 + / 1000000 + twopi * IZR n - - (PI / 2))). destruct (Req_dec (PI / 2 + / 1000000 + twopi * IZR n - - (PI / 2)) 0) as [Z2|Z2]; [unfold twopi in *; lra|].
      assert (Z := Rabs_no_R0 _ Z2). lra. }
    destruct (Z_lt_le_dec n 0) as [L|L].
    + assert (IZR n <= -1) by (apply IZR_le; lia). nra.
    + assert (0 <= IZR n) by (apply IZR_le; lia). nra.
Qed.
Lemma sub_negative_center : exists t c, within c c t /\ 0 < t /\ in_subaperture c t c = false.
Proof.
  assert (P := PI2_3_2). assert (P4 := PI_4). unfold PI2 in P. exists (1 / 2), (-1). split; [exists 0%Z; rewrite Rmult_0_r, Rplus_0_r, Rminus_diag_eq by reflexivity; rewrite Rabs_R0; lra|]. split; [lra|].
  unfold in_subaperture. assert (M : Rmod (-1) twopi = twopi - 1). { apply Rmod_unique with (-1)%Z; unfold twopi; lra. } rewrite M. apply orb_false_iff. unfold isclose_atol. split; apply Rleb_false.
  - rewrite (Rabs_left (-1)) by lra. rewrite Rabs_right by (unfold twopi; lra). unfold twopi. lra.
  - rewrite (Rabs_right (twopi - -1)) by (unfold twopi; lra). rewrite Rabs_left by lra. unfold twopi. lra.
Qed.

(** ** argmin *)
Lemma argmin_num_spec : forall l pre i best bv, length pre = i -> (best < i)%nat -> nth best pre None = bv ->
  (forall b, bv = Some b -> Forall (fun x => exists r, x = Some r /\ b <= r) pre) ->
  let k := argmin_num l i best bv in (k < length (pre ++ l))%nat /\
    match nth k (pre ++ l) None with
    | None => True
    | Some b => Forall (fun x => exists r, x = Some r /\ b <= r) (pre ++ l)
    end.
Proof.
  induction l as [|x l IH]; intros pre i best bv LI LB NB F; cbn zeta.
  - rewrite app_nil_r. destruct bv as [b|]; cbn [argmin_num]; (split; [lia|]); rewrite NB; [now apply F|exact I].
  - destruct bv as [b|]; cbn [argmin_num].
    + destruct x as [x|].
      * assert (AP : forall (y : num), pre ++ y :: l = (pre ++ [y]) ++ l) by (intros; now rewrite <- app_assoc). rewrite AP. specialize (F b eq_refl). destruct (Rltb x b) eqn:E.
        -- apply Rltb_true in E. apply IH; [rewrite app_length; cbn; lia|lia|rewrite app_nth2 by lia; rewrite LI, Nat.sub_diag; reflexivity|]. intros b' EB. injection EB as <-. apply Forall_app. split.
           ++ eapply Forall_impl; [|exact F]. intros y (r & -> & R). exists r. split; [reflexivity|lra].
           ++ constructor; [exists x; split; [reflexivity|lra]|constructor].
        -- apply Rltb_false in E. apply IH; [rewrite app_length; cbn; lia|lia|rewrite app_nth1 by lia; exact NB|]. intros b' EB. injection EB as <-. apply Forall_app. split; [exact F|]. constructor; [exists x; split; [reflexivity|lra]|constructor].
      * split; [rewrite app_length; cbn; lia|]. rewrite app_nth2 by lia. rewrite LI, Nat.sub_diag. exact I.
    + split; [rewrite app_length; lia|]. rewrite app_nth1 by lia. now rewrite NB.
Qed.
Lemma np_argmin_spec : forall l, l <> [] -> exists k, np_argmin l = Ok k /\ (k < length l)%nat /\
  match nth k l None with None => True | Some b => Forall (fun x => exists r, x = Some r /\ b <= r) l end.
Proof.
  intros [|x l] N; [congruence|]. cbn [np_argmin]. eexists. split; [reflexivity|]. apply (argmin_num_spec l [x] 1 0 x); [reflexivity|lia|reflexivity|]. intros b ->. constructor; [exists b; split; [reflexivity|lra]|constructor].
Qed.
Lemma sequence_length : forall {A} (l : list (result A)) r, sequence l = Ok r -> length r = length l.
Proof. induction l as [|[x|] l IH]; intros r H; cbn in H; [injection H as <-; reflexivity| |discriminate]. destruct (sequence l); [|discriminate]. injection H as <-. cbn. f_equal. now apply IH. Qed.
Lemma resolving_length : forall stats ph orders z l, resolvingpower stats ph orders z = Ok l -> length l = length orders.
Proof. intros stats ph orders z l H. unfold resolvingpower in H. destruct z; cbn [bind] in H; [|destruct (Nat.ltb _ _); [discriminate|]; cbn [bind] in H]; injection H as <-; apply map_length. Qed.
Lemma robust_spec : forall stats lp zs orders out results, lp <> [] -> length lp = length zs ->
  sequence (map (fun pz => resolvingpower stats (fst pz) orders (snd pz)) (combine lp zs)) = Ok results ->
  robust stats lp zs orders = Ok out ->
  length out = length orders /\ forall k, (k < length orders)%nat ->
    In (nth k out dflt) (map (fun row => nth k row dflt) results) /\
    match rp (nth k out dflt) with None => True | Some b => Forall (fun row => exists r, rp (nth k row dflt) = Some r /\ b <= r) results end.
Proof.
  intros stats lp zs orders out results NE L S H. unfold robust in H. rewrite (proj2 (Nat.eqb_eq _ _) L) in H. cbn [negb] in H. rewrite S in H. cbn [bind] in H.
  assert (NR : results <> []). { intros ->. apply sequence_length in S. rewrite map_length, combine_length in S. destruct lp; [congruence|]. cbn [length] in S, L. rewrite <- L in S. rewrite Nat.min_id in S. discriminate. }
  split; [apply sequence_length in H; now rewrite map_length, seq_length in H|]. intros k K. apply sequence_Forall2 in H.
  assert (X := Forall2_nth_ok _ _ _ k 0%nat dflt H ltac:(now rewrite seq_length)). cbv beta zeta in X. rewrite seq_nth in X by exact K. cbn [Nat.add] in X.
  set (column := map (fun row => nth k row (None, None, None)) results) in X. unfold num in *; change (map (fun t : option R * option R * option R => fst (fst t)) column) with (map rp column) in X. destruct (np_argmin_spec (map rp column)) as (i & E & LI & SP); [unfold column; destruct results; [congruence|discriminate]|].
  rewrite E in X. cbn [bind] in X. injection X as X. rewrite map_length in LI.
  change (map (fun row => nth k row dflt) results) with column. split; [rewrite <- X; now apply nth_In|].
  assert (EQ : nth i (map rp column) None = rp (nth i column dflt)) by (change (@None R) with (rp dflt) at 1; apply map_nth). unfold num in *. rewrite EQ in SP. change (None, None, None) with dflt in X. rewrite <- X. destruct (rp (nth i column dflt)) as [b|]; [|exact I].
  rewrite Forall_map in SP. unfold column in SP. rewrite Forall_map in SP. exact SP.
Qed.
(** ** capture *)
Lemma nums_some : forall l, nums (map Some l) = Ok l.
Proof. unfold nums. induction l as [|x l IH]; [reflexivity|]. cbn. cbn in IH. rewrite IH. reflexivity. Qed.
Lemma select_split : forall (orders : list Z) (f : Z -> bool) (l : list R), length orders = length l -> Rsum (select orders (fun z => f z) l) + Rsum (select orders (fun z => negb (f z)) l) = Rsum l.
Proof.
  unfold select. induction orders as [|o orders IH]; intros f [|x l] L; try discriminate; [cbn; lra|]. injection L as L. specialize (IH f l L). cbn [combine filter fst]. destruct (f o); cbn [negb map snd]; rewrite !Rsum_cons; lra.
Qed.
Lemma capture_areas : forall stats flt A orders z photons n c, capture stats flt A orders z photons n = Ok c -> Aeff0 c + Aeffgrat c = Rsum (Aeff c) /\ length (Aeff c) = length orders /\ length (Rper c) = length orders.
Proof.
  intros stats flt A orders z photons n c H. unfold capture in H. destruct (nums (effectivearea _ _ _ _)) as [aeff|] eqn:E; [|discriminate]. cbn [bind] in H.
  assert (LA : length orders = length aeff). { unfold nums in E. apply sequence_length in E. rewrite E, map_length. unfold effectivearea. now rewrite map_length. }
  injection H as <-. cbn [Aeff0 Aeffgrat Aeff Rper]. split; [|split; [now symmetry|]].
  - apply (select_split orders (fun z => Z.eqb z 0)). exact LA.
  - destruct (resolvingpower stats (filter res_filter photons) orders z) as [l|] eqn:R; [rewrite map_length; now apply resolving_length in R|apply repeat_length].
Qed.
Lemma capture_ok : forall stats flt A orders z photons n, counted n photons <> 0%nat -> NoDup orders -> exists c, capture stats flt A orders z photons n = Ok c /\
  Rsum (Aeff c) = A / INR (counted n photons) * Rsum (map a_prob (filter (fun p => existsb (Z.eqb (a_order p)) orders) (filter flt photons))).
Proof.
  intros stats flt A orders z photons n N ND. destruct (area_total (filter flt photons) orders _ A N ND) as (l & E & _ & T). unfold counted in *.
  unfold capture. rewrite E, nums_some. cbn [bind]. eexists. split; [reflexivity|]. exact T.
Qed.
Lemma filter_idem : forall {A} (f : A -> bool) l, filter f (filter f l) = filter f l.
Proof. induction l as [|x l IH]; [reflexivity|]. cbn. destruct (f x) eqn:E; cbn; [rewrite E, IH|rewrite IH]; reflexivity. Qed.
Lemma capture_res_ignores : forall stats flt A orders z photons n c photons' n' c', capture stats flt A orders z photons n = Ok c -> capture stats flt A orders z photons' n' = Ok c' ->
  filter res_filter photons = filter res_filter photons' -> Rper c = Rper c'.
Proof.
  intros stats flt A orders z photons n c photons' n' c' H H' E. unfold capture in H, H'. rewrite <- E in H'. destruct (nums _) as [a|] in H; [|discriminate]. destruct (nums _) as [a'|] in H'; [|discriminate].
  cbn [bind] in *. injection H as <-. injection H' as <-. reflexivity.
Qed.
(** ** projection *)
Lemma isclose1 : isclose 1 1 = true.
Proof. unfold isclose. destruct (Rle_dec _ _) as [|N]; [reflexivity|]. exfalso. apply N. rewrite Rminus_diag_eq by reflexivity. rewrite Rabs_R0, Rabs_R1. lra. Qed.
Lemma h2e_point : forall v, w4 v = 1 -> h2e [v] = Ok [xyz v].
Proof. intros v W. unfold h2e. cbn [forallb]. rewrite W, isclose1. cbn [andb]. rewrite orb_true_r. reflexivity. Qed.
Lemma h2e_dir : forall v, w4 v = 0 -> h2e [v] = Ok [xyz v].
Proof. intros v W. unfold h2e. cbn [forallb]. rewrite W. rewrite (proj2 (Reqb_true 0 0) eq_refl). reflexivity. Qed.
Lemma neg_add3 : forall a b, add3 (neg3 a) b = sub3 b a. Proof. intros [a b c] [d e f]. vring. Qed.
Lemma project_spec : forall m p, perpendicular_axes m -> w4 p = 1 -> exists ex ey ez x y h, plane_bases m = Some (ey, ez, ex) /\ orthonormal (M3 (xyz ex) (xyz ey) (xyz ez)) /\
  project m p = Ok (Some (x, y)) /\ xyz p = add3 (xyz (center m)) (add3 (add3 (scale3 h (xyz ex)) (scale3 x (xyz ey))) (scale3 y (xyz ez))).
Proof.
  intros m p P W. destruct (plane_bases_spec m P) as (ey & ez & ex & PB & O & W0 & W1 & W2 & _). destruct P as ((A0 & A1 & A2 & A3) & _).
  exists ex, ey, ez, (dot3 (sub3 (xyz p) (xyz (center m))) (xyz ey)), (dot3 (sub3 (xyz p) (xyz (center m))) (xyz ez)), (dot3 (sub3 (xyz p) (xyz (center m))) (xyz ex)).
  split; [exact PB|]. split; [exact O|]. split.
  - unfold project. rewrite (h2e_point (center m)) by exact A3. cbn [bind]. rewrite (h2e_point p) by exact W. cbn [bind]. unfold plane_bases in PB. destruct (e_x m), (e_y m) as [ey'|], (e_z m) as [ez'|]; try discriminate. injection PB as -> -> ->.
    rewrite (h2e_dir ey), (h2e_dir ez) by assumption. cbn [bind hd]. rewrite neg_add3. reflexivity.
  - rewrite <- (frame_decompose _ _ _ (sub3 (xyz p) (xyz (center m))) O). apply add_sub3.
Qed.
Lemma facet_polar : forall x y, 0 < x * x + y * y -> x = sqrt (y * y + x * x) * cos (atan2 y x) /\ y = sqrt (y * y + x * x) * sin (atan2 y x).
Proof.
  intros x y P. destruct (atan2_gen x y P) as [C S]. cbv zeta in C, S. rewrite C, S. rewrite (Rplus_comm (y * y)). assert (0 < sqrt (x * x + y * y)) by (now apply sqrt_lt_R0). split; field; lra.
Qed.
Lemma facet_rows : forall elems plane rows plane', facet_table elems plane = Ok (rows, plane') ->
  Forall2 (fun e r => f_id r = fst e /\ f_pos r = xyz (center (snd e)) /\ project (proj_pos4d plane) (center (snd e)) = Ok (Some (f_x r, f_y r)) /\
     f_rad r * f_rad r = f_x r * f_x r + f_y r * f_y r /\ 0 <= f_rad r /\
     f_x r = f_rad r * cos (f_ang r) /\ f_y r = f_rad r * sin (f_ang r)) elems rows /\
  plane' = Proj ("facet_projx", "facet_projy")%string (proj_pos4d plane).
Proof.
  intros elems plane rows plane' H. unfold facet_table in H. cbv zeta in H. destruct (sequence _) as [rows'|] eqn:S; [|discriminate]. cbn [bind] in H.
  assert (R : rows' = rows /\ Proj ("facet_projx", "facet_projy")%string (proj_pos4d plane) = plane') by (split; congruence). destruct R as [-> <-]. split; [|reflexivity].
  apply sequence_Forall2 in S. clear H. induction S as [|e r elems rows H S IH]; constructor; [|exact IH]. cbn [proj_pos4d] in H. destruct (project (proj_pos4d plane) (center (snd e))) as [[[x y]|]|] eqn:E; try discriminate.
  cbn [bind] in H. injection H as <-. cbn [f_id f_pos f_x f_y f_rad f_ang].
  assert (P : 0 <= y * y + x * x) by (assert (A := Rle_0_sqr x); assert (B := Rle_0_sqr y); unfold Rsqr in *; lra).
  split; [reflexivity|]. split; [reflexivity|]. split; [reflexivity|]. split; [rewrite sqrt_sqrt by exact P; ring|]. split; [apply sqrt_pos|].
  destruct (Req_dec (x * x + y * y) 0) as [Z|Z].
  - assert (A := Rle_0_sqr x). assert (B := Rle_0_sqr y). assert (x = 0) by (apply Rsqr_0_uniq; unfold Rsqr in *; lra). assert (y = 0) by (apply Rsqr_0_uniq; unfold Rsqr in *; lra). subst.
    replace (0 * 0 + 0 * 0) with 0 by ring. rewrite sqrt_0. lra.
  - apply facet_polar. lra.
Qed.
(** ** mean width *)
Lemma mean_shift : forall l s, l <> [] -> mean (map (fun x => x + s) l) = mean l + s.
Proof.
  intros l s N. unfold mean. rewrite map_length. assert (L : INR (length l) <> 0) by (apply not_0_INR; destruct l; [congruence|discriminate]).
  assert (X : Rsum (map (fun x => x + s) l) = Rsum l + INR (length l) * s). { clear. induction l as [|x l IH]; [cbn; lra|]. cbn [map length]. rewrite !Rsum_cons, IH, S_INR. lra. }
  rewrite X. field. exact L.
Qed.
Definition width_of (l : list (R * R)) : R :=
  let mx := mean (map fst l) in let my := mean (map snd l) in
  Rsum (map (fun p => sqrt ((fst p - mx) * (fst p - mx) + (snd p - my) * (snd p - my))) l) / INR (length l).
Lemma width_some : forall l, l <> [] -> mean_width_2d l = Some (width_of l).
Proof. intros [|p l] N; [congruence|reflexivity]. Qed.
Lemma width_shift : forall l sx sy, mean_width_2d (map (fun p => (fst p + sx, snd p + sy)) l) = mean_width_2d l.
Proof.
  intros l sx sy. destruct l as [|p l0]; [reflexivity|]. set (q := p :: l0). assert (N : q <> []) by discriminate. clearbody q. clear p l0.
  rewrite !width_some by (destruct q; [congruence|discriminate]). f_equal. unfold width_of.
  assert (MX : mean (map fst (map (fun p => (fst p + sx, snd p + sy)) q)) = mean (map fst q) + sx) by (rewrite <- mean_shift by (destruct q; [congruence|discriminate]); now rewrite !map_map).
  assert (MY : mean (map snd (map (fun p => (fst p + sx, snd p + sy)) q)) = mean (map snd q) + sy) by (rewrite <- mean_shift by (destruct q; [congruence|discriminate]); now rewrite !map_map).
  rewrite MX, MY, map_map, map_length. cbv zeta. f_equal. f_equal. apply map_ext. intros r. cbn [fst snd]. f_equal. ring.
Qed.
Lemma Rsum_affine : forall a b c (l : list (R * R)), Rsum (map (fun p => a * fst p + b * snd p + c) l) = a * Rsum (map fst l) + b * Rsum (map snd l) + c * INR (length l).
Proof.
  intros a b c. induction l as [|p l IH]; [cbn; ring|]. cbn [map]. rewrite !Rsum_cons, IH. cbn [length]. rewrite S_INR. ring.
Qed.
Lemma width_similar : forall l a b sx sy w, mean_width_2d l = Some w -> mean_width_2d (map (fun p => (a * fst p - b * snd p + sx, b * fst p + a * snd p + sy)) l) = Some (sqrt (a * a + b * b) * w).
Proof.
  intros l a b sx sy w H. assert (N : l <> []) by (intros ->; discriminate). rewrite width_some in H by exact N. assert (W : w = width_of l) by congruence. subst w.
  rewrite width_some by (intros E; now apply map_eq_nil in E). apply (f_equal Some). unfold width_of. rewrite !map_map, map_length. cbn [fst snd].
  assert (L : INR (length l) <> 0) by (apply not_0_INR; destruct l; [now destruct N|discriminate]).
  assert (MX : mean (map (fun p => a * fst p - b * snd p + sx) l) = a * mean (map fst l) - b * mean (map snd l) + sx).
  { unfold mean. rewrite !map_length. rewrite (map_ext _ (fun p => a * fst p + (- b) * snd p + sx)) by (intros; ring). rewrite Rsum_affine. field. exact L. }
  assert (MY : mean (map (fun p => b * fst p + a * snd p + sy) l) = b * mean (map fst l) + a * mean (map snd l) + sy).
  { unfold mean. rewrite !map_length. rewrite Rsum_affine. field. exact L. }
  rewrite MX, MY. set (mx := mean (map fst l)). set (my := mean (map snd l)). unfold Rdiv. rewrite <- Rmult_assoc. f_equal. rewrite <- Rsum_scale, map_map. f_equal. apply map_ext. intros [x y]. cbn [fst snd].
  rewrite <- sqrt_mult by (pose proof (Rle_0_sqr a); pose proof (Rle_0_sqr b); pose proof (Rle_0_sqr (x - mx)); pose proof (Rle_0_sqr (y - my)); unfold Rsqr in *; lra). f_equal. ring.
Qed.
Lemma width_perm : forall l l', Permutation l l' -> mean_width_2d l = mean_width_2d l'.
Proof.
  intros l l' P. destruct l as [|p l]; [apply Permutation_nil in P; now subst|]. assert (N' : l' <> []) by (intros ->; apply Permutation_sym, Permutation_nil in P; discriminate).
  rewrite !width_some by (discriminate || exact N'). apply (f_equal Some). unfold width_of, mean. rewrite !map_length.
  rewrite (Rsum_perm _ _ (Permutation_map fst P)), (Rsum_perm _ _ (Permutation_map snd P)), (Permutation_length P).
  f_equal. apply Rsum_perm, Permutation_map, P.
Qed.
Lemma fraction_value : forall ph labels k o, ph <> [] -> nth_error labels k = Some o ->
  nth_error (detected_fraction ph labels) k = Some (Some (Rsum (map (fun p => if Z.eq_dec (a_order p) o then a_prob p else 0) ph) / INR (length ph))).
Proof.
  intros ph labels k o N L. rewrite fraction_some by exact N. rewrite map_map, nth_error_map, L. cbn [option_map]. do 3 f_equal. unfold prob_in. clear.
  induction ph as [|p ph IH]; [reflexivity|]. cbn [filter map]. rewrite Rsum_cons, <- IH. destruct (Z.eq_dec (a_order p) o) as [->|E]; [now rewrite Z.eqb_refl|].
  apply Z.eqb_neq in E. rewrite E. lra.
Qed.
Lemma Rsum_zero : forall l, Forall (fun x => 0 <= x) l -> Rsum l = 0 -> Forall (fun x => x = 0) l.
Proof. induction 1 as [|x l X F IH]; intros S; constructor; rewrite Rsum_cons in S; assert (Y := Rsum_ge0 l F); [lra|]. apply IH. lra. Qed.
Lemma mean_const : forall l v, l <> [] -> Forall (fun x => x = v) l -> mean l = v.
Proof.
  intros l v N F. unfold mean. assert (L : INR (length l) <> 0) by (apply not_0_INR; destruct l; [congruence|discriminate]).
  assert (X : Rsum l = INR (length l) * v). { clear - F. induction F as [|x l -> F IH]; [cbn; lra|]. cbn [length]. rewrite Rsum_cons, IH, S_INR. lra. } rewrite X. field. exact L.
Qed.
Lemma width_zero : forall l w, mean_width_2d l = Some w -> 0 <= w /\ (w = 0 <-> exists q, Forall (fun p => p = q) l).
Proof.
  intros l w H. destruct l as [|p l]; [discriminate|]. set (q := p :: l) in *. assert (NQ : q <> []) by discriminate. unfold mean_width_2d in H.
  assert (H' : Some (Rsum (map (fun p => sqrt ((fst p - mean (map fst q)) * (fst p - mean (map fst q)) + (snd p - mean (map snd q)) * (snd p - mean (map snd q)))) q) / INR (length q)) = Some w) by (unfold q in *; exact H).
  clear H. clearbody q. set (mx := mean (map fst q)) in *. set (my := mean (map snd q)) in *. injection H' as <-.
  assert (L : 0 < INR (length q)) by (apply lt_0_INR; destruct q; [congruence|cbn; lia]).
  assert (F : Forall (fun x => 0 <= x) (map (fun p => sqrt ((fst p - mx) * (fst p - mx) + (snd p - my) * (snd p - my))) q)) by (apply Forall_map, Forall_forall; intros; apply sqrt_pos).
  assert (G := Rsum_ge0 _ F). split; [apply Rmult_le_pos; [exact G|]; apply Rlt_le, Rinv_0_lt_compat, L|]. split.
  - intros Z. assert (S : Rsum (map (fun p => sqrt ((fst p - mx) * (fst p - mx) + (snd p - my) * (snd p - my))) q) = 0).
    { apply Rmult_eq_reg_r with (/ INR (length q)); [rewrite Rmult_0_l; exact Z|]. apply Rinv_neq_0_compat. lra. }
    apply Rsum_zero in S; [|exact F]. rewrite Forall_map in S. exists (mx, my). eapply Forall_impl; [|exact S]. cbn. intros [a b] E. cbn in E.
    assert (A := Rle_0_sqr (a - mx)). assert (B := Rle_0_sqr (b - my)). apply sqrt_eq_0 in E; [|unfold Rsqr in *; lra].
    assert (a - mx = 0) by (apply Rsqr_0_uniq; unfold Rsqr in *; lra). assert (b - my = 0) by (apply Rsqr_0_uniq; unfold Rsqr in *; lra). f_equal; lra.
  - intros ((a & b) & C). assert (MX : mx = a). { apply mean_const; [destruct q; [congruence|discriminate]|]. apply Forall_map. eapply Forall_impl; [|exact C]. intros r ->. reflexivity. }
    assert (MY : my = b). { apply mean_const; [destruct q; [congruence|discriminate]|]. apply Forall_map. eapply Forall_impl; [|exact C]. intros r ->. reflexivity. }
    rewrite MX, MY. assert (X : Rsum (map (fun p => sqrt ((fst p - a) * (fst p - a) + (snd p - b) * (snd p - b))) q) = 0).
    { clear - C. induction C as [|x q -> C IH]; [reflexivity|]. cbn [map]. rewrite Rsum_cons, IH. cbn [fst snd]. replace ((a - a) * (a - a) + (b - b) * (b - b)) with 0 by ring. rewrite sqrt_0. lra. }
    rewrite X. unfold Rdiv. now rewrite Rmult_0_l.
Qed.
