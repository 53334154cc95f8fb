(** Proofs for RayGrid_Model: resolving power, table and header, angles of dispersion. *)
From Coq Require Import Permutation Sorted.
From Verif Require Export RayGrid_Proofs.
From Verif Require Import Base_Proofs Meta_Proofs Vec_Proofs Placement_Proofs Osip_Proofs Analysis_Proofs Analysis_Proofs2 Fits_Proofs.
Open Scope R_scope.

(** ** resolving power *)
Lemma capture_R stats flt A orders z ph n c : capture stats flt A orders (Some z) ph n = Ok c ->
  Rper c = map (fun o => let '(pos, std) := line_stats stats (filter res_filter ph) o in num_div (num_sub_abs pos (Some z)) (num_mul std (Some (23548 / 10000)))) orders.
Proof.
  unfold capture. destruct (nums _) as [ae|]; [|discriminate]. cbn [bind]. destruct (average_R_Aeff _ _) as [avg ag]. intros H. injection H as <-. cbn [Rper]. unfold resolvingpower. cbn [bind].
  rewrite map_map. apply map_ext. intros o. destruct (line_stats _ _ _). reflexivity.
Qed.
(** photons of the channel number [a] that count for the resolving power of the order [o] *)
Definition res_photons (a : nat) (o : Z) (l : list gphot) : list gphot :=
  filter (fun p => Nat.eqb (aper_id p) a && Z.eqb (g_L1 p) 0 && res_filter (g_ph p) && Z.eqb (a_order (g_ph p)) o)%bool l.
Lemma res_coords a o l : coords_of (filter res_filter (channel_photons a l)) o = map (fun p => a_coord (g_ph p)) (res_photons a o l).
Proof.
  unfold coords_of, channel_photons, res_photons. induction l as [|p l IH]; [reflexivity|]. cbn [filter].
  destruct (Nat.eqb (aper_id p) a); cbn [andb]; [|exact IH]. destruct (Z.eqb (g_L1 p) 0); cbn [andb]; [|exact IH]. cbn [map filter]. destruct (res_filter (g_ph p)); cbn [andb]; [|exact IH].
  cbn [filter]. destruct (Z.eqb (a_order (g_ph p)) o); [|exact IH]. cbn [map]. f_equal. exact IH.
Qed.
Lemma channel_R stats conf orders s a ch c z j : analyze_channel stats conf orders s (a, ch) = Ok c -> zeropos "circ_phi" ch conf = Ok (Some z) -> (j < List.length orders)%nat ->
  let l := map (fun p => a_coord (g_ph p)) (res_photons a (nth j orders 0%Z) (s_photons s)) in
  nth j (fst c) None = if Nat.ltb 20 (List.length l) then num_div (num_sub_abs (fst (stats l)) (Some z)) (num_mul (snd (stats l)) (Some (23548 / 10000))) else None.
Proof.
  intros H Z J l. destruct (channel_ok _ _ _ _ _ _ _ H) as (A & e & z' & cap & _ & _ & Z' & C & ->). rewrite Z in Z'. injection Z' as <-. cbn [fst].
  rewrite (capture_R _ _ _ _ _ _ _ _ C). set (g := fun o => _). rewrite nth_indep with (d' := g 0%Z) by (rewrite map_length; exact J). rewrite map_nth. unfold g, line_stats. rewrite res_coords. fold l.
  destruct (Nat.ltb 20 (List.length l)); [destruct (stats l); reflexivity|reflexivity].
Qed.
Lemma sim_R stats conf orders ref s res a ch z j m sd : analyze_sim stats conf orders ref s = Ok res -> nth_error (combine (seq 1 4) ["1"; "2"; "1m"; "2m"]%string) a = Some (S a, ch) ->
  zeropos "circ_phi" ch conf = Ok (Some z) -> (j < List.length orders)%nat ->
  let l := map (fun p => a_coord (g_ph p)) (res_photons (S a) (nth j orders 0%Z) (s_photons s)) in
  exists c, nth_error res a = Some c /\
  ((List.length l <= 20)%nat -> nth j (fst c) None = None) /\
  ((20 < List.length l)%nat -> stats l = (Some m, Some sd) -> 0 < sd -> nth j (fst c) None = Some (Rabs (m - z) / (sd * (23548 / 10000)))).
Proof.
  intros H E Z J l. apply sim_channels in H.
  inversion H as [|x1 c1 l1 r1 H1 T1]; subst. inversion T1 as [|x2 c2 l2 r2 H2 T2]; subst. inversion T2 as [|x3 c3 l3 r3 H3 T3]; subst. inversion T3 as [|x4 c4 l4 r4 H4 T4]; subst. inversion T4; subst.
  assert (G : exists c, nth_error [c1; c2; c3; c4] a = Some c /\ analyze_channel stats conf orders s (S a, ch) = Ok c).
  { destruct a as [|[|[|[|a]]]]; cbn in E; try (destruct a; discriminate); injection E as <-; eexists; (split; [reflexivity|assumption]). }
  destruct G as (c & Ec & Hc). exists c. split; [exact Ec|]. pose proof (channel_R _ _ _ _ _ _ _ _ _ Hc Z J) as X. cbv zeta in X. fold l in X. rewrite X. split.
  - intros L. rewrite (proj2 (Nat.ltb_ge _ _)) by exact L. reflexivity.
  - intros L ES P. rewrite (proj2 (Nat.ltb_lt _ _)) by exact L. rewrite ES. cbn [fst snd num_sub_abs num_mul]. rewrite num_div_some; [reflexivity|nra].
Qed.

(** ** header *)
Lemma append_inj p a b : String.append p a = String.append p b -> a = b.
Proof. induction p as [|c p IH]; cbn; [auto|]. intros H. injection H as H. auto. Qed.
Lemma order_key_inj i j : order_key i = order_key j -> i = j.
Proof. unfold order_key. intros H. apply append_inj, str_int_inj in H. lia. Qed.
Definition put_orders (s : nat) (orders : list Z) (h : dict mval) : dict mval :=
  fold_left (fun h io => dset (order_key (fst io)) (MOrder (snd io)) h) (combine (seq s (List.length orders)) orders) h.
Lemma put_other : forall orders s h k, (forall i, (s <= i < s + List.length orders)%nat -> k <> order_key i) -> dget k (put_orders s orders h) = dget k h.
Proof.
  induction orders as [|o orders IH]; intros s h k N; [reflexivity|]. unfold put_orders. cbn [List.length seq combine fold_left fst snd]. change (dget k (put_orders (S s) orders (dset (order_key s) (MOrder o) h)) = dget k h).
  rewrite IH by (intros i I; apply N; cbn [List.length]; lia). apply dget_dset_neq. intros E. apply (N s); [cbn [List.length]; lia|congruence].
Qed.
Lemma put_order : forall orders s h i, (i < List.length orders)%nat -> dget (order_key (s + i)) (put_orders s orders h) = Some (MOrder (nth i orders 0%Z)).
Proof.
  induction orders as [|o orders IH]; intros s h i I; [cbn in I; lia|]. unfold put_orders. cbn [List.length seq combine fold_left fst snd].
  change (dget (order_key (s + i)) (put_orders (S s) orders (dset (order_key s) (MOrder o) h)) = Some (MOrder (nth i (o :: orders) 0%Z))).
  destruct i as [|i].
  - rewrite Nat.add_0_r, put_other; [apply dget_dset_eq|]. intros i J E. apply order_key_inj in E. lia.
  - replace (s + S i)%nat with (S s + i)%nat by lia. rewrite IH by (cbn in I; lia). reflexivity.
Qed.
Lemma collect_some : forall n fuel i h (v : nat -> mval), (forall k, (k < n)%nat -> dget (order_key (i + k)) h = Some (v k)) -> dget (order_key (i + n)) h = None -> (n <= fuel)%nat ->
  collect_orders fuel i h = map v (seq 0 n).
Proof.
  induction n as [|n IH]; intros fuel i h v G N F.
  - rewrite Nat.add_0_r in N. destruct fuel; [reflexivity|]. cbn [collect_orders]. rewrite N. reflexivity.
  - destruct fuel as [|fuel]; [lia|]. cbn [collect_orders]. assert (G0 := G 0%nat ltac:(lia)). rewrite Nat.add_0_r in G0. rewrite G0. cbn [seq map]. f_equal.
    rewrite (IH fuel (S i) h (fun k => v (S k))).
    + rewrite <- seq_shift, map_map. reflexivity.
    + intros k K. replace (S i + k)%nat with (i + S k)%nat by lia. apply G. lia.
    + replace (S i + n)%nat with (i + S n)%nat by lia. exact N.
    + lia.
Qed.
Lemma keys_pigeon (h : dict mval) n : (forall k, (k < n)%nat -> dget (order_key k) h <> None) -> (n <= List.length h)%nat.
Proof.
  intros G. assert (ND : NoDup (map order_key (seq 0 n))).
  { assert (X : forall m s, NoDup (map order_key (seq s m))).
    { induction m as [|m IH]; intros s; [constructor|]. cbn. constructor; [|apply IH]. intros I. apply in_map_iff in I. destruct I as (j & E & J). apply order_key_inj in E. apply in_seq in J. lia. }
    apply X. }
  apply NoDup_incl_length with (l' := dkeys h) in ND.
  - unfold dkeys in ND. rewrite !map_length, seq_length in ND. exact ND.
  - intros k I. apply in_map_iff in I. destruct I as (j & <- & J). apply in_seq in J. destruct (in_dec String.string_dec (order_key j) (dkeys h)) as [Y|Y]; [exact Y|]. apply dget_none_notin in Y. exfalso. apply (G j); [lia|exact Y].
Qed.
Lemma orders_read h n v : (forall k, (k < n)%nat -> dget (order_key k) h = Some (v k)) -> dget (order_key n) h = None -> orders_from_meta h = map v (seq 0 n).
Proof.
  intros G N. unfold orders_from_meta. apply collect_some; [exact G|exact N|]. apply keys_pigeon. intros k K. rewrite G by exact K. discriminate.
Qed.
Lemma map_seq_orders orders : map (fun k => MOrder (nth k orders 0%Z)) (seq 0 (List.length orders)) = map MOrder orders.
Proof.
  apply nth_ext with (d := MOrder 0) (d' := MOrder 0); [now rewrite !map_length, seq_length|]. intros j J. rewrite map_length, seq_length in J.
  rewrite nth_indep with (d' := (fun k => MOrder (nth k orders 0%Z)) 0%nat) by (rewrite map_length, seq_length; exact J).
  rewrite (map_nth (fun k => MOrder (nth k orders 0%Z))), seq_nth by exact J. rewrite (map_nth MOrder). reflexivity.
Qed.
Lemma orders_round_trip h orders : dget (order_key (List.length orders)) h = None -> orders_from_meta (add_orders h orders) = map MOrder orders.
Proof.
  intros N. change (add_orders h orders) with (put_orders 0 orders h). rewrite <- map_seq_orders. apply orders_read.
  - intros k K. apply (put_order orders 0 h k K).
  - rewrite put_other; [exact N|]. intros i I E. apply order_key_inj in E. lia.
Qed.
(** the number of turns is never the reason for the end of the loop *)
Lemma orders_all h n : (forall k, (k < n)%nat -> dget (order_key k) h <> None) -> dget (order_key n) h = None -> List.length (orders_from_meta h) = n.
Proof.
  intros G N. rewrite (orders_read h n (fun k => match dget (order_key k) h with Some v => v | None => MOrder 0 end)); [now rewrite map_length, seq_length| |exact N].
  intros k K. specialize (G k K). destruct (dget (order_key k) h); congruence.
Qed.

(** ** rows *)
Lemma insert_sim_perm s l : Permutation (insert_sim s l) (s :: l).
Proof. induction l as [|a l IH]; cbn [insert_sim]; [reflexivity|]. destruct (String.leb _ _); [reflexivity|]. rewrite IH. apply perm_swap. Qed.
Lemma sort_sims_perm l : Permutation (sort_sims l) l.
Proof. induction l as [|a l IH]; cbn; [reflexivity|]. rewrite insert_sim_perm. constructor. exact IH. Qed.
Definition sim_le (a b : sim) : Prop := String.leb (s_name a) (s_name b) = true.
Lemma insert_sim_sorted s l : Sorted sim_le l -> Sorted sim_le (insert_sim s l).
Proof.
  induction 1 as [|a l S IH H]; cbn [insert_sim]; [repeat constructor|].
  destruct (String.leb (s_name s) (s_name a)) eqn:E; [constructor; [constructor; assumption|constructor; exact E]|].
  assert (A : String.leb (s_name a) (s_name s) = true) by (destruct (String.leb_total (s_name a) (s_name s)) as [X|X]; [exact X|congruence]).
  constructor; [exact IH|]. destruct l as [|b l]; cbn [insert_sim]; [constructor; exact A|].
  destruct (String.leb (s_name s) (s_name b)); constructor; [exact A|]. inversion H; assumption.
Qed.
Lemma sort_sims_sorted l : Sorted sim_le (sort_sims l).
Proof. induction l as [|a l IH]; cbn; [constructor|]. apply insert_sim_sorted, IH. Qed.
Definition row_of stats conf orders as_array hc ref s row := grid_row stats conf orders as_array hc ref s = Ok row.
Lemma grid_rows stats conf orders arr allow hc files rows h : aeffRfromraygrid stats conf orders arr allow hc files = Ok (rows, h) ->
  exists first rest, sort_sims files = first :: rest /\ Permutation (first :: rest) files /\ Sorted sim_le (first :: rest) /\
  h = add_orders (sim_header first) orders /\ Forall2 (row_of stats conf orders arr hc (if allow then None else Some (s_meta first))) (first :: rest) rows.
Proof.
  unfold aeffRfromraygrid. destruct (sort_sims files) as [|first rest] eqn:E; [discriminate|]. intros H.
  destruct (sequence _) as [rr|] eqn:Q; [|discriminate]. cbn [bind] in H. injection H as <- <-. exists first, rest. split; [reflexivity|]. split; [rewrite <- E; apply sort_sims_perm|]. split; [rewrite <- E; apply sort_sims_sorted|].
  split; [reflexivity|]. apply sequence_Forall2 in Q. exact Q.
Qed.
Lemma row_parts stats conf orders arr hc ref s row : row_of stats conf orders arr hc ref s row -> exists e, s_energy s = Some e /\ gr_energy row = e /\ gr_wave row = hc / e /\
  analyze_sim stats conf orders ref s = Ok (gr_each row) /\ gr_four row = map (over_channels (gr_each row)) (seq 0 (List.length orders)) /\ gr_disp row = dispersed arr orders (gr_four row).
Proof.
  unfold row_of, grid_row, need. destruct (analyze_sim _ _ _ _ _) as [ch|]; [|discriminate]. cbn [bind]. destruct (s_energy s) as [e|]; [|discriminate]. cbn [bind]. intros H. injection H as <-. exists e. cbn. auto 10.
Qed.
Definition area_total_of (A : R) (n : nat) (s : sim) (o : Z) : R := A / INR n * wsum (fun p => (0 <=? g_xou p)%Z && counts p o)%bool (s_photons s).
Lemma four_areas stats conf orders arr hc ref s row A e : row_of stats conf orders arr hc ref s row -> s_area s = Some A -> s_exposure s = Some e ->
  map snd (gr_four row) = map (area_total_of A (n_of e) s) orders.
Proof.
  intros H EA EE. destruct (row_parts _ _ _ _ _ _ _ _ H) as (en & _ & _ & _ & HA & -> & _).
  apply nth_ext with (d := 0) (d' := area_total_of A (n_of e) s 0%Z); [now rewrite !map_length, seq_length|]. rewrite !map_length, seq_length. intros j J.
  rewrite map_nth. rewrite map_map. rewrite nth_indep with (d' := (fun x => snd (over_channels (gr_each row) x)) 0%nat) by (rewrite map_length, seq_length; exact J).
  rewrite (map_nth (fun x => snd (over_channels (gr_each row) x))), seq_nth by exact J. cbn [Nat.add]. unfold over_channels, average_R_Aeff. cbn [snd].
  rewrite (sum_channels _ _ _ _ _ _ _ _ _ HA EA EE J). reflexivity.
Qed.
Lemma select_map (f : Z -> bool) (g : Z -> R) l : select l f (map g l) = map g (filter f l).
Proof. unfold select. induction l as [|x l IH]; [reflexivity|]. cbn [map combine filter fst]. destruct (f x); cbn [map snd]; now rewrite IH. Qed.
Lemma wsum_orders (f : gphot -> bool) orders l : NoDup orders ->
  Rsum (map (fun o => wsum (fun p => f p && counts p o)%bool l) orders) =
  wsum (fun p => f p && (Z.eqb (g_L1 p) 0 && (0 <=? a_ccd (g_ph p))%Z) && existsb (Z.eqb (a_order (g_ph p))) orders)%bool l.
Proof.
  intros N. induction l as [|p l IH].
  - cbn. clear N. induction orders as [|o r IH]; [reflexivity|]. cbn [map]. rewrite Rsum_cons, IH. cbn. lra.
  - rewrite wsum_cons, <- IH. clear IH.
    assert (G : forall orders, NoDup orders -> Rsum (map (fun o => wsum (fun p => f p && counts p o)%bool (p :: l)) orders) =
       (if (f p && (Z.eqb (g_L1 p) 0 && (0 <=? a_ccd (g_ph p))%Z) && existsb (Z.eqb (a_order (g_ph p))) orders)%bool then a_prob (g_ph p) else 0) + Rsum (map (fun o => wsum (fun p => f p && counts p o)%bool l) orders)).
    { clear N orders. intros orders N. induction N as [|o r NI N IH]; [cbn; rewrite andb_false_r; lra|]. cbn [map existsb]. rewrite !Rsum_cons, IH, wsum_cons. unfold counts at 1.
      destruct (f p); cbn [andb]; [|lra]. destruct (g_L1 p =? 0)%Z; cbn [andb]; [|lra]. destruct (0 <=? a_ccd (g_ph p))%Z; cbn [andb]; [|lra].
      destruct (Z.eqb_spec (a_order (g_ph p)) o) as [E|E]; cbn [orb]; [|lra].
      replace (existsb (Z.eqb (a_order (g_ph p))) r) with false; [lra|]. symmetry. destruct (existsb _ r) eqn:X; [|reflexivity]. apply existsb_exists in X. destruct X as (y & Y & F). apply Z.eqb_eq in F. congruence. }
    apply G, N.
Qed.
Lemma disp_total stats conf orders hc ref s row A e : row_of stats conf orders true hc ref s row -> s_area s = Some A -> s_exposure s = Some e -> NoDup orders ->
  exists v, gr_disp row = Total (v, A / INR (n_of e) * wsum (fun p => (0 <=? g_xou p)%Z && (Z.eqb (g_L1 p) 0 && (0 <=? a_ccd (g_ph p))%Z) && existsb (Z.eqb (a_order (g_ph p))) (filter (fun z => negb (Z.eqb z 0)) orders))%bool (s_photons s)).
Proof.
  intros H EA EE N. pose proof (four_areas _ _ _ _ _ _ _ _ _ _ H EA EE) as F. destruct (row_parts _ _ _ _ _ _ _ _ H) as (en & _ & _ & _ & _ & _ & ->).
  unfold dispersed. rewrite F, select_map. unfold average_R_Aeff at 1. eexists. f_equal. f_equal.
  rewrite <- (wsum_orders (fun p => (0 <=? g_xou p)%Z) (filter (fun z => negb (Z.eqb z 0)) orders) (s_photons s)) by (now apply NoDup_filter).
  rewrite <- Rsum_scale, map_map. reflexivity.
Qed.
Lemma disp_list stats conf orders hc ref s row : row_of stats conf orders false hc ref s row ->
  exists l, gr_disp row = PerOrder l /\ List.length l = List.length orders /\ map snd l = map snd (gr_four row).
Proof.
  intros H. destruct (row_parts _ _ _ _ _ _ _ _ H) as (en & _ & _ & _ & _ & F & ->). unfold dispersed. eexists. split; [reflexivity|]. split; [rewrite F, !map_length, seq_length; reflexivity|].
  rewrite map_map. apply map_ext. intros v. unfold average_R_Aeff. cbn. lra.
Qed.

(** ** inscribed angle *)
Lemma cross_circle r h a b g : cross_from (place_at r h g) (place_at r h a) (place_at r h b) = 4 * (r * r) * (sin ((a - g) / 2) * sin ((b - g) / 2)) * sin ((b - a) / 2).
Proof.
  unfold cross_from, place_at. cbn [fst snd].
  assert (X : forall u w, sin u - sin w = 2 * sin ((u - w) / 2) * cos ((u + w) / 2)).
  { intros u w. replace u with ((u + w) / 2 + (u - w) / 2) at 1 by field. replace w with ((u + w) / 2 - (u - w) / 2) at 3 by field. rewrite sin_plus, sin_minus. ring. }
  assert (Y : forall u w, cos u - cos w = - 2 * sin ((u - w) / 2) * sin ((u + w) / 2)).
  { intros u w. replace u with ((u + w) / 2 + (u - w) / 2) at 1 by field. replace w with ((u + w) / 2 - (u - w) / 2) at 3 by field. rewrite cos_plus, cos_minus. ring. }
  replace (r * sin a - r * sin g) with (r * (sin a - sin g)) by ring. replace (r * sin b - r * sin g) with (r * (sin b - sin g)) by ring.
  replace (h - r * cos b - (h - r * cos g)) with (- r * (cos b - cos g)) by ring. replace (h - r * cos a - (h - r * cos g)) with (- r * (cos a - cos g)) by ring.
  rewrite !X, !Y. replace ((b - a) / 2) with ((b + g) / 2 - (a + g) / 2) by field. rewrite sin_minus. ring.
Qed.
Lemma dot_circle r h a b g : dot_from (place_at r h g) (place_at r h a) (place_at r h b) = 4 * (r * r) * (sin ((a - g) / 2) * sin ((b - g) / 2)) * cos ((b - a) / 2).
Proof.
  unfold dot_from, place_at. cbn [fst snd].
  assert (X : forall u w, sin u - sin w = 2 * sin ((u - w) / 2) * cos ((u + w) / 2)).
  { intros u w. replace u with ((u + w) / 2 + (u - w) / 2) at 1 by field. replace w with ((u + w) / 2 - (u - w) / 2) at 3 by field. rewrite sin_plus, sin_minus. ring. }
  assert (Y : forall u w, cos u - cos w = - 2 * sin ((u - w) / 2) * sin ((u + w) / 2)).
  { intros u w. replace u with ((u + w) / 2 + (u - w) / 2) at 1 by field. replace w with ((u + w) / 2 - (u - w) / 2) at 3 by field. rewrite cos_plus, cos_minus. ring. }
  replace (r * sin a - r * sin g) with (r * (sin a - sin g)) by ring. replace (r * sin b - r * sin g) with (r * (sin b - sin g)) by ring.
  replace (h - r * cos b - (h - r * cos g)) with (- r * (cos b - cos g)) by ring. replace (h - r * cos a - (h - r * cos g)) with (- r * (cos a - cos g)) by ring.
  rewrite !X, !Y. replace ((b - a) / 2) with ((b + g) / 2 - (a + g) / 2) by field. rewrite cos_minus. ring.
Qed.
Lemma tg_ok mc conf period ch phi y ax z : zeropos "circ_phi" ch mc = Ok (Some z) -> dget ch (gc_axes conf) = Some ax -> exists t, tg_resolve mc conf period ch (Some phi) (Some y) = Ok t /\
  tg_r t = Some ((phi - z) / 2) /\ tg_mlam t = Some (cos (gc_blaze conf) * period * sin ((phi - z) / 2)) /\
  (2 * gc_rc conf * cos (z - phi) <> 0 -> tg_d t = Some (atan ((y4 ax - y) / (2 * gc_rc conf * cos (z - phi))))).
Proof.
  intros Z E. unfold tg_resolve. rewrite Z. cbn [bind]. unfold lookup. rewrite E. cbn [bind num1 num2]. eexists. split; [reflexivity|]. cbn [tg_r tg_d tg_mlam].
  replace (- (z - phi) / 2) with ((phi - z) / 2) by field. split; [reflexivity|]. split; [reflexivity|]. intros N. unfold num_atan. now rewrite (proj2 (Reqb_false _ _)) by exact N.
Qed.

(** ** success *)
Lemma n_of_pos e : 1 <= e -> n_of e <> 0%nat.
Proof. intros H. unfold n_of. assert (1 <= Rfloor e)%Z; [|lia]. destruct (Rfloor_spec e) as [_ B]. assert (0 < Rfloor e)%Z; [|lia]. apply lt_IZR. lra. Qed.
Lemma zeropos_total ch conf : In ch (dkeys (gc_axes conf)) -> exists z, zeropos "circ_phi" ch conf = Ok z.
Proof.
  intros I. destruct (dget ch (gc_axes conf)) as [ax|] eqn:E.
  - destruct (zeropos_ok _ _ _ E) as (X & _). eauto.
  - exfalso. apply dget_none_notin in E. contradiction.
Qed.
Lemma channel_total stats conf orders s A e a ch : s_area s = Some A -> s_exposure s = Some e -> 1 <= e -> NoDup orders -> In ch (dkeys (gc_axes conf)) ->
  exists c, analyze_channel stats conf orders s (a, ch) = Ok c.
Proof.
  intros EA EE P N I. destruct (zeropos_total ch conf I) as (z & Z). unfold analyze_channel, need. cbn [fst snd]. rewrite EA, Z, EE. cbn [bind].
  destruct (capture_ok stats on_ccd A orders (Some (match z with Some z => z | None => 0 end)) (channel_photons a (s_photons s)) (Some (Z.to_nat (Rfloor e)))) as (c & -> & _);
    [cbn [counted]; now apply n_of_pos|exact N|]. cbn [bind]. eauto.
Qed.
Lemma sim_total stats conf orders ref s A e : s_area s = Some A -> s_exposure s = Some e -> 1 <= e -> NoDup orders -> (forall ch, In ch ["1"; "2"; "1m"; "2m"]%string -> In ch (dkeys (gc_axes conf))) ->
  match ref with Some m => check_meta (s_meta s) m meta_keywords true = Ok tt | None => True end -> check_energy (s_en s) = Ok tt -> exists res, analyze_sim stats conf orders ref s = Ok res.
Proof.
  intros EA EE P N C M E. unfold analyze_sim. replace (match ref with Some m => check_meta (s_meta s) m meta_keywords true | None => Ok tt end) with (Ok tt) by (destruct ref; congruence).
  cbn [bind]. rewrite E. cbn [bind map fst id_num_offset combine seq sequence].
  destruct (channel_total stats conf orders s A e 1 "1" EA EE P N (C "1"%string ltac:(cbn; tauto))) as (c1 & ->). destruct (channel_total stats conf orders s A e 2 "2" EA EE P N (C "2"%string ltac:(cbn; tauto))) as (c2 & ->).
  destruct (channel_total stats conf orders s A e 3 "1m" EA EE P N (C "1m"%string ltac:(cbn; tauto))) as (c3 & ->). destruct (channel_total stats conf orders s A e 4 "2m" EA EE P N (C "2m"%string ltac:(cbn; tauto))) as (c4 & ->).
  cbn. eauto.
Qed.
Lemma sim_checked stats conf orders m s res : analyze_sim stats conf orders (Some m) s = Ok res -> (forall k, In k meta_keywords -> dget k (s_meta s) = dget k m) /\ check_energy (s_en s) = Ok tt.
Proof.
  unfold analyze_sim. destruct (check_meta _ _ _ _) as [[]|] eqn:E; [|discriminate]. cbn [bind]. destruct (check_energy _) as [[]|]; [|discriminate]. intros _. split; [|reflexivity].
  intros k I. apply check_meta_iff in E. rewrite Forall_forall in E. apply E, I.
Qed.
Lemma grid_total stats conf orders arr hc s A e en : s_area s = Some A -> s_exposure s = Some e -> 1 <= e -> s_energy s = Some en -> NoDup orders ->
  (forall ch, In ch ["1"; "2"; "1m"; "2m"]%string -> In ch (dkeys (gc_axes conf))) -> check_energy (s_en s) = Ok tt -> exists row, aeffRfromraygrid stats conf orders arr true hc [s] = Ok ([row], add_orders (sim_header s) orders).
Proof.
  intros EA EE P EN N C E. destruct (sim_total stats conf orders None s A e EA EE P N C I E) as (res & H). unfold aeffRfromraygrid. cbn [sort_sims fold_right insert_sim map sequence].
  unfold grid_row. rewrite H. cbn [bind]. unfold need. rewrite EN. cbn [bind]. eauto.
Qed.
Lemma Forall2_imp {A B} (P Q : A -> B -> Prop) l r : (forall a b, P a b -> Q a b) -> Forall2 P l r -> Forall2 Q l r.
Proof. induction 2; constructor; auto. Qed.

(** ** csv *)
Lemma csv_ok h wave col : forall orders, orders_from_meta h = map MOrder orders -> csv_per_order h wave (List.length orders) col = Ok ("wave"%string :: map (fun o => String.append "order_" (str_int o)) orders, combine wave col).
Proof. intros orders E. unfold csv_per_order. rewrite E, !map_length, Nat.eqb_refl. cbn [negb]. rewrite map_map. reflexivity. Qed.
Lemma csv_width h wave width col : forall orders, orders_from_meta h = map MOrder orders -> width <> List.length orders -> csv_per_order h wave width col = Err ValueError.
Proof. intros orders E N. unfold csv_per_order. rewrite E, !map_length. rewrite (proj2 (Nat.eqb_neq _ _)) by congruence. reflexivity. Qed.
Lemma csv_names orders : NoDup orders -> NoDup (map (fun o => String.append "order_" (str_int o)) orders).
Proof. induction 1 as [|o l NI N IH]; [constructor|]. cbn. constructor; [|exact IH]. intros I. apply in_map_iff in I. destruct I as (p & E & J). apply (append_inj "order_"), str_int_inj in E. congruence. Qed.

(** ** resolving power of all dispersed orders *)
Lemma valid_some rs : forall ws, valid (map Some rs) ws = combine rs ws.
Proof. induction rs as [|r rs IH]; intros [|w ws]; cbn; try reflexivity. now rewrite IH. Qed.
Lemma select_combine {A B} (f : Z -> bool) orders : forall (a : list A) (b : list B), List.length a = List.length orders -> List.length b = List.length orders ->
  combine (select orders f a) (select orders f b) = map snd (filter (fun x => f (fst x)) (combine orders (combine a b))).
Proof.
  induction orders as [|o orders IH]; intros [|x a] [|y b] LA LB; try discriminate; [reflexivity|]. injection LA as LA. injection LB as LB. unfold select in *. cbn [combine filter fst].
  destruct (f o); cbn [map snd combine]; [f_equal|]; apply IH; assumption.
Qed.
Lemma select_Some (f : Z -> bool) orders : forall rs : list R, select orders f (map Some rs) = map Some (select orders f rs).
Proof. induction orders as [|o orders IH]; intros [|r rs]; try reflexivity. unfold select in *. cbn [combine map filter fst]. destruct (f o); cbn [map snd]; [f_equal|]; apply IH. Qed.
Lemma select_snd {A B} (f : Z -> bool) orders : forall (a : list A) (b : list B), List.length a = List.length orders -> List.length b = List.length orders ->
  select orders f b = map (fun x => snd (snd x)) (filter (fun x => f (fst x)) (combine orders (combine a b))).
Proof.
  induction orders as [|o orders IH]; intros [|x a] [|y b] LA LB; try discriminate; [reflexivity|]. injection LA as LA. injection LB as LB. unfold select in *. cbn [combine filter fst].
  destruct (f o); cbn [map snd combine]; [f_equal|]; apply IH; assumption.
Qed.
Lemma disp_resolving stats conf orders allow hc files rows h : aeffRfromraygrid stats conf orders true allow hc files = Ok (rows, h) ->
  Forall (fun row => forall rs, List.length rs = List.length orders -> map fst (gr_four row) = map Some rs ->
    let sel := filter (fun x => negb (Z.eqb (fst x) 0)) (combine orders (combine rs (map snd (gr_four row)))) in
    let w := Rsum (map (fun x => snd (snd x)) sel) in
    w <> 0 -> gr_disp row = Total (Some (Rsum (map (fun x => fst (snd x) * snd (snd x)) sel) / w), w)) rows.
Proof.
  intros H. destruct (grid_rows _ _ _ _ _ _ _ _ _ H) as (first & rest & _ & _ & _ & _ & F). clear H. induction F as [|s row l r Q F IH]; constructor; [|exact IH].
  intros rs L E sel w W. destruct (row_parts _ _ _ _ _ _ _ _ Q) as (en & _ & _ & _ & _ & _ & ->). unfold dispersed, average_R_Aeff. rewrite E.
  assert (L2 : List.length (map snd (gr_four row)) = List.length orders) by (rewrite map_length; rewrite <- L, <- (map_length Some rs), <- E, map_length; reflexivity).
  rewrite select_Some, valid_some, select_combine by assumption. rewrite (select_snd _ orders rs) by assumption. fold sel. fold w. f_equal. f_equal. unfold wavg. rewrite !map_map. fold w.
  apply num_div_some. exact W.
Qed.
Lemma tg_outside conf period ch x y z phi cy : dget ch (gc_axes conf) = Some (V4 x y z 1) -> 0 < gc_r conf -> gc_r conf < Rabs x ->
  zeropos "circ_phi" ch conf = Ok None /\ tg_resolve conf conf period ch phi cy = Ok (TG None None None).
Proof.
  intros E P X. destruct (zeropos_ok _ _ _ E) as (Z & _). cbn [x4] in Z. assert (N : np_arcsin (x / gc_r conf) = None).
  { unfold np_arcsin. rewrite (proj2 (Rleb_false _ _)); [reflexivity|]. unfold Rdiv. rewrite Rabs_mult, (Rabs_right (/ gc_r conf)) by (apply Rle_ge, Rlt_le, Rinv_0_lt_compat; exact P).
    apply Rmult_lt_reg_r with (gc_r conf); [exact P|]. rewrite Rmult_assoc, Rinv_l by lra. lra. }
  rewrite N in Z. split; [exact Z|]. unfold tg_resolve. rewrite Z. cbn [bind num2 num1]. unfold lookup. rewrite E. cbn [bind]. destruct cy; reflexivity.
Qed.
Lemma tg_quarter conf period ch x y z phi0 cy s : dget ch (gc_axes conf) = Some (V4 x y z 1) -> zeropos "circ_phi" ch conf = Ok (Some phi0) -> s = 1 \/ s = -1 ->
  exists t, tg_resolve conf conf period ch (Some (phi0 + s * (PI / 2))) (Some cy) = Ok t /\
  (y = cy -> tg_d t = None) /\ (cy < y -> tg_d t = Some (PI / 2)) /\ (y < cy -> tg_d t = Some (- (PI / 2))).
Proof.
  intros E Z S. unfold tg_resolve. rewrite Z. cbn [bind num2 num1]. unfold lookup. rewrite E. cbn [bind y4]. eexists. split; [reflexivity|]. cbn [tg_d].
  assert (C : 2 * gc_rc conf * cos (phi0 - (phi0 + s * (PI / 2))) = 0).
  { replace (cos (phi0 - (phi0 + s * (PI / 2)))) with 0; [ring|]. symmetry. destruct S as [->| ->]; [replace (phi0 - (phi0 + 1 * (PI / 2))) with (- (PI / 2)) by field; rewrite cos_neg|replace (phi0 - (phi0 + -1 * (PI / 2))) with (PI / 2) by field]; apply cos_PI2. }
  rewrite C. unfold num_atan. rewrite (proj2 (Reqb_true 0 0)) by reflexivity. unfold atan_zero. split; [|split]; intros D.
  - rewrite (proj2 (Reqb_true _ _)); [reflexivity|lra].
  - rewrite (proj2 (Reqb_false _ _)) by lra. rewrite (proj2 (Rltb_true _ _)) by lra. reflexivity.
  - rewrite (proj2 (Reqb_false _ _)) by lra. rewrite (proj2 (Rltb_false _ _)) by lra. reflexivity.
Qed.
