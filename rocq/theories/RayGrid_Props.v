(** Properties C162-C165: analysis of a grid of simulations of Arcus. *)
From Coq Require Import Permutation Sorted.
From Verif Require Import Base_Proofs Vec_Proofs Arcus_Proofs RayGrid_Proofs2.
Open Scope R_scope.

(** C162: a ray straight down the optical axis of a channel hits the circular detector at the coordinates that zeropos gives *)
Theorem C162_circ_partial : forall channel conf x y z d, dget channel (gc_axes conf) = Some (V4 x y z 1) -> 0 < gc_r conf -> Rabs x < gc_r conf -> Rabs y <= 20 ->
  exists phi0 y0 low high, zeropos "circ_phi" channel conf = Ok (Some phi0) /\ zeropos "circ_y" channel conf = Ok (Some y0) /\ low < high /\
  forall minv z0, mul4 (circ_detector (gc_r conf) d) minv = id4 -> mul4 minv (circ_detector (gc_r conf) d) = id4 -> affine minv -> low <= z0 < high ->
    cylinder_intersect (circ_detector (gc_r conf) d) minv (- PI) PI true (hom (V3 0 0 (-1)) 0) (hom (V3 x y z0) 1) = Ok (true, Some (V4 x y low 1), Some (phi0, y0)).
Proof. exact circ_zero. Qed.
Print Assumptions C162_circ_partial.
(** ... and is projected to the coordinates that zeropos gives *)
Theorem C162_projection : forall channel conf x y z z0, dget channel (gc_axes conf) = Some (V4 x y z 1) ->
  exists px py, zeropos "proj_x" channel conf = Ok (Some px) /\ zeropos "proj_y" channel conf = Ok (Some py) /\ project xyz2zxy (hom (V3 x y z0) 1) = Ok (Some (px, py)).
Proof. intros channel conf x y z z0 E. destruct (zeropos_ok _ _ _ E) as (_ & _ & X & Y). exists x, y. split; [exact X|]. split; [exact Y|]. exact (project_arcus (V3 x y z0)). Qed.
Print Assumptions C162_projection.
(** other coordinates are refused, and unknown channels *)
Theorem C162_unknown : forall coord channel conf, (~ In coord ["circ_phi"; "circ_y"; "proj_x"; "proj_y"]%string -> zeropos coord channel conf = Err NotImplementedError) /\
  (In coord ["circ_phi"; "circ_y"; "proj_x"; "proj_y"]%string -> dget channel (gc_axes conf) = None -> zeropos coord channel conf = Err KeyError).
Proof.
  intros coord channel conf. unfold zeropos, lookup. split.
  - intros N. destruct (String.eqb_spec coord "circ_phi"); [subst; exfalso; apply N; cbn; tauto|]. destruct (String.eqb_spec coord "circ_y"); [subst; exfalso; apply N; cbn; tauto|].
    destruct (String.eqb_spec coord "proj_y"); [subst; exfalso; apply N; cbn; tauto|]. destruct (String.eqb_spec coord "proj_x"); [subst; exfalso; apply N; cbn; tauto|]. reflexivity.
  - intros I ->. cbn [In] in I. destruct I as [<-|[<-|[<-|[<-|[]]]]]; reflexivity.
Qed.
Print Assumptions C162_unknown.
(** C162, false: with a configuration that is not the default one, the detector still has the radius of the default one, and the axis is not at this angle *)
Theorem C162_radius_refuted : exists conf r0 d x y phi, dget "1"%string (gc_axes conf) = Some (V4 x y 0 1) /\ zeropos "circ_phi" "1" conf = Ok (Some phi) /\ Rabs x < r0 /\
  forall z w, app4 (circ_detector r0 d) (V4 (cos phi) (sin phi) w 1) <> V4 x y z 1.
Proof.
  exists (GConf [("1"%string, V4 1 0 0 1)] 2 2 0), 4, 0, 1, 0, (asin (1 / 2)). split; [reflexivity|].
  destruct (zeropos_ok "1"%string (GConf [("1"%string, V4 1 0 0 1)] 2 2 0) (V4 1 0 0 1) eq_refl) as (E & _). cbn [x4 gc_r] in E. split.
  - rewrite E. rewrite arcsin_in; [reflexivity|lra|rewrite Rabs_right; lra].
  - split; [rewrite Rabs_right; lra|]. intros z w H. rewrite circ_place in H. apply (f_equal x4) in H. cbn [x4] in H. rewrite sin_asin in H by lra. lra.
Qed.
Print Assumptions C162_radius_refuted.
(* the default configuration: channels 1 and 2m *)
Definition default_offsets : list (string * v3) :=
  [("1"%string, V3 0 (-5 / 2) (-15 / 2)); ("1m"%string, V3 0 (-5 / 2) (-5 / 2)); ("2"%string, V3 0 (5 / 2) (5 / 2)); ("2m"%string, V3 0 (5 / 2) (15 / 2))].
Example C162_ex : forall f R', 0 < f -> exists g, add_offset_double_rowland_channels (double_rowland_from_channel_distance 750 R' f) default_offsets = Ok g /\
  dget "1"%string (gc_axes (conf_of g 0)) = Some (V4 (- (755 / 2)) (- (15 / 2)) 0 1) /\ dget "2m"%string (gc_axes (conf_of g 0)) = Some (V4 (755 / 2) (15 / 2) 0 1) /\
  (1000 < f -> 0 < gc_r (conf_of g 0) /\ Rabs (- (755 / 2)) < gc_r (conf_of g 0) /\ mul4 (circ_detector (gc_r (conf_of g 0)) 375) (circ_inverse (gc_r (conf_of g 0)) 375) = id4).
Proof.
  intros f R' F. unfold add_offset_double_rowland_channels, default_offsets. cbn [map fst snd]. eexists. split; [reflexivity|].
  unfold conf_of. cbn [gc_axes dr_opt_ax map fst snd gc_r dr_detector].
  assert (AX : forall k off, app4 xyz2zxy (offset_axis (dr_d (double_rowland_from_channel_distance 750 R' f)) k off) = V4 ((if has_m k then 375 else - (375)) + y3 off) (z3 off) (x3 off) 1).
  { intros k off. unfold offset_axis, double_rowland_from_channel_distance, xyz2zxy. cbn [dr_d]. destruct (has_m k); destruct off; vu; f_equal; field. }
  rewrite !AX. cbn [has_m Ascii.eqb Bool.eqb y3 z3 x3].
  split; [cbn [dget String.eqb Ascii.eqb Bool.eqb]; f_equal; f_equal; lra|]. split; [cbn [dget String.eqb Ascii.eqb Bool.eqb]; f_equal; f_equal; lra|].
  intros L. assert (RR : tr (dr_detector (double_rowland_from_channel_distance 750 R' f)) = sqrt (f * f + 750 * 750) / 2) by reflexivity. rewrite RR.
  assert (S : 1000 < sqrt (f * f + 750 * 750)). { rewrite <- (sqrt_square 1000) by lra. apply sqrt_lt_1; nra. }
  split; [lra|]. split; [rewrite Rabs_left by lra; lra|]. apply circ_inv. lra.
Qed.

(** C163: which mirrors belong to which channel *)
Theorem C163_channel : forall p, (aper_id p = 0%nat <-> (g_xou p < 0)%Z) /\ (aper_id p = 1%nat <-> (0 <= g_xou p < 1000)%Z) /\ (aper_id p = 2%nat <-> (1000 <= g_xou p < 10000)%Z) /\
  (aper_id p = 3%nat <-> (10000 <= g_xou p < 11000)%Z) /\ (aper_id p = 4%nat <-> (11000 <= g_xou p)%Z).
Proof. exact channel_range. Qed.
Print Assumptions C163_channel.
(** ... the areas of all channels together count every photon through a mirror once, if it is on a CCD and not dispersed by the L1 support *)
Theorem C163_areas : forall stats conf orders ref s res A e j, analyze_sim stats conf orders ref s = Ok res -> s_area s = Some A -> s_exposure s = Some e -> (j < List.length orders)%nat ->
  List.length res = 4%nat /\
  Rsum (map (fun c => nth j (snd c) 0) res) =
    A / INR (Z.to_nat (Rfloor e)) * Rsum (map (fun p => a_prob (g_ph p)) (filter (fun p => (0 <=? g_xou p)%Z && (Z.eqb (g_L1 p) 0 && (0 <=? a_ccd (g_ph p))%Z && Z.eqb (a_order (g_ph p)) (nth j orders 0%Z)))%bool (s_photons s))).
Proof. intros stats conf orders ref s res A e j H EA EE J. split; [exact (len_channels _ _ _ _ _ _ H)|exact (sum_channels _ _ _ _ _ _ _ _ _ H EA EE J)]. Qed.
Print Assumptions C163_areas.
(** ... for one channel *)
Theorem C163_channel_area : forall stats conf orders ref s res A e k c j, analyze_sim stats conf orders ref s = Ok res -> s_area s = Some A -> s_exposure s = Some e -> nth_error res k = Some c -> (j < List.length orders)%nat ->
  nth j (snd c) 0 = A / INR (Z.to_nat (Rfloor e)) * Rsum (map (fun p => a_prob (g_ph p)) (filter (fun p => Nat.eqb (aper_id p) (S k) && (Z.eqb (g_L1 p) 0 && (0 <=? a_ccd (g_ph p))%Z && Z.eqb (a_order (g_ph p)) (nth j orders 0%Z)))%bool (s_photons s))).
Proof.
  intros stats conf orders ref s res A e k c j H EA EE K J. apply sim_channels in H.
  inversion H as [|x1 c1 l1 r1 H1 T1]; subst. inversion T1 as [|x2 c2 l2 r2 H2 T2]; subst. inversion T2 as [|x3 c3 l3 r3 H3 T3]; subst. inversion T3 as [|x4 c4 l4 r4 H4 T4]; subst. inversion T4; subst.
  destruct k as [|[|[|[|k]]]]; cbn in K; try (injection K as <-); [| | | |destruct k; discriminate].
  - rewrite (channel_area _ _ _ _ _ _ _ _ _ H1 EA EE), map_nth0 by exact J. reflexivity.
  - rewrite (channel_area _ _ _ _ _ _ _ _ _ H2 EA EE), map_nth0 by exact J. reflexivity.
  - rewrite (channel_area _ _ _ _ _ _ _ _ _ H3 EA EE), map_nth0 by exact J. reflexivity.
  - rewrite (channel_area _ _ _ _ _ _ _ _ _ H4 EA EE), map_nth0 by exact J. reflexivity.
Qed.
Print Assumptions C163_channel_area.
(** ... resolving power from the photons of the channel that reach the focal plane, on a CCD or not, nan for 20 or fewer *)
Theorem C163_resolving_power : forall stats conf orders ref s res a ch z j m sd, analyze_sim stats conf orders ref s = Ok res -> nth_error (combine (seq 1 4) ["1"; "2"; "1m"; "2m"]%string) a = Some (S a, ch) ->
  zeropos "circ_phi" ch conf = Ok (Some z) -> (j < List.length orders)%nat ->
  let l := map (fun p => a_coord (g_ph p)) (filter (fun p => Nat.eqb (aper_id p) (S a) && Z.eqb (g_L1 p) 0 && res_filter (g_ph p) && Z.eqb (a_order (g_ph p)) (nth j orders 0%Z))%bool (s_photons s)) in
  exists c, nth_error res a = Some c /\
  ((List.length l <= 20)%nat -> nth j (fst c) None = None) /\
  ((20 < List.length l)%nat -> stats l = (Some m, Some sd) -> 0 < sd -> nth j (fst c) None = Some (Rabs (m - z) / (sd * (23548 / 10000)))).
Proof. exact sim_R. Qed.
Print Assumptions C163_resolving_power.
(** ... a simulation with another header than the reference, or with several energies, is refused; all others are analyzed *)
Theorem C163_checked : forall stats conf orders m s res, analyze_sim stats conf orders (Some m) s = Ok res ->
  (forall k, In k ["ORIGIN"; "CREATOR"; "MARXSVER"; "MARXSGIT"; "MARXSTIM"]%string -> dget k (s_meta s) = dget k m) /\ check_energy (s_en s) = Ok tt.
Proof. exact sim_checked. Qed.
Print Assumptions C163_checked.
Theorem C163_total : forall stats conf orders ref s A e, s_area s = Some A -> s_exposure s = Some e -> 1 <= e -> NoDup orders -> (forall ch, In ch ["1"; "2"; "1m"; "2m"]%string -> In ch (dkeys (gc_axes conf))) ->
  match ref with Some m => check_meta (s_meta s) m meta_keywords true = Ok tt | None => True end -> check_energy (s_en s) = Ok tt -> exists res, analyze_sim stats conf orders ref s = Ok res.
Proof. exact sim_total. Qed.
Print Assumptions C163_total.
Definition ex_conf : gconf := GConf [("1"%string, V4 (-377) (-7) 0 1); ("1m"%string, V4 377 (-2) 0 1); ("2"%string, V4 (-372) 2 0 1); ("2m"%string, V4 372 7 0 1)] 5950 5950 0.
Definition ex_photons : list gphot := [GP 5 0 (AP 0 (1 / 2) None 3); GP 1005 0 (AP 0 1 None 3); GP 10005 0 (AP (-1) 1 None 3); GP 11005 1 (AP 0 1 None 3); GP (-1) 0 (AP 0 1 None 3); GP 7 0 (AP 0 1 None (-1))].
Definition ex_sim : sim := Sim "wave1.fits" ex_photons (Some [Some (1 # 2)%Q]) [("ORIGIN"%string, ("a"%string, ""%string))] (Some 600) (Some 6) (Some (1 / 2)).
Lemma floor6 : Z.to_nat (Rfloor 6) = 6%nat.
Proof. replace (Rfloor 6) with 6%Z; [reflexivity|]. symmetry. apply Rfloor_unique. cbn. lra. Qed.
Example C163_ex : exists res, analyze_sim (fun _ => (None, None)) ex_conf [-1; 0]%Z None ex_sim = Ok res /\ Rsum (map (fun c => nth 1 (snd c) 0) res) = 150 /\ Rsum (map (fun c => nth 0 (snd c) 0) res) = 100.
Proof.
  destruct (C163_total (fun _ => (None, None)) ex_conf [-1; 0]%Z None ex_sim 600 6) as (res & H); try reflexivity; try exact I.
  - lra.
  - constructor; [cbn; intros [X|[]]; discriminate|]. constructor; [intros []|constructor].
  - intros ch J. cbn in J |- *. tauto.
  - exists res. split; [exact H|]. split.
    + rewrite (proj2 (C163_areas _ _ _ _ _ _ 600 6 1 H eq_refl eq_refl ltac:(cbn; lia))). rewrite floor6. cbn. lra.
    + rewrite (proj2 (C163_areas _ _ _ _ _ _ 600 6 0 H eq_refl eq_refl ltac:(cbn; lia))). rewrite floor6. cbn. lra.
Qed.

(** C164: one row per file, sorted by name, with energy and wavelength *)
Theorem C164_rows : forall stats conf orders arr allow hc files rows h, aeffRfromraygrid stats conf orders arr allow hc files = Ok (rows, h) ->
  List.length rows = List.length files /\
  exists first sims, Permutation sims files /\ Sorted (fun a b => String.leb (s_name a) (s_name b) = true) sims /\ hd_error sims = Some first /\
  Forall2 (fun s row => exists e, s_energy s = Some e /\ gr_energy row = e /\ gr_wave row = hc / e /\ analyze_sim stats conf orders (if allow then None else Some (s_meta first)) s = Ok (gr_each row)) sims rows.
Proof.
  intros stats conf orders arr allow hc files rows h H. destruct (grid_rows _ _ _ _ _ _ _ _ _ H) as (first & rest & _ & P & S & _ & F). split.
  - rewrite <- (Permutation_length P). symmetry. clear - F. induction F as [|x y l l' Q F IH]; [reflexivity|]. cbn [List.length]. now f_equal.
  - exists first, (first :: rest). split; [exact P|]. split; [exact S|]. split; [reflexivity|]. eapply Forall2_imp; [|exact F]. intros s row R. destruct (row_parts _ _ _ _ _ _ _ _ R) as (e & E1 & E2 & E3 & E4 & _). eauto 10.
Qed.
Print Assumptions C164_rows.
(** ... the area for all channels is the sum over the channels, the area of all dispersed orders counts each photon that is dispersed once, if the orders are an array *)
Theorem C164_areas_partial : forall stats conf orders allow hc files rows h, aeffRfromraygrid stats conf orders true allow hc files = Ok (rows, h) -> NoDup orders ->
  exists sims, Permutation sims files /\ Forall2 (fun s row => forall A e, s_area s = Some A -> s_exposure s = Some e ->
    map snd (gr_four row) = map (fun j => Rsum (map (fun c => nth j (snd c) 0) (gr_each row))) (seq 0 (List.length orders)) /\
    exists v, gr_disp row = Total (v, A / INR (Z.to_nat (Rfloor e)) * Rsum (map (fun p => a_prob (g_ph p)) (filter (fun p => (0 <=? g_xou p)%Z && (Z.eqb (g_L1 p) 0 && (0 <=? a_ccd (g_ph p))%Z) &&
        existsb (Z.eqb (a_order (g_ph p))) (filter (fun z => negb (Z.eqb z 0)) orders))%bool (s_photons s))))) sims rows.
Proof.
  intros stats conf orders allow hc files rows h H N. destruct (grid_rows _ _ _ _ _ _ _ _ _ H) as (first & rest & _ & P & S & _ & F). exists (first :: rest). split; [exact P|].
  eapply Forall2_imp; [|exact F]. intros s row R A e EA EE. split.
  - destruct (row_parts _ _ _ _ _ _ _ _ R) as (en & _ & _ & _ & _ & -> & _). rewrite map_map. reflexivity.
  - exact (disp_total _ _ _ _ _ _ _ _ _ R EA EE N).
Qed.
Print Assumptions C164_areas_partial.
(** ... the resolving power of the dispersed orders is the average over the orders other than zero, weighted with their areas *)
Theorem C164_resolving : forall stats conf orders allow hc files rows h, aeffRfromraygrid stats conf orders true allow hc files = Ok (rows, h) ->
  Forall (fun row => forall rs, List.length rs = List.length orders -> map fst (gr_four row) = map Some rs ->
    let sel := filter (fun x => negb (Z.eqb (fst x) 0)) (combine orders (combine rs (map snd (gr_four row)))) in
    let w := Rsum (map (fun x => snd (snd x)) sel) in
    w <> 0 -> gr_disp row = Total (Some (Rsum (map (fun x => fst (snd x) * snd (snd x)) sel) / w), w)) rows.
Proof. exact disp_resolving. Qed.
Print Assumptions C164_resolving.
(** C164, false: with a list of orders, as documented, the column of the dispersed orders has a number for each order, also the zeroth *)
Theorem C164_list_refuted : forall stats conf orders allow hc files rows h, aeffRfromraygrid stats conf orders false allow hc files = Ok (rows, h) ->
  Forall (fun row => exists l, gr_disp row = PerOrder l /\ List.length l = List.length orders /\ map snd l = map snd (gr_four row)) rows.
Proof.
  intros stats conf orders allow hc files rows h H. destruct (grid_rows _ _ _ _ _ _ _ _ _ H) as (first & rest & _ & _ & _ & _ & F). clear H. induction F as [|s row l r R F IH]; constructor; [|exact IH].
  exact (disp_list _ _ _ _ _ _ _ R).
Qed.
Print Assumptions C164_list_refuted.
Lemma header_get {V} k (a b : dict V) : dget k (a ++ b)%list = match dget k a with Some v => Some v | None => dget k b end.
Proof. induction a as [|[k' v] a IH]; [reflexivity|]. cbn [app dget]. destruct (String.eqb k k'); [reflexivity|exact IH]. Qed.
Lemma header_text k (d : dict hval) : dget k (map (fun kv => (fst kv, MText (snd kv))) d) = option_map MText (dget k d).
Proof. induction d as [|[k' v] d IH]; [reflexivity|]. cbn [map dget fst snd]. destruct (String.eqb k k'); [reflexivity|exact IH]. Qed.
(** ... the header of the table is that of the first simulation, with the keywords of the simulation and those for the orders *)
Theorem C164_header : forall stats conf orders arr allow hc files rows h, aeffRfromraygrid stats conf orders arr allow hc files = Ok (rows, h) ->
  exists first sims, Permutation sims files /\ Sorted (fun a b => String.leb (s_name a) (s_name b) = true) sims /\ hd_error sims = Some first /\ forall k, (forall i, k <> order_key i) ->
    (forall v, dget k (s_meta first) = Some v -> dget k h = Some (MText v)) /\
    (dget k (s_meta first) = None -> dget k h = if String.eqb k "A_GEOM" then option_map MNum (s_area first) else if String.eqb k "EXPOSURE" then option_map MNum (s_exposure first)
                                               else if String.eqb k "ENERGY" then option_map MNum (s_energy first) else None).
Proof.
  intros stats conf orders arr allow hc files rows h H. destruct (grid_rows _ _ _ _ _ _ _ _ _ H) as (first & rest & _ & P & S & -> & _). exists first, (first :: rest). split; [exact P|]. split; [exact S|]. split; [reflexivity|].
  intros k K. assert (HK : dget k (add_orders (sim_header first) orders) = dget k (sim_header first)) by (apply (put_other orders 0); intros i _; apply K). rewrite HK. unfold sim_header. rewrite !header_get, header_text. split.
  - intros v V. now rewrite V.
  - intros V. rewrite V. destruct (s_area first), (s_exposure first), (s_energy first); cbn [option_map dget];
      destruct (String.eqb k "A_GEOM") eqn:E1; destruct (String.eqb k "EXPOSURE") eqn:E2; destruct (String.eqb k "ENERGY") eqn:E3; try reflexivity;
      repeat match goal with E : String.eqb _ _ = true |- _ => apply String.eqb_eq in E; subst k end; discriminate.
Qed.
Print Assumptions C164_header.
(** ... the orders are found again in the header of the table, unless the header of the first simulation has one more *)
Theorem C164_orders_partial : forall stats conf orders arr allow hc files rows h, aeffRfromraygrid stats conf orders arr allow hc files = Ok (rows, h) ->
  Forall (fun s => dget (order_key (List.length orders)) (sim_header s) = None) files -> orders_from_meta h = map MOrder orders.
Proof.
  intros stats conf orders arr allow hc files rows h H N. destruct (grid_rows _ _ _ _ _ _ _ _ _ H) as (first & rest & _ & P & _ & -> & _). apply orders_round_trip.
  rewrite Forall_forall in N. apply N. eapply Permutation_in; [exact P|left; reflexivity].
Qed.
Print Assumptions C164_orders_partial.
Theorem C164_orders_refuted : exists h orders, orders_from_meta (add_orders h orders) <> map MOrder orders.
Proof. exists [("ORDER_1"%string, MOrder 7)], [3%Z]. vm_compute. discriminate. Qed.
Print Assumptions C164_orders_refuted.
(** ... all numbers up to the first that is missing are read *)
Theorem C164_orders_read : forall h n, (forall k, (k < n)%nat -> dget (order_key k) h <> None) -> dget (order_key n) h = None -> List.length (orders_from_meta h) = n.
Proof. exact orders_all. Qed.
Print Assumptions C164_orders_read.
(** ... and the text table has a column for the wavelength and one for each order, with different names *)
Theorem C164_csv : forall h wave col orders, orders_from_meta h = map MOrder orders -> NoDup orders ->
  (forall width, width <> List.length orders -> csv_per_order h wave width col = Err ValueError) /\
  exists names, csv_per_order h wave (List.length orders) col = Ok ("wave"%string :: names, combine wave col) /\ List.length names = List.length orders /\ NoDup names.
Proof.
  intros h wave col orders E N. split; [intros width; now apply csv_width|]. eexists. split; [apply csv_ok, E|]. split; [apply map_length|now apply csv_names].
Qed.
Print Assumptions C164_csv.
Example C164_ex : exists row, aeffRfromraygrid (fun _ => (None, None)) ex_conf [-1; 0]%Z true true 12 [ex_sim] = Ok ([row], add_orders (sim_header ex_sim) [-1; 0]%Z) /\
  orders_from_meta (add_orders (sim_header ex_sim) [-1; 0]%Z) = [MOrder (-1); MOrder 0] /\ exists v, gr_disp row = Total (v, 100).
Proof.
  assert (N : NoDup [-1; 0]%Z) by (constructor; [cbn; intros [X|[]]; discriminate|]; constructor; [intros []|constructor]).
  destruct (grid_total (fun _ => (None, None)) ex_conf [-1; 0]%Z true 12 ex_sim 600 6 (1 / 2)) as (row & H); try reflexivity; try exact N.
  - lra.
  - intros ch J. cbn in J |- *. tauto.
  - exists row. split; [exact H|]. split; [apply orders_round_trip; reflexivity|]. destruct (C164_areas_partial _ _ _ _ _ _ _ _ H N) as (sims & P & F). apply Permutation_sym, Permutation_length_1_inv in P. subst sims.
    inversion F as [|x y l r Q T]; subst. destruct (Q 600 6 eq_refl eq_refl) as (_ & v & ->). exists v. f_equal. f_equal. rewrite floor6. cbn. lra.
Qed.
Example C164_ex_list : exists row l, aeffRfromraygrid (fun _ => (None, None)) ex_conf [-1; 0]%Z false true 12 [ex_sim] = Ok ([row], add_orders (sim_header ex_sim) [-1; 0]%Z) /\ gr_disp row = PerOrder l /\ List.length l = 2%nat.
Proof.
  assert (N : NoDup [-1; 0]%Z) by (constructor; [cbn; intros [X|[]]; discriminate|]; constructor; [intros []|constructor]).
  destruct (grid_total (fun _ => (None, None)) ex_conf [-1; 0]%Z false 12 ex_sim 600 6 (1 / 2)) as (row & H); try reflexivity; try exact N.
  - lra.
  - intros ch J. cbn in J |- *. tauto.
  - pose proof (C164_list_refuted _ _ _ _ _ _ _ _ H) as F. inversion F as [|x l (l' & E & L & _) T]; subst. exists row, l'. auto.
Qed.

(** C165: the dispersion angle is the angle, seen from the grating on the circle, between zeroth order and photon *)
Theorem C165_angle_partial : forall conf period ch phi y ax z r h, zeropos "circ_phi" ch conf = Ok (Some z) -> dget ch (gc_axes conf) = Some ax ->
  exists t a, tg_resolve conf conf period ch (Some phi) (Some y) = Ok t /\ tg_r t = Some a /\ tg_mlam t = Some (cos (gc_blaze conf) * period * sin a) /\
  forall g, exists k, cross_from (place_at r h g) (place_at r h z) (place_at r h phi) = k * sin a /\ dot_from (place_at r h g) (place_at r h z) (place_at r h phi) = k * cos a /\
    (0 < r -> z < g < z + 2 * PI -> phi < g < phi + 2 * PI -> 0 < k).
Proof.
  intros conf period ch phi y ax z r h Z E. destruct (tg_ok conf conf period ch phi y ax z Z E) as (t & H & T1 & T2 & _). exists t, ((phi - z) / 2). split; [exact H|]. split; [exact T1|]. split; [exact T2|].
  intros g. exists (4 * (r * r) * (sin ((z - g) / 2) * sin ((phi - g) / 2))). split; [apply cross_circle|]. split; [apply dot_circle|]. intros P G1 G2.
  assert (S1 : 0 < sin ((g - z) / 2)) by (apply sin_gt_0; lra). assert (S2 : 0 < sin ((g - phi) / 2)) by (apply sin_gt_0; lra).
  replace ((z - g) / 2) with (- ((g - z) / 2)) by field. replace ((phi - g) / 2) with (- ((g - phi) / 2)) by field. rewrite !sin_neg.
  assert (0 < r * r) by nra. assert (0 < sin ((g - z) / 2) * sin ((g - phi) / 2)) by (apply Rmult_lt_0_compat; assumption). nra.
Qed.
Print Assumptions C165_angle_partial.
(** ... for a photon at the place of the zeroth order it is 0 *)
Theorem C165_zero_partial : forall conf period ch x y z, dget ch (gc_axes conf) = Some (V4 x y z 1) -> 0 < gc_r conf -> 0 < gc_rc conf -> Rabs x < gc_r conf ->
  exists phi0 y0 t d, zeropos "circ_phi" ch conf = Ok (Some phi0) /\ zeropos "circ_y" ch conf = Ok (Some y0) /\ tg_resolve conf conf period ch (Some phi0) (Some y0) = Ok t /\
  tg_r t = Some 0 /\ tg_mlam t = Some 0 /\ tg_d t = Some d /\ (d = 0 <-> y = 0).
Proof.
  intros conf period ch x y z E P Q X. destruct (zeropos_ok _ _ _ E) as (E1 & E2 & _). cbn [x4 y4] in E1, E2. rewrite arcsin_in in E1 by assumption.
  destruct (tg_ok conf conf period ch (asin (x / gc_r conf)) (- y) _ _ E1 E) as (t & H & T1 & T2 & T3). exists (asin (x / gc_r conf)), (- y), t, (atan ((y - - y) / (2 * gc_rc conf))).
  rewrite Rminus_diag_eq in T1, T2, T3 by reflexivity. rewrite cos_0 in T3. unfold Rdiv in T1, T2. rewrite Rmult_0_l in T1, T2. rewrite sin_0, Rmult_0_r in T2. rewrite Rmult_1_r in T3.
  split; [exact E1|]. split; [exact E2|]. split; [exact H|]. split; [exact T1|]. split; [exact T2|]. cbn [y4] in T3. split; [apply T3; lra|]. split.
  - intros D. assert (T : tan (atan ((y - - y) / (2 * gc_rc conf))) = 0) by (rewrite D; apply tan_0). rewrite tan_atan in T.
    apply (f_equal (fun u => u * (2 * gc_rc conf))) in T. unfold Rdiv in T. rewrite Rmult_assoc, Rinv_l in T by lra. lra.
  - intros ->. replace ((0 - - 0) / (2 * gc_rc conf)) with 0 by (field; lra). apply atan_0.
Qed.
Print Assumptions C165_zero_partial.
(** ... there is none if the optical axis of the channel is outside of the detector circle *)
Theorem C165_outside : forall conf period ch x y z phi cy, dget ch (gc_axes conf) = Some (V4 x y z 1) -> 0 < gc_r conf -> gc_r conf < Rabs x ->
  zeropos "circ_phi" ch conf = Ok None /\ tg_resolve conf conf period ch phi cy = Ok (TG None None None).
Proof. exact tg_outside. Qed.
Print Assumptions C165_outside.
(** ... a quarter of the circle away from the zeroth order the angle across the dispersion is a right angle, or not defined *)
Theorem C165_quarter : forall conf period ch x y z phi0 cy s, dget ch (gc_axes conf) = Some (V4 x y z 1) -> zeropos "circ_phi" ch conf = Ok (Some phi0) -> s = 1 \/ s = -1 ->
  exists t, tg_resolve conf conf period ch (Some (phi0 + s * (PI / 2))) (Some cy) = Ok t /\
  (y = cy -> tg_d t = None) /\ (cy < y -> tg_d t = Some (PI / 2)) /\ (y < cy -> tg_d t = Some (- (PI / 2))).
Proof. exact tg_quarter. Qed.
Print Assumptions C165_quarter.
(** C165, false: the angle across the dispersion of the zeroth order is not 0, because circ_y has the other sign than the y coordinate of the axis *)
Theorem C165_cross_refuted : exists conf phi0 y0 t d, zeropos "circ_phi" "1" conf = Ok (Some phi0) /\ zeropos "circ_y" "1" conf = Ok (Some y0) /\
  tg_resolve conf conf 1 "1" (Some phi0) (Some y0) = Ok t /\ tg_d t = Some d /\ d <> 0.
Proof.
  destruct (C165_zero_partial ex_conf 1 "1"%string (-377) (-7) 0 eq_refl) as (phi0 & y0 & t & d & E1 & E2 & H & _ & _ & T & D); [cbn; lra|cbn; lra|cbn; rewrite Rabs_left; lra|].
  exists ex_conf, phi0, y0, t, d. split; [exact E1|]. split; [exact E2|]. split; [exact H|]. split; [exact T|]. intros X. apply D in X. lra.
Qed.
Print Assumptions C165_cross_refuted.
(** C165, false: the zero position is not taken from the configuration that is passed in *)
Theorem C165_conf_refuted : exists module_conf conf phi0 t a, zeropos "circ_phi" "1" conf = Ok (Some phi0) /\ tg_resolve module_conf conf 1 "1" (Some phi0) (Some 0) = Ok t /\ tg_r t = Some a /\ a <> 0.
Proof.
  set (c1 := GConf [("1"%string, V4 0 0 0 1)] 2 2 0). set (c2 := GConf [("1"%string, V4 1 0 0 1)] 2 2 0).
  destruct (zeropos_ok "1"%string c1 (V4 0 0 0 1) eq_refl) as (E1 & _). destruct (zeropos_ok "1"%string c2 (V4 1 0 0 1) eq_refl) as (E2 & _). cbn [x4 gc_r c1 c2] in E1, E2.
  rewrite arcsin_in in E1 by (rewrite ?Rabs_R0; lra). rewrite arcsin_in in E2 by (rewrite ?Rabs_right; lra).
  destruct (tg_ok c1 c2 1 "1"%string (asin (1 / 2)) 0 (V4 1 0 0 1) _ E1 eq_refl) as (t & H & T & _). exists c1, c2, (asin (1 / 2)), t, ((asin (1 / 2) - asin (0 / 2)) / 2).
  split; [exact E2|]. split; [exact H|]. split; [exact T|]. intros X. assert (Y : asin (1 / 2) = asin (0 / 2)) by lra. apply (f_equal sin) in Y. rewrite !sin_asin in Y by lra. lra.
Qed.
Print Assumptions C165_conf_refuted.
(** C165, false: the length that turns the distance across the dispersion into an angle is not the distance between grating (straight above the zeroth order on the circle) and photon *)
Theorem C165_length_refuted : exists conf phi0 phi t, zeropos "circ_phi" "1" conf = Ok (Some phi0) /\ tg_resolve conf conf 1 "1" (Some phi) (Some (-1)) = Ok t /\ dget "1"%string (gc_axes conf) = Some (V4 0 0 0 1) /\
  tg_d t <> Some (atan (1 / sqrt (dot_from (place_at (gc_rc conf) 0 (PI - phi0)) (place_at (gc_rc conf) 0 phi) (place_at (gc_rc conf) 0 phi)))).
Proof.
  set (c := GConf [("1"%string, V4 0 0 0 1)] 2 2 0). destruct (zeropos_ok "1"%string c (V4 0 0 0 1) eq_refl) as (E & _). cbn [x4 gc_r c] in E. rewrite arcsin_in in E by (rewrite ?Rabs_R0; lra).
  replace (0 / 2) with 0 in E by field. rewrite asin_0 in E.
  destruct (tg_ok c c 1 "1"%string (PI / 3) (-1) (V4 0 0 0 1) _ E eq_refl) as (t & H & _ & _ & T). exists c, 0, (PI / 3), t. split; [exact E|]. split; [exact H|]. split; [reflexivity|].
  cbn [gc_rc c y4] in T. replace (0 - PI / 3) with (- (PI / 3)) in T by ring. rewrite cos_neg, cos_PI3 in T. rewrite T by lra. cbn [gc_rc c].
  assert (D : dot_from (place_at 2 0 (PI - 0)) (place_at 2 0 (PI / 3)) (place_at 2 0 (PI / 3)) = 12).
  { unfold dot_from, place_at. cbn [fst snd]. rewrite Rminus_0_r, sin_PI, cos_PI, cos_PI3. assert (S := sin2_cos2 (PI / 3)). rewrite cos_PI3 in S. unfold Rsqr in S. nra. }
  rewrite D. intros X. assert (Y : atan ((0 - -1) / (2 * 2 * (1 / 2))) = atan (1 / sqrt 12)) by congruence. apply (f_equal tan) in Y. rewrite !tan_atan in Y.
  assert (S : sqrt 12 * sqrt 12 = 12) by (apply sqrt_sqrt; lra). assert (0 < sqrt 12) by (apply sqrt_lt_R0; lra).
  assert (W : 1 / sqrt 12 * sqrt 12 = 1) by (field; lra). rewrite <- Y in W. assert (sqrt 12 = 2) by lra. rewrite H1 in S. lra.
Qed.
Print Assumptions C165_length_refuted.
Example C165_ex : exists z, zeropos "circ_phi" "1" ex_conf = Ok (Some z) /\ dget "1"%string (gc_axes ex_conf) = Some (V4 (-377) (-7) 0 1).
Proof. eexists. destruct (zeropos_ok "1"%string ex_conf (V4 (-377) (-7) 0 1) eq_refl) as (E & _). rewrite E. split; [rewrite arcsin_in; [reflexivity|cbn; lra|cbn; rewrite Rabs_left; lra]|reflexivity]. Qed.
(** C163: without geometric area or exposure time in its header a simulation is not analysed *)
Theorem C163_missing : forall stats conf orders ref s, check_energy (s_en s) = Ok tt -> match ref with Some m => check_meta (s_meta s) m meta_keywords true = Ok tt | None => True end ->
  (s_area s = None -> analyze_sim stats conf orders ref s = Err KeyError) /\ (forall z, zeropos "circ_phi" "1" conf = Ok z -> s_exposure s = None -> analyze_sim stats conf orders ref s = Err KeyError).
Proof.
  intros stats conf orders ref s E M. assert (C : match ref with Some m => check_meta (s_meta s) m meta_keywords true | None => Ok tt end = Ok tt) by (destruct ref; [exact M|reflexivity]). unfold analyze_sim. rewrite C, E. cbn [bind].
  split; [intros A|intros z Z X]; cbn [id_num_offset map fst combine seq sequence]; unfold analyze_channel at 1; cbn [snd]; [rewrite A; reflexivity|]. destruct (s_area s); [|reflexivity]. cbn [need bind]. rewrite Z, X. reflexivity.
Qed.
Print Assumptions C163_missing.
