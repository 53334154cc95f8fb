(** Properties C55-C57, C93, C94: order sorting. *)
From Verif Require Import Osip_Proofs.
Open Scope R_scope.

(** C55, true part: a subclass that gives the widths. *)
Theorem C55_range_from_tab_partial : forall tab, consistent tab (base_range tab).
Proof. intros tab e order. unfold base_range. apply f_equal2; lra. Qed.
Print Assumptions C55_range_from_tab_partial.
(** C55, false for a subclass that gives the range: at no energy except 0 do the widths describe the window. *)
Theorem C55_tab_from_range_refuted : forall range, ~ consistent (base_tab range) range.
Proof. intros range C. assert (X := f_equal snd (C 1 1%Z)). cbn in X. lra. Qed.
Print Assumptions C55_tab_from_range_refuted.
Theorem C55_upper_width_refuted : forall range e order, snd (base_tab range e order) = snd (range e order) - e <-> e = 0.
Proof. intros. cbn. split; lra. Qed.
Print Assumptions C55_upper_width_refuted.
(** the lower width is right *)
Theorem C55_lower_width : forall range e order, fst (base_tab range e order) = e - fst (range e order).
Proof. intros. cbn. lra. Qed.
Print Assumptions C55_lower_width.
(* The window of 0.9 to 1.2 around 1: the widths should be 0.1 and 0.2 *)
Example C55_ex : base_range (fun _ _ => (1 / 10, 2 / 10)) 1 1 = (9 / 10, 12 / 10) /\ base_tab (fun _ _ => (9 / 10, 12 / 10)) 1 1 = (1 / 10, 22 / 10).
Proof. split; unfold base_range, base_tab; apply f_equal2; cbn; lra. Qed.

(** C56: order sorting with other windows can be applied again if no factor is 0 and neither the area nor the first result are constant over all bins. *)
Theorem C56_reapply_partial : forall s fac1 fac2, s <> [] -> Rmf_Model.constant num_eqb (Array s) = false -> nonzero fac1 -> fac1 <> Array [] -> fac2 <> Array [] ->
  length (expand (length s) fac1) = length s -> length (expand (length s) fac2) = length s -> Rmf_Model.constant num_eqb (val2 num_mul fac1 (Array s)) = false ->
  exists once twice direct, apply_osip (plain_arf s) fac1 = Ok once /\ apply_osip once fac2 = Ok twice /\ apply_osip (plain_arf s) fac2 = Ok direct /\
    area (length s) twice = area (length s) direct.
Proof. exact reapply. Qed.
Print Assumptions C56_reapply_partial.
Example C56_ex : exists once twice direct, apply_osip (plain_arf [Some 2; Some 3]) (Array [Some (/ 2); Some (/ 4)]) = Ok once /\ apply_osip once (Scalar (Some (/ 3))) = Ok twice /\
  apply_osip (plain_arf [Some 2; Some 3]) (Scalar (Some (/ 3))) = Ok direct /\ area 2 twice = area 2 direct.
Proof.
  apply (reapply [Some 2; Some 3]); try discriminate; try reflexivity.
  - apply all_first_two. lra.
  - constructor; [exists (/ 2); split; [reflexivity|lra]|constructor; [exists (/ 4); split; [reflexivity|lra]|constructor]].
  - cbn [val2 combine map fst snd num_mul]. apply all_first_two. lra.
Qed.
(** C56, false: a factor 0, for example for an order on the other side of order zero, loses the area. *)
Theorem C56_zero_refuted : exists s fac1 fac2 once twice direct, (forall rng cdf e, arf_factors rng cdf e 1 (-1) = Ok fac1) /\
  apply_osip (plain_arf s) fac1 = Ok once /\ apply_osip once fac2 = Ok twice /\ apply_osip (plain_arf s) fac2 = Ok direct /\ area 2 twice <> area 2 direct.
Proof.
  destruct zero_lost as (once & twice & direct & A & B & C & D & E). exists [Some 2; Some 3], (Scalar (Some 0)), (Array [Some 1; Some (/ 2)]), once, twice, direct.
  split; [reflexivity|]. split; [exact A|]. split; [exact B|]. split; [exact C|]. rewrite D, E. discriminate.
Qed.
Print Assumptions C56_zero_refuted.
(** C56, false: with the factors all nonzero, a third application reverts the wrong factors if the first ones were the same for all bins. *)
Theorem C56_third_refuted : exists s fac1 fac2 fac3 t1 t2 t3 direct, nonzero fac1 /\ nonzero fac2 /\ nonzero fac3 /\
  apply_osip (plain_arf s) fac1 = Ok t1 /\ apply_osip t1 fac2 = Ok t2 /\ apply_osip t2 fac3 = Ok t3 /\ apply_osip (plain_arf s) fac3 = Ok direct /\ area 2 t3 <> area 2 direct.
Proof.
  destruct third_wrong as (t1 & t2 & t3 & d & A & B & C & D & E & F). exists [Some 2; Some 3], (Array [Some (/ 2); Some (/ 2)]), (Array [Some (/ 2); Some (/ 4)]), (Array [Some 1; Some (/ 2)]), t1, t2, t3, d.
  assert (NZ : forall a b, a <> 0 -> b <> 0 -> nonzero (Array [Some a; Some b])).
  { intros a b X Y. constructor; [exists a; auto|constructor; [exists b; auto|constructor]]. }
  split; [apply NZ; lra|]. split; [apply NZ; lra|]. split; [apply NZ; lra|]. do 4 (split; [assumption|]). rewrite E, F. intros X. assert (Y : Some (3 / 4) = Some (3 / 2)) by congruence. injection Y as Y. lra.
Qed.
Print Assumptions C56_third_refuted.

(** C57: windows of different orders do not overlap ... *)
Theorem C57_disjoint : forall f e m n n', m <> 0%Z -> 0 < e -> 0 <= f <= 1 -> same_side m n -> same_side m n' -> (Z.abs n < Z.abs n')%Z ->
  snd (base_range (fractional_tab f) (e / IZR m * IZR n) n) <= fst (base_range (fractional_tab f) (e / IZR m * IZR n') n').
Proof. exact windows_disjoint. Qed.
Print Assumptions C57_disjoint.
(** ... and no photon is counted twice *)
Theorem C57_sum : forall f cdf e m, m <> 0%Z -> 0 < e -> 0 <= f <= 1 -> (forall x y, x <= y -> cdf x e <= cdf y e) -> (forall x, 0 <= cdf x e <= 1) ->
  forall orders, NoDup orders -> Forall (same_side m) orders ->
  exists l, sequence (map (fun n => arf_factor (base_range (fractional_tab f)) cdf e m n) orders) = Ok l /\ Forall (fun x => 0 <= x) l /\ 0 <= Rsum l <= 1.
Proof. exact factors_sum. Qed.
Print Assumptions C57_sum.
(** for the full distance and consecutive orders nothing is lost between the windows *)
Theorem C57_consecutive : forall cdf e m k n, (0 < k)%Z -> (0 < m)%Z -> exists l,
  sequence (map (fun i => arf_factor (base_range (fractional_tab 1)) cdf e m (k + Z.of_nat i)) (seq 0 n)) = Ok l /\
  Rsum l = cdf (e / IZR m * (IZR k + INR n - 1 / 2)) e - cdf (e / IZR m * (IZR k - 1 / 2)) e.
Proof. exact consecutive. Qed.
Print Assumptions C57_consecutive.
(* a step function as redistribution: orders 1 to 3, true order 2 *)
Example C57_ex : exists l, sequence (map (fun n => arf_factor (base_range (fractional_tab (1 / 2))) (fun x loc => if Rleb loc x then 1 else 0) 2 2 n) [1; 2; 3]%Z) = Ok l /\ Forall (fun x => 0 <= x) l /\ 0 <= Rsum l <= 1.
Proof.
  apply factors_sum; try lra; try lia.
  - intros x y L. destruct (Rleb 2 x) eqn:E, (Rleb 2 y) eqn:E2; try lra. apply Rleb_true in E. apply Rleb_false in E2. lra.
  - intros x. destruct (Rleb 2 x); lra.
  - repeat constructor; cbn; lia.
  - constructor; [split; [lia|reflexivity]|]. constructor; [split; [lia|reflexivity]|]. constructor; [split; [lia|reflexivity]|constructor].
Qed.

(** C93: the files that are written *)
Theorem C93_pairs : forall offs ex orders o m, In (o, m) (osip_pairs offs ex orders) <-> In o orders /\ In (m - o)%Z offs /\ m <> 0%Z /\ Z.sgn o = Z.sgn m /\ ex m = true.
Proof. exact pairs_in. Qed.
Print Assumptions C93_pairs.
Theorem C93_once : forall offs ex orders, NoDup offs -> NoDup orders -> NoDup (osip_pairs offs ex orders).
Proof. exact pairs_nodup. Qed.
Print Assumptions C93_once.
Theorem C93_no_zero : forall offs ex orders o m, In (o, m) (osip_pairs offs ex orders) -> o <> 0%Z /\ m <> 0%Z.
Proof. intros offs ex orders o m I. apply pairs_in in I. destruct I as (_ & _ & N & S & _). split; [|exact N]. intros ->. destruct m; cbn in S; [congruence|discriminate|discriminate]. Qed.
Print Assumptions C93_no_zero.
Example C93_ex : osip_pairs [-1; 0; 1]%Z (fun m => negb (Z.eqb m 3)) [-1; 0; 1; 2]%Z = [(-1, -2); (-1, -1); (1, 1); (1, 2); (2, 1); (2, 2)]%Z.
Proof. reflexivity. Qed.

(** C94: file names identify the orders *)
Theorem C94_output_names : forall m o m' o' f, out_name m o = Ok f -> out_name m' o' = Ok f -> m = m' /\ o = o'.
Proof. exact out_name_inj. Qed.
Print Assumptions C94_output_names.
Theorem C94_input_names : forall a b f, in_name a = Ok f -> in_name b = Ok f -> a = b.
Proof. exact in_name_inj. Qed.
Print Assumptions C94_input_names.
Theorem C94_output_not_input : forall m o z f, out_name m o = Ok f -> in_name z = Ok f -> False.
Proof. exact out_in_differ. Qed.
Print Assumptions C94_output_not_input.
Theorem C94_total : forall m o, (exists f, out_name m o = Ok f) /\ (exists f, in_name o = Ok f).
Proof. intros. split; eexists; reflexivity. Qed.
Print Assumptions C94_total.
Example C94_ex : out_name (-12) 3 = Ok "_ccdord_3_true_-12.arf" /\ in_name 7 = Ok "_+7.arf" /\ in_name (-7) = Ok "_-7.arf" /\ filename_from_meta "rmf" [] = Err KeyError.
Proof. repeat split. Qed.

(** C55: the window of FixedFractionOSIP holds the fraction asked for, if the redistribution is the distribution [Phi] moved to the energy and stretched to the width. *)
Theorem C55_fixed_fraction : forall Phi q sigma e order, sigma e <> 0 -> let r := fixed_fraction_range q sigma e order in
  Phi ((snd r - e) / sigma e) - Phi ((fst r - e) / sigma e) = Phi (snd q) - Phi (fst q).
Proof. intros Phi q sigma e order S r. unfold r, fixed_fraction_range. cbn [fst snd]. f_equal; [|f_equal]; f_equal; field; exact S. Qed.
Print Assumptions C55_fixed_fraction.
(** a fixed half width: the window is centered on the energy *)
Theorem C55_fixed_width : forall h e order, base_range (fixed_width_tab h) e order = (e - h, e + h).
Proof. intros. unfold base_range, fixed_width_tab. cbn [fst snd]. f_equal; ring. Qed.
Print Assumptions C55_fixed_width.
Example C55_fraction_ex : fixed_fraction_range (-2, 2) (fun e => e / 10) 10 3 = (8, 12).
Proof. unfold fixed_fraction_range. cbn [fst snd]. f_equal; field. Qed.
