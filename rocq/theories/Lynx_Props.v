(** Lynx, AXIS and Athena: C156-C161 *)
From Verif Require Import Base_Proofs Vec_Proofs Coords_Proofs Angles_Proofs Plane_Proofs Position_Proofs Rowland_Proofs Placement_Proofs Aperture_Proofs Bend_Proofs.
From Verif Require Export Lynx_Proofs.
Open Scope R_scope.

(** ** C156 apertures of the shells *)
Theorem C156_apertures : forall f table off k s, nth_error table k = Some s -> exists a, nth_error (metashell_aperture f table off) k = Some a /\
  ap_in a = sh_in s /\ ap_id a = (off + Z.of_nat k)%Z /\ ap_col a = Some "shell"%string /\
  (0 < sh_out s -> norm4 (v_y (ap_pos a)) = sh_out s /\ norm4 (v_z (ap_pos a)) = sh_out s /\ xyz (center (ap_pos a)) = V3 (f + 200) 0 0 /\
     circ_area (ap_pos a) 0 (2 * PI) (ap_in a) = shell_area s).
Proof.
  intros f table off k s H. eexists. split; [apply metashell_nth, H|]. cbn [ap_in ap_id ap_col ap_pos]. split; [reflexivity|]. split; [reflexivity|]. split; [reflexivity|]. intros P. split; [now apply ring_norms|]. split; [now apply ring_norms|].
  split; [|now apply ring_area]. rewrite compose_cols. unfold center. cbn [b3]. apply xyz_hom.
Qed.
Print Assumptions C156_apertures.
Theorem C156_number : forall f table off, length (metashell_aperture f table off) = length table.
Proof. exact metashell_length. Qed.
Print Assumptions C156_number.
(** serial numbers 1, 2, ... are only used with [id_num_offset=1] *)
Theorem C156_serial_partial : forall f table off, serials_in_order table -> table <> [] ->
  (map ap_id (metashell_aperture f table off) = map sh_serial table <-> off = 1%Z).
Proof.
  intros f table off So NE. split.
  - intros H. destruct table as [|s r]; [congruence|]. pose proof (So 0%nat s eq_refl) as S0. pose proof (metashell_nth f (s :: r) off 0 s eq_refl) as M.
    assert (E : nth_error (map ap_id (metashell_aperture f (s :: r) off)) 0 = Some (sh_serial s)) by (rewrite H; reflexivity). rewrite nth_error_map, M in E. cbn [option_map ap_id] in E. injection E as E. lia.
  - intros ->. apply Base_Proofs.nth_error_ext. intros k. rewrite !nth_error_map. destruct (nth_error table k) as [s|] eqn:T.
    + rewrite (metashell_nth f table 1 k s T). cbn [option_map ap_id]. f_equal. rewrite (So k s T). lia.
    + apply nth_error_None in T. rewrite <- (metashell_length f table 1) in T. apply nth_error_None in T. now rewrite T.
Qed.
Print Assumptions C156_serial_partial.
Theorem C156_serial_refuted : ~ (forall f, map ap_id (metashell_aperture f lynx_shells 0) = map sh_serial lynx_shells).
Proof. intros H. specialize (H 10000). apply (f_equal (fun l => nth_error l 0)) in H. cbn in H. discriminate H. Qed.
Print Assumptions C156_serial_refuted.
(** the drawn ring of shell k ends where shell k + 1 begins; there is no gap in the drawing *)
Theorem C156_display_partial : forall table k s, nested table -> (2 <= length table)%nat -> nth_error table k = Some s ->
  exists l a b, display_factors table = Ok l /\ nth_error l k = Some (a, b) /\
  (a = if Nat.eqb k 0 then 0 else 1) /\
  match nth_error table (S k) with Some t => sh_out s * b = sh_in t /\ 1 < b | None => b = 3 / 2 end.
Proof.
  intros table k s [N1 N2] L H. unfold display_factors. destruct table as [|s0 r] eqn:ET; [cbn in L; lia|]. rewrite <- ET in *. clear ET.
  eexists; eexists; eexists. split; [reflexivity|]. assert (K : (k < length table)%nat) by (apply nth_error_Some; congruence).
  split; [apply nth_combine; [apply inner_factors_nth, K|apply outer_factors_nth, H]|]. split.
  - destruct (Nat.eqb_spec (length table) 1); [lia|]. cbn [negb]. now rewrite Bool.andb_true_r.
  - destruct (nth_error table (S k)) as [t|] eqn:T; [|reflexivity]. pose proof (N1 k s H) as P. pose proof (N2 k s t H T) as Q. split; [field; lra|].
    apply (Rmult_lt_reg_r (sh_out s)); [lra|]. unfold Rdiv. rewrite Rmult_assoc, Rinv_l by lra. lra.
Qed.
Print Assumptions C156_display_partial.
(** with one shell the disk in the middle is not drawn, with none the setup fails *)
Theorem C156_display_refuted : (forall s, display_factors [s] = Ok [(1, 3 / 2)]) /\ display_factors [] = Err IndexError.
Proof. split; reflexivity. Qed.
Print Assumptions C156_display_refuted.
Theorem C156_table : nested lynx_shells /\ serials_in_order lynx_shells /\ length lynx_shells = 12%nat.
Proof.
  assert (X : forall k s, nth_error lynx_shells k = Some s -> s = Shell (Z.of_nat (S k)) (127 + 115 * INR k) (231 + 115 * INR k)).
  { intros k s H. unfold lynx_shells in H. rewrite nth_error_map in H. destruct (nth_error (seq 0 12) k) as [j|] eqn:E; [|discriminate]. pose proof E as E'. apply nth_error_nth with (d := 0%nat) in E'.
    rewrite seq_nth in E' by (assert (k < length (seq 0 12))%nat by (apply nth_error_Some; congruence); rewrite seq_length in *; lia). cbn [option_map plus] in *. subst j. congruence. }
  split; [split|split; [|reflexivity]].
  - intros k s H. rewrite (X k s H). cbn [sh_in sh_out]. pose proof (pos_INR k). lra.
  - intros k s t H H'. rewrite (X k s H), (X (S k) t H'). cbn [sh_in sh_out]. rewrite S_INR. lra.
  - intros k s H. now rewrite (X k s H).
Qed.
Print Assumptions C156_table.
Example C156_ex : exists a, nth_error (metashell_aperture 10000 lynx_shells 1) 2 = Some a /\ ap_in a = 127 + 115 * 2 /\ ap_id a = 3%Z.
Proof.
  destruct (C156_apertures 10000 lynx_shells 1 2 (Shell 3 (127 + 115 * INR 2) (231 + 115 * INR 2)) eq_refl) as (a & A & B & C & _). exists a. rewrite A, B, C. split; [reflexivity|]. split; [cbn [sh_in INR]; ring|reflexivity].
Qed.
Example C156_ex_display : exists a b l, display_factors lynx_shells = Ok l /\ nth_error l 0 = Some (a, b) /\ a = 0 /\ 231 * b = 242.
Proof.
  destruct C156_table as (N & _ & L). destruct (C156_display_partial lynx_shells 0 (Shell 1 (127 + 115 * INR 0) (231 + 115 * INR 0)) N ltac:(rewrite L; lia) eq_refl) as (l & a & b & D & P & A & B).
  exists a, b, l. split; [exact D|]. split; [exact P|]. split; [exact A|].
  assert (B' : (231 + 115 * INR 0) * b = 127 + 115 * INR 1) by apply B. cbn [INR] in B'. lra.
Qed.

(** ** C157 efficiency of the shells *)
Theorem C157_rule : forall interp eff table shells ph ph' j p, serials_in_order table -> eff_shells interp eff table = Ok shells -> efficiency shells ph = Ok ph' -> nth_error ph j = Some p ->
  exists p', nth_error ph' j = Some p' /\ mp_shell p' = mp_shell p /\ mp_energy p' = mp_energy p /\
  (forall k s, nth_error table k = Some s -> mp_shell p = Z.of_nat (S k) -> exists col q, eff (sh_serial s) = Ok col /\ interp (map (fun a => a * 100 / shell_area s) col) (mp_energy p) = Ok q /\
     mp_prob p' = mp_prob p * clip q 0 1) /\
  ((mp_shell p <= 0 \/ Z.of_nat (length table) < mp_shell p)%Z -> mp_prob p' = mp_prob p).
Proof. exact efficiency_rule. Qed.
Print Assumptions C157_rule.
(** photons through aperture [k] get the factor of row [k] if the apertures are numbered from 1 *)
Theorem C157_shell_partial : forall interp eff table shells f ph ph' j p k s a, serials_in_order table -> eff_shells interp eff table = Ok shells -> efficiency shells ph = Ok ph' ->
  nth_error table k = Some s -> nth_error (metashell_aperture f table 1) k = Some a -> nth_error ph j = Some p -> mp_shell p = ap_id a ->
  exists p' col q, nth_error ph' j = Some p' /\ eff (sh_serial s) = Ok col /\ interp (map (fun x => x * 100 / shell_area s) col) (mp_energy p) = Ok q /\ mp_prob p' = mp_prob p * clip q 0 1.
Proof.
  intros interp eff table shells f ph ph' j p k s a So ES EF T A P I. destruct (efficiency_rule interp eff table shells ph ph' j p So ES EF P) as (p' & P' & _ & _ & R & _).
  assert (A' : Some (1 + Z.of_nat k)%Z = Some (ap_id a)) by (rewrite (metashell_nth f table 1 k s T) in A; injection A as <-; reflexivity).
  assert (E : ap_id a = Z.of_nat (S k)) by (assert (forall x y : Z, Some x = Some y -> x = y) as SI by congruence; apply SI in A'; lia). destruct (R k s T ltac:(congruence)) as (col & q & C & Q & M). exists p', col, q. auto.
Qed.
Print Assumptions C157_shell_partial.
(** with the default numbers (from 0): no factor for the first shell, and for every other one that of its inner neighbour *)
Theorem C157_shell_refuted : forall interp eff table shells f ph ph' j p k s a, serials_in_order table -> eff_shells interp eff table = Ok shells -> efficiency shells ph = Ok ph' ->
  nth_error table k = Some s -> nth_error (metashell_aperture f table 0) k = Some a -> nth_error ph j = Some p -> mp_shell p = ap_id a ->
  exists p', nth_error ph' j = Some p' /\
  match k with
  | O => mp_prob p' = mp_prob p
  | S i => exists t col q, nth_error table i = Some t /\ eff (sh_serial t) = Ok col /\ interp (map (fun x => x * 100 / shell_area t) col) (mp_energy p) = Ok q /\ mp_prob p' = mp_prob p * clip q 0 1
  end.
Proof.
  intros interp eff table shells f ph ph' j p k s a So ES EF T A P I. destruct (efficiency_rule interp eff table shells ph ph' j p So ES EF P) as (p' & P' & _ & _ & R & B).
  assert (A' : Some (0 + Z.of_nat k)%Z = Some (ap_id a)) by (rewrite (metashell_nth f table 0 k s T) in A; injection A as <-; reflexivity).
  assert (E : ap_id a = Z.of_nat k) by (assert (forall x y : Z, Some x = Some y -> x = y) as SI by congruence; apply SI in A'; lia). exists p'. split; [exact P'|]. destruct k as [|i].
  - apply B. left. rewrite I, E. lia.
  - destruct (nth_error table i) as [t|] eqn:Ti; [|apply nth_error_None in Ti; assert (S i < length table)%nat by (apply nth_error_Some; congruence); lia].
    destruct (R i t Ti ltac:(congruence)) as (col & q & C & Q & M). exists t, col, q. auto.
Qed.
Print Assumptions C157_shell_refuted.
Example C157_ex : let table := [Shell 1 0 1; Shell 2 2 3] in
  exists shells ph', eff_shells (fun l _ => match l with x :: _ => Ok x | [] => Err ValueError end) (fun i => Ok [IZR i * (PI / 400)]) table = Ok shells /\
  efficiency shells [MPh 0 1 1; MPh 1 1 1; MPh 2 1 1] = Ok ph' /\ map mp_prob ph' = [1; 1 * clip (1 * (PI / 400) * 100 / shell_area (Shell 1 0 1)) 0 1; 1 * clip (2 * (PI / 400) * 100 / shell_area (Shell 2 2 3)) 0 1] /\
  1 * clip (1 * (PI / 400) * 100 / shell_area (Shell 1 0 1)) 0 1 = 1 / 4.
Proof.
  cbv zeta. eexists. eexists. split; [reflexivity|]. split; [reflexivity|]. split; [reflexivity|]. pose proof PI_RGT_0. unfold shell_area. cbn [sh_in sh_out].
  replace (1 * (PI / 400) * 100 / (PI * (1 * 1 - 0 * 0))) with (1 / 4) by (field; lra). rewrite clip_inside by lra. lra.
Qed.

(** ** C158 configuration of the gratings *)
Theorem C158_config : forall place c st r t st', lynx_gas place c st = (Ok (r, t), st') -> exists lo hi, r = Arr [lo; hi] /\
  (In lo (map sh_in (lc_shells c)) /\ forall s, In s (lc_shells c) -> lo <= sh_in s) /\ (In hi (map sh_out (lc_shells c)) /\ forall s, In s (lc_shells c) -> sh_out s <= hi) /\
  to_rowland t = lc_rowland c /\ to_d_element t = Arr [fst (lc_size c) + 2 * lc_frame c; snd (lc_size c) + 2 * lc_frame c] /\
  (din "elem_args"%string (ls_gas st) = true -> dget "zoom"%string (to_args t) = Some (Arr [1; fst (lc_size c) / 2; snd (lc_size c) / 2]) /\ dget "orientation"%string (to_args t) = Some (Mat3 (lc_blaze c)) /\
     forall k, k <> "zoom"%string -> k <> "orientation"%string -> dget k (to_args t) = dget k (ls_args st)).
Proof. exact gas_ok. Qed.
Print Assumptions C158_config.
(** the dictionaries are shared between configurations and changed by every call, but what is left from an earlier call does not matter *)
Theorem C158_history : forall place place' c c' st, fst (lynx_gas place c (snd (lynx_gas place' c' st))) = fst (lynx_gas place c st).
Proof. exact gas_history. Qed.
Print Assumptions C158_history.
(** After a call both dictionaries have the entries of this configuration, even if the call fails; all other entries are as before. *)
Definition left_behind (c : lconf) (st st' : lstore) : Prop :=
  dget "rowland"%string (ls_gas st') = Some (lc_rowland c) /\ dget "d_element"%string (ls_gas st') = Some (Arr [fst (lc_size c) + 2 * lc_frame c; snd (lc_size c) + 2 * lc_frame c]) /\
  dget "zoom"%string (ls_args st') = Some (Arr [1; fst (lc_size c) / 2; snd (lc_size c) / 2]) /\ dget "orientation"%string (ls_args st') = Some (Mat3 (lc_blaze c)) /\
  (forall k, ~ In k ["rowland"; "d_element"; "radius"]%string -> dget k (ls_gas st') = dget k (ls_gas st)) /\ (forall k, ~ In k ["zoom"; "orientation"]%string -> dget k (ls_args st') = dget k (ls_args st)).
Theorem C158_shared : forall place c st, left_behind c st (snd (athena_gas place c st)) /\ dget "radius"%string (ls_gas (snd (athena_gas place c st))) = dget "radius"%string (ls_gas st) /\
  (lc_shells c <> [] -> left_behind c st (snd (lynx_gas place c st)) /\ exists lo hi, dget "radius"%string (ls_gas (snd (lynx_gas place c st))) = Some (Arr [lo; hi]) /\ In lo (map sh_in (lc_shells c)) /\ In hi (map sh_out (lc_shells c))) /\
  (lc_shells c = [] -> snd (lynx_gas place c st) = st).
Proof.
  intros place c st. unfold athena_gas. cbv zeta. cbn [snd]. unfold athena_update. cbn [ls_gas ls_args].
  split; [|split; [rewrite !dget_dset_neq by discriminate; reflexivity|split]].
  - unfold left_behind. cbn [ls_gas ls_args]. split; [rewrite dget_dset_neq by discriminate; apply dget_dset_eq|]. split; [apply dget_dset_eq|]. split; [rewrite dget_dset_neq by discriminate; apply dget_dset_eq|]. split; [apply dget_dset_eq|].
    split; intros k K; rewrite !dget_dset_neq; try reflexivity; intros ->; apply K; cbn; auto.
  - intros H. unfold lynx_gas. destruct (lc_shells c) as [|s l] eqn:L; [now destruct H|]. cbn [map]. destruct (list_min (sh_in s :: map sh_in l)) as [lo|] eqn:E; [|discriminate]. destruct (list_max (sh_out s :: map sh_out l)) as [hi|] eqn:E'; [|discriminate].
    cbv zeta. cbn [snd]. unfold left_behind, gas_update. cbn [ls_gas ls_args]. split.
    + split; [rewrite !dget_dset_neq by discriminate; apply dget_dset_eq|]. split; [rewrite dget_dset_neq by discriminate; apply dget_dset_eq|]. split; [rewrite dget_dset_neq by discriminate; apply dget_dset_eq|]. split; [apply dget_dset_eq|].
      split; intros k K; rewrite !dget_dset_neq; try reflexivity; intros ->; apply K; cbn; auto.
    + exists lo, hi. split; [apply dget_dset_eq|]. split; [apply (proj1 (list_min_spec _ _ E))|apply (proj1 (list_max_spec _ _ E'))].
  - intros H. unfold lynx_gas. rewrite H. reflexivity.
Qed.
Print Assumptions C158_shared.
(** three colors for six sectors of 60 degrees, opposite sectors have the same *)
Theorem C158_sector : forall y z, exists n : Z, (0 <= sector y z < 3)%Z /\ IZR (sector y z) * (PI / 3) <= atan2 y z + PI * IZR n < (IZR (sector y z) + 1) * (PI / 3).
Proof. exact sector_range. Qed.
Print Assumptions C158_sector.
Theorem C158_colour : forall y z, exists c, colour y z = Ok c /\ In c ["r"; "g"; "b"]%string /\ colour (- y) (- z) = Ok c.
Proof. intros y z. destruct (colour_ok y z) as (c & C & I). exists c. split; [exact C|]. split; [exact I|]. unfold colour in *. now rewrite sector_opposite. Qed.
Print Assumptions C158_colour.
Definition axis_conf : lconf := LConf (Obj 9) (30, 60) 2 lynx_shells id3.
Definition no_place : pyv -> pyv -> option pyv -> pyv -> option pyv -> option pyv -> option pyv -> result (list m4) := fun _ _ _ _ _ _ _ => Ok [id4].
Definition no_place_det : pyv -> option pyv -> pyv -> option pyv -> pyv -> option pyv -> option pyv -> option pyv -> result (list m4) := fun _ _ _ _ _ _ _ _ => Ok [id4].
Example C158_ex : exists r t st', lynx_gas no_place axis_conf (LStore axis_gas_kwargs [("d", Num 2)]%string) = (Ok (r, t), st') /\ to_d_element t = Arr [30 + 2 * 2; 60 + 2 * 2] /\
  dget "zoom"%string (to_args t) = Some (Arr [1; 30 / 2; 60 / 2]) /\ dget "d"%string (to_args t) = Some (Num 2).
Proof.
  destruct (axis_total no_place no_place_det axis_conf [("d", Num 2)]%string [] 0) as (g & d & H & _); [discriminate|intros; eexists; reflexivity|intros; eexists; reflexivity|].
  unfold perfect_axis in H. destruct (lynx_gas no_place axis_conf _) as [[[r t]|e] st'] eqn:E; [|discriminate]. exists r, t, st'. split; [reflexivity|].
  destruct (gas_ok _ _ _ _ _ _ E) as (lo & hi & _ & _ & _ & _ & D & A). destruct (A eq_refl) as (Z & _ & K). split; [exact D|]. split; [exact Z|]. rewrite K by discriminate. reflexivity.
Qed.
Example C158_ex_colour : sector 1 1 = 0%Z.
Proof.
  unfold sector, atan2. replace (Reqb (sqrt (1 * 1 + 1 * 1)) 0) with false by (symmetry; apply Reqb_false; pose proof (sqrt_lt_R0 (1 * 1 + 1 * 1)); lra). replace (Rleb 0 1) with true by (symmetry; apply Rleb_true; lra).
  replace (1 * 1 + 1 * 1) with 2 by ring. pose proof PI_RGT_0. rewrite <- cos_PI4, acos_cos by lra. rewrite Rmod_small by lra. replace (PI / 4 / PI * 3) with (3 / 4) by (field; lra). apply Rfloor_unique. lra.
Qed.

(** ** C159 keywords *)
(** a structure is only made if every keyword is known and the needed ones are there *)
Theorem C159_accepted : forall place args kw t, elements_on_torus place args kw = Ok t ->
  (forall k, In k (dkeys kw) -> In k torus_keys) /\ (forall k, In k torus_needs -> In k (dkeys kw)) /\ dget "rowland"%string kw = Some (to_rowland t) /\ to_guess t = dget "guess_distance"%string kw /\
  dget "d_element"%string kw = Some (to_d_element t) /\ to_axis t = dget "optimize_axis"%string kw /\ to_col t = dget "id_col"%string kw /\ dget "elem_class"%string kw = Some (to_class t) /\
  (din "elem_args"%string kw = true -> to_args t = args) /\
  place (to_rowland t) (to_guess t) (to_d_element t) (to_axis t) (dget "normal_spec"%string kw) (dget "parallel_spec"%string kw) = Ok (to_elem_pos t).
Proof. intros place args kw t H. destruct (torus_ok place args kw t H) as (A & B & _ & C). tauto. Qed.
Print Assumptions C159_accepted.
Theorem C159_made : forall place args kw rl de cl ep, (forall k, In k (dkeys kw) -> In k torus_keys /\ ~ In k ["pos4d"; "position"; "orientation"; "zoom"]%string) ->
  dget "rowland"%string kw = Some rl -> dget "d_element"%string kw = Some de -> dget "elem_class"%string kw = Some cl ->
  place rl (dget "guess_distance"%string kw) de (dget "optimize_axis"%string kw) (dget "normal_spec"%string kw) (dget "parallel_spec"%string kw) = Ok ep ->
  exists t, elements_on_torus place args kw = Ok t.
Proof. exact torus_total. Qed.
Print Assumptions C159_made.
(** position keywords are accepted, but the structure is at the origin *)
Theorem C159_position_refuted : forall place args kw t, dget "geometry"%string kw = None -> elements_on_torus place args kw = Ok t -> to_pos4d t = id4.
Proof. intros place args kw t G H. destruct (torus_ok place args kw t H) as (_ & _ & P & _). auto. Qed.
Print Assumptions C159_position_refuted.
Example C159_ex_position : exists t, elements_on_torus (fun _ _ _ _ _ _ => Ok [id4]) [] [("rowland", Obj 9); ("d_element", Num 1); ("elem_class", Obj 1); ("position", Arr [5; 0; 0])]%string = Ok t /\ to_pos4d t = id4.
Proof.
  assert (A : forall kw, check_det (compose (V3 5 0 0) id3 (V3 1 1 1)) kw = Ok (compose (V3 5 0 0) id3 (V3 1 1 1), kw)).
  { intros kw. unfold check_det. replace (Reqb _ 0) with false; [reflexivity|]. symmetry. apply Reqb_false. unfold compose, diag3, det4, det3, mul3, aff; vu; cbn. lra. }
  assert (L : Rleb 1 0 = false) by (apply Rleb_false; lra).
  set (kw := [("rowland", Obj 9); ("d_element", Num 1); ("elem_class", Obj 1); ("position", Arr [5; 0; 0])]%string).
  assert (E : exists t, elements_on_torus (fun _ _ _ _ _ _ => Ok [id4]) [] kw = Ok t).
  { unfold elements_on_torus, pop_req, pop_opt. change (dget "rowland"%string kw) with (Some (Obj 9)). cbn [bind].
    set (kw1 := ddel "guess_distance"%string _). change (dget "d_element"%string kw1) with (Some (Num 1)). cbn [bind]. set (kw2 := ddel "parallel_spec"%string _). change (dget "geometry"%string kw2) with (@None pyv).
    change (ddel "geometry"%string kw2) with [("elem_class", Obj 1); ("position", Arr [5; 0; 0])]%string.
    assert (P : parse_position [("elem_class", Obj 1); ("position", Arr [5; 0; 0])]%string = Ok (compose (V3 5 0 0) id3 (V3 1 1 1), [("elem_class", Obj 1)]%string)).
    { unfold parse_position. cbn [dget String.eqb Ascii.eqb Bool.eqb bind]. rewrite L. cbn [orb]. exact (A _). }
    rewrite P. cbn [bind]. change (dget "elem_class"%string (ddel "id_num_offset"%string [("elem_class"%string, Obj 1)])) with (Some (Obj 1)). cbn [bind]. unfold second_geometry.
    rewrite parse_none by (intros k _; exact (fun x => x)). cbn [bind]. eexists. reflexivity. }
  destruct E as [t E]. exists t. split; [exact E|]. eapply C159_position_refuted; [|exact E]. reflexivity.
Qed.
(** the configuration of Lynx has [x_range], that of Athena [opt_range], which no class takes: both instruments cannot be made *)
Theorem C159_lynx_refuted : forall placeg placed c st args, In "x_range"%string (dkeys (ls_gas st)) -> exists e, perfect_lynx placeg placed c st args = Err e.
Proof.
  intros placeg placed c st args I. destruct (lynx_gas_unknown placeg c st "x_range" I) as [e E]; [cbn; intuition discriminate|discriminate|]. exists e. unfold perfect_lynx. now rewrite E.
Qed.
Print Assumptions C159_lynx_refuted.
Theorem C159_athena_refuted : forall placeg placed c st args, In "opt_range"%string (dkeys (ls_gas st)) -> exists e, perfect_athecat placeg placed c st args = Err e.
Proof.
  intros placeg placed c st args I. destruct (athena_gas_unknown placeg c st "opt_range" I) as [e E]; [cbn; intuition discriminate|discriminate|]. exists e. unfold perfect_athecat. now rewrite E.
Qed.
Print Assumptions C159_athena_refuted.
(** ... with the shipped dictionaries, whatever else is in the configuration *)
Theorem C159_shipped_refuted : forall placeg placed c args args', (exists e, perfect_lynx placeg placed c (LStore lynx_gas_kwargs args) args' = Err e) /\ (exists e, perfect_athecat placeg placed c (LStore athena_gas_kwargs args) args' = Err e).
Proof. intros. split; [apply C159_lynx_refuted|apply C159_athena_refuted]; cbn; tauto. Qed.
Print Assumptions C159_shipped_refuted.
(** ... the one unknown keyword is the only obstacle for the gratings: without it they are made, with the axis for the search from the configuration for Athena *)
Theorem C159_without_range : forall placeg c args, lc_shells c <> [] -> (forall a b d e f g h, exists ep, placeg a b d e f g h = Ok ep) ->
  (exists r t, fst (lynx_gas placeg c (LStore (ddel "x_range"%string lynx_gas_kwargs) args)) = Ok (r, t) /\ to_axis t = None /\ to_guess t = None) /\
  (exists t, fst (athena_gas placeg c (LStore (ddel "opt_range"%string athena_gas_kwargs) args)) = Ok (Obj 4, t) /\ to_axis t = Some (Obj 3) /\ to_guess t = None).
Proof. exact without_range. Qed.
Print Assumptions C159_without_range.
(** neither can the detectors: the torus is passed as a positional argument *)
Theorem C159_detector_refuted : forall place args rl kw, lynx_det place args rl kw = Err TypeError.
Proof. exact lynx_det_err. Qed.
Print Assumptions C159_detector_refuted.
Theorem C159_axis : forall placeg placed c args args' y, lc_shells c <> [] -> (forall a b d e f g h, exists ep, placeg a b d e f g h = Ok ep) -> (forall a b d e f g h i, exists ep, placed a b d e f g h i = Ok ep) ->
  exists g d, perfect_axis placeg placed c (LStore axis_gas_kwargs args) args' y = Ok (g, d) /\ to_guess g = Some (Num 9000) /\ to_guess d = Some (Num 25) /\ to_rowland g = lc_rowland c /\ to_rowland d = lc_rowland c /\
  placed (Arr [400 - y; 800 - y]) None (lc_rowland c) (Some (Num 25)) (Obj 6) None None None = Ok (to_elem_pos d).
Proof. exact axis_total. Qed.
Print Assumptions C159_axis.
Example C159_ex_lynx : exists e, perfect_lynx no_place no_place_det axis_conf (LStore lynx_gas_kwargs []) [] = Err e.
Proof. apply C159_lynx_refuted. cbn. tauto. Qed.
Example C159_ex_athena : exists e, perfect_athecat no_place no_place_det axis_conf (LStore athena_gas_kwargs []) [] = Err e.
Proof. apply C159_athena_refuted. cbn. tauto. Qed.
Example C159_ex_axis : exists g d, perfect_axis no_place no_place_det axis_conf (LStore axis_gas_kwargs []) [] 3 = Ok (g, d) /\ to_guess d = Some (Num 25).
Proof. destruct (C159_axis no_place no_place_det axis_conf [] [] 3) as (g & d & H & _ & G & _); [discriminate|intros; eexists; reflexivity|intros; eexists; reflexivity|]. eauto. Qed.
Example C159_ex_made : exists t, elements_on_torus (fun _ _ _ _ _ _ => Ok [id4]) [] [("rowland", Obj 9); ("d_element", Num 1); ("elem_class", Obj 1)]%string = Ok t.
Proof.
  apply (C159_made _ _ _ (Obj 9) (Num 1) (Obj 1) [id4]); try reflexivity. intros k K. cbn in K. repeat (destruct K as [<-|K]; [split; [cbn; tauto|cbn; intuition discriminate]|]). destruct K.
Qed.

(** ** C160 chirp and alignment *)
(** AXIS: exactly the gratings in the stacks are chirped *)
Theorem C160_axis : forall before after n, (forall e x, In e (before ++ after) -> In x (nodes e) -> Container_Model.comp false "NonParallelCATGrating"%string x = false) ->
  map ident (chirp_list_axis (mission_tree before after n)) = seq 0 n /\ Forall (fun g => Container_Model.comp false "NonParallelCATGrating"%string g = true) (chirp_list_axis (mission_tree before after n)).
Proof. exact chirp_axis. Qed.
Print Assumptions C160_axis.
(** Lynx and Athena: none is, the class looked for is never the class of an element itself *)
Theorem C160_lynx_refuted : forall before after n, (forall e x, In e (before ++ after) -> In x (nodes e) -> Container_Model.comp false "CATGrating"%string x = false) -> chirp_list_lynx (mission_tree before after n) = [].
Proof. exact chirp_lynx. Qed.
Print Assumptions C160_lynx_refuted.
(** With subclasses the gratings would be found, but the L1 support structures too, as their class is a subclass of CATGrating. *)
Theorem C160_subclasses : forall before after n, (forall e x, In e (before ++ after) -> In x (nodes e) -> Container_Model.comp true "CATGrating"%string x = false) ->
  map (fun g => (ident g, hd ""%string (mro g))) (elements_of_class (mission_tree before after n) "CATGrating"%string true false) =
  flat_map (fun i => [(i, "NonParallelCATGrating"%string); (i, "L1"%string)]) (seq 0 n).
Proof. exact chirp_subclasses. Qed.
Print Assumptions C160_subclasses.
(** alignment makes new elements: chirp and colors are gone *)
Theorem C160_align_refuted : forall rows s s', rows <> [] -> align rows s = Ok s' -> snd s' = map (fun _ => Extra None None) (snd s).
Proof. exact align_extra. Qed.
Print Assumptions C160_align_refuted.
(** a global row moves the structure by its translation and angles, an individual row each element by its draw; nothing else is changed *)
Theorem C160_row : forall k tol draws s s', align_row k tol draws s = Ok s' ->
  (k = Global -> p_unc (ps_par (fst s')) = move6 (fst tol) (snd tol) /\ p_elem_unc (ps_par (fst s')) = p_elem_unc (ps_par (fst s))) /\
  (k = Individual -> p_unc (ps_par (fst s')) = p_unc (ps_par (fst s)) /\
     forall i, (i < List.length (ps_elems (fst s)))%nat -> nth_error (p_elem_unc (ps_par (fst s'))) i = Some (move6 (fst (draws i)) (snd (draws i)))) /\
  p_pos4d (ps_par (fst s')) = p_pos4d (ps_par (fst s)) /\ p_elem_pos (ps_par (fst s')) = p_elem_pos (ps_par (fst s)) /\ generate_elements (ps_par (fst s')) = Ok (ps_elems (fst s')).
Proof. exact row_spec. Qed.
Print Assumptions C160_row.
Theorem C160_kinds : forall rows s s', align rows s = Ok s' -> Forall (fun r => fst (fst r) <> Other) rows.
Proof. exact align_other. Qed.
Print Assumptions C160_kinds.
(** The rows are moves of the structure as in C13, one after the other. *)
Definition row_op (r : kind * (v3 * v3) * (nat -> v3 * v3)) : tol_op := match r with (Global, t, _) => MoveGlobal (fst t) (snd t) | (_, _, d) => Wiggle d end.
Lemma align_moves : forall rows s, Forall (fun r => fst (fst r) <> Other) rows ->
  match tol_run (fst s) (map row_op rows) with Ok p => exists x, align rows s = Ok (p, x) | Err e => align rows s = Err e end.
Proof.
  induction rows as [|[[k t] d] rows IH]; intros s F; [cbn; exists (snd s); now destruct s|]. inversion F as [|? ? K F']; subst. cbn [fst] in K. cbn [map row_op tol_run align align_row].
  destruct k; [| |now destruct K]; cbn [row_op align_row]; (destruct (tol_apply _ _) as [p|e]; cbn [bind]; [exact (IH (p, regenerate (snd s)) F')|reflexivity]).
Qed.
(** The misalignments work for all structures that can be built. With one global and one individual row, as in the default budget for the gratings, the structure is moved by the one and each element by its own draw. *)
Theorem C160_default : forall P E args off name es x t d t' d', generate_elements (new_parallel P E args off name) = Ok es ->
  exists s', align [(Global, t, d); (Individual, t', d')] (PState (new_parallel P E args off name) es, x) = Ok s' /\
    p_unc (ps_par (fst s')) = move6 (fst t) (snd t) /\ p_elem_unc (ps_par (fst s')) = map (fun i => move6 (fst (d' i)) (snd (d' i))) (seq 0 (List.length E)) /\
    generate_elements (ps_par (fst s')) = Ok (ps_elems (fst s')).
Proof.
  intros P E args off name es x t d t' d' G. set (rows := [(Global, t, d); (Individual, t', d')]). set (s := (PState (new_parallel P E args off name) es, x)).
  pose proof (align_moves rows s ltac:(repeat constructor; discriminate)) as A. destruct (tol_run_total (fst s) (map row_op rows)) as [p R]; [exact G|apply new_parallel_unc_ok|]. rewrite R in A. destruct A as [y A].
  exists (p, y). split; [exact A|]. cbn [fst]. destruct (tol_run_state (fst s) (map row_op rows) p G R) as (C' & _ & U & V). cbn in U, V. split; [exact U|]. split; [exact V|exact C'].
Qed.
Print Assumptions C160_default.
(** Only the last of several global rows for one structure counts, whatever individual rows are between them. *)
Theorem C160_last : forall rows rows' t d s s1 s2, generate_elements (ps_par (fst s)) = Ok (ps_elems (fst s)) -> Forall (fun r => fst (fst r) = Individual) rows' ->
  align (rows ++ (Global, t, d) :: rows') s = Ok s1 -> align (filter (fun r => match fst (fst r) with Individual => true | _ => false end) rows ++ (Global, t, d) :: rows') s = Ok s2 -> ps_elems (fst s1) = ps_elems (fst s2).
Proof.
  intros rows rows' t d s s1 s2 C F A1 A2. pose proof (C160_kinds _ _ _ A1) as K1. pose proof (C160_kinds _ _ _ A2) as K2. pose proof (align_moves _ s K1) as M1. pose proof (align_moves _ s K2) as M2.
  destruct (tol_run (fst s) (map row_op (rows ++ _))) as [p1|] eqn:R1 in M1; [|rewrite M1 in A1; discriminate]. destruct (tol_run (fst s) (map row_op (filter _ rows ++ _))) as [p2|] eqn:R2 in M2; [|rewrite M2 in A2; discriminate].
  destruct M1 as [x1 M1]. destruct M2 as [x2 M2]. assert (s1 = (p1, x1)) as -> by congruence. assert (s2 = (p2, x2)) as -> by congruence. cbn [fst].
  apply (tol_run_last (fst s) _ _ p1 p2 C R1 R2); rewrite !map_app.
  - rewrite !last_global_app. cbn. reflexivity.
  - rewrite !last_individual_app. f_equal. assert (K : Forall (fun r => fst (fst r) <> Other) rows) by (apply Forall_app in K1; apply K1). generalize (p_elem_unc (ps_par (fst s))). clear - K. revert K. induction rows as [|[[k t] d] rows IH]; intros K u; [reflexivity|]. inversion K; subst. cbn [filter fst]. destruct k; [exact (IH ltac:(assumption) u)|exact (IH ltac:(assumption) _)|now destruct H1].
Qed.
Print Assumptions C160_last.
Example C160_ex_default : exists es s', generate_elements (new_parallel id4 [id4; id4] [] 0 (fun i => Obj i)) = Ok es /\
  align [(Global, (V3 1 0 0, zero3), fun _ => (zero3, zero3)); (Individual, (zero3, zero3), fun i => (V3 0 (INR i) 0, zero3))] (PState (new_parallel id4 [id4; id4] [] 0 (fun i => Obj i)) es, []) = Ok s' /\
  p_unc (ps_par (fst s')) = move6 (V3 1 0 0) zero3 /\ nth_error (p_elem_unc (ps_par (fst s'))) 1 = Some (move6 (V3 0 1 0) zero3).
Proof.
  destruct (new_parallel_positions id4 [id4; id4] [] 0 (fun i => Obj i)) as (es & G & _); [unfold no_position; auto|repeat constructor; apply shear_free_id|].
  destruct (C160_default id4 [id4; id4] [] 0%Z (fun i => Obj i) es [] (V3 1 0 0, zero3) (fun _ => (zero3, zero3)) (zero3, zero3) (fun i => (V3 0 (INR i) 0, zero3)) G) as (s' & A & U & V & _).
  exists es, s'. split; [exact G|]. split; [exact A|]. split; [exact U|]. rewrite V. reflexivity.
Qed.
(** values for global rows are scaled (or multiplied with draws), those of other rows are taken as given; doing it twice is the same as once *)
Theorem C160_budget : forall g draws b, br_kind (reformat_row g draws b) = br_kind b /\ br_in (reformat_row g draws b) = br_in b /\
  reformat_row g draws (reformat_row g draws b) = reformat_row g draws b /\
  exists l, br_out (reformat_row g draws b) = Some l /\
  (br_kind b <> Global -> l = br_in b) /\
  (br_kind b = Global -> forall f i x, g = Some f -> nth_error (br_in b) i = Some x -> nth_error l i = Some (f * x)) /\
  (br_kind b = Global -> forall i x d, g = None -> nth_error (br_in b) i = Some x -> nth_error draws i = Some d -> nth_error l i = Some (d * x)).
Proof.
  intros g draws [k l o]. unfold reformat_row. cbn [br_kind br_in br_out]. split; [reflexivity|]. split; [reflexivity|]. split; [reflexivity|]. eexists. split; [reflexivity|]. split; [destruct k; congruence|]. split.
  - intros -> f i x -> H. rewrite nth_error_map, H. cbn. f_equal. ring.
  - intros -> i x d -> H H'. rewrite nth_error_map, (nth_combine _ _ _ _ _ H H'). cbn. f_equal. ring.
Qed.
Print Assumptions C160_budget.
(** the copies of the configuration do not have the budget: an instrument with misalignments can not be made from them *)
Theorem C160_copy_refuted : forall (V : Type) (c : dict V) b, dget "alignmentbudget"%string c = None -> dget "alignmentbudget"%string (fst (default_confs b c)) = None /\ dget "alignmentbudget"%string (snd (default_confs b c)) = Some b.
Proof. intros V c b H. unfold default_confs, copy_then_set. cbn [fst snd]. split; [exact H|apply Base_Proofs.dget_dset_eq]. Qed.
Print Assumptions C160_copy_refuted.
Example C160_ex : map ident (chirp_list_axis (mission_tree [] [] 3)) = [0; 1; 2]%nat /\ chirp_list_lynx (mission_tree [] [] 3) = [].
Proof. split; [apply C160_axis; intros e x []|apply C160_lynx_refuted; intros e x []]. Qed.
Example C160_ex_subclasses : map (fun g => (ident g, hd ""%string (mro g))) (elements_of_class (mission_tree [] [] 2) "CATGrating"%string true false) =
  [(0, "NonParallelCATGrating"); (0, "L1"); (1, "NonParallelCATGrating"); (1, "L1")]%nat%string.
Proof. apply C160_subclasses. intros e x []. Qed.
Example C160_ex_budget : br_out (reformat_row (Some (4 / 5)) [] (BRow Global [1; 5] None)) = Some [1 * (4 / 5); 5 * (4 / 5)].
Proof. reflexivity. Qed.
Example C160_ex_align_run : exists s s', snd s = [Extra (Some 1%nat) (Some "r"%string)] /\ align [(Global, (zero3, zero3), fun _ => (zero3, zero3))] s = Ok s' /\ snd s' = [Extra None None].
Proof.
  set (p := new_parallel id4 [] [] 0 Obj). exists (PState p [], [Extra (Some 1%nat) (Some "r"%string)]). eexists. split; [reflexivity|]. split; [reflexivity|]. reflexivity.
Qed.

(** ** C161 the detector on the Rowland circle *)
Theorem C161_surface : forall t w rot phi z, rigid (tpos t) -> 0 < tr t -> 0 < w ->
  exists m, from_rowland t w rot = Some m /\ perpendicular_axes m /\ norm3 (xyz (v_z m)) = w /\
    cylinder_surface m phi z = Some (add4 (parametric t (phi + rot) 0) (hom (scale3 z (app3 (lin (tpos t)) (V3 0 0 1))) 0)).
Proof. exact from_rowland_surface. Qed.
Print Assumptions C161_surface.
Theorem C161_circle : forall t w rot phi, rigid (tpos t) -> 0 < tr t -> 0 < w ->
  exists m p, from_rowland t w rot = Some m /\ cylinder_surface m phi 0 = Some (hom p 1) /\ on_rowland_circle t p.
Proof.
  intros t w rot phi G Tr W. destruct (from_rowland_surface t w rot phi 0 G Tr W) as (m & F & _ & _ & S). exists m, (xyz (parametric t (phi + rot) 0)). split; [exact F|]. split; [|apply parametric_circle, G].
  rewrite S. f_equal. destruct G as [A _]. unfold parametric. rewrite (rigid_aff _ A). rewrite app_aff_pt, xyz_hom. unfold add4, hom, scale3. cbn. f_equal; ring.
Qed.
Print Assumptions C161_circle.
(** For the tilted torus of the missions and the rotation by pi they use: the focal point is at angle beta, and the center of the on-axis grating is not on the accepted half *)
Theorem C161_focus : forall f alpha beta w, 0 < f -> 0 < cos alpha -> 0 < w -> exists t m, design_tilted_torus f alpha beta = Some t /\ from_rowland t w PI = Some m /\
  cylinder_surface m beta 0 = Some (hom zero3 1) /\ cylinder_surface m (beta - 2 * alpha - PI) 0 = Some (hom (V3 f 0 0) 1) /\
  (- (PI / 2) <= beta <= PI / 2 -> angle_between beta (- (PI / 2)) (PI / 2) = true) /\
  (- (PI / 2) < beta - 2 * alpha < PI / 2 -> angle_between (beta - 2 * alpha - PI) (- (PI / 2)) (PI / 2) = false).
Proof.
  intros f alpha beta w Fp C W. destruct (tilted_points f alpha beta ltac:(lra)) as (t & D & G & Tr & P0 & P1).
  assert (T0 : 0 < tr t) by (rewrite Tr; apply Rdiv_lt_0_compat; lra).
  destruct (from_rowland_surface t w PI beta 0 G T0 W) as (m & F & _ & _ & S0). destruct (from_rowland_surface t w PI (beta - 2 * alpha - PI) 0 G T0 W) as (m' & F' & _ & _ & S1).
  assert (m' = m) by congruence. subst m'. exists t, m. split; [exact D|]. split; [exact F|]. split; [rewrite S0, P0; unfold add4, hom, scale3, zero3; cbn; do 2 f_equal; ring|].
  split; [rewrite S1; replace (beta - 2 * alpha - PI + PI) with (beta - 2 * alpha) by ring; rewrite P1; unfold add4, hom, scale3; cbn; do 2 f_equal; ring|]. pose proof PI_RGT_0 as Pi. split.
  - intros B. apply angle_between_interval; [unfold twopi; lra|]. exists 0%Z. lra.
  - intros B. apply Bool.not_true_iff_false. intros H. apply angle_between_interval in H; [|unfold twopi; lra]. destruct H as [n H]. unfold twopi in H.
    assert (0 < IZR n < 1) as [K1 K2] by (split; nra). apply lt_IZR in K1. apply (lt_IZR n 1) in K2. lia.
Qed.
Print Assumptions C161_focus.
Example C161_ex : exists t m, design_tilted_torus 9600 (1 / 10) (1 / 5) = Some t /\ from_rowland t 50 PI = Some m /\ cylinder_surface m (1 / 5) 0 = Some (hom zero3 1) /\ angle_between (1 / 5) (- (PI / 2)) (PI / 2) = true.
Proof.
  pose proof PI_RGT_0. pose proof PI2_1. assert (C : 0 < cos (1 / 10)) by (apply cos_gt_0; lra).
  destruct (C161_focus 9600 (1 / 10) (1 / 5) 50 ltac:(lra) C ltac:(lra)) as (t & m & D & F & S & _ & A & _). exists t, m. split; [exact D|]. split; [exact F|]. split; [exact S|]. apply A. lra.
Qed.
Example C161_ex_circle : exists m p, from_rowland (Torus 2 1 id4) 3 0 = Some m /\ cylinder_surface m 0 0 = Some (hom p 1) /\ on_rowland_circle (Torus 2 1 id4) p.
Proof. apply C161_circle; cbn; try lra. split; [unfold affine, id4; cbn; auto|]. unfold orthonormal, lin, id4; vu; cbn; repeat split; ring. Qed.

(** ** C230: colors of the Athena gratings *)
(** Every grating gets one of the three colors ... *)
Theorem C230_some_partial : forall p, exists c, athena_colour p = Ok c /\ In c ["r"; "g"; "b"]%string.
Proof. intros p. exact (colour_ok (y3 p) (z3 p)). Qed.
Print Assumptions C230_some_partial.
(** ... but the angle is measured in the plane of y and the optical axis z, so in front of the telescope the color only depends on the sign of y: *)
Theorem C230_sign : forall p, 0 < z3 p -> y3 p * y3 p < 3 * (z3 p * z3 p) -> athena_colour p = Ok (if Rleb 0 (y3 p) then "r" else "b")%string.
Proof. intros p. exact (colour_narrow (y3 p) (z3 p)). Qed.
Print Assumptions C230_sign.
(** no grating in the range where gratings are placed (z from 8000 to 12000 mm, optics of less than 5000 mm radius) is green, *)
Theorem C230_green_refuted : forall p, 8000 <= z3 p <= 12000 -> x3 p * x3 p + y3 p * y3 p < 5000 * 5000 -> athena_colour p <> Ok "g"%string.
Proof. intros p Z Y. rewrite C230_sign; [|lra|nra]. destruct (Rleb 0 (y3 p)); discriminate. Qed.
Print Assumptions C230_green_refuted.
(** and gratings on opposite sides of the axis have different colors. *)
Theorem C230_opposite_refuted : forall x y z, 8000 <= z <= 12000 -> x * x + y * y < 5000 * 5000 -> y <> 0 -> athena_colour (V3 x y z) <> athena_colour (V3 (- x) (- y) z).
Proof.
  intros x y z Z Y N. rewrite !C230_sign by (cbn; nra). cbn [y3]. destruct (Rleb 0 y) eqn:A, (Rleb 0 (- y)) eqn:B; try discriminate;
  try (apply Rleb_true in A); try (apply Rleb_true in B); try (apply Rleb_false in A); try (apply Rleb_false in B); lra.
Qed.
Print Assumptions C230_opposite_refuted.
Example C230_ex : athena_colour (V3 0 1000 12000) = Ok "r"%string /\ athena_colour (V3 0 (-1000) 12000) = Ok "b"%string.
Proof.
  rewrite !C230_sign by (cbn; lra). cbn [y3]. replace (Rleb 0 1000) with true by (symmetry; apply Rleb_true; lra). replace (Rleb 0 (-1000)) with false by (symmetry; apply Rleb_false; lra). auto.
Qed.
