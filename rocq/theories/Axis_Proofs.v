(** Proofs for [Axis_Model]. *)
From Verif Require Import Base_Proofs Photons_Proofs Photons_Proofs2 Rmf_Proofs2.
From Verif Require Export Axis_Model.
Export Photons_Model.
Open Scope nat_scope.

(** ** Tables *)
Lemma rank_before m i : rank m i = hits_before m i.
Proof.
  unfold hits_before, count. revert i. induction m as [|b m IH]; intros [|i]; try reflexivity. cbn [rank firstn filter]. rewrite IH. destruct b; reflexivity.
Qed.
Lemma wf_len t c l : wf t -> getcol t c = Some l -> List.length l = nrows t. Proof. intros [_ H]. apply H. Qed.

(** One write: what every cell is afterwards *)
Lemma write_cell c m v t : wf t -> List.length m = nrows t -> List.length v = count m -> In c (colnames t) ->
  exists t', write_col c m v t = (t', None) /\ wf t' /\ nrows t' = nrows t /\ colnames t' = colnames t /\
    forall col i, getcell t' col i = if String.eqb col c && match nth_error m i with Some b => b | None => false end then nth_error v (hits_before m i) else getcell t col i.
Proof.
  intros W Lm Lv I. destruct (In_getcol t c I) as [old G]. pose proof (wf_len t c old W G) as Lo. unfold write_col. rewrite G. eexists. split; [reflexivity|]. split; [|split; [reflexivity|split]].
  - eapply wf_setcol; [exact W|exact G|apply mask_write_length].
  - now apply colnames_setcol.
  - intros col i. destruct (String.eqb_spec col c) as [->|N].
    + rewrite getcell_setcol_eq. cbn [andb]. destruct (nth_error m i) as [[|]|] eqn:Ni.
      * rewrite <- rank_before. apply mask_write_hit; congruence.
      * rewrite mask_write_miss by congruence. unfold getcell. now rewrite G.
      * rewrite mask_write_miss by congruence. unfold getcell. now rewrite G.
    + cbn [andb]. now apply getcell_setcol_neq.
Qed.
Lemma assign_write c m v t : c <> "probability"%string -> List.length v = count m -> assign_col_value (Some c) m (Photons_Model.Array v) t = write_col c m v t.
Proof.
  intros N L. unfold assign_col_value, write_col. destruct (String.eqb_spec c "probability") as [E|_]; [contradiction|]. destruct (getcol t c) as [old|]; [|reflexivity].
  assert (B : broadcast (count m) (Photons_Model.Array v) = Some v).
  { destruct v as [|x [|y v]]; cbn [broadcast].
    - rewrite <- L. reflexivity.
    - rewrite <- L. reflexivity.
    - rewrite L. now rewrite Nat.eqb_refl. }
  now rewrite B.
Qed.
(** A new column *)
Lemma add_col_cell c t : wf t -> wf (add_col (Some c) nan t) /\ nrows (add_col (Some c) nan t) = nrows t /\
  (forall n, In n (colnames (add_col (Some c) nan t)) <-> In n (colnames t) \/ n = c) /\
  forall col i, i < nrows t -> getcell (add_col (Some c) nan t) col i = if inb col (colnames t) then getcell t col i else if String.eqb col c then Some nan else None.
Proof.
  intros W. split; [now apply wf_add_col|]. cbn [add_col]. destruct (inb c (colnames t)) eqn:E.
  - apply inb_In in E. split; [reflexivity|]. split; [intros n; split; [tauto|intros [H| ->]; assumption]|]. intros col i _. destruct (inb col (colnames t)) eqn:F; [reflexivity|]. apply inb_false in F.
    destruct (String.eqb_spec col c) as [->|_]; [contradiction|]. unfold getcell, getcol. now rewrite (proj2 (dget_none_notin col (cols t)) F).
  - apply inb_false in E. split; [reflexivity|]. split.
    + intros n. unfold colnames, dkeys. cbn [cols]. rewrite map_app, in_app_iff. cbn. intuition.
    + intros col i Hi. unfold getcell, getcol. cbn [cols]. destruct (inb col (colnames t)) eqn:F.
      * apply inb_In in F. now rewrite dget_app_l.
      * apply inb_false in F. rewrite dget_app_r by exact F. cbn [dget]. destruct (String.eqb col c); [|reflexivity]. now apply nth_error_repeat.
Qed.

(** ** Detectors *)
Definition hit (m : list bool) (i : nat) : bool := match nth_error m i with Some b => b | None => false end.
(** what a cell is after a detector *)
Definition after (d : pixdet) (m : list bool) (ipos : list cell) (icoos : list (cell * cell)) (t : table) (col : string) (i : nat) : option cell :=
  let k := hits_before m i in
  if String.eqb col "pos" && hit m i then nth_error (select m ipos) k
  else if String.eqb col (snd (pd_loc d)) && hit m i then nth_error (select m (map snd icoos)) k
  else if String.eqb col (fst (pd_loc d)) && hit m i then nth_error (select m (map fst icoos)) k
  else if String.eqb col (snd (pd_pix d)) && hit m i then nth_error (map (to_pix (pd_size d) (snd (pd_centre d))) (select m (map snd icoos))) k
  else if String.eqb col (fst (pd_pix d)) && hit m i then nth_error (map (to_pix (pd_size d) (fst (pd_centre d))) (select m (map fst icoos))) k
  else if inb col (colnames t) then getcell t col i
  else if inb col [fst (pd_loc d); snd (pd_loc d); fst (pd_pix d); snd (pd_pix d)] then Some nan else None.
Lemma andthen_ok (f g : M) t t' : f t = (t', None) -> andthen f g t = g t'. Proof. intros H. unfold andthen. now rewrite H. Qed.
Lemma existsb_count m : existsb (fun b => b) m = false -> count m = 0.
Proof. unfold count. induction m as [|[|] m IH]; cbn; [reflexivity|discriminate|exact IH]. Qed.
Lemma hit_some m i : hit m i = true -> existsb (fun b => b) m = true.
Proof. unfold hit. intros H. destruct (nth_error m i) as [b|] eqn:E; [|discriminate]. subst b. apply existsb_exists. exists true. split; [now apply nth_error_In in E|reflexivity]. Qed.
Lemma detect_cells d m ipos icoos t : wf t -> In "pos"%string (colnames t) -> List.length m = nrows t -> List.length ipos = nrows t -> List.length icoos = nrows t ->
  fst (pd_pix d) <> "probability"%string -> snd (pd_pix d) <> "probability"%string -> existsb (fun b => b) m = true ->
  exists t', detect d m ipos icoos t = (t', None) /\ nrows t' = nrows t /\
    (forall c, In c (colnames t') <-> In c (colnames t) \/ In c [fst (pd_loc d); snd (pd_loc d); fst (pd_pix d); snd (pd_pix d)]) /\
    forall col i, i < nrows t -> getcell t' col i = after d m ipos icoos t col i.
Proof.
  intros W IP Lm Li Lc P1 P2 EX. unfold detect, process_photons. rewrite Lm, Li, Lc, Nat.eqb_refl, EX. cbn [andb negb].
  destruct d as [[l1 l2] [p1 p2] sz [c1 c2]]. cbn [pd_loc pd_pix pd_size pd_centre fst snd] in *.
  set (v1 := map (to_pix sz c1) (select m (map fst icoos))). set (v2 := map (to_pix sz c2) (select m (map snd icoos))).
  assert (L1 : List.length v1 = count m) by (unfold v1; rewrite map_length; apply select_length; now rewrite map_length, Lm, Lc).
  assert (L2 : List.length v2 = count m) by (unfold v2; rewrite map_length; apply select_length; now rewrite map_length, Lm, Lc).
  assert (L3 : List.length (select m (map fst icoos)) = count m) by (apply select_length; now rewrite map_length, Lm, Lc).
  assert (L4 : List.length (select m (map snd icoos)) = count m) by (apply select_length; now rewrite map_length, Lm, Lc).
  assert (L5 : List.length (select m ipos) = count m) by (apply select_length; congruence).
  destruct (add_col_cell p1 t W) as (W1 & N1 & I1 & G1). set (t1 := add_col (Some p1) nan t) in *.
  destruct (add_col_cell p2 t1 W1) as (W2 & N2 & I2 & G2). set (t2 := add_col (Some p2) nan t1) in *.
  destruct (write_cell p1 m v1 t2 W2 ltac:(congruence) L1 ltac:(apply I2; left; apply I1; now right)) as (t3 & E3 & W3 & N3 & C3 & G3).
  destruct (write_cell p2 m v2 t3 W3 ltac:(congruence) L2 ltac:(rewrite C3; apply I2; now right)) as (t4 & E4 & W4 & N4 & C4 & G4).
  destruct (add_col_cell l1 t4 W4) as (W5 & N5 & I5 & G5). set (t5 := add_col (Some l1) nan t4) in *.
  destruct (add_col_cell l2 t5 W5) as (W6 & N6 & I6 & G6). set (t6 := add_col (Some l2) nan t5) in *.
  destruct (write_cell l1 m (select m (map fst icoos)) t6 W6 ltac:(congruence) L3 ltac:(apply I6; left; apply I5; now right)) as (t7 & E7 & W7 & N7 & C7 & G7).
  destruct (write_cell l2 m (select m (map snd icoos)) t7 W7 ltac:(congruence) L4 ltac:(rewrite C7; apply I6; now right)) as (t8 & E8 & W8 & N8 & C8 & G8).
  set (e := pix_element (PixDet (l1, l2) (p1, p2) sz (c1, c2)) icoos).
  assert (PV : process_values e m t = (t4, None)).
  { change (process_values e m t) with (andthen (add_output_cols e [Some p1; Some p2]) (steps [assign_col_value (Some p1) m (Photons_Model.Array v1); assign_col_value (Some p2) m (Photons_Model.Array v2)]) t).
    rewrite (andthen_ok (add_output_cols e [Some p1; Some p2]) _ t t2 eq_refl). change (steps [?a; ?b]) with (andthen a (andthen b ret)).
    rewrite (andthen_ok _ _ t2 t3) by (rewrite assign_write by assumption; exact E3). rewrite (andthen_ok _ _ t3 t4) by (rewrite assign_write by assumption; exact E4). reflexivity. }
  change (steps [?a; ?b; ?c; ?d]) with (andthen a (andthen b (andthen c (andthen d ret)))). rewrite (andthen_ok _ _ t t4 PV).
  rewrite (andthen_ok _ _ t4 t8).
  2:{ change (loc_coos_name e) with (Some (l1, l2)). cbn iota. change (steps [?a; ?b; ?c]) with (andthen a (andthen b (andthen c ret))).
      rewrite (andthen_ok (add_output_cols e [Some l1; Some l2]) _ t4 t6 eq_refl), (andthen_ok _ _ t6 t7 E7), (andthen_ok _ _ t7 t8 E8). reflexivity. }
  change (id_col e) with (@None string). cbn iota. rewrite (andthen_ok ret _ t8 t8 eq_refl).
  assert (J8 : forall c, In c (colnames t8) <-> In c (colnames t) \/ In c [l1; l2; p1; p2]).
  { intros c. rewrite C8, C7, I6, I5, C4, C3, I2, I1. cbn. intuition. }
  destruct (write_cell "pos" m (select m ipos) t8 W8 ltac:(congruence) L5 ltac:(apply J8; now left)) as (t9 & E9 & W9 & N9 & C9 & G9). rewrite (andthen_ok _ _ t8 t9 E9).
  exists t9. split; [reflexivity|]. split; [congruence|]. split; [intros c; rewrite C9; apply J8|].
  intros col i Hi. unfold after. cbn [pd_loc pd_pix pd_size pd_centre fst snd]. fold (hit m i) in *. fold v1 v2. unfold hit. rewrite G9. destruct (String.eqb col "pos" && _); [reflexivity|]. rewrite G8. destruct (String.eqb col l2 && _) eqn:X2; [reflexivity|]. rewrite G7. destruct (String.eqb col l1 && _) eqn:X1; [reflexivity|].
  assert (D5 : getcell t6 col i = if inb col (colnames t4) then getcell t4 col i else if inb col [l1; l2] then Some nan else None).
  { rewrite G6 by congruence. destruct (inb col (colnames t5)) eqn:F5.
    - rewrite G5 by congruence. destruct (inb col (colnames t4)) eqn:F4; [reflexivity|]. cbn [inb existsb]. destruct (String.eqb col l1) eqn:Z1; [reflexivity|].
      apply inb_In in F5. apply I5 in F5. apply inb_false in F4. destruct F5 as [F5| ->]; [contradiction|]. now rewrite String.eqb_refl in Z1.
    - assert (F4 : inb col (colnames t4) = false) by (apply inb_false; apply inb_false in F5; intros H; apply F5; apply I5; now left). rewrite F4. cbn [inb existsb].
      destruct (String.eqb_spec col l1) as [->|Z1]; [exfalso; apply inb_false in F5; apply F5; apply I5; now right|]. cbn [orb]. destruct (String.eqb col l2); reflexivity. }
  assert (D2 : getcell t2 col i = if inb col (colnames t) then getcell t col i else if inb col [p1; p2] then Some nan else None).
  { rewrite G2 by congruence. destruct (inb col (colnames t1)) eqn:F5.
    - rewrite G1 by congruence. destruct (inb col (colnames t)) eqn:F4; [reflexivity|]. cbn [inb existsb]. destruct (String.eqb col p1) eqn:Z1; [reflexivity|].
      apply inb_In in F5. apply I1 in F5. apply inb_false in F4. destruct F5 as [F5| ->]; [contradiction|]. now rewrite String.eqb_refl in Z1.
    - assert (F4 : inb col (colnames t) = false) by (apply inb_false; apply inb_false in F5; intros H; apply F5; apply I1; now left). rewrite F4. cbn [inb existsb].
      destruct (String.eqb_spec col p1) as [->|Z1]; [exfalso; apply inb_false in F5; apply F5; apply I1; now right|]. cbn [orb]. destruct (String.eqb col p2); reflexivity. }
  rewrite D5. assert (J4 : forall c, In c (colnames t4) <-> In c (colnames t) \/ In c [p1; p2]) by (intros c; rewrite C4, C3, I2, I1; cbn; intuition).
  destruct (inb col (colnames t4)) eqn:F4.
  - rewrite G4. destruct (String.eqb col p2 && _); [reflexivity|]. rewrite G3. destruct (String.eqb col p1 && _); [reflexivity|]. rewrite D2.
    destruct (inb col (colnames t)) eqn:F; [reflexivity|]. apply inb_In in F4. apply J4 in F4. apply inb_false in F. destruct F4 as [F4|F4]; [contradiction|].
    assert (A : inb col [p1; p2] = true) by now apply inb_In. assert (B : inb col [l1; l2; p1; p2] = true) by (apply inb_In; cbn in F4 |- *; tauto). now rewrite A, B.
  - apply inb_false in F4. assert (Q2 : String.eqb col p2 = false) by (destruct (String.eqb_spec col p2) as [->|]; [exfalso; apply F4, J4; right; cbn; tauto|reflexivity]).
    assert (Q1 : String.eqb col p1 = false) by (destruct (String.eqb_spec col p1) as [->|]; [exfalso; apply F4, J4; right; cbn; tauto|reflexivity]).
    assert (Q0 : inb col (colnames t) = false) by (apply inb_false; intros H; apply F4, J4; now left). rewrite Q2, Q1, Q0. cbn [andb inb existsb]. rewrite Q1, Q2. cbn [orb]. now destruct (String.eqb col l1), (String.eqb col l2).
Qed.

Lemma hit_length m i : hit m i = true -> i < List.length m.
Proof. unfold hit. intros H. apply nth_error_Some. now destruct (nth_error m i). Qed.
Lemma hit_nth m i : hit m i = true -> nth_error m i = Some true.
Proof. unfold hit. destruct (nth_error m i) as [b|]; [now intros ->|discriminate]. Qed.
Lemma picked {A} m (l : list A) i : List.length m = List.length l -> hit m i = true -> nth_error (select m l) (hits_before m i) = nth_error l i.
Proof. intros L H. rewrite <- rank_before. now apply select_nth; [|apply hit_nth]. Qed.
Lemma separate_neq l1 l2 p1 p2 : separate (l1, l2) (p1, p2) = true -> NoDup [l1; l2; p1; p2; "pos"; "probability"]%string.
Proof.
  unfold separate. intros H. apply Nat.eqb_eq in H. cbn [fst snd] in H. set (l := [l1; l2; p1; p2; "pos"; "probability"]%string) in *.
  apply (@NoDup_incl_NoDup string (nodup string_dec l)); [apply NoDup_nodup|rewrite H; cbn; lia|]. intros x I. now apply nodup_In in I.
Qed.

(** ** Scaling of the probability *)
Lemma cmul_repeat s l : (forall c, In c l -> match c with CVec _ => False | _ => True end) -> exists l', cmul_list (repeat (CNum (Some s)) (List.length l)) l = Some l' /\ List.length l' = List.length l /\
  forall i q, nth_error l i = Some (CNum (Some q)) -> nth_error l' i = Some (CNum (Some (s * q)%Q)).
Proof.
  induction l as [|c l IH]; intros H; [exists []; repeat split; intros [|]; discriminate|]. destruct (IH (fun c I => H c (or_intror I))) as (l' & E & L & N). cbn [List.length repeat cmul_list].
  pose proof (H c (or_introl eq_refl)) as Hc. destruct c as [x|z|v]; [| |destruct Hc]; cbn [cmul]; rewrite E; eexists; (split; [reflexivity|split; [cbn; now rewrite L|]]).
  - intros [|i] q; cbn [nth_error]; [|apply N]. intros X. injection X as ->. reflexivity.
  - intros [|i] q; cbn [nth_error]; [discriminate|apply N].
Qed.
Lemma scale_spec s t : wf t -> In "probability"%string (colnames t) -> (forall i, i < nrows t -> exists q, probability t i = Some q) ->
  exists t', mirror_scale s t = (t', None) /\ nrows t' = nrows t /\ colnames t' = colnames t /\ (forall i q, probability t i = Some q -> probability t' i = Some (s * q)%Q) /\
    forall c i, c <> "probability"%string -> getcell t' c i = getcell t c i.
Proof.
  intros W I P. destruct (In_getcol _ _ I) as [old G]. unfold mirror_scale. rewrite G.
  assert (O : forall i q, probability t i = Some q -> nth_error old i = Some (CNum (Some q))).
  { intros i q H. unfold probability, getcell in H. rewrite G in H. destruct (nth_error old i) as [[[x|]| |]|]; try discriminate. now injection H as ->. }
  destruct (cmul_repeat s old) as (l' & E & L & N).
  { intros c J. apply In_nth_error in J. destruct J as [i Hi]. assert (Li : i < nrows t) by (rewrite <- (wf_len t _ old W G); apply nth_error_Some; congruence). destruct (P i Li) as [q Q]. rewrite (O i q Q) in Hi. injection Hi as <-. exact Logic.I. }
  rewrite E. eexists. split; [reflexivity|]. split; [reflexivity|]. split; [now apply colnames_setcol|]. split.
  - intros i q Q. unfold probability. rewrite getcell_setcol_eq, (N i q (O i q Q)). reflexivity.
  - intros c i D. now apply getcell_setcol_neq.
Qed.

(** ** Configurations *)
Open Scope R_scope.
Lemma rowland_conf torus turn c af bf bl f : dget "alphafac" c = Some (CR af) -> dget "betafac" c = Some (CR bf) -> dget "blazeang" c = Some (CR bl) -> dget "design_tilted_torus" c = Some (CR f) ->
  exists c', add_rowland_to_conf torus turn c = Ok c' /\ dget "alpha" c' = Some (CR (af * bl)) /\ dget "beta" c' = Some (CR (bf * bl)) /\
    dget "rowland" c' = Some (let '(a, b, p) := torus f (af * bl) (bf * bl) in CTorus a b p) /\ dget "blazemat" c' = Some (CMat (turn (- bl))) /\
    forall k, ~ In k ["alpha"; "beta"; "rowland"; "blazemat"] -> dget k c' = dget k c.
Proof.
  intros A B L F. unfold add_rowland_to_conf, conf_num. rewrite A. cbn [bind]. rewrite L. cbn [bind].
  repeat (rewrite !dget_dset_neq by discriminate). rewrite B. cbn [bind]. repeat (rewrite !dget_dset_neq by discriminate). rewrite F. cbn [bind].
  rewrite dget_dset_eq. cbn [bind]. rewrite dget_dset_eq. cbn [bind].
  destruct (torus f (af * bl) (bf * bl)) as [[a b] p]. eexists. split; [reflexivity|]. split; [|split; [|split; [|split]]].
  - rewrite !dget_dset_neq by discriminate. now rewrite dget_dset_eq.
  - rewrite !dget_dset_neq by discriminate. now rewrite dget_dset_eq.
  - rewrite !dget_dset_neq by discriminate. now rewrite dget_dset_eq.
  - now rewrite dget_dset_eq.
  - intros k N. rewrite !dget_dset_neq; [reflexivity| | | |]; intros ->; apply N; cbn; tauto.
Qed.
Lemma axis_keys torus turn c : axis_conf torus turn = Ok c -> forall k, din k c = inb k (dkeys axis_base ++ ["alpha"; "beta"; "rowland"; "blazemat"]).
Proof.
  intros H k. unfold axis_conf in H. destruct (rowland_conf torus turn axis_base (22 / 10) (44 / 10) (16 / 10 * PI / 180) 8600 eq_refl eq_refl eq_refl eq_refl) as (c' & E & A1 & A2 & A3 & A4 & A5).
  rewrite E in H. injection H as <-. destruct (in_dec string_dec k ["alpha"; "beta"; "rowland"; "blazemat"]) as [I|N].
  - transitivity true; [|symmetry; apply inb_In, in_or_app; now right]. apply din_dget. cbn in I. destruct I as [<-|[<-|[<-|[<-|[]]]]]; eauto.
  - specialize (A5 k N). destruct (din k axis_base) eqn:D.
    + transitivity true.
      * apply din_dget. apply din_dget in D. destruct D as [v D]. exists v. congruence.
      * symmetry. apply inb_In, in_or_app. left. unfold din in D. now apply inb_In.
    + transitivity false.
      * apply din_false. apply din_false in D. congruence.
      * symmetry. apply inb_false. intros I. apply in_app_or in I. destruct I as [I|I]; [|contradiction]. unfold din in D. apply inb_false in D. contradiction.
Qed.
