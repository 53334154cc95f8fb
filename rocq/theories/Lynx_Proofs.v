(** Proofs about Lynx, AXIS and Athena *)
From Verif Require Import Base_Proofs Vec_Proofs Coords_Proofs Plane_Proofs Position_Proofs Cylinder_Proofs Angles_Proofs Placement_Proofs Aperture_Proofs Container_Proofs Rowland_Proofs Rowland_Proofs2 Rmf_Proofs Bend_Proofs Hetg_Proofs Chandra_Proofs.
From Verif Require Export Lynx_Model.
Open Scope R_scope.

(** ** Apertures *)
Lemma combine_seq {A} (l : list A) : forall i s, nth_error (combine (seq s (List.length l)) l) i = option_map (fun x => ((s + i)%nat, x)) (nth_error l i).
Proof.
  induction l as [|x l IH]; intros [|i] s; cbn; [reflexivity|reflexivity|do 2 f_equal; lia|]. rewrite IH. destruct (nth_error l i); cbn; [do 2 f_equal; lia|reflexivity].
Qed.
Lemma metashell_nth f table off k s : nth_error table k = Some s ->
  nth_error (metashell_aperture f table off) k = Some (Aper (compose (V3 (f + 200) 0 0) id3 (V3 1 (sh_out s) (sh_out s))) (sh_in s) (off + Z.of_nat k)%Z (Some "shell"%string)).
Proof. intros H. unfold metashell_aperture, multi_init. rewrite nth_error_map, combine_seq, nth_error_map, H. reflexivity. Qed.
Lemma metashell_length f table off : List.length (metashell_aperture f table off) = List.length table.
Proof. unfold metashell_aperture, multi_init. rewrite map_length, combine_length, seq_length, map_length. lia. Qed.
Lemma ortho_id : orthonormal id3.
Proof. unfold orthonormal, id3; vu; repeat split; ring. Qed.
Lemma ring_norms f r : 0 < r -> norm4 (v_y (compose (V3 f 0 0) id3 (V3 1 r r))) = r /\ norm4 (v_z (compose (V3 f 0 0) id3 (V3 1 r r))) = r.
Proof.
  intros H. rewrite compose_cols. unfold v_y, v_z. cbn [b1 b2]. rewrite !norm4_hom0, !norm3_scale, Rabs_pos_eq by lra. destruct ortho_id as (_ & Y & Z & _). apply norm3_1 in Y. apply norm3_1 in Z. rewrite Y, Z. split; ring.
Qed.
Lemma ring_area f s : 0 < sh_out s -> circ_area (compose (V3 f 0 0) id3 (V3 1 (sh_out s) (sh_out s))) 0 (2 * PI) (sh_in s) = shell_area s.
Proof. intros H. unfold circ_area, shell_area. destruct (ring_norms f _ H) as [-> _]. pose proof PI_RGT_0. field. lra. Qed.
Lemma outer_factors_length table : List.length (outer_factors table) = List.length table.
Proof. induction table as [|s [|t r] IH]; cbn in *; congruence. Qed.
Lemma outer_factors_nth table : forall k s, nth_error table k = Some s ->
  nth_error (outer_factors table) k = Some (match nth_error table (S k) with Some t => sh_in t / sh_out s | None => 3 / 2 end).
Proof.
  induction table as [|a [|b r] IH]; intros k s H; [destruct k; discriminate| |].
  - destruct k as [|[|k]]; cbn in H; try discriminate. reflexivity.
  - destruct k as [|k]; [cbn in H |- *; injection H as <-; reflexivity|]. cbn in H. apply (IH k s H).
Qed.
Lemma inner_factors_nth n k : (k < n)%nat -> nth_error (inner_factors n) k = Some (if (Nat.eqb k 0 && negb (Nat.eqb n 1))%bool then 0 else 1).
Proof.
  intros H. destruct n as [|[|n]]; [lia| |].
  - destruct k; [reflexivity|lia].
  - destruct k as [|k]; [reflexivity|]. cbn [inner_factors nth_error Nat.eqb andb]. apply nth_error_repeat. lia.
Qed.
Lemma nth_combine {A B} (l : list A) (l' : list B) : forall k x y, nth_error l k = Some x -> nth_error l' k = Some y -> nth_error (combine l l') k = Some (x, y).
Proof. revert l'. induction l as [|a l IH]; intros [|b l'] [|k] x y H H'; cbn in *; try discriminate; [congruence|auto]. Qed.

(** ** Efficiency *)
Lemma seq_map {A B} (f : A -> result B) l : forall l', sequence (map f l) = Ok l' -> List.length l' = List.length l /\ forall j x, nth_error l j = Some x -> exists y, f x = Ok y /\ nth_error l' j = Some y.
Proof.
  induction l as [|a l IH]; intros l' H; cbn in H; [injection H as <-; split; [reflexivity|intros [|j] x; discriminate]|].
  destruct (f a) as [b|] eqn:E; [|discriminate]. cbn [bind] in H. destruct (sequence (map f l)) as [r|]; [|discriminate]. cbn [bind] in H. injection H as <-.
  destruct (IH r eq_refl) as [L N]. split; [cbn; congruence|]. intros [|j] x X; cbn in X |- *; [exists b; split; congruence|]. now apply N.
Qed.
Lemma efficiency_one shells : forall ph ph' j p, efficiency shells ph = Ok ph' -> NoDup (map fst shells) -> nth_error ph j = Some p -> exists p', nth_error ph' j = Some p' /\ mp_shell p' = mp_shell p /\ mp_energy p' = mp_energy p /\
  (forall f, In (mp_shell p, f) shells -> exists q, f (mp_energy p) = Ok q /\ mp_prob p' = mp_prob p * clip q 0 1) /\ (~ In (mp_shell p) (map fst shells) -> mp_prob p' = mp_prob p).
Proof.
  induction shells as [|[i g] shells IH]; intros ph ph' j p H ND P; cbn in H.
  - injection H as <-. exists p. repeat split; auto. intros f [].
  - destruct (eff_step i g ph) as [ph1|] eqn:E; [|discriminate]. cbn [bind] in H. unfold eff_step in E. destruct (seq_map _ _ _ E) as [_ N]. destruct (N j p P) as (p1 & F & P1). clear N.
    cbn [map fst] in ND. inversion ND as [|? ? NI ND']; subst. destruct (IH ph1 ph' j p1 H ND' P1) as (p' & P' & S' & E' & A & B).
    destruct (Z.eqb_spec (mp_shell p) i) as [Q|Q].
    + destruct (g (mp_energy p)) as [q|] eqn:G; [|discriminate]. cbn [bind] in F. injection F as <-. cbn in S', E', A, B. exists p'. repeat split; auto.
      * intros f [X|X]; [assert (f = g) by congruence; subst f|exfalso; apply NI; rewrite <- Q; apply (in_map fst) in X; exact X]. exists q. split; [exact G|]. apply B. rewrite Q. exact NI.
      * intros X. exfalso. apply X. cbn. auto.
    + injection F as <-. exists p'. repeat split; auto.
      * intros f [X|X]; [congruence|auto].
      * intros X. apply B. intros Y. apply X. cbn. auto.
Qed.
Lemma eff_shells_rows interp eff table shells : serials_in_order table -> eff_shells interp eff table = Ok shells ->
  map fst shells = map sh_serial table /\ forall k s, nth_error table k = Some s -> exists col, eff (sh_serial s) = Ok col /\
    nth_error shells k = Some (sh_serial s, interp (map (fun a => a * 100 / shell_area s) col)).
Proof.
  intros So H. unfold eff_shells in H. destruct (relative_eff eff table) as [rows|] eqn:RE; [|discriminate]. cbn [bind] in H. unfold relative_eff in RE.
  destruct (seq_map _ _ _ RE) as [LR NR]. destruct (seq_map _ _ _ H) as [LH NH].
  assert (K : forall k s, nth_error table k = Some s -> exists col, eff (sh_serial s) = Ok col /\ nth_error shells k = Some (sh_serial s, interp (map (fun a => a * 100 / shell_area s) col))).
  { intros k s T. destruct (NR k s T) as (row & F & Rk). destruct (eff (sh_serial s)) as [col|] eqn:E; [|discriminate]. cbn [bind] in F. injection F as <-.
    destruct (NH k s T) as (y & G & Sk). exists col. split; [reflexivity|]. rewrite Sk. rewrite (So k s T) in G at 1. unfold py_nth in G.
    replace (Z.of_nat (S k) - 1)%Z with (Z.of_nat k) in G by lia. replace (Z.of_nat k <? 0)%Z with false in G by (symmetry; apply Z.ltb_ge; lia). 
    replace (Z.of_nat k <? 0)%Z with false in G by (symmetry; apply Z.ltb_ge; lia). rewrite Nat2Z.id, Rk in G. cbn [bind] in G. congruence. }
  split; [|exact K]. apply nth_error_ext. intros k. rewrite !nth_error_map. destruct (nth_error table k) as [s|] eqn:T.
  - destruct (K k s T) as (col & _ & ->). reflexivity.
  - replace (nth_error shells k) with (@None (Z * (R -> result R))); [reflexivity|]. symmetry. apply nth_error_None. apply nth_error_None in T. lia.
Qed.
Lemma serials_nodup table : serials_in_order table -> NoDup (map sh_serial table).
Proof.
  intros H. apply NoDup_nth_error. intros i j L E. rewrite map_length in L. rewrite !nth_error_map in E. destruct (nth_error table i) as [s|] eqn:I; [|apply nth_error_None in I; lia].
  destruct (nth_error table j) as [t|] eqn:J; [|discriminate]. cbn in E. injection E as E. rewrite (H _ _ I), (H _ _ J) in E. lia.
Qed.
Lemma efficiency_rule interp eff table shells ph ph' j p : serials_in_order table -> eff_shells interp eff table = Ok shells -> efficiency shells ph = Ok ph' -> nth_error ph j = Some p ->
  exists p', nth_error ph' j = Some p' /\ mp_shell p' = mp_shell p /\ mp_energy p' = mp_energy p /\
  (forall k s, nth_error table k = Some s -> mp_shell p = Z.of_nat (S k) -> exists col q, eff (sh_serial s) = Ok col /\ interp (map (fun a => a * 100 / shell_area s) col) (mp_energy p) = Ok q /\
     mp_prob p' = mp_prob p * clip q 0 1) /\
  ((mp_shell p <= 0 \/ Z.of_nat (List.length table) < mp_shell p)%Z -> mp_prob p' = mp_prob p).
Proof.
  intros So ES EF P. destruct (eff_shells_rows _ _ _ _ So ES) as [M K]. assert (ND : NoDup (map fst shells)) by (rewrite M; now apply serials_nodup).
  destruct (efficiency_one shells ph ph' j p EF ND P) as (p' & P' & S' & E' & A & B). exists p'. repeat split; auto.
  - intros k s T Q. destruct (K k s T) as (col & C & N). exists col. rewrite <- (So k s T) in Q. destruct (A (interp (map (fun a => a * 100 / shell_area s) col))) as (q & G & H).
    + rewrite Q. eapply nth_error_In, N.
    + exists q. auto.
  - intros Q. apply B. rewrite M. intros I. apply In_nth_error in I as (k & I). rewrite nth_error_map in I. destruct (nth_error table k) as [s|] eqn:T; [|discriminate]. cbn in I. injection I as I.
    rewrite (So k s T) in I. assert (k < List.length table)%nat by (apply nth_error_Some; congruence). lia.
Qed.

(** ** Keywords *)
Lemma keys_in (k : string) (d : dict pyv) : In k (dkeys d) <-> exists v, dget k d = Some v.
Proof. rewrite <- din_dget. unfold din. now rewrite inb_In. Qed.
Lemma keys_ddel (a k : string) (d : dict pyv) : In k (dkeys (ddel a d)) <-> In k (dkeys d) /\ k <> a.
Proof.
  rewrite !keys_in. destruct (String.eqb_spec k a) as [->|N].
  - rewrite dget_ddel_eq. split; [intros (v & X); discriminate|tauto].
  - rewrite dget_ddel_neq by exact N. tauto.
Qed.
Lemma ddel_same a (d : dict pyv) : ~ In a (dkeys d) -> ddel a d = d.
Proof.
  unfold ddel, dkeys. induction d as [|[b v] d IH]; cbn; [reflexivity|]. intros H. destruct (String.eqb_spec a b) as [->|N]; [exfalso; apply H; now left|].
  destruct (String.eqb_spec b a) as [->|N']; [congruence|]. cbn. f_equal. apply IH. tauto.
Qed.
Definition pos_keys : list string := ["pos4d"; "position"; "orientation"; "zoom"]%string.
Lemma parse_keys kw m rest : parse_position kw = Ok (m, rest) -> forall k, In k (dkeys rest) <-> In k (dkeys kw) /\ ~ In k pos_keys.
Proof.
  intros H k. destruct (in_dec String.string_dec k pos_keys) as [I|I].
  - split; [|tauto]. intros R. exfalso. unfold parse_position in H. destruct (dget "pos4d"%string kw) as [[]|] eqn:P; try discriminate.
    + destruct (din "position"%string kw || din "orientation"%string kw || din "zoom"%string kw) eqn:D; [discriminate|]. apply check_det_inv in H. destruct H as (_ & -> & _).
      apply Bool.orb_false_iff in D as [D D3]. apply Bool.orb_false_iff in D as [D1 D2]. apply din_false in D1, D2, D3. apply keys_ddel in R as [R N].
      unfold pos_keys in I. cbn in I. apply keys_in in R as (v & R). destruct I as [<-|[<-|[<-|[<-|[]]]]]; congruence.
    + destruct (match dget "zoom"%string kw with None => _ | Some _ => _ end) as [l|]; [|discriminate]. cbn [bind] in H. destruct l as [|a [|b [|c [|]]]]; try discriminate.
      destruct (_ || _ || _)%bool; [discriminate|]. destruct (match dget "position"%string kw with None => _ | Some _ => _ end) as [t|]; [|discriminate]. cbn [bind] in H.
      destruct (match dget "orientation"%string kw with None => _ | Some _ => _ end) as [r|]; [|discriminate]. cbn [bind] in H. apply check_det_inv in H. destruct H as (_ & -> & _).
      rewrite !keys_ddel in R. destruct R as [[[R N1] N2] N3]. unfold pos_keys in I. cbn in I. apply keys_in in R as (v & R). destruct I as [<-|[<-|[<-|[<-|[]]]]]; congruence.
  - unfold pos_keys in I. cbn in I. rewrite !keys_in. rewrite (parse_rest kw m rest k H) by (intros ->; tauto). unfold pos_keys. cbn. tauto.
Qed.
Lemma parse_none kw : (forall k, In k pos_keys -> ~ In k (dkeys kw)) -> parse_position kw = Ok (id4, kw).
Proof.
  intros H. assert (N : forall k, In k pos_keys -> dget k kw = None) by (intros k K; apply dget_none_notin; auto). unfold parse_position.
  rewrite !N by (cbn; tauto). cbn [bind]. replace (Rleb 1 0) with false by (symmetry; unfold Rleb; destruct (Rle_dec 1 0); [lra|reflexivity]). cbn [orb].
  rewrite (ddel_same "position"%string kw), (ddel_same "orientation"%string kw), (ddel_same "zoom"%string kw) by (apply H; cbn; tauto).
  assert (E : compose zero3 id3 (V3 1 1 1) = id4) by (unfold compose, diag3, zero3; vring). rewrite E. unfold check_det.
  replace (Reqb (det4 id4) 0) with false; [reflexivity|]. symmetry. unfold Reqb. destruct (Req_EM_T _ 0) as [D|]; [|reflexivity]. exfalso. revert D. unfold det4, det3, id4; vu; cbn. lra.
Qed.
Lemma dict_nil (d : dict pyv) : d = [] <-> forall k, ~ In k (dkeys d).
Proof. split; [intros -> k []|]. destruct d as [|[a b] d]; [reflexivity|]. intros H. exfalso. apply (H a). now left. Qed.
Lemma torus_ok place args kw t : elements_on_torus place args kw = Ok t ->
  (forall k, In k (dkeys kw) -> In k torus_keys) /\ (forall k, In k torus_needs -> In k (dkeys kw)) /\
  (dget "geometry"%string kw = None -> to_pos4d t = id4) /\ dget "rowland"%string kw = Some (to_rowland t) /\ to_guess t = dget "guess_distance"%string kw /\
  dget "d_element"%string kw = Some (to_d_element t) /\ to_axis t = dget "optimize_axis"%string kw /\ to_col t = dget "id_col"%string kw /\ dget "elem_class"%string kw = Some (to_class t) /\
  (din "elem_args"%string kw = true -> to_args t = args) /\ place (to_rowland t) (to_guess t) (to_d_element t) (to_axis t) (dget "normal_spec"%string kw) (dget "parallel_spec"%string kw) = Ok (to_elem_pos t).
Proof.
  unfold elements_on_torus, pop_req, pop_opt. intros H. destruct (dget "rowland"%string kw) as [rl|] eqn:R; [|discriminate]. cbn [bind] in H.
  rewrite (dget_ddel_neq "d_element"%string) in H by discriminate. rewrite (dget_ddel_neq "d_element"%string) in H by discriminate.
  destruct (dget "d_element"%string kw) as [de|] eqn:D; [|discriminate]. cbn [bind] in H.
  repeat match type of H with context [dget ?k (ddel ?a ?d)] => rewrite (dget_ddel_neq k a d) in H by discriminate end.
  destruct (place rl _ _ _ _ _) as [ep|] eqn:PL; [|discriminate]. cbn [bind] in H.
  set (kw1 := ddel "geometry"%string _) in H. destruct (dget "geometry"%string kw) as [g|] eqn:G.
  - (* an object *)
    cbn [bind] in H. rewrite (dget_ddel_neq "elem_class"%string) in H by discriminate. destruct (dget "elem_class"%string kw1) as [cl|] eqn:C; [|discriminate]. cbn [bind] in H.
    destruct (second_geometry _) as [[m kw2]|] eqn:S2; [|discriminate]. cbn [bind] in H.
    match type of H with match ?x with _ => _ end = _ => destruct x eqn:E; [|discriminate] end.
    assert (C' : dget "elem_class"%string kw = Some cl) by (revert C; unfold kw1; repeat rewrite dget_ddel_neq by discriminate; auto).
    assert (Ea : dget "elem_args"%string kw = dget "elem_args"%string kw1) by (unfold kw1; repeat rewrite dget_ddel_neq by discriminate; reflexivity).
    injection H as <-. cbn. split; [|split; [|repeat split]]; try congruence.
    + intros k K. destruct (in_dec String.string_dec k torus_keys) as [I|I]; [exact I|]. exfalso.
      rewrite dict_nil in E. apply (E k). rewrite !keys_ddel. unfold second_geometry in S2. rewrite (parse_keys _ _ _ S2). unfold kw1. rewrite !keys_ddel.
      unfold torus_keys in I. cbn in I. unfold pos_keys. cbn. repeat split; try (intros ->; tauto); try tauto. 
    + intros k K. apply keys_in. cbn in K. destruct K as [<-|[<-|[<-|[]]]]; eauto.
    + intros A. apply din_dget in A as (v & A). rewrite Ea in A. repeat rewrite dget_ddel_neq by discriminate. rewrite A. reflexivity.
  - destruct (parse_position kw1) as [[m1 kw1']|] eqn:S1; [|discriminate]. cbn [bind] in H.
    rewrite (dget_ddel_neq "elem_class"%string) in H by discriminate. destruct (dget "elem_class"%string kw1') as [cl|] eqn:C; [|discriminate]. cbn [bind] in H.
    destruct (second_geometry _) as [[m kw2]|] eqn:S2; [|discriminate]. cbn [bind] in H.
    match type of H with match ?x with _ => _ end = _ => destruct x eqn:E; [|discriminate] end.
    assert (C' : dget "elem_class"%string kw = Some cl).
    { rewrite (parse_rest _ _ _ _ S1) in C by discriminate. revert C; unfold kw1; repeat rewrite dget_ddel_neq by discriminate; auto. }
    assert (Ea : dget "elem_args"%string kw = dget "elem_args"%string kw1').
    { rewrite (parse_rest _ _ _ _ S1) by discriminate. unfold kw1; repeat rewrite dget_ddel_neq by discriminate; reflexivity. }
    assert (M : m = id4).
    { unfold second_geometry in S2. rewrite parse_none in S2; [congruence|]. intros k K. rewrite !keys_ddel, (parse_keys _ _ _ S1). tauto. }
    injection H as <-. cbn. split; [|split; [|repeat split]]; try congruence.
    + intros k K. destruct (in_dec String.string_dec k torus_keys) as [I|I]; [exact I|]. exfalso.
      rewrite dict_nil in E. apply (E k). rewrite !keys_ddel. unfold second_geometry in S2. rewrite (parse_keys _ _ _ S2). rewrite !keys_ddel, (parse_keys _ _ _ S1). unfold kw1. rewrite !keys_ddel.
      unfold torus_keys in I. cbn in I. unfold pos_keys. cbn. repeat split; try (intros ->; tauto); try tauto.
    + intros k K. apply keys_in. cbn in K. destruct K as [<-|[<-|[<-|[]]]]; eauto.
    + intros A. apply din_dget in A as (v & A). rewrite Ea in A. repeat rewrite dget_ddel_neq by discriminate. rewrite A. reflexivity.
Qed.
Lemma torus_total place args kw rl de cl ep : (forall k, In k (dkeys kw) -> In k torus_keys /\ ~ In k pos_keys) ->
  dget "rowland"%string kw = Some rl -> dget "d_element"%string kw = Some de -> dget "elem_class"%string kw = Some cl ->
  place rl (dget "guess_distance"%string kw) de (dget "optimize_axis"%string kw) (dget "normal_spec"%string kw) (dget "parallel_spec"%string kw) = Ok ep ->
  exists t, elements_on_torus place args kw = Ok t.
Proof.
  intros K RL D C PL. unfold elements_on_torus, pop_req, pop_opt. rewrite RL. cbn [bind]. rewrite !(dget_ddel_neq "d_element"%string) by discriminate. rewrite D. cbn [bind].
  repeat match goal with |- context [dget ?k (ddel ?a ?d)] => rewrite (dget_ddel_neq k a d) by discriminate end. rewrite PL. cbn [bind].
  set (kw1 := ddel "geometry"%string _).
  assert (P1 : (match dget "geometry"%string kw with Some _ => Ok kw1 | None => bind (parse_position kw1) (fun '(_, kw0) => Ok kw0) end) = Ok kw1).
  { destruct (dget "geometry"%string kw); [reflexivity|]. rewrite parse_none; [reflexivity|]. intros k P. unfold kw1. rewrite !keys_ddel. intros X. assert (I : In k (dkeys kw)) by tauto. now apply K in I. }
  rewrite P1. cbn [bind]. rewrite (dget_ddel_neq "elem_class"%string) by discriminate.
  assert (C1 : dget "elem_class"%string kw1 = Some cl) by (unfold kw1; repeat rewrite dget_ddel_neq by discriminate; exact C). rewrite C1. cbn [bind].
  unfold second_geometry. rewrite parse_none.
  - cbn [bind]. match goal with |- exists t, match ?x with _ => _ end = _ => assert (E : x = []) end.
    + apply dict_nil. intros k. rewrite !keys_ddel. unfold kw1. rewrite !keys_ddel. intros X. assert (I : In k (dkeys kw)) by tauto. apply K in I as [I P].
      unfold torus_keys in I. unfold pos_keys in P. cbn in I, P. repeat (destruct I as [<-|I]; [tauto|]). exact I.
    + rewrite E. eexists. reflexivity.
  - intros k P. rewrite !keys_ddel. unfold kw1. rewrite !keys_ddel. intros X. assert (I : In k (dkeys kw)) by tauto. now apply K in I.
Qed.

(** ** Gratings *)
Lemma fold_min_spec l : forall x, (forall y, In y (x :: l) -> fold_left Rmin l x <= y) /\ In (fold_left Rmin l x) (x :: l).
Proof.
  induction l as [|a l IH]; intros x; cbn [fold_left]; [split; [intros y [->|[]]; lra|now left]|]. destruct (IH (Rmin x a)) as [A B]. split.
  - intros y [->|[->|I]].
    + eapply Rle_trans; [apply A; now left|apply Rmin_l].
    + eapply Rle_trans; [apply A; now left|apply Rmin_r].
    + apply A. now right.
  - destruct B as [B|B]; [|right; now right]. rewrite <- B. unfold Rmin. destruct (Rle_dec x a); [now left|right; now left].
Qed.
Lemma fold_max_spec l : forall x, (forall y, In y (x :: l) -> y <= fold_left Rmax l x) /\ In (fold_left Rmax l x) (x :: l).
Proof.
  induction l as [|a l IH]; intros x; cbn [fold_left]; [split; [intros y [->|[]]; lra|now left]|]. destruct (IH (Rmax x a)) as [A B]. split.
  - intros y [->|[->|I]].
    + eapply Rle_trans; [apply Rmax_l|apply A; now left].
    + eapply Rle_trans; [apply Rmax_r|apply A; now left].
    + apply A. now right.
  - destruct B as [B|B]; [|right; now right]. rewrite <- B. unfold Rmax. destruct (Rle_dec x a); [right; now left|now left].
Qed.
Lemma list_min_spec l lo : list_min l = Ok lo -> In lo l /\ forall y, In y l -> lo <= y.
Proof. destruct l as [|x l]; [discriminate|]. cbn [list_min]. intros H. injection H as <-. destruct (fold_min_spec l x). auto. Qed.
Lemma list_max_spec l hi : list_max l = Ok hi -> In hi l /\ forall y, In y l -> y <= hi.
Proof. destruct l as [|x l]; [discriminate|]. cbn [list_max]. intros H. injection H as <-. destruct (fold_max_spec l x). auto. Qed.
Lemma dset_dset k (v v' : pyv) d : dset k v (dset k v' d) = dset k v d.
Proof.
  induction d as [|[a b] d IH]; cbn; [now rewrite String.eqb_refl|]. destruct (String.eqb k a) eqn:E; cbn; rewrite E; [reflexivity|]. now rewrite IH.
Qed.
Lemma dset_comm k k' (v v' : pyv) d : k <> k' -> In k (dkeys d) -> dset k v (dset k' v' d) = dset k' v' (dset k v d).
Proof.
  intros N. induction d as [|[a b] d IH]; cbn; [intros []|]. intros I. destruct (String.eqb_spec k a) as [->|Na]; destruct (String.eqb_spec k' a) as [->|Na']; cbn.
  - congruence.
  - rewrite String.eqb_refl. destruct (String.eqb_spec k' a); [congruence|reflexivity].
  - rewrite String.eqb_refl. destruct (String.eqb_spec k a); [congruence|reflexivity].
  - destruct (String.eqb_spec k a); [congruence|]. destruct (String.eqb_spec k' a); [congruence|]. rewrite IH; [reflexivity|]. destruct I; [congruence|assumption].
Qed.
Lemma in_dset k k' (v : pyv) d : In k (dkeys (dset k' v d)) <-> k = k' \/ In k (dkeys d).
Proof.
  rewrite !keys_in. destruct (String.eqb_spec k k') as [->|N]; [rewrite dget_dset_eq; split; eauto|]. rewrite dget_dset_neq by auto. tauto.
Qed.
Lemma gas_update_twice c c' lo hi lo' hi' st : gas_update c lo hi (gas_update c' lo' hi' st) = gas_update c lo hi st.
Proof.
  unfold gas_update. cbn [ls_gas ls_args]. f_equal.
  - set (g := ls_gas st).
    rewrite (dset_comm "rowland"%string "radius"%string) by (try discriminate; rewrite !in_dset; tauto).
    rewrite (dset_comm "rowland"%string "d_element"%string) by (try discriminate; rewrite !in_dset; tauto). rewrite (dset_dset "rowland"%string).
    rewrite (dset_comm "d_element"%string "radius"%string) by (try discriminate; rewrite !in_dset; tauto). rewrite (dset_dset "d_element"%string). now rewrite dset_dset.
  - set (g := ls_args st). rewrite (dset_comm "zoom"%string "orientation"%string) by (try discriminate; rewrite !in_dset; tauto). rewrite (dset_dset "zoom"%string). now rewrite dset_dset.
Qed.
Lemma gas_history place place' c c' st : fst (lynx_gas place c (snd (lynx_gas place' c' st))) = fst (lynx_gas place c st).
Proof.
  unfold lynx_gas. destruct (list_min (map sh_in (lc_shells c'))) as [lo'|]; [|reflexivity]. destruct (list_max (map sh_out (lc_shells c'))) as [hi'|]; [|reflexivity].
  cbn [snd]. destruct (list_min (map sh_in (lc_shells c))) as [lo|]; [|reflexivity]. destruct (list_max (map sh_out (lc_shells c))) as [hi|]; [|reflexivity].
  cbn [fst]. now rewrite gas_update_twice.
Qed.
Lemma gas_ok place c st r t st' : lynx_gas place c st = (Ok (r, t), st') -> exists lo hi, r = Arr [lo; hi] /\
  (In lo (map sh_in (lc_shells c)) /\ forall s, In s (lc_shells c) -> lo <= sh_in s) /\ (In hi (map sh_out (lc_shells c)) /\ forall s, In s (lc_shells c) -> sh_out s <= hi) /\
  to_rowland t = lc_rowland c /\ to_d_element t = Arr [fst (lc_size c) + 2 * lc_frame c; snd (lc_size c) + 2 * lc_frame c] /\
  (din "elem_args"%string (ls_gas st) = true -> dget "zoom"%string (to_args t) = Some (Arr [1; fst (lc_size c) / 2; snd (lc_size c) / 2]) /\ dget "orientation"%string (to_args t) = Some (Mat3 (lc_blaze c)) /\
     forall k, k <> "zoom"%string -> k <> "orientation"%string -> dget k (to_args t) = dget k (ls_args st)).
Proof.
  intros H. unfold lynx_gas in H. destruct (list_min _) as [lo|] eqn:LO; [|congruence]. destruct (list_max _) as [hi|] eqn:HI; [|congruence].
  assert (Hf : circular_mesh place (ls_args (gas_update c lo hi st)) (ls_gas (gas_update c lo hi st)) = Ok (r, t)) by (cbv zeta in H; congruence). clear H.
  unfold circular_mesh, pop_req in Hf. cbn [gas_update ls_gas ls_args] in Hf. rewrite dget_dset_eq in Hf. cbn [bind] in Hf.
  destruct (elements_on_torus _ _ _) as [t'|] eqn:E; [|discriminate]. cbn [bind] in Hf. assert (r = Arr [lo; hi] /\ t' = t) as [-> ->] by (split; congruence). clear Hf.
  destruct (torus_ok _ _ _ _ E) as (_ & _ & _ & RL & _ & DE & _ & _ & _ & EA & _). exists lo, hi. split; [reflexivity|].
  apply list_min_spec in LO as [L1 L2]. apply list_max_spec in HI as [H1 H2]. split; [split; [exact L1|intros s S; apply L2, in_map, S]|]. split; [split; [exact H1|intros s S; apply H2, in_map, S]|].
  rewrite dget_ddel_neq in RL, DE by discriminate. rewrite !(dget_dset_neq "rowland"%string) in RL by discriminate. rewrite dget_dset_eq in RL.
  rewrite (dget_dset_neq "d_element"%string) in DE by discriminate. rewrite dget_dset_eq in DE. split; [congruence|]. split; [congruence|].
  intros A. assert (EE : to_args t = ls_args (gas_update c lo hi st)).
  { apply EA. apply din_dget in A as (v & A). apply din_dget. exists v. rewrite dget_ddel_neq by discriminate. rewrite !dget_dset_neq by discriminate. exact A. }
  rewrite EE. cbn [gas_update ls_args]. split; [rewrite dget_dset_neq by discriminate; apply dget_dset_eq|]. split; [apply dget_dset_eq|].
  intros k Z O. rewrite !dget_dset_neq by auto. reflexivity.
Qed.
Lemma pi_pos : 0 < PI. Proof. exact PI_RGT_0. Qed.
Lemma sector_range y z : exists n : Z, (0 <= sector y z < 3)%Z /\ IZR (sector y z) * (PI / 3) <= atan2 y z + PI * IZR n < (IZR (sector y z) + 1) * (PI / 3).
Proof.
  pose proof pi_pos as P. destruct (Rmod_eq (atan2 y z) PI) as [n E]. pose proof (Rmod_bound (atan2 y z) PI P) as B. set (m := Rmod _ _) in *.
  destruct (Rfloor_spec (m / PI * 3)) as [F1 F2]. fold (sector y z) in F1, F2. assert (X : m = m / PI * 3 * (PI / 3)) by (field; lra).
  assert (Q : 0 <= m / PI * 3 < 3).
  { split; [apply Rmult_le_pos; [apply Rmult_le_pos; [lra|left; now apply Rinv_0_lt_compat]|lra]|]. apply (Rmult_lt_reg_r (PI / 3)); [lra|]. rewrite <- X. lra. }
  unfold sector in *. fold m in F1, F2 |- *. set (k := Rfloor (m / PI * 3)) in *. exists (- n)%Z. split.
  - assert (-1 < k)%Z by (apply lt_IZR; lra). assert (k < 3)%Z by (apply lt_IZR; lra). lia.
  - rewrite opp_IZR. replace (atan2 y z + PI * - IZR n) with m by lra. rewrite X. split; [apply Rmult_le_compat_r; lra|apply Rmult_lt_compat_r; lra].
Qed.
Lemma sector_opposite y z : sector (- y) (- z) = sector y z.
Proof.
  pose proof pi_pos as P. destruct (Req_EM_T (z * z + y * y) 0) as [Z|Z].
  - assert (y = 0 /\ z = 0) as [-> ->] by (split; nra). now rewrite Ropp_0.
  - pose proof (atan2_polar y z) as [C S]. pose proof (atan2_polar (- y) (- z)) as [C' S']. replace (- z * - z + - y * - y) with (z * z + y * y) in C', S' by ring.
    set (r := sqrt _) in *. assert (R0 : r <> 0) by (intros E; apply sqrt_eq_0 in E; [lra|nra]).
    assert (A : same_angle (atan2 y z + PI) (atan2 (- y) (- z))).
    { apply same_cs; [rewrite neg_cos|rewrite neg_sin]; apply (Rmult_eq_reg_l r); auto; lra. }
    destruct A as [n A]. unfold sector. f_equal. f_equal. f_equal. rewrite A. unfold twopi. replace (atan2 y z + PI + 2 * PI * IZR n) with (atan2 y z + PI * IZR (1 + 2 * n)) by (rewrite plus_IZR, mult_IZR; lra).
    now apply Rmod_shift.
Qed.
Lemma colour_ok y z : exists c, colour y z = Ok c /\ In c ["r"; "g"; "b"]%string.
Proof.
  destruct (sector_range y z) as (n & B & _). unfold colour. set (k := sector y z) in *. assert (k = 0 \/ k = 1 \/ k = 2)%Z as [E|[E|E]] by lia; rewrite E; eexists; (split; [reflexivity|cbn; tauto]).
Qed.

Lemma atan2_narrow y z : 0 < z -> y * y < 3 * (z * z) -> Rabs (atan2 y z) < PI / 3 /\ (0 <= y -> 0 <= atan2 y z) /\ (y < 0 -> atan2 y z < 0).
Proof.
  intros Z Y. pose proof (atan2_polar y z) as [C S]. pose proof (sqrt_def (z * z + y * y) ltac:(nra)) as Q. pose proof (sqrt_lt_R0 (z * z + y * y) ltac:(nra)) as R0.
  set (r := sqrt _) in *. assert (B : - PI <= atan2 y z <= PI /\ (0 <= y -> 0 <= atan2 y z) /\ (y < 0 -> atan2 y z <= 0)).
  { unfold atan2. pose proof (acos_bound (z / sqrt (z * z + y * y))). pose proof PI_RGT_0. destruct (Reqb _ _); [repeat split; intros; lra|]. destruct (Rleb 0 y) eqn:L; [apply Rleb_true in L|apply Rleb_false in L]; repeat split; intros; lra. }
  destruct B as (B & P & N). assert (CO : / 2 < cos (atan2 y z)). { apply (Rmult_lt_reg_l r); [lra|]. rewrite C. nra. }
  pose proof PI_RGT_0. split; [|split; [exact P|]].
  - apply Rnot_le_lt. intros L. assert (A : cos (Rabs (atan2 y z)) <= cos (PI / 3)).
    { destruct (Req_dec (PI / 3) (Rabs (atan2 y z))) as [E|E]; [rewrite E; lra|]. left. apply cos_decreasing_1; try lra; apply Rabs_le || idtac; try lra. }
    rewrite cos_PI3 in A. assert (cos (Rabs (atan2 y z)) = cos (atan2 y z)) by (unfold Rabs; destruct (Rcase_abs _); [apply cos_neg|reflexivity]). lra.
  - intros Y0. specialize (N Y0). destruct (Req_dec (atan2 y z) 0) as [E|E]; [|lra]. rewrite E, sin_0 in S. lra.
Qed.
Lemma colour_narrow y z : 0 < z -> y * y < 3 * (z * z) -> colour y z = Ok (if Rleb 0 y then "r" else "b")%string.
Proof.
  intros Z Y. destruct (atan2_narrow y z Z Y) as (A & P & N). apply Rabs_def2 in A. pose proof PI_RGT_0 as PP. unfold colour, sector. destruct (Rleb 0 y) eqn:L.
  - apply Rleb_true in L. specialize (P L). rewrite Rmod_small by lra. rewrite (Rfloor_unique _ 0); [reflexivity|].
    assert (E : atan2 y z = atan2 y z / PI * 3 * (PI / 3)) by (field; lra). set (q := atan2 y z / PI * 3) in *. split; nra.
  - apply Rleb_false in L. specialize (N L). rewrite (Rmod_unique _ _ (atan2 y z + PI) (-1)) by lra. rewrite (Rfloor_unique _ 2); [reflexivity|].
    set (m := atan2 y z + PI). assert (E : m = m / PI * 3 * (PI / 3)) by (field; lra). assert (M : 2 * (PI / 3) <= m < PI) by (unfold m; lra). set (q := m / PI * 3) in *. clearbody m q. split; [apply (Rmult_le_reg_r (PI / 3)); lra|apply (Rmult_lt_reg_r (PI / 3)); lra].
Qed.

(** ** Missions *)
Lemma mesh_unknown place args kw k : In k (dkeys kw) -> ~ In k torus_keys -> k <> "radius"%string -> exists e, circular_mesh place args kw = Err e.
Proof.
  intros I N R. destruct (circular_mesh place args kw) as [[r t]|e] eqn:E; [exfalso|eauto]. unfold circular_mesh, pop_req in E. destruct (dget "radius"%string kw); [|discriminate]. cbn [bind] in E.
  destruct (elements_on_torus _ _ _) as [t'|] eqn:T; [|discriminate]. apply torus_ok in T as [K _]. apply N, K, keys_ddel. auto.
Qed.
Lemma lynx_gas_unknown place c st k : In k (dkeys (ls_gas st)) -> ~ In k torus_keys -> k <> "radius"%string -> exists e, fst (lynx_gas place c st) = Err e.
Proof.
  intros I N R. unfold lynx_gas. destruct (list_min _); [|eexists; reflexivity]. destruct (list_max _); [|eexists; reflexivity]. cbn [fst]. eapply mesh_unknown; [|exact N|exact R].
  cbn [gas_update ls_gas]. rewrite !in_dset. auto.
Qed.
Lemma athena_gas_unknown place c st k : In k (dkeys (ls_gas st)) -> ~ In k torus_keys -> k <> "radius"%string -> exists e, fst (athena_gas place c st) = Err e.
Proof.
  intros I N R. unfold athena_gas. cbn [fst]. eapply mesh_unknown; [|exact N|exact R]. cbn [athena_update ls_gas]. rewrite !in_dset. auto.
Qed.
Lemma lynx_det_err place args rl kw : lynx_det place args rl kw = Err TypeError.
Proof. unfold lynx_det. destruct (din _ _); reflexivity. Qed.
Lemma axis_total placeg placed c args args' y : lc_shells c <> [] -> (forall a b d e f g h, exists ep, placeg a b d e f g h = Ok ep) -> (forall a b d e f g h i, exists ep, placed a b d e f g h i = Ok ep) ->
  exists g d, perfect_axis placeg placed c (LStore axis_gas_kwargs args) args' y = Ok (g, d) /\ to_guess g = Some (Num 9000) /\ to_guess d = Some (Num 25) /\ to_rowland g = lc_rowland c /\ to_rowland d = lc_rowland c /\
  placed (Arr [400 - y; 800 - y]) None (lc_rowland c) (Some (Num 25)) (Obj 6) None None None = Ok (to_elem_pos d).
Proof.
  intros NE PG PD. unfold perfect_axis, lynx_gas. destruct (lc_shells c) as [|s r]; [congruence|]. cbn [map list_min list_max]. cbv zeta. cbn [fst].
  set (lo := fold_left _ _ _). set (hi := fold_left _ _ _). clearbody lo hi. unfold circular_mesh, pop_req. cbn [gas_update ls_gas ls_args]. rewrite dget_dset_eq. cbn [bind].
  set (kg := ddel "radius"%string _). set (ag := dset "orientation"%string _ _).
  assert (G : exists t, elements_on_torus (placeg (Arr [lo; hi])) ag kg = Ok t).
  { destruct (PG (Arr [lo; hi]) (lc_rowland c) (Some (Num 9000)) (Arr [fst (lc_size c) + 2 * lc_frame c; snd (lc_size c) + 2 * lc_frame c]) None (Some (Arr [0; 0; 0; 1])) (Some (Arr [0; 1; 0; 0]))) as [ep E].
    apply (torus_total _ _ _ (lc_rowland c) (Arr [fst (lc_size c) + 2 * lc_frame c; snd (lc_size c) + 2 * lc_frame c]) (Obj 1) ep); [|reflexivity|reflexivity|reflexivity|exact E].
    intros k K. assert (K' : In k ["parallel_spec"; "normal_spec"; "guess_distance"; "elem_class"; "elem_args"; "rowland"; "d_element"]%string) by exact K. clear K. cbn in K'.
    repeat (destruct K' as [<-|K']; [split; [cbn; tauto|cbn; intuition discriminate]|]). destruct K'. }
  destruct G as [g G]. rewrite G. cbn [bind]. unfold axis_det. cbn [det_kwargs dget String.eqb Ascii.eqb Bool.eqb keywords_only].
  unfold rectangular, pop_req, pop_opt. set (kd := [("rowland"%string, lc_rowland c); _; _; _; _; _; _]). change (dget "y_range"%string kd) with (Some (Arr [400 - y; 800 - y])). cbn [bind].
  set (kd' := ddel "z_range"%string _).
  assert (D : exists t, elements_on_torus (placed (Arr [400 - y; 800 - y]) (dget "z_range"%string (ddel "y_range"%string kd))) args' kd' = Ok t).
  { destruct (PD (Arr [400 - y; 800 - y]) (dget "z_range"%string (ddel "y_range"%string kd)) (lc_rowland c) (Some (Num 25)) (Obj 6) None None None) as [ep E].
    apply (torus_total _ _ _ (lc_rowland c) (Obj 6) (Obj 7) ep); [|reflexivity|reflexivity|reflexivity|exact E].
    intros k K. assert (K' : In k ["rowland"; "d_element"; "elem_args"; "elem_class"; "guess_distance"; "id_col"]%string) by exact K. clear K. cbn in K'.
    repeat (destruct K' as [<-|K']; [split; [cbn; tauto|cbn; intuition discriminate]|]). destruct K'. }
  destruct D as [d D]. rewrite D. cbn [bind snd]. exists g, d. split; [reflexivity|]. apply torus_ok in G as (_ & _ & _ & GR & GG & _). apply torus_ok in D as (_ & _ & _ & DR & DG & DE & DA & _ & _ & _ & DP).
  change (dget "rowland"%string kg) with (Some (lc_rowland c)) in GR. change (dget "rowland"%string kd') with (Some (lc_rowland c)) in DR.
  change (dget "guess_distance"%string kg) with (Some (Num 9000)) in GG. change (dget "guess_distance"%string kd') with (Some (Num 25)) in DG. change (dget "d_element"%string kd') with (Some (Obj 6)) in DE. change (dget "optimize_axis"%string kd') with (@None pyv) in DA.
  repeat split; try congruence. rewrite DG, DA in DP. injection DE as DE. injection DR as DR. rewrite DE, DR. exact DP.
Qed.

(** ** Chirp and alignment *)
Lemma pick_none cmp e : (forall x, In x (nodes e) -> cmp x = false) -> pick cmp e = [].
Proof. intros H. pose proof (pick_subseq cmp e) as S. rewrite Container_Proofs.filter_none in S by exact H. inversion S. reflexivity. Qed.
Lemma picks_none cmp l : (forall e x, In e l -> In x (nodes e) -> cmp x = false) -> flat_map (pick cmp) l = [].
Proof. induction l as [|e l IH]; intros H; [reflexivity|]. cbn [flat_map]. rewrite pick_none by (intros x X; apply (H e); [now left|exact X]). apply IH. intros f x F X. apply (H f); [now right|exact X]. Qed.
Lemma mission_pick cmp before after n : cmp (mission_tree before after n) = false -> (forall e x, In e (before ++ after) -> In x (nodes e) -> cmp x = false) ->
  elements_of cmp false (mission_tree before after n) = pick cmp (gas_tree n).
Proof.
  intros C H. rewrite pick_elements by exact C. cbn [mission_tree kids]. rewrite flat_map_app. cbn [flat_map].
  rewrite !picks_none by (intros e x E; apply H; apply in_or_app; auto). now rewrite app_nil_r.
Qed.
Lemma chirp_lynx before after n : (forall e x, In e (before ++ after) -> In x (nodes e) -> Container_Model.comp false "CATGrating"%string x = false) -> chirp_list_lynx (mission_tree before after n) = [].
Proof.
  intros H. unfold chirp_list_lynx, elements_of_class. rewrite mission_pick by (reflexivity || exact H). apply pick_none. intros x X. rewrite nodes_eq in X. destruct X as [<-|X]; [reflexivity|].
  apply in_flat_map in X as (s & S & X). cbn [gas_tree kids] in S. apply in_map_iff in S as (i & <- & _). cbn in X. repeat (destruct X as [<-|X]; [reflexivity|]). destruct X.
Qed.
Lemma chirp_axis before after n : (forall e x, In e (before ++ after) -> In x (nodes e) -> Container_Model.comp false "NonParallelCATGrating"%string x = false) ->
  map ident (chirp_list_axis (mission_tree before after n)) = seq 0 n /\ Forall (fun g => Container_Model.comp false "NonParallelCATGrating"%string g = true) (chirp_list_axis (mission_tree before after n)).
Proof.
  intros H. unfold chirp_list_axis, elements_of_class. rewrite mission_pick by (reflexivity || exact H). unfold pick. cbn [gas_tree Container_Model.comp mro String.eqb Ascii.eqb Bool.eqb cont].
  rewrite pick_elements by reflexivity. cbn [kids]. assert (A : forall l, map ident (flat_map (pick (Container_Model.comp false "NonParallelCATGrating")) (map stack_tree l)) = l /\
    Forall (fun g => Container_Model.comp false "NonParallelCATGrating"%string g = true) (flat_map (pick (Container_Model.comp false "NonParallelCATGrating")) (map stack_tree l))).
  { induction l as [|i l [IH1 IH2]]; [split; [reflexivity|constructor]|]. cbn [map flat_map]. rewrite map_app. change (pick (Container_Model.comp false "NonParallelCATGrating") (stack_tree i)) with
      [Tree i ("NonParallelCATGrating" :: "CATGrating" :: "FlatGrating" :: flat_mro)%string false []]. cbn [map ident app]. split; [now rewrite IH1|constructor; [reflexivity|exact IH2]]. }
  apply A.
Qed.
Lemma chirp_subclasses before after n : (forall e x, In e (before ++ after) -> In x (nodes e) -> Container_Model.comp true "CATGrating"%string x = false) ->
  map (fun g => (ident g, hd ""%string (mro g))) (elements_of_class (mission_tree before after n) "CATGrating"%string true false) =
  flat_map (fun i => [(i, "NonParallelCATGrating"%string); (i, "L1"%string)]) (seq 0 n).
Proof.
  intros H. unfold elements_of_class. rewrite mission_pick by (reflexivity || exact H). change (pick (Container_Model.comp true "CATGrating") (gas_tree n)) with (elements_of (Container_Model.comp true "CATGrating") false (gas_tree n)).
  rewrite pick_elements by reflexivity. cbn [gas_tree kids].
  induction (seq 0 n) as [|i l IH]; [reflexivity|]. cbn [map flat_map]. rewrite map_app, IH. reflexivity.
Qed.
Lemma align_row_extra k t d s s' : align_row k t d s = Ok s' -> snd s' = map (fun _ => Extra None None) (snd s) /\ k <> Other.
Proof.
  destruct k; cbn [align_row]; intros H; [| |discriminate]; (destruct (tol_apply _ _); [|discriminate]); cbn [bind] in H; injection H as <-; (split; [reflexivity|discriminate]).
Qed.
Lemma align_extra rows : forall s s', rows <> [] -> align rows s = Ok s' -> snd s' = map (fun _ => Extra None None) (snd s).
Proof.
  induction rows as [|[[k t] d] r IH]; intros s s' NE H; [congruence|]. cbn [align] in H. destruct (align_row k t d s) as [s1|] eqn:E; [|discriminate]. cbn [bind] in H.
  apply align_row_extra in E as [E _]. destruct r as [|x r]; [cbn in H; injection H as <-; exact E|]. rewrite (IH s1 s' ltac:(discriminate) H), E, map_map. reflexivity.
Qed.
Lemma align_other rows : forall s s', align rows s = Ok s' -> Forall (fun r => fst (fst r) <> Other) rows.
Proof.
  induction rows as [|[[k t] d] r IH]; intros s s' H; [constructor|]. cbn [align] in H. destruct (align_row k t d s) as [s1|] eqn:E; [|discriminate]. cbn [bind] in H.
  apply align_row_extra in E as [_ E]. constructor; [exact E|]. eapply IH, H.
Qed.

(** ** from_rowland *)
Lemma axangle_pz a : axangle2mat (V3 0 0 1) a = Some (orient (- a)).
Proof.
  unfold axangle2mat. rewrite Lens_Proofs.unit3_of_unit by (unfold dot3; cbn; ring). f_equal. unfold axangle2mat_n, orient. rewrite cos_neg, sin_neg. f_equal; f_equal; ring.
Qed.
Lemma rigid_aff m : affine m -> m = aff (lin m) (tra m).
Proof. apply affine_aff. Qed.
Lemma aff_compose A t p r z : mul4 (aff A t) (compose p r z) = compose (add3 (app3 A p) t) (mul3 A r) z.
Proof. unfold compose. rewrite aff_mul. f_equal. now rewrite mul3_assoc. Qed.
Lemma tube_local R' r w rot phi z : w <> 0 -> add3 (app3 (orient (- rot)) (app3 (diag3 (V3 r r w)) (V3 (cos phi) (sin phi) (z / w)))) (V3 R' 0 0) =
  add3 (V3 ((R' + r * cos (phi + rot)) * 1) (r * sin (phi + rot)) ((R' + r * cos (phi + rot)) * 0)) (scale3 z (V3 0 0 1)).
Proof.
  intros W. unfold diag3, orient, app3, add3, scale3. rewrite cos_neg, sin_neg, cos_plus, sin_plus. vu. cbn. f_equal; [ring|ring|]. field. exact W.
Qed.
Lemma from_rowland_surface t w rot phi z : rigid (tpos t) -> 0 < tr t -> 0 < w ->
  exists m, from_rowland t w rot = Some m /\ perpendicular_axes m /\ norm3 (xyz (v_z m)) = w /\
    cylinder_surface m phi z = Some (add4 (parametric t (phi + rot) 0) (hom (scale3 z (app3 (lin (tpos t)) (V3 0 0 1))) 0)).
Proof.
  intros [A O] Tr W. unfold from_rowland. rewrite axangle_pz. eexists. split; [reflexivity|]. set (T := tpos t) in *.
  assert (ET : T = aff (lin T) (tra T)) by now apply rigid_aff. rewrite ET at 1 2 3. rewrite aff_compose.
  assert (Or : orthonormal (mul3 (lin T) (orient (- rot)))) by (apply orthonormal_mul; [exact O|apply orient_rotation]).
  set (Q := mul3 (lin T) (orient (- rot))) in *. set (c := add3 (app3 (lin T) (V3 (tR t) 0 0)) (tra T)).
  destruct (compose_axes c Q (tr t) (tr t) w Or Tr Tr W) as [P _]. split; [exact P|].
  assert (N2 : norm3 (a2 Q) = 1) by (apply norm3_1; apply Or).
  assert (VZ : xyz (v_z (compose c Q (V3 (tr t) (tr t) w))) = scale3 w (a2 Q)) by (rewrite compose_cols; unfold v_z; cbn [b2]; apply xyz_hom).
  assert (NZ : norm3 (xyz (v_z (compose c Q (V3 (tr t) (tr t) w)))) = w) by (rewrite VZ, norm3_scale, N2, Rabs_pos_eq by lra; ring).
  split; [exact NZ|]. destruct (decompose44_perp_zoom _ P) as (r & zx & zy & E). unfold cylinder_surface. rewrite E. cbn [z3]. fold (v_z (compose c Q (V3 (tr t) (tr t) w))). rewrite NZ. f_equal.
  assert (PA : parametric t (phi + rot) 0 = hom (add3 (app3 (lin T) (torus_point t (phi + rot) 0)) (tra T)) 1) by (unfold parametric; fold T; etransitivity; [rewrite ET; reflexivity|apply app_aff_pt]).
  rewrite PA. unfold compose. change (V4 (cos phi) (sin phi) (z / w) 1) with (hom (V3 (cos phi) (sin phi) (z / w)) 1). rewrite app_aff_pt.
  assert (L : forall p u, add4 (hom p 1) (hom u 0) = hom (add3 p u) 1) by (intros; unfold add4, hom, add3; cbn; f_equal; ring). rewrite L. f_equal.
  unfold Q, c, torus_point. rewrite cos_0, sin_0, !app3_mul. generalize (tube_local (tR t) (tr t) w rot phi z ltac:(lra)). generalize (app3 (orient (- rot)) (app3 (diag3 (V3 (tr t) (tr t) w)) (V3 (cos phi) (sin phi) (z / w)))).
  intros u HU. rewrite <- app3_scale. generalize dependent (scale3 z (V3 0 0 1)). intros e HU.
  transitivity (add3 (app3 (lin T) (add3 u (V3 (tR t) 0 0))) (tra T)); [rewrite app3_add; generalize (app3 (lin T) u), (app3 (lin T) (V3 (tR t) 0 0)), (tra T); intros [] [] []; unfold add3; cbn; f_equal; ring|].
  rewrite HU, app3_add. generalize (app3 (lin T) e), (tra T). intros q1 q2. generalize (app3 (lin T) (V3 ((tR t + tr t * cos (phi + rot)) * 1) (tr t * sin (phi + rot)) ((tR t + tr t * cos (phi + rot)) * 0))).
  intros q3. destruct q1, q2, q3. unfold add3; cbn; f_equal; ring.
Qed.
Lemma parametric_circle t theta : affine (tpos t) -> on_rowland_circle t (xyz (parametric t theta 0)).
Proof.
  intros A. exists (torus_point t theta 0). unfold torus_point. rewrite cos_0, sin_0. cbn [x3 y3 z3]. split; [|split; [ring|]].
  - unfold parametric, torus_point. rewrite cos_0, sin_0. rewrite (rigid_aff _ A) at 1 2. rewrite app_aff_pt. now rewrite xyz_hom.
  - pose proof (sc1 theta) as S. transitivity (tr t * tr t * (sin theta * sin theta + cos theta * cos theta)); [ring|rewrite S; ring].
Qed.
Lemma parametric_inplane t theta a cx cy : tpos t = aff (orient a) (V3 (cx - tR t * cos a) (cy + tR t * sin a) 0) -> parametric t theta 0 = hom (V3 (cx + tr t * cos (theta - a)) (cy + tr t * sin (theta - a)) 0) 1.
Proof.
  intros E. unfold parametric, torus_point. rewrite E, app_aff_pt, cos_0, sin_0, cos_minus, sin_minus. unfold orient, app3, add3, hom. vu. cbn. f_equal; ring.
Qed.
Lemma tilted_points f alpha beta : cos alpha <> 0 -> exists t, design_tilted_torus f alpha beta = Some t /\ rigid (tpos t) /\ tr t = f / (2 * cos alpha) /\
  parametric t (beta + PI) 0 = hom zero3 1 /\ parametric t (beta - 2 * alpha) 0 = hom (V3 f 0 0) 1.
Proof.
  intros C. destruct (tilted_unfold f alpha beta C) as (t & D & Tr & TR & TP). exists t. split; [exact D|]. split; [rewrite TP; split; [apply aff_affine|assert (LA : lin (aff (orient (beta - alpha)) (V3 (f / 2 - tR t * cos (beta - alpha)) (f / 2 * tan alpha + tR t * sin (beta - alpha)) 0)) = orient (beta - alpha)) by reflexivity; rewrite LA; apply orient_rotation]|]. split; [exact Tr|].
  pose proof (fun th => parametric_inplane t th (beta - alpha) (f / 2) (f / 2 * tan alpha)) as X.
  assert (TP' : tpos t = aff (orient (beta - alpha)) (V3 (f / 2 - tR t * cos (beta - alpha)) (f / 2 * tan alpha + tR t * sin (beta - alpha)) 0)) by exact TP.
  rewrite !X by exact TP'. replace (beta + PI - (beta - alpha)) with (alpha + PI) by ring. replace (beta - 2 * alpha - (beta - alpha)) with (- alpha) by ring.
  rewrite neg_cos, neg_sin, cos_neg, sin_neg, Tr. unfold tan, hom, zero3. split; cbn; f_equal; field; exact C.
Qed.

Lemma without_range placeg c args : lc_shells c <> [] -> (forall a b d e f g h, exists ep, placeg a b d e f g h = Ok ep) ->
  (exists r t, fst (lynx_gas placeg c (LStore (ddel "x_range"%string lynx_gas_kwargs) args)) = Ok (r, t) /\ to_axis t = None /\ to_guess t = None) /\
  (exists t, fst (athena_gas placeg c (LStore (ddel "opt_range"%string athena_gas_kwargs) args)) = Ok (Obj 4, t) /\ to_axis t = Some (Obj 3) /\ to_guess t = None).
Proof.
  intros NE PG. split.
  - unfold lynx_gas. destruct (lc_shells c) as [|s r]; [congruence|]. cbn [map list_min list_max]. cbv zeta. cbn [fst].
    set (lo := fold_left _ _ _). set (hi := fold_left _ _ _). clearbody lo hi. unfold circular_mesh, pop_req. cbn [gas_update ls_gas ls_args]. rewrite dget_dset_eq. cbn [bind].
    set (kg := ddel "radius"%string _). set (ag := dset "orientation"%string _ _).
    assert (G : exists t, elements_on_torus (placeg (Arr [lo; hi])) ag kg = Ok t).
    { destruct (PG (Arr [lo; hi]) (lc_rowland c) None (Arr [fst (lc_size c) + 2 * lc_frame c; snd (lc_size c) + 2 * lc_frame c]) None (Some (Arr [0; 0; 0; 1])) (Some (Arr [0; 1; 0; 0]))) as [ep E].
      apply (torus_total _ _ _ (lc_rowland c) (Arr [fst (lc_size c) + 2 * lc_frame c; snd (lc_size c) + 2 * lc_frame c]) (Obj 1) ep); [|reflexivity|reflexivity|reflexivity|exact E].
      intros k K. assert (K' : In k ["parallel_spec"; "normal_spec"; "elem_class"; "elem_args"; "rowland"; "d_element"]%string) by exact K. clear K. cbn in K'.
      repeat (destruct K' as [<-|K']; [split; [cbn; tauto|cbn; intuition discriminate]|]). destruct K'. }
    destruct G as [g G]. rewrite G. cbn [bind]. exists (Arr [lo; hi]), g. split; [reflexivity|]. apply torus_ok in G as (_ & _ & _ & _ & GG & _ & GA & _). split; [rewrite GA|rewrite GG]; reflexivity.
  - unfold athena_gas. cbv zeta. cbn [fst]. unfold circular_mesh, pop_req. cbn [athena_update ls_gas ls_args]. set (kw := dset "d_element"%string _ _). set (ag := dset "orientation"%string _ _).
    change (dget "radius"%string kw) with (Some (Obj 4)). cbn [bind]. set (kg := ddel "radius"%string kw).
    assert (G : exists t, elements_on_torus (placeg (Obj 4)) ag kg = Ok t).
    { destruct (PG (Obj 4) (lc_rowland c) None (Arr [fst (lc_size c) + 2 * lc_frame c; snd (lc_size c) + 2 * lc_frame c]) (Some (Obj 3)) (Some (Arr [0; 0; 0; 1])) (Some (Arr [1; 0; 0; 0]))) as [ep E].
      apply (torus_total _ _ _ (lc_rowland c) (Arr [fst (lc_size c) + 2 * lc_frame c; snd (lc_size c) + 2 * lc_frame c]) (Obj 1) ep); [|reflexivity|reflexivity|reflexivity|exact E].
      intros k K. assert (K' : In k ["parallel_spec"; "normal_spec"; "optimize_axis"; "elem_class"; "elem_args"; "rowland"; "d_element"]%string) by exact K. clear K. cbn in K'.
      repeat (destruct K' as [<-|K']; [split; [cbn; tauto|cbn; intuition discriminate]|]). destruct K'. }
    destruct G as [g G]. rewrite G. cbn [bind]. exists g. split; [reflexivity|]. apply torus_ok in G as (_ & _ & _ & _ & GG & _ & GA & _). split; [rewrite GA|rewrite GG]; reflexivity.
Qed.
Lemma row_spec k tol draws s s' : align_row k tol draws s = Ok s' ->
  (k = Global -> p_unc (ps_par (fst s')) = move6 (fst tol) (snd tol) /\ p_elem_unc (ps_par (fst s')) = p_elem_unc (ps_par (fst s))) /\
  (k = Individual -> p_unc (ps_par (fst s')) = p_unc (ps_par (fst s)) /\
     forall i, (i < List.length (ps_elems (fst s)))%nat -> nth_error (p_elem_unc (ps_par (fst s'))) i = Some (move6 (fst (draws i)) (snd (draws i)))) /\
  p_pos4d (ps_par (fst s')) = p_pos4d (ps_par (fst s)) /\ p_elem_pos (ps_par (fst s')) = p_elem_pos (ps_par (fst s)) /\ generate_elements (ps_par (fst s')) = Ok (ps_elems (fst s')).
Proof.
  unfold align_row. destruct k; [| |discriminate]; unfold tol_apply; cbv zeta; intros H; destruct (generate_elements _) as [es|] eqn:G in H; try discriminate; cbn [bind] in H; injection H as <-; cbn [fst ps_par ps_elems].
  - split; [intros _; split; reflexivity|]. split; [discriminate|]. split; [reflexivity|]. split; [reflexivity|exact G].
  - split; [discriminate|]. split; [|split; [reflexivity|split; [reflexivity|exact G]]]. intros _. split; [reflexivity|]. intros i I. cbn [tol_set set_elem_unc p_elem_unc].
    rewrite nth_error_map, nth_error_seq by exact I. reflexivity.
Qed.
