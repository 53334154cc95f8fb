(** Proofs about the header of an observation. *)
From Verif Require Import Base_Proofs Osip_Proofs Origin_Proofs Vec_Proofs Chandra_Proofs Observe_Model.
From Coq Require Import Reals Lra.
Open Scope R_scope.
Open Scope string_scope.
Open Scope list_scope.

Lemma concat_cons s l : String.concat "" (s :: l) = String.append s (String.concat "" l).
Proof.
  destruct l as [|t r]; cbn [String.concat]; [|reflexivity].
  induction s as [|c s IH]; [reflexivity|]. cbn. now rewrite <- IH.
Qed.
Lemma digit_text c : (0 <= c < 10)%Z -> exists a, str_int c = String a "" /\ (Z.of_nat (Ascii.nat_of_ascii a) - 48)%Z = c.
Proof.
  intros H. assert (D : c = 0%Z \/ c = 1%Z \/ c = 2%Z \/ c = 3%Z \/ c = 4%Z \/ c = 5%Z \/ c = 6%Z \/ c = 7%Z \/ c = 8%Z \/ c = 9%Z) by lia.
  repeat (destruct D as [->|D]; [eexists; split; reflexivity|]). subst c. eexists; split; reflexivity.
Qed.
Lemma digits_back chips : Forall (fun c => (0 <= c < 10)%Z) chips -> digits_of (String.concat "" (map str_int chips)) = chips.
Proof.
  induction 1 as [|c r H R IH]; [reflexivity|]. cbn [map]. rewrite concat_cons. destruct (digit_text c H) as (a & -> & E).
  cbn [String.append digits_of]. now rewrite E, IH.
Qed.
Lemma substring_all s : substring 0 (String.length s) s = s.
Proof. induction s as [|c s IH]; [reflexivity|]. cbn. now rewrite IH. Qed.
Lemma name_back chips : Forall (fun c => (0 <= c < 10)%Z) chips -> chips_named (detnam chips) = chips.
Proof.
  intros H. unfold chips_named, detnam. cbn [String.append String.length].
  replace (S (S (S (S (S (String.length (String.concat "" (map str_int chips)))))) ) - 5)%nat with (String.length (String.concat "" (map str_int chips))) by lia.
  cbn [substring]. rewrite substring_all. now apply digits_back.
Qed.
Lemma index_ok n i : (exists k, chip_index n i = Ok k) <-> (- Z.of_nat n <= i < Z.of_nat n)%Z.
Proof.
  unfold chip_index. destruct (Z.leb_spec 0 i) as [P|N].
  - destruct (Nat.ltb_spec (Z.to_nat i) n) as [L|L]; split.
    + intros _. lia.
    + intros _. now eexists.
    + intros [k H]. discriminate.
    + intros H. lia.
  - destruct (Nat.leb_spec (Z.to_nat (- i)) n) as [L|L]; split.
    + intros _. lia.
    + intros _. now eexists.
    + intros [k H]. discriminate.
    + intros H. lia.
Qed.
Lemma index_value n i k : chip_index n i = Ok k -> (k < n)%nat /\ (Z.of_nat k = i \/ Z.of_nat k = i + Z.of_nat n)%Z.
Proof.
  unfold chip_index. destruct (Z.leb_spec 0 i) as [P|N].
  - destruct (Nat.ltb_spec (Z.to_nat i) n) as [L|L]; intros H; inversion H. split; [lia | left; lia].
  - destruct (Nat.leb_spec (Z.to_nat (- i)) n) as [L|L]; intros H; inversion H. split; [lia | right; lia].
Qed.

(** ** entries *)
Definition chip_keys := ["ACSYS1"; "ACSYS2"; "ACSYS3"; "ACSYS4"].
Definition acis_keys := ["SIM_X"; "SIM_Y"; "SIM_Z"; "DETNAM"; "INSTRUME"].
Lemma chip_header_kept h h' k : chip_header h = Ok h' -> ~ In k chip_keys -> dget k h' = dget k h.
Proof.
  unfold chip_header. destruct (roll_entry h); cbn [bind]; [|discriminate]. intros H N. inversion H. subst.
  rewrite !dget_dset_neq by (intros ->; apply N; cbn; tauto). reflexivity.
Qed.
Lemma chips_header_kept hit : forall h h' k, chips_header hit h = Ok h' -> ~ In k chip_keys -> dget k h' = dget k h.
Proof.
  induction hit as [|b r IH]; cbn [chips_header]; intros h h' k H N; [now inversion H|].
  destruct b; cbn [bind] in H.
  - destruct (chip_header h) as [h1|] eqn:E; cbn [bind] in H; [|discriminate]. rewrite (IH _ _ _ H N). now apply chip_header_kept.
  - exact (IH _ _ _ H N).
Qed.
Lemma chip_header_idem h h' : chip_header h = Ok h' -> exists h'', chip_header h' = Ok h''.
Proof.
  intros H. assert (E : roll_entry h' = roll_entry h) by (unfold roll_entry; now rewrite (chip_header_kept h h' "ROLL_PNT" H) by (cbn; intuition discriminate)).
  unfold chip_header in *. rewrite E. destruct (roll_entry h); [cbn [bind]; now eexists | discriminate].
Qed.
Lemma chips_ok hit : forall h, (exists h', chips_header hit h = Ok h') <-> (In true hit -> exists r, roll_entry h = Ok r).
Proof.
  induction hit as [|b r IH]; intros h; cbn [chips_header].
  - split; [intros _ [] | intros _; now eexists].
  - destruct b; cbn [bind].
    + unfold chip_header at 1. destruct (roll_entry h) as [x|e] eqn:E; cbn [bind].
      * split; [intros _ _; now exists x|]. intros _. apply IH. intros _. exists x.
        unfold roll_entry. rewrite !dget_dset_neq by discriminate. exact E.
      * split; [intros [h' H]; discriminate|]. intros H. destruct H as [y H]; [now left | discriminate].
    + rewrite IH. split; intros H I; [destruct I as [I|I]; [discriminate | auto] | apply H; now right].
Qed.
Lemma chips_written hit : forall h h', chips_header hit h = Ok h' -> In true hit ->
  forall k, In k chip_keys -> exists w c, dget k h' = Some (Commented (Words w) c).
Proof.
  induction hit as [|b r IH]; intros h h' H I k K; [destruct I|]. cbn [chips_header] in H.
  destruct (in_dec Bool.bool_dec true r) as [J|J].
  - destruct b; cbn [bind] in H; [|exact (IH _ _ H J k K)].
    destruct (chip_header h) as [h1|]; cbn [bind] in H; [|discriminate]. exact (IH _ _ H J k K).
  - destruct I as [->|I]; [|contradiction]. cbn [bind] in H. destruct (chip_header h) as [h1|] eqn:E; cbn [bind] in H; [|discriminate].
    assert (F : h' = h1).
    { clear - H J. revert H J. revert h'. induction r as [|b r IH]; cbn [chips_header]; intros h' H J; [now inversion H|].
      destruct b; [destruct J; now left|]. cbn [bind] in H. apply IH; [exact H | intros I; apply J; now right]. }
    subst h1. unfold chip_header in E. destruct (roll_entry h); cbn [bind] in E; [|discriminate]. inversion E.
    destruct K as [<-|[<-|[<-|[<-|[]]]]]; eexists; eexists; rewrite ?dget_dset_neq by discriminate; rewrite dget_dset_eq; reflexivity.
Qed.
Lemma no_hits hit h : ~ In true hit -> chips_header hit h = Ok h.
Proof.
  induction hit as [|b r IH]; cbn [chips_header]; intros J; [reflexivity|]. destruct b; [destruct J; now left|].
  cbn [bind]. apply IH. intros I. apply J. now right.
Qed.
Lemma acis_kept aim off chips hit h h' k : acis_header aim off chips hit h = Ok h' -> ~ In k (chip_keys ++ acis_keys) -> dget k h' = dget k h.
Proof.
  unfold acis_header. destruct (chips_header hit h) as [h1|] eqn:E; cbn [bind]; [|discriminate]. intros H N. inversion H. subst.
  rewrite !dget_dset_neq by (intros ->; apply N; cbn; tauto). apply (chips_header_kept hit h h1 k E). intros I. apply N, in_or_app. now left.
Qed.
Lemma acis_values aim off chips hit h h' : acis_header aim off chips hit h = Ok h' ->
  dget "SIM_X" h' = Some (Alone (Number (x3 aim - x3 off))) /\ dget "SIM_Y" h' = Some (Alone (Number (y3 aim - y3 off))) /\ dget "SIM_Z" h' = Some (Alone (Number (z3 aim - z3 off))) /\
  dget "DETNAM" h' = Some (Alone (Words (detnam chips))) /\ dget "INSTRUME" h' = Some (Commented (Words "ACIS") "Instrument").
Proof.
  unfold acis_header. destruct (chips_header hit h) as [h1|] eqn:E; cbn [bind]; [|discriminate]. intros H. inversion H.
  rewrite ?dget_dset_eq. repeat split; rewrite ?dget_dset_neq by discriminate; rewrite ?dget_dset_neq by discriminate; apply dget_dset_eq.
Qed.
Lemma acis_ok aim off chips hit h : (exists h', acis_header aim off chips hit h = Ok h') <-> (In true hit -> exists r, roll_entry h = Ok r).
Proof.
  rewrite <- chips_ok. unfold acis_header. destruct (chips_header hit h) as [h1|]; cbn [bind]; split; intros [h' H]; try discriminate; now eexists.
Qed.
Lemma position_from_header c aim off chips hit h h' m sx sy sz :
  chip_pos4d c aim off = Some m -> acis_header aim off chips hit h = Ok h' ->
  dget "SIM_X" h' = Some (Alone (Number sx)) -> dget "SIM_Y" h' = Some (Alone (Number sy)) -> dget "SIM_Z" h' = Some (Alone (Number sz)) ->
  app4 m (V4 0 (-1) (-1) 1) = hom (add3 (add3 (c_LL c) olsi) (V3 sx sy sz)) 1 /\
  app4 m (V4 0 1 (-1) 1) = hom (add3 (add3 (c_LR c) olsi) (V3 sx sy sz)) 1 /\
  app4 m (V4 0 (-1) 1 1) = hom (add3 (add3 (c_UL c) olsi) (V3 sx sy sz)) 1.
Proof.
  intros C A X Y Z. destruct (acis_values aim off chips hit h h' A) as (X' & Y' & Z' & _).
  rewrite X in X'. rewrite Y in Y'. rewrite Z in Z'. inversion X'; inversion Y'; inversion Z'.
  destruct (chip_corners c aim off m C) as (L & R & U & _).
  assert (S : forall v, sub3 (add3 v aim) off = add3 v (V3 (x3 aim - x3 off) (y3 aim - y3 off) (z3 aim - z3 off))).
  { intros v. destruct v, aim, off. unfold sub3, add3. cbn. f_equal; ring. }
  cbv zeta in L, R, U. rewrite S in L, R, U. repeat split; assumption.
Qed.
