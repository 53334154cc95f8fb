(** The text of the ACIS corners: C206 *)
From Coq Require Import Ascii Lia Lra.
From Verif Require Import Base_Proofs Placement_Proofs.
From Verif Require Export AcisText_Proofs.
Open Scope string_scope.
Open Scope list_scope.

(** A decimal number that is written as text is read back. *)
Theorem C206_number : forall x, decimal_ok x -> float (decimal_text x) = Ok (decimal_value x).
Proof. exact float_read. Qed.
Print Assumptions C206_number.
Example C206_ex_number : float "-26.484" = Ok (decimal_value (Dec true [2; 6]%nat [4; 8; 4]%nat)) /\ decimal_value (Dec true [2; 6]%nat [4; 8; 4]%nat) = (- 26484 / 1000)%R.
Proof.
  split; [apply (C206_number (Dec true [2; 6]%nat [4; 8; 4]%nat)); repeat split; cbn; [repeat constructor; lia|repeat constructor; lia|discriminate]|].
  unfold decimal_value, digits_number. cbn. lra.
Qed.
(** The texts that are numbers, and all others: [float] takes signs and numbers without point, without digits before or without digits after it; everything else is a
    ValueError. *)
Theorem C206_numeral : forall x, numeral_ok x -> float (numeral_text x) = Ok (numeral_value x).
Proof. exact float_numeral. Qed.
Print Assumptions C206_numeral.
Theorem C206_no_number : forall s, (forall x, numeral_ok x -> s <> numeral_text x) <-> float s = Err ValueError.
Proof. intros s. split; [exact (float_otherwise s)|]. intros E x H ->. rewrite (float_numeral x H) in E. discriminate. Qed.
Print Assumptions C206_no_number.
Example C206_ex_numeral : float ".5" = Ok (numeral_value (Num None [] true [5]%nat)) /\ float "+12" = Ok (numeral_value (Num (Some false) [1; 2]%nat false [])) /\
  numeral_value (Num None [] true [5]%nat) = (1 / 2)%R /\ float "." = Err ValueError /\ float "1.2.3" = Err ValueError.
Proof.
  repeat split.
  - apply (C206_numeral (Num None [] true [5]%nat)). repeat split; try (repeat constructor; lia); discriminate.
  - apply (C206_numeral (Num (Some false) [1; 2]%nat false [])). repeat split; try (repeat constructor; lia); discriminate.
  - unfold numeral_value, digits_number. cbn. lra.
Qed.
(** Words are separated by any white space. *)
Theorem C206_words : forall l last, match l with [] => True | (sp, w) :: l' => all_white sp /\ none_white w /\ w <> "" /\ Forall (fun x => all_white (fst x) /\ fst x <> "" /\ none_white (snd x) /\ snd x <> "") l' end ->
  all_white last -> words (spaced l ++ last)%string = map snd l.
Proof. exact words_spaced. Qed.
Print Assumptions C206_words.
Definition tab : string := String (ascii_of_nat 9) EmptyString.
Example C206_ex_words : words ("1.0" ++ tab ++ "2.0 " ++ tab)%string = ["1.0"; "2.0"].
Proof. apply (C206_words [("", "1.0"); (tab, "2.0")] (" " ++ tab)%string); cbn; repeat split; try discriminate; try (intuition discriminate); try tauto. repeat constructor; cbn; try tauto; try discriminate; intuition discriminate. Qed.
(** Any row with numbers in brackets, whatever the blanks between them: the numbers of the first row with the name of the chip and the corner. *)
Theorem C206_corner : forall pre post chip c l last, (forall row, In row pre -> fst row <> ("ACIS-" ++ chip ++ "-" ++ c)%string) -> separated l -> Forall (fun nx => decimal_ok (snd nx)) l ->
  corner (pre ++ (("ACIS-" ++ chip ++ "-" ++ c)%string, bracket_text l last) :: post) chip c = Ok (map (fun nx => decimal_value (snd nx)) l).
Proof. intros pre post chip c l last H G D. unfold corner. rewrite (lookup_first _ _ _ _ H). cbn [bind]. now apply bracket_read. Qed.
Print Assumptions C206_corner.
Example C206_ex_corner : corner [("other", "x"); ("ACIS-I0-LL", "( 2.5  -1.0)")] "I0" "LL" = Ok [decimal_value (Dec false [2]%nat [5]%nat); decimal_value (Dec true [1]%nat [0]%nat)].
Proof.
  apply (C206_corner [("other", "x")] [] "I0" "LL" [(1%nat, Dec false [2]%nat [5]%nat); (2%nat, Dec true [1]%nat [0]%nat)] 0).
  - intros row [<-|[]]. discriminate.
  - repeat constructor; cbn; lia.
  - repeat constructor; cbn; try lia; discriminate.
Qed.
(** One dictionary per chip, in the order of ACIS_name, with four entries. *)
Theorem C206_all : forall t out, get_corners t = Ok out -> List.length out = 10%nat /\
  forall i chip d, nth_error acis_names i = Some chip -> nth_error out i = Some d -> (forall c, In c corner_names -> exists v, corner t chip c = Ok v /\ dget c d = Some v) /\ (forall c, dget c d <> None -> In c corner_names).
Proof.
  intros t out H. apply get_chips_spec in H. split; [now rewrite <- (Forall2_len _ _ _ H)|]. intros i chip d C D.
  assert (E : get_chip t chip corner_names [] = Ok d).
  { clear - H C D. revert i C D. induction H as [|a b l l' E H IH]; intros [|i] C D; try discriminate; cbn in C, D; [congruence|now apply (IH i)]. }
  destruct (get_chip_spec _ _ _ _ _ E) as [A B]; [repeat constructor; cbn; intuition discriminate|]. split; [exact A|]. intros c N. destruct (in_dec string_dec c corner_names) as [I|I]; [exact I|]. rewrite (B c I) in N. now cbn in N.
Qed.
Print Assumptions C206_all.
Theorem C206_succeeds : forall t, (forall chip c, In chip acis_names -> In c corner_names -> exists v, corner t chip c = Ok v) <-> exists out, get_corners t = Ok out.
Proof.
  intros t. split.
  - intros H. apply get_chips_ok. intros chip I. apply get_chip_ok. intros c J. now apply H.
  - intros [out E] chip c I J. destruct (C206_all t out E) as [L A]. destruct (In_nth_error _ _ I) as [i N]. assert (S1 : (i < 10)%nat) by (change 10%nat with (List.length acis_names); apply nth_error_Some; congruence).
    destruct (nth_error out i) as [d|] eqn:D; [|apply nth_error_None in D; lia]. destruct (A i chip d N D) as [K _]. destruct (K c J) as (v & V & _). eauto.
Qed.
Print Assumptions C206_succeeds.
(** The first corner without a row is an IndexError. *)
Theorem C206_missing : forall t chips1 chip chips2 cs1 c cs2, acis_names = chips1 ++ chip :: chips2 -> corner_names = cs1 ++ c :: cs2 ->
  (forall ch k, In ch chips1 -> In k corner_names -> exists v, corner t ch k = Ok v) -> (forall k, In k cs1 -> exists v, corner t chip k = Ok v) ->
  (forall row, In row t -> fst row <> ("ACIS-" ++ chip ++ "-" ++ c)%string) -> get_corners t = Err IndexError.
Proof.
  intros t chips1 chip chips2 cs1 c cs2 E1 E2 H1 H2 M. unfold get_corners. rewrite E1. apply get_chips_first_err.
  - intros ch I. apply get_chip_ok. intros k J. now apply H1.
  - rewrite E2. apply get_chip_first_err; [exact H2|]. unfold corner. now rewrite (lookup_missing _ _ M).
Qed.
Print Assumptions C206_missing.
Example C206_ex_missing : get_corners [("ACIS-I0-LL", "(1.0 2.0 3.0)")] = Err IndexError.
Proof.
  apply (C206_missing _ [] "I0" (tl acis_names) ["LL"] "LR" ["UR"; "UL"]); try reflexivity.
  - intros ch k [].
  - intros k [<-|[]]. eexists. apply (C206_corner [] [] "I0" "LL" [(0%nat, Dec false [1]%nat [0]%nat); (1%nat, Dec false [2]%nat [0]%nat); (1%nat, Dec false [3]%nat [0]%nat)] 0); [intros row []|repeat constructor|repeat constructor; cbn; try lia; discriminate].
  - intros row [<-|[]]. discriminate.
Qed.
(** The table in the package gives the coordinates that the model of the detector uses (C120 to C126). *)
Theorem C206_shipped : get_corners acis_table = Ok (map as_dict acis_corners).
Proof. exact shipped_corners. Qed.
Print Assumptions C206_shipped.
(** The property chip_name *)
Theorem C206_chip_name : forall i, (forall k n, nth_error acis_names k = Some n -> i = Z.of_nat k \/ i = (Z.of_nat k - 10)%Z -> chip_name i = Ok ("ACIS-" ++ n)%string) /\ ((i < -10 \/ 10 <= i)%Z -> chip_name i = Err IndexError).
Proof.
  intros i. split.
  - intros k n N H. assert (K : (k < 10)%nat) by (change 10%nat with (List.length acis_names); apply nth_error_Some; congruence). unfold chip_name. destruct H as [->| ->].
    + rewrite (proj2 (Z.ltb_ge (Z.of_nat k) 0)) by lia. cbv zeta. rewrite (proj2 (Z.ltb_ge (Z.of_nat k) 0)) by lia. now rewrite Nat2Z.id, N.
    + rewrite (proj2 (Z.ltb_lt (Z.of_nat k - 10) 0)) by lia. cbv zeta. replace (Z.of_nat k - 10 + 10)%Z with (Z.of_nat k) by lia. rewrite (proj2 (Z.ltb_ge (Z.of_nat k) 0)) by lia. now rewrite Nat2Z.id, N.
  - intros [H|H]; unfold chip_name.
    + rewrite (proj2 (Z.ltb_lt i 0)) by lia. cbv zeta. now rewrite (proj2 (Z.ltb_lt (i + 10) 0)) by lia.
    + rewrite (proj2 (Z.ltb_ge i 0)) by lia. cbv zeta. rewrite (proj2 (Z.ltb_ge i 0)) by lia. destruct (nth_error acis_names (Z.to_nat i)) eqn:N; [|reflexivity]. exfalso.
      assert (Z.to_nat i < 10)%nat by (change 10%nat with (List.length acis_names); apply nth_error_Some; congruence). lia.
Qed.
Print Assumptions C206_chip_name.
Example C206_ex_chip_name : chip_name 7 = Ok "ACIS-S3" /\ chip_name (-1) = Ok "ACIS-S5" /\ chip_name 10 = Err IndexError.
Proof. repeat split. Qed.
