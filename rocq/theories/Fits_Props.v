(** Properties C127 and C128: Chandra file headers and the order of columns. *)
From Verif Require Import Fits_Proofs.

(** ** C127 *)
(** Existing keywords keep their value, except for the three redundant times. *)
Theorem C127_kept : forall c h data s cls h' k v, complete_header c h data (CStr s) cls = Ok h' -> dget k h = Some v ->
  k <> "TSTART" -> k <> "TSTOP" -> k <> "OBS-MJD" -> dget k h' = Some v.
Proof.
  intros c h data s cls h' k v H E N1 N2 N3. apply complete_spec in H. destruct H as (_ & _ & x & d & t & _ & _ & _ & _ & _ & _ & ALL).
  rewrite ALL by (cbn; intuition congruence). apply completed_dget, E.
Qed.
Print Assumptions C127_kept.

(** The redundant times follow from the date and the exposure time in the header. *)
Theorem C127_times : forall c h data s cls h' d cm, complete_header c h data (CStr s) cls = Ok h' ->
  (dget "DATE-OBS" h = Some (HTup (HStr d) cm) \/ dget "DATE-OBS" h = None /\ d = now c) -> exists x cx t,
  dget "EXPOSURE" h = Some (HTup (HNum x) cx) /\ cxcsec c d = Some t /\
  dget "TSTART" h' = Some (HTup (HNum t) "") /\ dget "TSTOP" h' = Some (HTup (HNum (t + x)) "") /\ dget "OBS-MJD" h' = Some (HNum (mjd c d)).
Proof.
  intros c h data s cls h' d cm H D. apply complete_spec in H. destruct H as (_ & (e & EX) & x & d' & t & EXP & D' & T & TS & TE & OM & _).
  destruct (exposure_tup _ _ EXP) as [cx EXT]. exists x, cx, t. split; [exact EXT|].
  assert (d' = d).
  { destruct D as [D|[D ->]].
    - rewrite (completed_dget _ _ _ _ _ _ D) in D'. cbn in D'. congruence.
    - unfold completed in D'. rewrite D, EX, EXP in D'. rewrite cc_none in D' by (cbn; intuition discriminate). cbn in D'. congruence. }
  subst d'. auto.
Qed.
Print Assumptions C127_times.

(** The configuration and timing keywords are there afterwards, *)
Theorem C127_present : forall c h data s cls h' k, complete_header c h data (CStr s) cls = Ok h' ->
  In k ["ORIGIN"; "HDUDOC"; "CONTENT"; "HDUNAME"; "DATE"; "DATE-OBS"; "DATE-END"; "TIMESYS"; "MJDREF"; "TIMEZERO"; "TIMEUNIT"; "BTIMNULL"; "BTIMRATE";
        "BTIMDRFT"; "BTIMCORR"; "TIMEREF"; "TASSIGN"; "CLOCKAPP"; "TIERRELA"; "TIERABSO"; "TIMVERSN"; "TIMEPIXR"; "TIMEDEL"; "TSTART"; "TSTOP"; "OBS-MJD"] ->
  exists v, dget k h' = Some v.
Proof.
  intros c h data s cls h' k H I. apply complete_spec in H. destruct H as (_ & (e & EX) & x & d & t & EXP & _ & _ & TS & TE & OM & ALL).
  destruct (in_dec String.string_dec k redundant) as [R|R].
  - cbn in R. destruct R as [<-|[<-|[<-|[]]]]; [rewrite TS|rewrite TE|rewrite OM]; eexists; reflexivity.
  - rewrite ALL by exact R. unfold completed. rewrite EX, EXP. destruct (dget k h) as [v|]; [exists v; reflexivity|].
    clear ALL TS TE OM. cbn in I.
    repeat (destruct I as [<-|I]; [first [eexists; reflexivity | rewrite cc_none by (cbn; intuition discriminate); eexists; reflexivity | exfalso; apply R; cbn; tauto]|]).
    destruct I.
Qed.
Print Assumptions C127_present.

(** with the values asked for if they were missing, *)
Theorem C127_values : forall c h data s cls h' k v, complete_header c h data (CStr s) cls = Ok h' -> dget k h = None ->
  (k = "CONTENT" /\ v = HStr s \/ k = "HDUNAME" /\ dget "EXTNAME" h = Some v \/ k = "ORIGIN" /\ v = HStr "ASC" \/ k = "DATE-OBS" /\ v = HTup (HStr (now c)) "" \/
   k = "TIMEUNIT" /\ v = HStr "s" \/ k = "HDUCLASS" /\ option_map HStr (nth_error cls 0) = Some v \/ k = "HDUCLAS1" /\ option_map HStr (nth_error cls 1) = Some v \/
   k = "HDUCLAS2" /\ option_map HStr (nth_error cls 2) = Some v \/ k = "HDUCLAS3" /\ option_map HStr (nth_error cls 3) = Some v) ->
  dget k h' = Some v.
Proof.
  intros c h data s cls h' k v H N V. apply complete_spec in H. destruct H as (_ & (e & EX) & x & d & t & EXP & _ & _ & _ & _ & _ & ALL).
  rewrite ALL by (cbn; intuition (subst; discriminate)). unfold completed. rewrite EX, EXP, N. clear ALL.
  destruct V as [[-> ->]|[[-> V]|[[-> ->]|[[-> ->]|[[-> ->]|[[-> V]|[[-> V]|[[-> V]|[-> V]]]]]]]]].
  - reflexivity.
  - rewrite EX in V. injection V as ->. reflexivity.
  - reflexivity.
  - rewrite cc_none by (cbn; intuition discriminate). reflexivity.
  - rewrite cc_none by (cbn; intuition discriminate). reflexivity.
  - destruct cls as [|a cls]; [discriminate|]. cbn in V |- *. exact V.
  - destruct cls as [|a [|b cls]]; try discriminate. cbn in V |- *. exact V.
  - destruct cls as [|a [|b [|c0 cls]]]; try discriminate. cbn in V |- *. exact V.
  - destruct cls as [|a [|b [|c0 [|d0 cls]]]]; try discriminate. cbn in V |- *. exact V.
Qed.
Print Assumptions C127_values.

(** and a second call changes nothing, even if it is made at a different time. *)
Theorem C127_twice : forall c c' h data s cls h', cxcsec c' = cxcsec c -> mjd c' = mjd c -> complete_header c h data (CStr s) cls = Ok h' ->
  exists h'', complete_header c' h' data (CStr s) cls = Ok h'' /\ forall k, dget k h'' = dget k h'.
Proof. exact complete_twice. Qed.
Print Assumptions C127_twice.

(** It succeeds for every header with an extension name, exposure time and valid date, unless it is for events. *)
Theorem C127_success_partial : forall c h data s cls e x cx d t, String.prefix "EVT" (upper s) = false ->
  dget "EXTNAME" h = Some e -> dget "EXPOSURE" h = Some (HTup (HNum x) cx) ->
  ((exists cm, dget "DATE-OBS" h = Some (HTup (HStr d) cm)) \/ dget "DATE-OBS" h = None /\ d = now c) -> cxcsec c d = Some t ->
  exists h', complete_header c h data (CStr s) cls = Ok h'.
Proof.
  intros c h data s cls e x cx d t P EX EXP D T. assert (E : exposure h = Ok x) by (unfold exposure, item0, item; rewrite EXP; reflexivity).
  apply (complete_ok c h data s cls e x d t P EX E); [|exact T]. destruct D as [[cm D]|[D ->]].
  - rewrite (completed_dget _ _ _ _ _ _ D). reflexivity.
  - unfold completed. rewrite D, EX, E. rewrite cc_none by (cbn; intuition discriminate). reflexivity.
Qed.
Print Assumptions C127_success_partial.

(** No header for an event list can be made, so that no event file is ever written, *)
Theorem C127_events_refuted : forall c h data s cls, String.prefix "EVT" (upper s) = true -> complete_header c h data (CStr s) cls = Err AttributeError.
Proof. intros c h data s cls P. unfold complete_header. rewrite P. reflexivity. Qed.
Print Assumptions C127_events_refuted.
Theorem C127_write_evt_refuted : forall c h cols h' cols', write_evt c h cols <> Ok (h', cols').
Proof.
  intros c h cols h' cols'. unfold write_evt. destruct (rename_column "ra" "marxs_ra" cols) as [l|]; cbn [bind]; [|discriminate].
  destruct (rename_column "dec" "marxs_dec" l) as [l'|]; cbn [bind]; [|discriminate]. rewrite C127_events_refuted by reflexivity. discriminate.
Qed.
Print Assumptions C127_write_evt_refuted.
(** the default arguments are an error, *)
Theorem C127_default_refuted : forall c h data, complete_header_default c h data = Err AttributeError.
Proof. reflexivity. Qed.
Print Assumptions C127_default_refuted.
(** and mission, telescope, grating, exposure and observer are never added. *)
Theorem C127_observation_refuted : forall c h data s cls h' k x, complete_header c h data (CStr s) cls = Ok h' ->
  In k (dkeys (observation_keywords x)) -> dget k h' = dget k h.
Proof.
  intros c h data s cls h' k x H I. apply complete_spec in H. destruct H as (_ & (e & EX) & x' & d & t & EXP & _ & _ & _ & _ & _ & ALL).
  cbn in I. rewrite ALL by (cbn; intuition (subst; discriminate)). unfold completed. rewrite EX, EXP. destruct (dget k h); [reflexivity|].
  rewrite cc_none by (cbn; intuition (subst; discriminate)).
  repeat (destruct I as [<-|I]; [reflexivity|]). destruct I.
Qed.
Print Assumptions C127_observation_refuted.

Definition clock0 : clock := Clock "2014-03-12T12:34:56.000" (fun _ => "2014-03-12T12:34:57.000") (fun d => if String.eqb d "2014-03-12T12:34:56.000" then Some 100%Q else None) (fun _ => 56728%Q).
Definition header0 : header := [("EXTNAME", HStr "ASPSOL"); ("EXPOSURE", HTup (HNum 1000) "total exposure time [s]"); ("TSTART", HStr "?"); ("ORIGIN", HStr "here")].
(** an aspect solution: TSTART is overwritten, ORIGIN is not *)
Example C127_case : exists h', complete_header clock0 header0 [] (CStr "ASPSOL") ["OGIP"; "TEMPORALDATA"] = Ok h' /\
  dget "TSTART" h' = Some (HTup (HNum 100) "") /\ dget "TSTOP" h' = Some (HTup (HNum (100 + 1000)) "") /\ dget "ORIGIN" h' = Some (HStr "here") /\
  dget "HDUNAME" h' = Some (HStr "ASPSOL") /\ dget "HDUCLAS1" h' = Some (HStr "TEMPORALDATA") /\ dget "HDUCLAS2" h' = None /\ dget "TELESCOP" h' = None.
Proof. eexists. split; [vm_compute; reflexivity|]. repeat split. Qed.
Example C127_events : complete_header clock0 header0 ["x"; "y"] (CStr "evt1") ["OGIP"] = Err AttributeError.
Proof. reflexivity. Qed.

(** ** C128 *)
(** Lower and upper case: the 26 letters are changed, all other characters are kept. *)
Theorem C128_letters : lower "ABCDEFGHIJKLMNOPQRSTUVWXYZ" = "abcdefghijklmnopqrstuvwxyz" /\ upper "abcdefghijklmnopqrstuvwxyz" = "ABCDEFGHIJKLMNOPQRSTUVWXYZ" /\
  (forall c, lower_ascii c <> c -> exists i, String.get i "ABCDEFGHIJKLMNOPQRSTUVWXYZ" = Some c) /\ (forall c, upper_ascii c <> c -> exists i, String.get i "abcdefghijklmnopqrstuvwxyz" = Some c).
Proof.
  split; [reflexivity|]. split; [reflexivity|]. split; intros c H.
  - assert (N : (65 <= nat_of_ascii c <= 90)%nat). { unfold lower_ascii in H. cbv zeta in H. destruct ((65 <=? nat_of_ascii c)%nat && (nat_of_ascii c <=? 90)%nat)%bool eqn:E; [|congruence]. apply andb_true_iff in E. destruct E as [E1 E2]. apply Nat.leb_le in E1, E2. lia. }
    exists (nat_of_ascii c - 65)%nat. rewrite <- (ascii_nat_embedding c) at 2. revert N. generalize (nat_of_ascii c). intros n N. do 65 (destruct n as [|n]; [lia|]). do 26 (destruct n as [|n]; [reflexivity|]). lia.
  - assert (N : (97 <= nat_of_ascii c <= 122)%nat). { unfold upper_ascii in H. cbv zeta in H. destruct ((97 <=? nat_of_ascii c)%nat && (nat_of_ascii c <=? 122)%nat)%bool eqn:E; [|congruence]. apply andb_true_iff in E. destruct E as [E1 E2]. apply Nat.leb_le in E1, E2. lia. }
    exists (nat_of_ascii c - 97)%nat. rewrite <- (ascii_nat_embedding c) at 2. revert N. generalize (nat_of_ascii c). intros n N. do 97 (destruct n as [|n]; [lia|]). do 26 (destruct n as [|n]; [reflexivity|]). lia.
Qed.
Print Assumptions C128_letters.
(** The calculated order has every column once, whatever the order of the elements of a set, *)
Theorem C128_permutation : forall enum cols ord, NoDup cols -> (forall l, Permutation (enum l) l) -> ordered_cols enum cols = Ok ord -> Permutation ord cols.
Proof. exact ordered_perm. Qed.
Print Assumptions C128_permutation.

(** columns that differ only in a final x and y are next to each other, *)
Theorem C128_pairs : forall enum cols ord s, NoDup cols -> (forall l, Permutation (enum l) l) -> ordered_cols enum cols = Ok ord ->
  In (s ++ "x")%string cols -> In (s ++ "y")%string cols -> exists a b, ord = a ++ (s ++ "x")%string :: (s ++ "y")%string :: b.
Proof.
  intros enum cols ord s D P H X Y. destruct (ordered_spec _ _ _ D P H) as (st & o & r & -> & _ & PS & _).
  destruct (xy_adjacent st s) as (a & b & ->).
  - eapply Permutation_in; [symmetry; exact PS|]. apply stems_In. split; assumption.
  - exists a, (b ++ o ++ sort_str r). rewrite <- app_assoc. reflexivity.
Qed.
Print Assumptions C128_pairs.

(** so are coordinates on the sky, *)
Theorem C128_radec : forall enum cols ord, NoDup cols -> (forall l, Permutation (enum l) l) -> ordered_cols enum cols = Ok ord ->
  (In "ra" cols -> In "dec" cols -> exists a b, ord = a ++ "ra" :: "dec" :: b) /\
  (In "RA" cols -> In "DEC" cols -> exists a b, ord = a ++ "RA" :: "DEC" :: b) /\
  (In "ra" cols -> ~ In "dec" cols -> In "de" cols -> exists a b, ord = a ++ "ra" :: "de" :: b) /\
  (In "RA" cols -> ~ In "DEC" cols -> In "DE" cols -> exists a b, ord = a ++ "RA" :: "DE" :: b).
Proof.
  intros enum cols ord D P H. split; [|split; [|split]]; intros.
  - apply (radec_adjacent [] [("RA", "DEC"); ("ra", "de"); ("RA", "DE")] enum cols ord _ _ "r" "a" "de" "c"); try discriminate; try assumption; try reflexivity.
    intros ? ? [].
  - apply (radec_adjacent [("ra", "dec")] [("ra", "de"); ("RA", "DE")] enum cols ord _ _ "R" "A" "DE" "C"); try discriminate; try assumption; try reflexivity.
    intros p q [E|[]]. injection E as <- <-. intros. repeat split; discriminate.
  - apply (radec_adjacent [("ra", "dec"); ("RA", "DEC")] [("RA", "DE")] enum cols ord _ _ "r" "a" "d" "e"); try discriminate; try assumption; try reflexivity.
    intros p q [E|[E|[]]]; injection E as <- <-; intros; [contradiction|]. repeat split; discriminate.
  - apply (radec_adjacent [("ra", "dec"); ("RA", "DEC"); ("ra", "de")] [] enum cols ord _ _ "R" "A" "D" "E"); try discriminate; try assumption; try reflexivity.
    intros p q [E|[E|[E|[]]]]; injection E as <- <-; intros; [|contradiction|]; repeat split; discriminate.
Qed.
Print Assumptions C128_radec.

(** CIAO coordinates come first, in the order chip, tdet, det, sky, *)
Theorem C128_expected : forall enum cols ord, NoDup cols -> (forall l, Permutation (enum l) l) -> ordered_cols enum cols = Ok ord ->
  (forall s, In (s ++ "x")%string cols -> In (s ++ "y")%string cols -> In (lower s) ["chip"; "tdet"; "det"; ""] -> lower s = s) ->
  exists r, ord = flat_map (fun s => if inb (s ++ "x")%string cols && inb (s ++ "y")%string cols then [(s ++ "x")%string; (s ++ "y")%string] else []) ["chip"; "tdet"; "det"; ""] ++ r.
Proof.
  intros enum cols ord D P H L. destruct (ordered_spec _ _ _ D P H) as (st & o & r & -> & ES & PS & _).
  destruct (take_expected_start ["chip"; "tdet"; "det"; ""] (enum (stems cols))) as [r' E].
  - repeat constructor; cbn; intuition discriminate.
  - eapply Permutation_NoDup; [symmetry; apply P|]. apply stems_NoDup, D.
  - intros c I. cbn in I. destruct I as [<-|[<-|[<-|[<-|[]]]]]; reflexivity.
  - intros s I. assert (J : In s (stems cols)) by (eapply Permutation_in; [apply P|exact I]). apply stems_In in J. destruct J. apply L; assumption.
  - rewrite ES, E. exists (xy r' ++ o ++ sort_str r). unfold xy at 1. rewrite flat_map_app, <- app_assoc. f_equal.
    assert (B : forall s, inb s (enum (stems cols)) = inb (s ++ "x")%string cols && inb (s ++ "y")%string cols).
    { intros s. apply eq_true_iff_eq. rewrite andb_true_iff, !inb_In, <- (stems_In cols s : In s (stems cols) <-> In (s ++ "x")%string cols /\ In (s ++ "y")%string cols).
      split; apply Permutation_in; [|symmetry]; apply P. }
    cbn [filter flat_map]. rewrite <- !B.
    destruct (inb "chip" _), (inb "tdet" _), (inb "det" _), (inb "" _); reflexivity.
Qed.
Print Assumptions C128_expected.

(** and what is not in any pair is sorted at the end. *)
Theorem C128_sorted : forall enum cols ord, NoDup cols -> (forall l, Permutation (enum l) l) -> ordered_cols enum cols = Ok ord ->
  exists a b, ord = a ++ b /\ Sorted (fun s t => String.leb s t = true) b /\
  forall c, In c a -> In c ["ra"; "dec"; "RA"; "DEC"; "de"; "DE"] \/
    exists s, In (s ++ "x")%string cols /\ In (s ++ "y")%string cols /\ (c = (s ++ "x")%string \/ c = (s ++ "y")%string).
Proof.
  intros enum cols ord D P H. destruct (ordered_spec _ _ _ D P H) as (st & o & r & -> & _ & PS & other & DO & IO & T).
  exists (xy st ++ o), (sort_str r). split; [apply app_assoc|]. split; [apply sort_str_sorted|].
  intros c I. apply in_app_iff in I. destruct I as [I|I].
  - right. apply xy_In in I. destruct I as (s & I & J). exists s. assert (K : In s (stems cols)) by (eapply Permutation_in; eassumption).
    apply stems_In in K. destruct K. split; [assumption|]. split; [assumption|exact J].
  - left. destruct (take_pairs_ordered _ _ _ _ T) as (ps & S & ->). apply in_flat_map in I. destruct I as ([p q] & I & J). apply S in I.
    cbn in I, J |- *. intuition (subst; try congruence); injection H1 || idtac; intuition congruence.
Qed.
Print Assumptions C128_sorted.

(** The order exists for all tables without empty column names ... *)
Theorem C128_defined_partial : forall enum cols, (exists ord, ordered_cols enum cols = Ok ord) <-> ~ In "" cols.
Proof.
  intros enum cols. split; [|apply sort_ok]. intros [ord H] I. unfold ordered_cols in H. rewrite (proj2 (inb_In _ _) I) in H. discriminate.
Qed.
Print Assumptions C128_defined_partial.
(** ... but no sorted table is ever returned. *)
Theorem C128_return_refuted : forall enum cols ord, sort_columns enum cols <> Ok ord.
Proof. intros enum cols ord. unfold sort_columns. destruct (ordered_cols enum cols); discriminate. Qed.
Print Assumptions C128_return_refuted.

Example C128_case : ordered_cols (fun l => l) ["time"; "energy"; "y"; "detx"; "dec"; "dety"; "x"; "chipx"; "ra"; "aspx"; "aspy"; "chipy"] =
  Ok ["chipx"; "chipy"; "detx"; "dety"; "x"; "y"; "aspx"; "aspy"; "ra"; "dec"; "energy"; "time"].
Proof. reflexivity. Qed.
Example C128_distinct : NoDup ["time"; "energy"; "y"; "detx"; "dec"; "dety"; "x"; "chipx"; "ra"; "aspx"; "aspy"; "chipy"].
Proof. repeat constructor; cbn; intuition discriminate. Qed.

(** C127: the end of the observation is the start of the simulation plus the exposure time *)
Theorem C127_end : forall c h data s cls h', complete_header c h data (CStr s) cls = Ok h' -> dget "DATE-END" h = None -> exists x cx,
  dget "EXPOSURE" h = Some (HTup (HNum x) cx) /\ dget "DATE-END" h' = Some (HTup (HStr (later c x)) "").
Proof.
  intros c h data s cls h' H N. apply complete_spec in H. destruct H as (_ & (e & EX) & x & d & t & EXP & _ & _ & _ & _ & _ & ALL). destruct (exposure_tup _ _ EXP) as [cx EXT]. exists x, cx. split; [exact EXT|].
  rewrite ALL by (cbn; intuition discriminate). unfold completed. rewrite EX, EXP, N. rewrite cc_none by (cbn; intuition discriminate). reflexivity.
Qed.
Print Assumptions C127_end.
(** renaming a column: the names stay different from each other, and the renamed column keeps its place *)
Theorem C127_rename : forall old new cols cols', rename_column old new cols = Ok cols' -> NoDup cols -> NoDup cols' /\ length cols' = length cols /\ In new cols' /\
  forall i c, nth_error cols i = Some c -> nth_error cols' i = Some (if String.eqb c old then new else c).
Proof.
  intros old new cols cols' H N. unfold rename_column in H. destruct (inb old cols) eqn:O; [|discriminate]. destruct (inb new cols) eqn:W; [discriminate|]. injection H as <-. apply Base_Proofs.inb_In in O. apply Base_Proofs.inb_false in W.
  split; [|split; [apply map_length|split]].
  - clear O. induction N as [|c l NI ND IH]; [constructor|]. cbn [map]. assert (W' : ~ In new l) by (intros I; apply W; now right). constructor; [|now apply IH]. intros I. apply in_map_iff in I. destruct I as (c' & E & I).
    destruct (String.eqb_spec c' old), (String.eqb_spec c old); subst; try (now apply NI); try (now apply W'). apply W. now left.
  - apply in_map_iff. exists old. split; [now rewrite String.eqb_refl|exact O].
  - intros i c E. rewrite nth_error_map, E. reflexivity.
Qed.
Print Assumptions C127_rename.
Example C127_rename_ex : rename_column "ra" "marxs_ra" ["x"; "ra"] = Ok ["x"; "marxs_ra"] /\ NoDup ["x"; "ra"].
Proof. split; [reflexivity|]. repeat constructor; cbn; intuition discriminate. Qed.
