(** Properties C228, C229: the version of marxs in the header of photon lists. *)
From Verif Require Import Version_Model Version_Proofs.
Open Scope string_scope.

(** C228: the texts setuptools_scm writes: the version, with or without a hash and with or without a date, are taken apart. *)
Theorem C228_parts_partial : forall v, well_formed v -> parse_version (version_text v) = Some v.
Proof. exact parse_text. Qed.
Print Assumptions C228_parts_partial.
Definition dirty_version : version := mkVer "2.1.dev45" (Some "1a2b3c4") (Some "20240131").
Lemma dirty_version_ok : well_formed dirty_version.
Proof.
  split; [|split].
  - exists "2.1.dev4", "5"%char. repeat split; discriminate.
  - split; [discriminate|]. cbn. tauto.
  - split; [discriminate|]. cbn. tauto.
Qed.
Example C228_ex : parse_version "2.1.dev45+g1a2b3c4.d20240131" = Some dirty_version.
Proof. exact (C228_parts_partial dirty_version dirty_version_ok). Qed.
Example C228_ex_release : parse_version "2.0" = Some (mkVer "2.0" None None).
Proof. reflexivity. Qed.

(** C228: any text: the version is the longest start of the text that looks like a version. *)
Theorem C228_longest : forall s v, parse_version s = Some v ->
  exists r, s = ver_version v ++ r /\ plain_version (ver_version v) /\
    (forall w r', s = w ++ r' -> plain_version w -> String.length w <= String.length (ver_version v))%nat.
Proof. exact parse_inv. Qed.
Print Assumptions C228_longest.
Example C228_ex_longest : parse_version "2.0rc1" = Some (mkVer "2.0" None None).
Proof. reflexivity. Qed.
(** C228: there is none exactly if no start of the text looks like a version. *)
Theorem C228_no_version : forall s, parse_version s = None <-> forall w r, s = w ++ r -> ~ plain_version w.
Proof. exact parse_none. Qed.
Print Assumptions C228_no_version.
Example C228_ex_none : parse_version "3" = None /\ parse_version "v2.0" <> None /\ parse_version "unknown" = None.
Proof. repeat split; discriminate. Qed.
(** C228, false: the hash after the version of a release candidate or of a post release is lost. *)
Theorem C228_candidate_refuted : forall g, hash g ->
  parse_version ("2.0rc2.dev3+g" ++ g) = Some (mkVer "2.0" None None) /\ parse_version ("2.0.post1+g" ++ g) = Some (mkVer "2.0" None None).
Proof. intros g _. split; reflexivity. Qed.
Print Assumptions C228_candidate_refuted.
Example C228_ex_candidate : hash "1a2b3c4".
Proof. split; [discriminate|]. cbn. tauto. Qed.
(** C228, false: without a file with the version, no element that tags photon lists can be made (those of AXIS, Lynx, Athena and Arcus are made when the module is loaded). *)
Theorem C228_no_file_refuted : forall o c kw, new_tags (package_version None) o c kw = Err AttributeError.
Proof. reflexivity. Qed.
Print Assumptions C228_no_file_refuted.

(** C229: for versions as in C228 the check of headers passes exactly if the programs had the same version, whatever else is in the headers. *)
Theorem C229_same_partial : forall v w date date' kw kw' tags tags', well_formed v -> well_formed w -> NoDup (dkeys kw) -> NoDup (dkeys kw') ->
  (forall k, In k version_keywords -> dget k kw = None) -> (forall k, In k version_keywords -> dget k kw' = None) ->
  new_tags (version_text v) None None kw = Ok tags -> new_tags (version_text w) None None kw' = Ok tags' ->
  (check_meta (tag_call date tags [] []) (tag_call date' tags' [] []) version_keywords true = Ok tt <-> version_text v = version_text w).
Proof.
  intros v w date date' kw kw' tags tags' V W N N' H H' T T'.
  rewrite (tagged_by v _ date kw tags T (parse_text v V)), (tagged_by w _ date' kw' tags' T' (parse_text w W)), same_version by assumption.
  split; [now intros ->|]. now apply text_injective.
Qed.
Print Assumptions C229_same_partial.
Example C229_ex : exists tags, new_tags "2.1.dev45+g1a2b3c4.d20240131" None None [("SATELLIT", ("LYNX", ""))] = Ok tags /\
  check_meta (tag_call "2024-01-31" tags [] []) (tag_call "2024-02-01" tags [] []) version_keywords true = Ok tt.
Proof. eexists. split; reflexivity. Qed.
(** C229, false: photons from two programs with different hashes and dates pass the check. *)
Theorem C229_same_refuted : exists s s' tags tags', s <> s' /\ new_tags s None None [] = Ok tags /\ new_tags s' None None [] = Ok tags' /\
  forall date date', check_meta (tag_call date tags [] []) (tag_call date' tags' [] []) version_keywords true = Ok tt.
Proof.
  exists "2.0rc2.dev3+g1a2b3c4", "2.0rc2.dev9+g5d6e7f8". do 2 eexists. split; [discriminate|]. split; [reflexivity|]. split; [reflexivity|]. reflexivity.
Qed.
Print Assumptions C229_same_refuted.
(** C228: the letters that a hash and a version are made of *)
Theorem C228_letters : forall c,
  (word_char c = true <-> In c (list_ascii_of_string "0123456789ABCDEFGHIJKLMNOPQRSTUVWXYZ_abcdefghijklmnopqrstuvwxyz")) /\
  (version_char c = true <-> In c (list_ascii_of_string ".0123456789dev")).
Proof.
  assert (X : forall c l, existsb (Ascii.eqb c) l = true <-> In c l).
  { intros c l. rewrite existsb_exists. split; [intros (x & I & E); apply Ascii.eqb_eq in E; now subst|]. intros I. exists c. split; [exact I|apply Ascii.eqb_refl]. }
  intros c. rewrite <- !X. split.
  - assert (E : word_char c = existsb (Ascii.eqb c) (list_ascii_of_string "0123456789ABCDEFGHIJKLMNOPQRSTUVWXYZ_abcdefghijklmnopqrstuvwxyz")) by (destruct c as [[] [] [] [] [] [] [] []]; reflexivity). now rewrite E.
  - assert (E : version_char c = existsb (Ascii.eqb c) (list_ascii_of_string ".0123456789dev")) by (destruct c as [[] [] [] [] [] [] [] []]; reflexivity). now rewrite E.
Qed.
Print Assumptions C228_letters.
