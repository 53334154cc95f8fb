(** Properties C67, C68, C75: headers of photon lists. *)
From Coq Require Import Qabs.
From Verif Require Import Base_Proofs Meta_Model Meta_Proofs.
Open Scope nat_scope.

(** C67. After tagging: keywords of the call win, then those given at construction, everything else is unchanged.
    ([automatic] keywords are MARXSVER, MARXSGIT, MARXSTIM, DATE; [name] is the name of the element.) *)
Theorem C67_tags : forall v o c kw date ckw meta k, NoDup (dkeys kw) -> NoDup (dkeys ckw) ->
  k <> "name" -> automatic k = false ->
  dget k (tag_call date (tag_init v o c kw) ckw meta) =
    match dget k ckw with Some x => Some x | None =>
    match dget k kw with Some x => Some x | None => dget k meta end end.
Proof.
  intros v o c kw date ckw meta k H1 H2 N A. rewrite tag_call_get by (auto using tag_init_NoDup).
  rewrite tag_init_get by assumption. destruct (String.eqb k "DATE") eqn:E; [|reflexivity].
  apply String.eqb_eq in E. subst k. discriminate.
Qed.
Print Assumptions C67_tags.
(** The version of marxs is always in the header unless the call overrides it. *)
Theorem C67_version : forall v o c kw date ckw meta, NoDup (dkeys kw) -> NoDup (dkeys ckw) -> dget "MARXSVER" ckw = None ->
  dget "MARXSVER" (tag_call date (tag_init v o c kw) ckw meta) = Some (ver_version v, "MARXS code version").
Proof.
  intros v o c kw date ckw meta H1 H2 N. rewrite tag_call_get by (auto using tag_init_NoDup).
  now rewrite N, tag_version.
Qed.
Print Assumptions C67_version.
Definition v0 := mkVer "2.0" None (Some "20240101").
Example C67_example :
  let t := tag_init v0 None None [("OBSID", ("1", "")); ("name", ("tagger", ""))] in
  tag_call "2026-01-01" t [("SEED", ("5", ""))] [("OBSID", ("0", "old")); ("X", ("y", ""))] =
  [("OBSID", ("1", "")); ("X", ("y", "")); ("DATE", ("2026-01-01", "Date/time of computation"));
   ("MARXSVER", ("2.0", "MARXS code version")); ("MARXSTIM", ("20240101", "Date of dirty version ARCUS code")); ("SEED", ("5", ""))].
Proof. reflexivity. Qed.
(** The named parameters ORIGIN and CREATOR never reach the header, whatever value they are given (python binds these
    keywords to the named parameters, so they are not in [kw]). *)
Theorem C67_origin_refuted : forall v o c kw date meta k, NoDup (dkeys kw) -> In k ["ORIGIN"; "CREATOR"] ->
  dget k kw = None -> dget k (tag_call date (tag_init v o c kw) [] meta) = dget k meta.
Proof.
  intros v o c kw date meta k H K N. rewrite C67_tags; [|exact H|constructor| |].
  - cbn [dget]. now rewrite N.
  - intros ->. cbn in K. intuition discriminate.
  - cbn in K. destruct K as [<-|[<-|[]]]; reflexivity.
Qed.
Print Assumptions C67_origin_refuted.

(** C68. The check passes exactly if the two headers agree on every checked keyword. *)
Theorem C68_check : forall m1 m2 ks am, check_meta m1 m2 ks am = Ok tt <->
  forall k, In k ks -> dget k m1 = dget k m2 /\ (am = false -> dget k m1 <> None).
Proof. intros. rewrite check_meta_iff. apply Forall_forall. Qed.
Print Assumptions C68_check.
(** The exception names the first keyword that disagrees: AssertionError for different values, KeyError for a missing one. *)
Theorem C68_errors : forall m1 m2 ks am e, check_meta m1 m2 ks am = Err e ->
  exists ks1 k ks2, ks = ks1 ++ k :: ks2 /\ Forall (agree m1 m2 am) ks1 /\
    ((e = AssertionError /\ exists a b, dget k m1 = Some a /\ dget k m2 = Some b /\ a <> b) \/
     (e = KeyError /\ (dget k m1 = None \/ dget k m2 = None) /\ ~ agree m1 m2 am k)).
Proof. exact check_meta_errors. Qed.
Print Assumptions C68_errors.
(** Comparing every list with the first one is enough for all lists to be consistent with each other. *)
Theorem C68_pairwise : forall m0 ms ks am, Forall (fun m => check_meta m0 m ks am = Ok tt) ms ->
  forall m m', In m ms -> In m' ms -> check_meta m m' ks am = Ok tt.
Proof.
  intros m0 ms ks am H m m' I I'. rewrite Forall_forall in H. pose proof (H m I) as A. pose proof (H m' I') as B.
  apply check_meta_iff in A. apply check_meta_iff in B. apply check_meta_iff. rewrite Forall_forall in *.
  intros k K. eapply agree_trans; eauto.
Qed.
Print Assumptions C68_pairwise.
Example C68_example :
  let m1 := [("ORIGIN", ("a", "")); ("X", ("1", ""))] in let m2 := [("X", ("2", "")); ("ORIGIN", ("a", ""))] in
  check_meta m1 m2 ["ORIGIN"; "MARXSGIT"] true = Ok tt /\ check_meta m1 m2 ["ORIGIN"; "MARXSGIT"] false = Err KeyError /\
  check_meta m1 m2 ["ORIGIN"; "X"] true = Err AssertionError.
Proof. repeat split. Qed.

(** C75. If the energy check passes, any two photons have (nearly) the same energy; no energy is nan. *)
Theorem C75_energy : forall es i j x y, check_energy (Some es) = Ok tt ->
  nth_error es i = Some x -> nth_error es j = Some y ->
  exists e0 a b, nth_error es 0 = Some (Some e0) /\ x = Some a /\ y = Some b /\
    (Qabs (a - b) <= 2 * ((1 # 100000000) + (1 # 100000) * Qabs e0))%Q.
Proof. exact check_energy_pairs. Qed.
Print Assumptions C75_energy.
(** C75: it passes exactly if there is no column with energies or all energies are close to the first one. *)
Theorem C75_exactly : check_energy None = Ok tt /\ forall es, check_energy (Some es) = Ok tt <->
  exists q, nth_error es 0 = Some (Some q) /\ forall x, In x es -> exists y, x = Some y /\ (Qabs (y - q) <= (1 # 100000000) + (1 # 100000) * Qabs q)%Q.
Proof. split; [reflexivity|]. exact check_energy_iff. Qed.
Print Assumptions C75_exactly.
Example C75_example : check_energy (Some [Some (3 # 2); Some (1500001 # 1000000); Some (3 # 2)]%Q) = Ok tt /\
  check_energy (Some [Some (3 # 2); Some (7 # 5)]%Q) = Err AssertionError.
Proof. split; reflexivity. Qed.
(** The check raises on an empty photon list, which is trivially consistent. *)
Theorem C75_empty_refuted : check_energy (Some []) = Err IndexError.
Proof. reflexivity. Qed.
Print Assumptions C75_empty_refuted.
