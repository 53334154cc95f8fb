(** Properties C09, C42, C74: state shared between objects. *)
From Verif Require Import Photons_Model Shared_Model Shared_Proofs.

(** C09 holds for columns given by name: any history of photon lists leaves the same default (nan), and existing columns
    are kept. *)
Theorem C09_named_columns_partial : forall sps hist objs t, names_only sps ->
  exists t', add_specs sps (objs_after sps objs hist, t) = ((objs, t'), None) /\
    (forall c, In c (colnames t) -> getcol t' c = getcol t c) /\
    (forall c, In c (colnames t') <-> In c (colnames t) \/ In (SName c) sps) /\
    (forall c, In (SName c) sps -> ~ In c (colnames t) -> getcol t' c = Some (repeat nan (nrows t))).
Proof.
  intros sps hist objs t H. rewrite history_names by exact H.
  destruct (add_specs_names sps objs t H) as (t' & E & _ & X). exists t'. now split.
Qed.
Print Assumptions C09_named_columns_partial.
Definition tab (n : nat) : table := mkT n [("energy", repeat zero n)].
Example C09_example : names_only [SName "order"; SName "energy"] /\
  snd (fst (add_specs [SName "order"; SName "energy"] ([], tab 2))) = mkT 2 [("energy", [zero; zero]); ("order", [nan; nan])].
Proof. split; [repeat constructor; eexists; reflexivity|reflexivity]. Qed.

(** C09 is false for columns described by a dictionary with a default value: the default is used for the first photon
    list only. *)
Theorem C09_default_value_refuted : exists sps objs hist t t1 t2,
  snd (add_specs sps (objs, t)) = None /\ snd (fst (add_specs sps (objs, t))) = t1 /\
  snd (add_specs sps (objs_after sps objs hist, t)) = None /\ snd (fst (add_specs sps (objs_after sps objs hist, t))) = t2 /\
  getcol t1 "chip" = Some [CInt (-1); CInt (-1)] /\ getcol t2 "chip" = Some [zero; zero].
Proof.
  exists [SDict 0], [mkCD "chip" (Some (CInt (-1)))], [tab 5], (tab 2). eexists. eexists. repeat split.
Qed.
Print Assumptions C09_default_value_refuted.
(** More generally any dictionary has lost its default after it was used once. *)
Theorem C09_default_value_lost : forall a objs t o, nth_error objs a = Some o ->
  nth_error (fst (fst (add_spec (SDict a) (objs, t)))) a = Some (mkCD (cd_name o) None).
Proof. exact add_spec_forgets. Qed.
Print Assumptions C09_default_value_lost.
(** And using the same photon list twice raises. *)
Theorem C09_second_call_refuted : exists sps objs t st,
  add_specs sps (objs, t) = (st, None) /\ snd (add_specs sps st) = Some ValueError.
Proof. exists [SDict 0], [mkCD "chip" (Some (CInt (-1)))], (tab 2). eexists. split; reflexivity. Qed.
Print Assumptions C09_second_call_refuted.

(** C42. Creating geometries never changes a parameter of a geometry that exists already, with one exception: creating
    a grating on it. *)
Theorem C42_existing_geometries_partial : forall l s g k,
  g < length (geos s) -> forallb (fun o => negb (touches g o)) l = true -> param (gruns s l) g k = param s g k.
Proof. intros l s g k L H. now apply gruns_old. Qed.
Print Assumptions C42_existing_geometries_partial.
Theorem C42_only_groove_angle_partial : forall l s g k,
  g < length (geos s) -> k <> "groove_angle" -> param (gruns s l) g k = param s g k.
Proof. intros l s g k L H. now apply gruns_other. Qed.
Print Assumptions C42_only_groove_angle_partial.
(** A plane with a hole keeps its own inner radius through any later history. *)
Theorem C42_hole_radius : forall s r l,
  param (gruns (gstep s (NewHole (Some r) true)) l) (length (geos s)) "r_inner" = Some r.
Proof.
  intros s r l. rewrite gruns_other; [apply new_hole| |discriminate]. cbn [gstep geos]. rewrite app_length. cbn. lia.
Qed.
Print Assumptions C42_hole_radius.
Example C42_example : let s := gruns (mkG [] []) [NewHole (Some 5%Q) true; NewPlane; NewGrating None 1%Q] in
  forallb (fun o => negb (touches 2 o)) [NewHole (Some 7%Q) true; NewGrating None 2%Q; NewGrating (Some 1) 3%Q] = true /\
  2 < length (geos s) /\ param s 2 "groove_angle" = Some 1%Q.
Proof. repeat split; cbn; lia. Qed.

(** C42 is false: a geometry created later inherits the inner radius of an unrelated plane with hole (even one whose
    construction failed), *)
Theorem C42_leaks_to_new_geometry_refuted : exists hist,
  param (gruns (mkG [] []) [NewPlane]) 0 "r_inner" = None /\
  geos (gruns (mkG [] []) hist) = [] /\ param (gruns (gruns (mkG [] []) hist) [NewPlane]) 0 "r_inner" = Some 5%Q.
Proof. exists [NewHole (Some 5%Q) false]. repeat split. Qed.
Print Assumptions C42_leaks_to_new_geometry_refuted.
(** and two gratings that are given the same geometry object end up with the groove angle of the second one. *)
Theorem C42_shared_groove_angle_refuted : exists s g,
  param s g "groove_angle" = Some 1%Q /\ param (gruns s [NewGrating (Some g) 2%Q]) g "groove_angle" = Some 2%Q.
Proof. exists (gruns (mkG [] []) [NewGrating None 1%Q]), 0. split; reflexivity. Qed.
Print Assumptions C42_shared_groove_angle_refuted.

(** C74. A FlatStack has one layer for each class exactly if as many keyword dictionaries are given. *)
Theorem C74_layers : forall (A B : Type) (els : list A) (kws : list B),
  length els = length kws -> map fst (flatstack_layers els kws) = els /\ map snd (flatstack_layers els kws) = kws.
Proof.
  intros A B els. unfold flatstack_layers. induction els as [|e els IH]; intros [|k kws] H; try discriminate; [now split|].
  cbn [combine map fst snd]. destruct (IH kws) as [E1 E2]; [now injection H|]. now rewrite E1, E2.
Qed.
Print Assumptions C74_layers.
(** C74: and only then: otherwise the layers lack a class or a keyword dictionary. *)
Theorem C74_exactly : forall (A B : Type) (els : list A) (kws : list B),
  (map fst (flatstack_layers els kws) = els /\ map snd (flatstack_layers els kws) = kws) <-> length els = length kws.
Proof.
  intros A B els kws. split; [|apply C74_layers]. intros [E1 E2]. rewrite <- E1 at 1. rewrite <- E2 at 2. now rewrite !map_length.
Qed.
Print Assumptions C74_exactly.
Example C74_example : flatstack_layers ["filter"; "ccd"] [1; 2] = [("filter", 1); ("ccd", 2)].
Proof. reflexivity. Qed.
(** Otherwise layers are dropped silently. *)
Theorem C74_missing_keywords_refuted : exists (els : list string) (kws : list nat),
  map fst (flatstack_layers els kws) <> els.
Proof. exists ["filter"; "ccd"], [1]. discriminate. Qed.
Print Assumptions C74_missing_keywords_refuted.
