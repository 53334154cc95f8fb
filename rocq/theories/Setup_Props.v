(** C216: dimensions of the boom.  C217: keywords of scatterers and filters.  C218: inherited docstrings.  C219: names and properties in plots. *)
From Verif Require Import Setup_Model Base_Proofs Setup_Proofs.
From Coq Require Import Reals Lra.
Open Scope R_scope.
Open Scope string_scope.
Open Scope list_scope.

(** ** C216 *)
(** Every dimension that is given is used, all others are those of the class. *)
Theorem C216_dimensions : forall V (cls : dict V) dims, NoDup (dkeys dims) -> (forall k, In k (dkeys dims) -> In k (dkeys cls)) ->
  exists own, set_dims cls [] dims = Ok own /\ forall j, attribute cls own j = match dget j dims with Some v => Some v | None => dget j cls end.
Proof.
  intros V cls dims ND K. destruct (set_dims_total cls dims []) as [own H].
  - intros k I. unfold attribute. cbn [dget]. intros N. exact (proj1 (dget_none_notin k cls) N (K k I)).
  - exists own. split; [exact H|]. intros j. rewrite (set_dims_ok cls dims [] own ND H j). reflexivity.
Qed.
Print Assumptions C216_dimensions.
(** Unknown dimensions are refused, but not with the ValueError that the code wants to raise: the message needs a name that is not set yet. *)
Theorem C216_unknown : forall V (cls : dict V) dims k, NoDup (dkeys dims) -> In k (dkeys dims) -> ~ In k (dkeys cls) -> ~ In "name" (dkeys cls) ->
  set_dims cls [] dims = Err AttributeError.
Proof. intros V cls dims k ND I N NN. apply (set_dims_unknown cls k); [now apply dget_none_notin|exact I|exact ND|now apply dget_none_notin]. Qed.
Print Assumptions C216_unknown.
Theorem C216_error_refuted : exists dims, set_dims three_sided [] dims <> Err ValueError /\ boom_init three_sided [] [("boom_dimensions", dims)] = Err AttributeError /\ exists k, In k (dkeys dims) /\ ~ In k (dkeys three_sided).
Proof.
  exists [("length", 1)]. split; [cbn; discriminate|]. split; [reflexivity|]. exists "length". split; [now left|]. cbn. intuition discriminate.
Qed.
Print Assumptions C216_error_refuted.
(** The keyword is boom_dimensions; the one in the docstring is refused. *)
Theorem C216_keyword_refuted : forall V (cls : dict V) known dims, ~ In "boom_dims" known -> boom_init cls known [("boom_dims", dims)] = Err ValueError.
Proof. intros V cls known dims N. unfold boom_init. cbn -[inb]. destruct (inb "boom_dims" known) eqn:E; [|reflexivity]. now apply inb_In in E. Qed.
Print Assumptions C216_keyword_refuted.
(** With the right keyword the boom is made exactly if all other keywords are known. *)
Theorem C216_made : forall V (cls : dict V) known kw dims, NoDup (dkeys dims) -> (forall k, In k (dkeys dims) -> In k (dkeys cls)) ->
  dget "boom_dimensions" kw = Some dims ->
  ((forall k, In k (dkeys kw) -> k = "boom_dimensions" \/ In k known) ->
   exists own, boom_init cls known kw = Ok own /\ forall j, attribute cls own j = match dget j dims with Some v => Some v | None => dget j cls end) /\
  ((exists k, In k (dkeys kw) /\ k <> "boom_dimensions" /\ ~ In k known) -> boom_init cls known kw = Err ValueError).
Proof.
  intros V cls known kw dims ND K G. destruct (C216_dimensions V cls dims ND K) as (own & H & A). unfold boom_init. rewrite G, H. cbn [bind]. split.
  - intros Kn. replace (forallb _ _) with true; [eauto|]. symmetry. apply forallb_forall. intros k I. apply keys_left in I as [I N].
    apply inb_In. destruct (Kn k I) as [E|J]; [now destruct N|exact J].
  - intros (k & I & N & NK). replace (forallb _ _) with false; [reflexivity|]. symmetry. apply Bool.not_true_iff_false. intros F. rewrite forallb_forall in F. apply NK, inb_In, F.
    apply keys_left. now split.
Qed.
Print Assumptions C216_made.
Example ex_C216_made : boom_init three_sided ["position"] [("position", []); ("boom_dimensions", [("n_bays", 8)])] = Ok [("n_bays", 8)] /\
  boom_init three_sided ["position"] [("position", []); ("colour", []); ("boom_dimensions", [("n_bays", 8)])] = Err ValueError.
Proof. split; reflexivity. Qed.
(** The default dimensions: three sides, ten bays, rods of 10.2, 8 and 2 mm. *)
Theorem C216_defaults : map (attribute three_sided []) ["n_sides"; "start_bay"; "n_bays"; "d_longeron"; "d_batten"; "d_diag"] = [Some 3; Some 0; Some 10; Some (102 / 10); Some 8; Some 2] /\
  length three_sided = 9%nat.
Proof. split; reflexivity. Qed.
Print Assumptions C216_defaults.
(** The length of the diagonals fits the frame for the default dimensions. *)
Theorem C216_diagonal : attribute three_sided [] "l_diag" = Some (sqrt (1080 * 1080 + 1600 * 1600)) /\ attribute three_sided [] "l_longeron" = Some 1080 /\ attribute three_sided [] "l_batten" = Some 1600 /\
  forall own, set_dims three_sided [] [] = Ok own -> own = [].
Proof. repeat split; try reflexivity. cbn. congruence. Qed.
Print Assumptions C216_diagonal.
(** Not if one of the two lengths is set. *)
Theorem C216_diagonal_refuted : exists dims own l b d, set_dims three_sided [] dims = Ok own /\ attribute three_sided own "l_longeron" = Some l /\ attribute three_sided own "l_batten" = Some b /\
  attribute three_sided own "l_diag" = Some d /\ d * d <> l * l + b * b.
Proof.
  exists [("l_longeron", 1000)]. do 4 eexists. split; [reflexivity|]. split; [reflexivity|]. split; [reflexivity|]. split; [reflexivity|]. rewrite sqrt_sqrt by lra. lra.
Qed.
Print Assumptions C216_diagonal_refuted.
Example ex_C216 : NoDup (dkeys [("n_bays", 8); ("d_diag", 3)]) /\ (forall k, In k (dkeys [("n_bays", 8); ("d_diag", 3)]) -> In k (dkeys three_sided)) /\
  set_dims three_sided [] [("n_bays", 8); ("d_diag", 3)] = Ok [("n_bays", 8); ("d_diag", 3)].
Proof. split; [repeat constructor; cbn; intuition discriminate|]. split; [|reflexivity]. cbn. intuition subst; auto 20. Qed.

(** ** C217 *)
(** The angle for the scatter is the keyword if there is one, with a warning if the class has a value, too; otherwise that of the class. *)
Theorem C217_random : forall V (cls : option V) kw,
  (forall v, dget "scatter" kw = Some v -> random_init cls kw = Ok (v, match cls with Some _ => true | None => false end, ddel "scatter" kw)) /\
  (forall v, dget "scatter" kw = None -> cls = Some v -> random_init cls kw = Ok (v, false, kw)) /\
  (dget "scatter" kw = None -> cls = None -> random_init cls kw = Err ValueError).
Proof. intros V cls kw. unfold random_init. repeat split; intros *; intros H; rewrite H; [reflexivity|intros ->; reflexivity|intros ->; reflexivity]. Qed.
Print Assumptions C217_random.
(** RadialMirrorScatter: in-plane is required, the other angle is 0 without keyword; no other keyword is taken. *)
Theorem C217_radial : forall V (zero : V) kw a b rest, radial_init zero kw = Ok (a, b, rest) ->
  dget "inplanescatter" kw = Some a /\ (dget "perpplanescatter" kw = Some b \/ dget "perpplanescatter" kw = None /\ b = zero) /\
  dget "inplanescatter" rest = None /\ dget "perpplanescatter" rest = None /\ forall k, k <> "inplanescatter" -> k <> "perpplanescatter" -> dget k rest = dget k kw.
Proof.
  intros V zero kw a b rest H. unfold radial_init in H. destruct (dget "inplanescatter" kw) as [v|] eqn:I; [|discriminate].
  assert (a = v /\ b = match dget "perpplanescatter" kw with Some w => w | None => zero end /\ rest = ddel "perpplanescatter" (ddel "inplanescatter" kw)) as (-> & -> & ->) by (repeat split; congruence).
  split; [reflexivity|]. split; [destruct (dget "perpplanescatter" kw); auto|]. split; [rewrite dget_ddel_neq by discriminate; apply dget_ddel_eq|]. split; [apply dget_ddel_eq|].
  intros k A B. rewrite !dget_ddel_neq by congruence. reflexivity.
Qed.
Print Assumptions C217_radial.
(** A filter takes its function and leaves the rest. *)
Theorem C217_filter : forall V (kw : dict V) f rest, filter_init kw = Ok (f, rest) -> dget "filterfunc" kw = Some f /\ dget "filterfunc" rest = None /\ forall k, k <> "filterfunc" -> dget k rest = dget k kw.
Proof.
  intros V kw f rest H. unfold filter_init in H. destruct (dget "filterfunc" kw) as [v|] eqn:I; [|discriminate]. assert (f = v /\ rest = ddel "filterfunc" kw) as (-> & ->) by (split; congruence).
  split; [reflexivity|]. split; [apply dget_ddel_eq|]. intros k A. now rewrite dget_ddel_neq by congruence.
Qed.
Print Assumptions C217_filter.
(** Other missing keywords are not reported with a ValueError. *)
Theorem C217_missing_refuted : forall V (zero : V) kw, (dget "inplanescatter" kw = None -> radial_init zero kw = Err KeyError) /\ (dget "filterfunc" kw = None -> filter_init kw = Err KeyError).
Proof. intros V zero kw. unfold radial_init, filter_init. split; intros ->; reflexivity. Qed.
Print Assumptions C217_missing_refuted.
Example ex_C217 : random_init (Some 1) [("scatter", 2); ("zoom", 3)] = Ok (2, true, [("zoom", 3)]) /\ radial_init 0 [("inplanescatter", 2); ("zoom", 3)] = Ok (2, 0, [("zoom", 3)]) /\ filter_init [("filterfunc", 1); ("zoom", 3)] = Ok (1, [("zoom", 3)]).
Proof. repeat split. Qed.

(** ** C218 *)
(** Only docstrings that are missing change, and nothing else. *)
Theorem C218_own : forall mros own k a, dget k own = Some a ->
  (forall d, a_doc a = Some d -> dget k (new_class mros own) = Some a) /\ (a_writable a = false -> dget k (new_class mros own) = Some a) /\ dkeys (new_class mros own) = dkeys own.
Proof.
  intros mros own k a G. unfold new_class. rewrite inherit_keys, inherit_get, G. split; [intros d D; now rewrite D|]. split; [|reflexivity].
  intros W. rewrite W. destruct (a_doc a); [reflexivity|]. now destruct (find_doc _ _).
Qed.
Print Assumptions C218_own.
(** With single inheritance: the docstring of the nearest class that documents the method. *)
Theorem C218_single : forall l own k a, dget k own = Some a -> a_doc a = None -> a_writable a = true ->
  dget k (new_class (chain l) own) = Some (Attr (nearest k l) true).
Proof. intros l own k a G D W. rewrite (new_class_chain l own k a G), D, W. destruct (nearest k l); [reflexivity|]. destruct a as [da wa]. cbn in *. now subst. Qed.
Print Assumptions C218_single.
(** In general: a docstring of one of the classes, if any of them documents the method. *)
Theorem C218_any : forall mros own k a, orders mros -> dget k own = Some a -> a_doc a = None -> a_writable a = true ->
  exists a', dget k (new_class mros own) = Some a' /\
    (forall d, a_doc a' = Some d -> exists c r b, In (c :: r) mros /\ dget k c = Some b /\ a_doc b = Some d) /\
    ((exists c r b d, In (c :: r) mros /\ dget k c = Some b /\ a_doc b = Some d) -> a_doc a' <> None).
Proof. exact new_class_doc. Qed.
Print Assumptions C218_any.
(** Not always that of the nearest class: behind an undocumented mix-in, a class without the method passes on the docstring of its base, past a class that is nearer. *)
Theorem C218_nearest_refuted : exists mros own k, orders mros /\ dget k own = Some (Attr None true) /\ nearest k (concat (map (firstn 1) mros)) = Some "near" /\
  dget k (new_class mros own) = Some (Attr (Some "far") true).
Proof.
  set (mixin := [("f", Attr None true)]). set (b := @nil (string * attr)). set (c := [("f", Attr (Some "near") true)]). set (base := [("f", Attr (Some "far") true)]).
  exists [[mixin]; [b; base]; [c; base]; [base]], [("f", Attr None true)], "f". split.
  - intros m I. destruct I as [<-|[<-|[<-|[<-|[]]]]]; do 2 eexists; (split; [reflexivity|]); intros c' J; try (destruct J as [<-|[]]); try destruct J; exists [base], []; (split; [cbn; auto 10|reflexivity]).
  - repeat split.
Qed.
Print Assumptions C218_nearest_refuted.
Example ex_C218 : new_class (chain [[("g", Attr (Some "doc of g") true)]; [("f", Attr (Some "doc of f") true); ("g", Attr (Some "old") true)]]) [("f", Attr None true); ("g", Attr None true); ("x", Attr None false)] =
  [("f", Attr (Some "doc of f") true); ("g", Attr (Some "doc of g") true); ("x", Attr None false)].
Proof. reflexivity. Qed.

(** ** C219 *)
(** The properties that are set are those of the display dictionary that the plot knows, in its order. *)
Theorem C219_properties : forall V traits (given : option (dict V)) own, 
  plot_props traits given own = Ok (concat (map (fun n => match dget n (match given with Some (kv :: r) => kv :: r | _ => dd_items own end) with Some v => [(n, v)] | None => [] end) traits)).
Proof.
  intros V traits given own. unfold plot_props. rewrite plot_fold. cbn [app]. unfold used_display. destruct given as [[|kv r]|]; reflexivity.
Qed.
Print Assumptions C219_properties.
(** An empty dictionary does not switch the properties of the object off. *)
Theorem C219_empty_refuted : exists traits (own : displaydict R), plot_props traits (Some []) own <> Ok [].
Proof. exists ["opacity"], (DD [("opacity", 1)] None). cbn. discriminate. Qed.
Print Assumptions C219_empty_refuted.
(** Values that the display dictionary gets from the geometry are not used for properties. *)
Theorem C219_geometry_refuted : exists n (own : displaydict R) v, dd_getitem own n = Ok v /\ plot_props [n] None own = Ok [].
Proof. exists "opacity", (DD [] (Some [("opacity", 1)])), 1. split; reflexivity. Qed.
Print Assumptions C219_geometry_refuted.
(** The name of an object: its own name comes first. *)
Theorem C219_name : forall V (attrs : dict V) str v, (dget "name" attrs = Some v -> get_obj_name attrs str = v) /\ (dget "name" attrs = None -> dget "func_name" attrs = Some v -> get_obj_name attrs str = v) /\
  (dget "name" attrs = None -> dget "func_name" attrs = None -> get_obj_name attrs str = str).
Proof. intros V attrs str v. unfold get_obj_name. split; [intros ->; reflexivity|]. split; [intros -> ->; reflexivity|intros -> ->; reflexivity]. Qed.
Print Assumptions C219_name.
Example ex_C219 : plot_props ["opacity"; "line_width"; "color"] (Some [("color", 2); ("opacity", 1)]) (DD [("line_width", 3)] None) = Ok [("opacity", 1); ("color", 2)] /\ get_obj_name [("func_name", 1); ("name", 2)] 3 = 2.
Proof. split; reflexivity. Qed.
