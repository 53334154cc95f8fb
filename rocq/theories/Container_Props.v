(** Properties C05-C08, C17, C69: containers, monitors, keyword handling. *)
From Verif Require Import Container_Model Container_Proofs.
From Coq Require Import Sorted.

(** ** C05 *)

(** Calling a container runs, for each element in order: all pre-process steps, the element, all post-process steps;
    it stops at the first exception. *)
Theorem C05_call_order : forall (P W R : Type) (els : list (@act P W)) (pre post : list (@hook P W R)) s,
  call els pre post s = all_ (flat_map (fun e => map run_hook pre ++ [e] ++ map run_hook post) els) s.
Proof. intros. exact (call_flat els pre post s). Qed.
Print Assumptions C05_call_order.

Theorem C05_split : forall (P W R : Type) (a b : list (@act P W)) (pre post : list (@hook P W R)) s,
  call (a ++ b) pre post s = then_ (call a pre post) (call b pre post) s.
Proof. intros. exact (call_app a b pre post s). Qed.
Print Assumptions C05_split.

(** Observers do not influence the photons that come out. *)
Theorem C05_observers : forall (P W R : Type) (els : list (@act P W)) (pre post : list (@hook P W R)),
  Forall observer pre -> Forall observer post -> Forall self_contained els ->
  forall p w w', fst (fst (call els pre post (p, w))) = fst (fst (call els ([] : list (@hook P W R)) [] (p, w'))) /\
                 snd (call els pre post (p, w)) = snd (call els ([] : list (@hook P W R)) [] (p, w')).
Proof. intros. now apply call_observed. Qed.
Print Assumptions C05_observers.

(** What the steps return is ignored: steps with the same effect can be exchanged. *)
Theorem C05_return_values_ignored : forall (P W R : Type) (els : list (@act P W)) (pre post pre' post' : list (@hook P W R)) s,
  Forall2 (fun h h' : @hook P W R => forall s, run_hook h s = run_hook h' s) pre pre' ->
  Forall2 (fun h h' : @hook P W R => forall s, run_hook h s = run_hook h' s) post post' ->
  call els pre post s = call els pre' post' s.
Proof. intros. now apply call_hook_values. Qed.
Print Assumptions C05_return_values_ignored.

Definition times2 : @act nat (list nat) := fun '(p, w) => ((2 * p, w), None).
Definition plus1 : @act nat (list nat) := fun '(p, w) => ((p + 1, w), None).
Definition log (k : nat) : @hook nat (list nat) nat := fun '(p, w) => ((p, w ++ [k + p]), inl 99).
Example C05_example :
  call [times2; plus1] [log 100] [log 200] (5, []) = ((11, [105; 210; 110; 211]), None) /\
  Forall observer [log 100; log 200] /\ Forall self_contained [times2; plus1].
Proof.
  split; [reflexivity|]. split; repeat constructor; intros p w; eexists; eexists; reflexivity.
Qed.

(** ** C06 *)

(** The result never contains anything that is not a match in the instrument, nothing twice, and matches appear in
    depth first order (for every setting of the options). *)
Theorem C06_search_sound : forall t cls subclass_ok stop,
  subseq (elements_of_class t cls subclass_ok stop) (filter (comp subclass_ok cls) (nodes t)).
Proof. intros. exact (elements_subseq _ _ _). Qed.
Print Assumptions C06_search_sound.

(** A part is a match if it is an instance of the class or, without subclass_ok, if this is its own class. *)
Theorem C06_match : forall subclass_ok cls t,
  comp subclass_ok cls t = true <-> if subclass_ok then In cls (mro t) else exists bases, mro t = cls :: bases.
Proof. exact comp_spec. Qed.
Print Assumptions C06_match.

(** It is complete if no match is inside another match and only containers have parts. *)
Theorem C06_search_complete_partial : forall t cls subclass_ok,
  only_containers_nest t -> matches_not_nested (comp subclass_ok cls) t ->
  elements_of_class t cls subclass_ok false = filter (comp subclass_ok cls) (nodes t).
Proof. intros. now apply elements_all. Qed.
Print Assumptions C06_search_complete_partial.

(** With stop_at_first=True exactly the outermost matches are found. *)
Theorem C06_stop_at_first_outermost : forall t cls subclass_ok n, cont t = true ->
  (In n (elements_of_class t cls subclass_ok true) <->
   exists p, sub t p = Some n /\ comp subclass_ok cls n = true /\
     forall q r, p = q ++ r -> r <> [] ->
       exists a, sub t q = Some a /\ comp subclass_ok cls a = false /\ cont a = true).
Proof. intros. now apply stop_at_first_outermost. Qed.
Print Assumptions C06_stop_at_first_outermost.

(** The option has no effect at all unless the instrument itself is a match. *)
Theorem C06_option_has_no_effect : forall t cls subclass_ok, comp subclass_ok cls t = false ->
  elements_of_class t cls subclass_ok true = elements_of_class t cls subclass_ok false.
Proof. intros. now apply stop_no_effect. Qed.
Print Assumptions C06_option_has_no_effect.

Definition leaf (i : nat) (cls : string) : tree := Tree i [cls; "FlatOpticalElement"] false [].
Definition seq_ (i : nat) (l : list tree) : tree := Tree i ["Sequence"; "BaseContainer"] true l.
Definition par_ (i : nat) (l : list tree) : tree := Tree i ["Parallel"; "BaseContainer"] true l.
Definition instr : tree :=
  seq_ 0 [leaf 1 "Mirror"; par_ 2 [leaf 3 "Grating"; par_ 4 [leaf 5 "Grating"]]; seq_ 6 [leaf 7 "Grating"; leaf 8 "Detector"]].
Example C06_example :
  only_containers_nest instr /\ matches_not_nested (comp false "Grating") instr /\
  map ident (elements_of_class instr "Grating" false false) = [3; 5; 7] /\
  map ident (elements_of_class instr "FlatOpticalElement" true false) = [1; 3; 5; 7; 8].
Proof.
  assert (F : only_containers_nest instr).
  { intros n Hn Hc. cbn in Hn. repeat destruct Hn as [<-|Hn]; try discriminate; try reflexivity; contradiction. }
  split; [exact F|]. split; [|split; reflexivity].
  intros k n d Hk Hn Hm Hd. assert (X : In n (nodes instr)) by (apply (nodes_kid _ k); assumption).
  cbn in X. repeat destruct X as [<-|X]; try discriminate; try contradiction.
Qed.

(** The claim itself is false: a Parallel inside a Parallel is not found with stop_at_first=False. *)
Theorem C06_search_complete_refuted : exists t cls n, only_containers_nest t /\
  In n (nodes t) /\ comp true cls n = true /\ ~ In n (elements_of_class t cls true false).
Proof.
  exists instr, "Parallel", (par_ 4 [leaf 5 "Grating"]). split; [apply C06_example|].
  split; [cbn; tauto|]. split; [reflexivity|]. cbn. intros [X|[]]. discriminate.
Qed.
Print Assumptions C06_search_complete_refuted.
(** The layers of a FlatStack (also a container, optics/base.py:218) are found unless the stack itself is a match. *)
Definition stack : tree := Tree 1 ["FlatStack"; "FlatOpticalElement"; "BaseContainer"] true [leaf 2 "EnergyFilter"; leaf 3 "FlatDetector"].
Example C06_layers_example : map ident (elements_of_class (seq_ 0 [stack]) "FlatDetector" false false) = [3] /\
  map ident (elements_of_class (seq_ 0 [stack]) "FlatOpticalElement" true false) = [1].
Proof. split; reflexivity. Qed.

(** ** C07 *)
Theorem C07_first_of_class : forall t cls subclass_ok, only_containers_nest t ->
  match first_of_class_top_level t cls subclass_ok with
  | Some i =>
      (exists e n, nth_error (kids t) i = Some e /\ In n (nodes e) /\ comp subclass_ok cls n = true) /\
      (forall k e n, k < i -> nth_error (kids t) k = Some e -> In n (nodes e) -> comp subclass_ok cls n = false)
  | None => forall e n, In e (kids t) -> In n (nodes e) -> comp subclass_ok cls n = false
  end.
Proof.
  intros t cls subclass_ok H. unfold first_of_class_top_level.
  pose proof (first_from_spec (comp subclass_ok cls) (kids t) 0) as S.
  destruct (first_from _ 0 (kids t)) as [j|].
  - rewrite Nat.sub_0_r in S. apply S. intros e He n Hn. apply H. now apply (nodes_kid _ e).
  - apply S. intros e He n Hn. apply H. now apply (nodes_kid _ e).
Qed.
Print Assumptions C07_first_of_class.
Example C07_example : first_of_class_top_level instr "Grating" false = Some 1 /\
  first_of_class_top_level instr "Detector" false = Some 2 /\ first_of_class_top_level instr "Baffle" true = None.
Proof. repeat split. Qed.

(** ** C08 *)
(** A Sequence can be built exactly if elements are given, all parts are callable and all keywords are known. *)
Theorem C08_sequence_ok : forall kw,
  sequence_init kw = Ok tt <->
  exists a b c, dget "elements" kw = Some (Objs a) /\
    (dget "preprocess_steps" kw = Some (Objs b) \/ dget "preprocess_steps" kw = None /\ b = []) /\
    (dget "postprocess_steps" kw = Some (Objs c) \/ dget "postprocess_steps" kw = None /\ c = []) /\
    (forall o, In o (a ++ b ++ c) -> snd o = true) /\
    (forall k, In k (dkeys kw) -> In k sequence_keywords).
Proof. exact sequence_init_ok. Qed.
Print Assumptions C08_sequence_ok.
(** It raises SimulationSetupError exactly if some part is not callable. *)
Theorem C08_uncallable_refused : forall kw a b c,
  dget "elements" kw = Some (Objs a) ->
  (dget "preprocess_steps" kw = Some (Objs b) \/ dget "preprocess_steps" kw = None /\ b = []) ->
  (dget "postprocess_steps" kw = Some (Objs c) \/ dget "postprocess_steps" kw = None /\ c = []) ->
  (sequence_init kw = Err SimulationSetupError <-> exists o, In o (a ++ b ++ c) /\ snd o = false).
Proof. exact sequence_init_setup_error. Qed.
Print Assumptions C08_uncallable_refused.
Example C08_example :
  sequence_init [("elements", Objs [("mirror", true)]); ("postprocess_steps", Objs [("print", true)])] = Ok tt /\
  sequence_init [("elements", Objs [("mirror", true)]); ("postprocess_steps", Objs [("text", false)])] = Err SimulationSetupError /\
  sequence_init [("elements", Objs [("mirror", true)]); ("post_steps", Objs [])] = Err ValueError.
Proof. repeat split. Qed.

(** ** C69 *)
(** A keyword that none of the classes in the hierarchy takes out of the keyword dictionary leads to ValueError. *)
Theorem C69_unknown_keyword : forall kw k, In k (dkeys kw) -> k <> "name" -> k <> "id_num" -> k <> "id_col" ->
  sse_init kw = Err ValueError.
Proof. exact init_unknown_keyword. Qed.
Print Assumptions C69_unknown_keyword.
Theorem C69_unknown_keyword_sequence : forall kw k a,
  dget "elements" kw = Some (Objs a) -> In k (dkeys kw) -> ~ In k sequence_keywords -> exists e, sequence_init kw = Err e.
Proof.
  intros kw k a He Hk Hn. destruct (sequence_init kw) as [[]|e] eqn:E; [|eauto]. exfalso.
  apply C08_sequence_ok in E. destruct E as (x & y & z & _ & _ & _ & _ & H). apply Hn. now apply H.
Qed.
Print Assumptions C69_unknown_keyword_sequence.
(** It is ValueError if the elements and steps can be called. *)
Theorem C69_sequence_value_error : forall kw k a b c,
  dget "elements" kw = Some (Objs a) ->
  dget "preprocess_steps" kw = None /\ b = [] \/ dget "preprocess_steps" kw = Some (Objs b) ->
  dget "postprocess_steps" kw = None /\ c = [] \/ dget "postprocess_steps" kw = Some (Objs c) ->
  forallb snd (a ++ b ++ c) = true -> In k (dkeys kw) -> ~ In k sequence_keywords -> sequence_init kw = Err ValueError.
Proof. exact sequence_unknown. Qed.
Print Assumptions C69_sequence_value_error.
Example C69_sequence_ex :
  sequence_init [("elements", Objs [("lens", true)]); ("postproces_steps", Objs [])] = Err ValueError.
Proof.
  apply (C69_sequence_value_error _ "postproces_steps" [("lens", true)] [] []); try reflexivity.
  - now left.
  - now left.
  - cbn. tauto.
  - cbn. intuition congruence.
Qed.
Example C69_example : sse_init [("name", Other "a"); ("id_nmu", Other "1")] = Err ValueError /\
  sse_init [("name", Other "a"); ("id_num", Other "1")] = Ok tt.
Proof. split; reflexivity. Qed.

(** ** C17 *)
(** For every history of calls of the monitor, in-place changes of columns and replaced columns: the monitor holds, in
    order, the values the column had at the time of each call. *)
Theorem C17_keepcol_history : forall (C : Type) (col : string) (l : list (@kop C)),
  kdata (kruns col (mkK [] [] []) l) = map Some (vkept (vruns col (mkV [] []) l)).
Proof. intros. exact (keepcol_history col l). Qed.
Print Assumptions C17_keepcol_history.
Theorem C17_missing_column : forall (C : Type) (col : string) (s : @kstate C),
  snd (kstep col s KCall) = Some KeyError -> fst (kstep col s KCall) = s.
Proof. intros. now apply keepcol_error. Qed.
Print Assumptions C17_missing_column.
Example C17_example :
  kdata (kruns "pos" (mkK [] [] []) [KReplace "pos" 1; KCall; KWrite "pos" S; KCall; KReplace "pos" 7; KWrite "pos" S; KCall]) =
  [Some 1; Some 2; Some 8].
Proof. reflexivity. Qed.

Theorem C17_format_all_steps : forall data d, format_positions data None = Ok d ->
  length d = length data /\ h2e_all data = Ok d.
Proof. exact format_none. Qed.
Print Assumptions C17_format_all_steps.
(** The code swaps the axes: row [i] is the way of photon [i] through all steps. *)
Theorem C17_by_photon : forall n (d : list step), length (by_photon n d) = n /\ (forall w, In w (by_photon n d) -> length w = length d) /\
  forall i k s p, i < n -> nth_error d k = Some s -> nth_error s i = Some p -> exists w, nth_error (by_photon n d) i = Some w /\ nth_error w k = Some p.
Proof.
  intros n d. unfold by_photon. split; [now rewrite map_length, seq_length|]. split; [intros w W; apply in_map_iff in W; destruct W as (i & <- & _); apply map_length|].
  intros i k s p I K P. exists (map (fun s => nth i s []) d). split.
  - rewrite nth_error_map. assert (E : nth_error (seq 0 n) i = Some i) by (rewrite (nth_error_nth' _ 0) by (now rewrite seq_length); now rewrite seq_nth). now rewrite E.
  - transitivity (option_map (fun s : step => nth i s []) (nth_error d k)); [apply nth_error_map|]. rewrite K. cbn. f_equal. now apply nth_error_nth.
Qed.
Print Assumptions C17_by_photon.
Example C17_ex_by_photon : by_photon 2 [[[Some 1]; [Some 2]]; [[Some 3]; [Some 4]]]%Q = [[[Some 1]; [Some 3]]; [[Some 2]; [Some 4]]]%Q.
Proof. reflexivity. Qed.

(** Every photon of every step is there, with its cartesian coordinates: the fourth coordinate is dropped if it is 0 everywhere or 1 (within the tolerance) everywhere, and
    divided out otherwise. *)
Theorem C17_format_coordinates : forall data d, format_positions data None = Ok d ->
  (forall s p, In s data -> In p s -> length p = 4) /\
  ((all_zero data \/ all_one data) /\ d = map (map (firstn 3)) data \/
   ~ all_zero data /\ ~ all_one data /\ none_zero data /\ d = map (map cartesian) data).
Proof. exact format_coordinates. Qed.
Print Assumptions C17_format_coordinates.
(** A mixture of points and directions is refused. *)
Theorem C17_format_mixed : forall data atol, ~ all_zero data -> ~ all_one data -> ~ none_zero data -> format_positions data atol = Err ValueError.
Proof. exact format_mixed. Qed.
Print Assumptions C17_format_mixed.
Example C17_format_coordinates_example : format_positions [[[Some 2; Some 4; None; Some 2]; [Some 1; Some 1; Some 1; Some 1]]]%Q None =
  Ok [[[Some (2 / 2); Some (4 / 2); None]; [Some (1 / 1); Some (1 / 1); Some (1 / 1)]]]%Q.
Proof. reflexivity. Qed.

(** With a tolerance the first step is kept, every dropped step coincides with the last kept one before it, and no
    kept step coincides with the kept one before it. *)
Theorem C17_format_tolerance : forall data tol d, format_positions data (Some tol) = Ok d ->
  exists full ind, format_positions data None = Ok full /\ full <> [] /\ d = map (fun i => nth i full []) ind /\
    In 0 ind /\ StronglySorted lt ind /\ (forall k, In k ind -> k < length full) /\
    (forall k, k < length full -> ~ In k ind ->
       exists j, In j ind /\ j < k /\ (forall j', In j' ind -> j' < k -> j' <= j) /\
         close_steps tol (nth j full []) (nth k full []) = true) /\
    (forall k, In k ind -> k <> 0 ->
       exists j, In j ind /\ j < k /\ (forall j', In j' ind -> j' < k -> j' <= j) /\
         close_steps tol (nth j full []) (nth k full []) = false).
Proof.
  intros data tol d H. apply format_some in H. destruct H as (full & H1 & H2).
  assert (N : full <> []).
  { pose proof (format_none _ _ H1) as [L _]. intros ->. destruct data; [discriminate H1|discriminate L]. }
  exists full, (dedup (close_steps tol) full). split; [exact H1|]. split; [exact N|]. split; [exact H2|].
  now apply dedup_spec.
Qed.
Print Assumptions C17_format_tolerance.
Definition pt (x : Q) : pos4 := [Some x; Some 0%Q; Some 0%Q; Some 1%Q].
Example C17_format_example :
  format_positions [[pt 0; pt 5]; [pt 0; pt 5]; [pt 1; pt 5]; [pt 1; pt 5]; [pt 0; pt 5]] (Some 0%Q) =
  Ok (map (fun s => map (firstn 3) s) [[pt 0; pt 5]; [pt 1; pt 5]; [pt 0; pt 5]]).
Proof. vm_compute. reflexivity. Qed.
