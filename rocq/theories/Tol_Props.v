(** Properties C47, C48, C50, C89 and C90. *)
From Verif Require Import Tol_Proofs Container_Props.
Open Scope R_scope.

(** *** C47 *)
Theorem C47_lists : forall trans rot changeglobal changeindividual, wigglelist trans rot = Ok (changeglobal, changeindividual) ->
  (forall d, In d changeindividual <-> exists k v, (k < 6)%nat /\ In v (values_of trans rot k) /\ d = one_dof k v) /\
  (forall d, In d changeglobal <-> exists k v, (k < 6)%nat /\ (In v (values_of trans rot k) \/ In (- v) (values_of trans rot k)) /\ d = one_dof k v) /\
  NoDup changeindividual /\ NoDup changeglobal.
Proof. exact wiggle_spec. Qed.
Print Assumptions C47_lists.
(** the six parameters: translations along x, y, z, then rotations around x, y, z *)
Theorem C47_names : forall v, map (fun k => one_dof k v) (seq 0 6) =
  [[("dx", v); ("dy", 0); ("dz", 0); ("rx", 0); ("ry", 0); ("rz", 0)]; [("dx", 0); ("dy", v); ("dz", 0); ("rx", 0); ("ry", 0); ("rz", 0)]; [("dx", 0); ("dy", 0); ("dz", v); ("rx", 0); ("ry", 0); ("rz", 0)];
   [("dx", 0); ("dy", 0); ("dz", 0); ("rx", v); ("ry", 0); ("rz", 0)]; [("dx", 0); ("dy", 0); ("dz", 0); ("rx", 0); ("ry", v); ("rz", 0)]; [("dx", 0); ("dy", 0); ("dz", 0); ("rx", 0); ("ry", 0); ("rz", v)]]%string /\
  (forall trans rot k, values_of trans rot k = if Nat.ltb k 3 then trans else rot).
Proof. intros v. split; reflexivity. Qed.
Print Assumptions C47_names.
Theorem C47_lists_defined : forall trans rot, (exists l, wigglelist trans rot = Ok l) <-> trans <> [] /\ rot <> [].
Proof.
  intros [|t trans] [|r rot]; cbn; split; try (intros [l H]; discriminate); try (intros [A B]; congruence).
  - intros _. split; discriminate.
  - intros _. eexists. reflexivity.
Qed.
Print Assumptions C47_lists_defined.
(** no two moved degrees of freedom *)
Theorem C47_one_moved : forall trans rot g ind d p q vp vq, wigglelist trans rot = Ok (g, ind) -> In d g \/ In d ind ->
  dget p d = Some vp -> dget q d = Some vq -> vp <> 0 -> vq <> 0 -> p = q.
Proof.
  intros trans rot g ind d p q vp vq H I P Q NP NQ. apply wiggle_spec in H. destruct H as (HI & HG & _).
  assert (X : exists k v, d = one_dof k v) by (destruct I as [I|I]; [apply HG in I|apply HI in I]; destruct I as (k & v & _ & _ & ->); eauto).
  destruct X as (k & v & ->).
  assert (Y : forall s w, dget s (one_dof k v) = Some w -> w <> 0 -> s = nth k names6 "").
  { clear. intros s w G N.
    assert (K : exists j, (j < 6)%nat /\ s = nth j names6 "").
    { assert (In s names6) as J. { apply dget_in_keys in G. exact G. } apply In_nth with (d := "") in J. destruct J as (j & L & <-). exists j. auto. }
    destruct K as (j & L & ->). rewrite one_dof_get in G by exact L. destruct (Nat.eqb_spec j k) as [E|E]; [now rewrite E|congruence]. }
  rewrite (Y p vp), (Y q vq); auto.
Qed.
Print Assumptions C47_one_moved.
Theorem C47_select : forall table par parlist, (forall row p, In row table -> In p parlist -> p <> par -> dget p row <> None) ->
  exists out, select_1dof_changed table par parlist = Ok out /\ subseq out table /\
    forall row, In row out <-> In row table /\ forall p, In p parlist -> p <> par -> dget p row = Some 0.
Proof. exact select_spec. Qed.
Print Assumptions C47_select.
(** together: of the generated list the rows for one degree of freedom are found *)
Theorem C47_select_generated : forall trans rot g ind k, wigglelist trans rot = Ok (g, ind) -> (k < 6)%nat -> exists out,
  select_1dof_changed ind (nth k names6 "") names6 = Ok out /\
  forall row, In row out <-> (exists v, In v (values_of trans rot k) /\ row = one_dof k v) \/ (row = one_dof k 0 /\ In row ind).
Proof.
  intros trans rot g ind k H K. apply wiggle_spec in H. destruct H as (HI & _).
  destruct (select_spec ind (nth k names6 "") names6) as (out & E & _ & M).
  { intros row p I P _. apply HI in I. destruct I as (k' & v & _ & _ & ->). apply In_nth with (d := "") in P. destruct P as (j & J & <-). rewrite one_dof_get by exact J. discriminate. }
  exists out. split; [exact E|]. intros row. rewrite M. split.
  - intros [I Z]. assert (I' := I). apply HI in I. destruct I as (k' & v & K' & V & ->). destruct (Nat.eq_dec k' k) as [->|N]; [left; eauto|]. right.
    assert (v = 0).
    { assert (X : dget (nth k' names6 "") (one_dof k' v) = Some 0).
      { apply Z; [now apply nth_In|]. intros F. apply N. assert (ND : NoDup names6) by (apply names_nodup). eapply NoDup_nth; eauto. }
      rewrite one_dof_get, Nat.eqb_refl in X by exact K'. congruence. }
    subst v. split; [|exact I']. unfold one_dof. apply map_ext. intros j. destruct (Nat.eqb j k'), (Nat.eqb j k); reflexivity.
  - assert (X : forall v p, In p names6 -> p <> nth k names6 "" -> dget p (one_dof k v) = Some 0).
    { intros v p P N. apply In_nth with (d := "") in P. destruct P as (j & J & <-). rewrite one_dof_get by exact J. destruct (Nat.eqb_spec j k) as [->|]; [congruence|reflexivity]. }
    intros [(v & V & ->)|[-> I]]; [|auto]. split; [apply HI; exists k, v; auto|]. auto.
Qed.
Print Assumptions C47_select_generated.
Example C47_example : exists l, wigglelist [0; 1] [0] = Ok l /\ In (one_dof 1 (-1)) (fst l) /\ ~ In (one_dof 1 (-1)) (snd l).
Proof.
  destruct (proj2 (C47_lists_defined [0; 1] [0])) as [[g ind] H]; [split; discriminate|]. exists (g, ind). split; [exact H|].
  destruct (wiggle_spec _ _ _ _ H) as (HI & HG & _). split.
  - apply HG. exists 1%nat, (-1). split; [lia|]. split; [|reflexivity]. right. cbn. right. left. lra.
  - intros I. apply HI in I. destruct I as (k & v & K & V & E).
    assert (X := f_equal (dget "dy") E). change "dy" with (nth 1 names6 "") in X. rewrite !one_dof_get in X by lia. cbn [Nat.eqb] in X. injection X as X.
    unfold values_of in V. destruct k as [|[|k]]; cbn in X; [lra| |lra]. cbn in V. destruct V as [V|[V|[]]]; lra.
Qed.

(** *** C48 *)
(** [image] says what the instrument does to a photon list. Nothing is assumed about the wiggle function and the analysis. *)
Theorem C48_one_result_per_set : forall (Ph V S : Type) (wigglefunc : S -> dict V -> S) instrum (analyzefunc : Ph -> dict V) image,
  acts_as instrum image -> forall params s mem src p, nth_error mem src = Some p ->
  exists mem' out, run_tolerances wigglefunc instrum analyzefunc s mem src params = Ok (state_before wigglefunc image p s params (length params), mem', out) /\
    (forall k, (k < length mem)%nat -> nth_error mem' k = nth_error mem k) /\
    length out = length params /\
    forall i pars, nth_error params i = Some pars ->
      nth_error out i = Some (dupdate pars (analyzefunc (snd (image (wigglefunc (state_before wigglefunc image p s params i) pars) p)))).
Proof. exact @run_spec. Qed.
Print Assumptions C48_one_result_per_set.
(** entries of such a dictionary *)
Theorem C48_analysis_wins : forall (V : Type) (pars results : dict V) k, NoDup (dkeys results) ->
  dget k (dupdate pars results) = match dget k results with Some v => Some v | None => dget k pars end.
Proof. exact @dget_dupdate_nodup. Qed.
Print Assumptions C48_analysis_wins.
(** [sim]: the parts of the state that no run changes; [view]: the part that decides about the photons *)
Theorem C48_independent : forall (Ph V S C : Type) (wigglefunc : S -> dict V -> S) (image : S -> Ph -> S * Ph) (view : S -> C) (sim : S -> S -> Prop),
  (forall s, sim s s) -> (forall a b c, sim a b -> sim b c -> sim a c) ->
  (forall s pars, sim s (wigglefunc s pars)) -> (forall s p, sim s (fst (image s p))) ->
  (forall s s' p, view s = view s' -> snd (image s p) = snd (image s' p)) ->
  (forall s s' pars, sim s s' -> view (wigglefunc s pars) = view (wigglefunc s' pars)) ->
  forall params s p i pars, snd (image (wigglefunc (state_before wigglefunc image p s params i) pars) p) = snd (image (wigglefunc s pars) p).
Proof. intros Ph V S C w im view sim H1 H2 H3 H4 H5 H6. exact (run_independent w im view sim H1 H2 H3 H4 H5 H6). Qed.
Print Assumptions C48_independent.
(** moveelem is such a move: results for a moved element are those for the element at its original position with this one move. *)
Definition num (k : string) (d : dict R) : R := match dget k d with Some x => x | None => 0 end.
Definition move_geom (g : geom) (d : dict R) : geom := moveelem g (V3 (num "dx" d) (num "dy" d) (num "dz" d), V3 (num "rx" d) (num "ry" d) (num "rz" d)).
Theorem C48_moveelem : forall (Ph : Type) (optic : m4 -> Ph -> Ph) (analyzefunc : Ph -> dict R) instrum,
  acts_as instrum (fun g p => (g, optic (g_pos4d g) p)) -> forall params g mem src p, nth_error mem src = Some p ->
  exists g' mem' out, run_tolerances move_geom instrum analyzefunc g mem src params = Ok (g', mem', out) /\ length out = length params /\
    forall i pars, nth_error params i = Some pars ->
      nth_error out i = Some (dupdate pars (analyzefunc (optic (g_pos4d (move_geom g pars)) p))).
Proof.
  intros Ph optic an instrum AC params g mem src p H. destruct (run_spec move_geom instrum an _ AC params g mem src p H) as (mem' & out & R & _ & L & O).
  eexists _, mem', out. split; [exact R|]. split; [exact L|]. intros i pars P. rewrite (O i pars P). do 3 f_equal.
  apply (run_independent move_geom (fun g p => (g, optic (g_pos4d g) p)) g_pos4d
    (fun a b => match g_orig a with Some o => o | None => g_pos4d a end = match g_orig b with Some o => o | None => g_pos4d b end)); cbn; try congruence.
Qed.
Print Assumptions C48_moveelem.
(** an instrument that changes the list it is given in place *)
Example C48_example : let instr := fun (s : nat) (mem : list nat) (l : nat) => (s, firstn l mem ++ [nth l mem 0 + s]%nat ++ skipn (S l) mem, l) in
  acts_as instr (fun s p => (s, p + s)%nat) /\
  run_tolerances (fun s d => match dget "a" d with Some v => v | None => s end) instr (fun p => [("n", p)]) 0%nat [10%nat] 0 [[("a", 1%nat)]; [("a", 5%nat)]]
   = Ok (5%nat, [10%nat; 11%nat; 15%nat], [[("a", 1%nat); ("n", 11%nat)]; [("a", 5%nat); ("n", 15%nat)]]).
Proof.
  split; [|reflexivity]. intros s mem l p H. eexists _, _. split; [reflexivity|].
  assert (L : (l < length mem)%nat) by (apply nth_error_Some; congruence). assert (F : length (firstn l mem) = l) by (rewrite firstn_length; lia). split.
  - rewrite nth_error_app2 by lia. rewrite F, Nat.sub_diag. cbn. now rewrite (nth_error_nth _ _ _ H).
  - intros k K N. destruct (Nat.lt_ge_cases k l) as [B|B].
    + rewrite nth_error_app1 by lia. transitivity (nth_error (firstn l mem ++ skipn l mem) k); [|now rewrite firstn_skipn]. now rewrite nth_error_app1 by lia.
    + rewrite nth_error_app2 by lia. rewrite F. rewrite nth_error_app2 by (cbn; lia). transitivity (nth_error (firstn (S l) mem ++ skipn (S l) mem) k); [|now rewrite firstn_skipn].
      rewrite nth_error_app2 by (rewrite firstn_length; lia). rewrite firstn_length. f_equal. cbn [length]. lia.
Qed.

(** *** C50 *)
(** All names exist: all values are set. *)
Theorem C50_all_set : forall (V : Type) (kw : dict V) es, (forall e k, In e es -> In k (dkeys kw) -> din k e = true) ->
  varyattribute kw es = (map (fun e => dupdate e kw) es, None).
Proof. exact @vary_ok. Qed.
Print Assumptions C50_all_set.
(** One name is missing in one element: ValueError. *)
Theorem C50_error : forall (V : Type) (kw : dict V) es, (exists e k, In e es /\ In k (dkeys kw) /\ din k e = false) ->
  snd (varyattribute kw es) = Some ValueError.
Proof. exact @vary_err. Qed.
Print Assumptions C50_error.
(** No attribute is ever added, and attributes that are not named keep their value. *)
Theorem C50_no_new_attribute : forall (V : Type) (kw e : dict V), dkeys (fst (varyattribute1 kw e)) = dkeys e /\
  forall k, ~ In k (dkeys kw) -> dget k (fst (varyattribute1 kw e)) = dget k e.
Proof. split; [apply vary1_keys|apply vary1_other]. Qed.
Print Assumptions C50_no_new_attribute.
(** With a single attribute and a single element nothing is changed on an error ... *)
Theorem C50_single_partial : forall (V : Type) k (v : V) e, din k e = false -> varyattribute [(k, v)] [e] = ([e], Some ValueError).
Proof. intros V k v e H. cbn. now rewrite H. Qed.
Print Assumptions C50_single_partial.
(** ... but in general the attributes before the missing one are. *)
Theorem C50_all_or_nothing_refuted : ~ (forall (kw e : dict nat), (exists k, In k (dkeys kw) /\ din k e = false) -> fst (varyattribute kw [e]) = [e]).
Proof.
  intros H. specialize (H [("a", 1%nat); ("b", 2%nat)] [("a", 0%nat)] ltac:(exists "b"; cbn; auto)). cbn in H. discriminate.
Qed.
Print Assumptions C50_all_or_nothing_refuted.
Example C50_example : varyattribute [("a", 1%nat)] [[("a", 0%nat)]; [("b", 0%nat)]; [("a", 0%nat)]] = ([[("a", 1%nat)]; [("b", 0%nat)]; [("a", 0%nat)]], Some ValueError).
Proof. reflexivity. Qed.

(** *** C89 *)
Theorem C89_energies : forall (Ph V S E : Type) (wigglefunc : S -> dict V -> S) instrum (analyzefunc : Ph -> dict V) image,
  acts_as instrum image -> forall (set_energy : S -> E -> S) first_part source energy wave (strip : V -> V) es s mem params reset, params <> [] -> es <> [] ->
  let photons := photons_for set_energy first_part source in
  let state := fold_left (sim_state wigglefunc image set_energy first_part source params) in
  exists mem' rows, run_tolerances_for_energies wigglefunc instrum analyzefunc set_energy first_part source energy wave strip s mem es params reset
     = Ok (match reset with Some r => wigglefunc (state es s) r | None => state es s end, mem', rows) /\
   length rows = (length es * length params)%nat /\
   forall j e i pars, nth_error es j = Some e -> nth_error params i = Some pars ->
     let '(s2, p) := photons (state (firstn j es) s) e in
     nth_error rows (j * length params + i) = Some (add_energy energy wave e (to_row strip
       (dupdate pars (analyzefunc (snd (image (wigglefunc (state_before wigglefunc image p s2 params i) pars) p)))))).
Proof.
  intros Ph V S E w ins an im AC se fp so en wa st es s mem params reset NP NE photons state.
  destruct (energies_spec w ins an im AC se fp so en wa st es s mem params reset NP NE) as (mem' & rs & R & L & O).
  exists mem', rs. split; [exact R|]. split; [exact L|]. intros j e i pars J P. assert (X := O j e i pars J P). unfold sim_rows in X. fold photons in X. fold state in X.
  destruct (photons (state (firstn j es) s) e) as [s2 p]. exact X.
Qed.
Print Assumptions C89_energies.
(** the columns energy and wave are those of the simulated energy *)
Theorem C89_columns : forall (V E : Type) (energy wave : E -> V) e d, dget "energy" (add_energy energy wave e d) = Some (energy e) /\
  dget "wave" (add_energy energy wave e d) = Some (wave e) /\ forall k, k <> "energy" -> k <> "wave" -> dget k (add_energy energy wave e d) = dget k d.
Proof.
  intros. unfold add_energy. split; [|split].
  - rewrite dget_dset_neq by discriminate. apply dget_dset_eq.
  - apply dget_dset_eq.
  - intros k A B. now rewrite !dget_dset_neq.
Qed.
Print Assumptions C89_columns.
(** Without parameters or without energies there is no table. *)
Theorem C89_empty : forall (Ph V S E : Type) (wigglefunc : S -> dict V -> S) instrum (analyzefunc : Ph -> dict V)
  (set_energy : S -> E -> S) first_part source energy wave (strip : V -> V) s mem reset,
  let run := run_tolerances_for_energies wigglefunc instrum analyzefunc set_energy first_part source energy wave strip s mem in
  (forall params, run [] params reset = Err ValueError) /\ (forall e es, run (e :: es) [] reset = Err TypeError).
Proof.
  intros. split; [reflexivity|]. intros e es. unfold run, run_tolerances_for_energies. cbn [energies_loop].
  destruct (source (set_energy s e)) as [s1 p1]. destruct (first_part s1 p1) as [s2 p2]. reflexivity.
Qed.
Print Assumptions C89_empty.
Example C89_example :
  let instr := fun (s : nat * nat) (mem : list nat) (l : nat) => (s, mem ++ [nth l mem 0 * fst s]%nat, length mem) in
  run_tolerances_for_energies (fun s d => match dget "a" d with Some v => (v, snd s) | None => s end) instr (fun p => [("n", p)])
    (fun s e => (fst s, e)) (fun s p => (s, S p)) (fun s => (s, snd s)) (fun e => e) (fun e => (100 - e)%nat) (fun v => v) (1%nat, 0%nat) [] [5%nat; 7%nat]
    [[("a", 2%nat)]; [("a", 3%nat)]] (Some [("a", 1%nat)])
   = Ok ((1%nat, 7%nat), [6; 6; 12; 6; 18; 8; 8; 16; 8; 24]%nat,
       [[("a", 2); ("n", 12); ("energy", 5); ("wave", 95)]; [("a", 3); ("n", 18); ("energy", 5); ("wave", 95)];
        [("a", 2); ("n", 16); ("energy", 7); ("wave", 93)]; [("a", 3); ("n", 24); ("energy", 7); ("wave", 93)]]%nat).
Proof. reflexivity. Qed.

(** *** C90 *)
(** the two parts make up the instrument, and the first part has no element of the class *)
Theorem C90_split : forall t cls sub a b w, only_containers_nest t -> split_instrument t cls sub = Ok (a, b, w) -> a ++ b = kids t /\
  (forall e n, In e a -> In n (nodes e) -> Container_Model.comp sub cls n = false) /\
  exists e b' n, b = e :: b' /\ In n (nodes e) /\ Container_Model.comp sub cls n = true.
Proof.
  intros t cls sub a b w OC H. assert (F := C07_first_of_class t cls sub OC). unfold split_instrument in H. destruct (first_of_class_top_level t cls sub) as [ind|]; [|discriminate]. injection H as <- <- <-.
  destruct F as ((e & n & E & I & C) & F). split; [apply firstn_skipn|]. split.
  - intros e' n' A. apply In_nth_error in A. destruct A as [k A].
    assert (L : (k < length (firstn ind (kids t)))%nat) by (apply nth_error_Some; congruence). rewrite firstn_length in L.
    apply (F k); [lia|]. rewrite <- (firstn_skipn ind (kids t)). rewrite nth_error_app1 by (rewrite firstn_length; lia). exact A.
  - apply nth_error_split in E. destruct E as (l1 & l2 & E & L). exists e, l2, n. split; [|auto]. rewrite E, <- L. rewrite skipn_app, Nat.sub_diag, skipn_all. reflexivity.
Qed.
Print Assumptions C90_split.
(** Without subclasses all elements of the class are wiggled and all of them are in the part that is run again. *)
Theorem C90_all_wiggled_partial : forall t cls a b w, split_instrument t cls false = Ok (a, b, w) -> Container_Model.comp false cls t = false ->
  w = elements_of_class t cls false false /\
  w = flat_map (fun e => if Container_Model.comp false cls e then [e] else if cont e then elements_of_class e cls false false else []) b.
Proof.
  intros t cls a b w H C. unfold split_instrument in H. destruct (first_of_class_top_level t cls false) as [ind|] eqn:F; [|discriminate]. injection H as <- <- <-.
  split; [reflexivity|]. now apply split_covers.
Qed.
Print Assumptions C90_all_wiggled_partial.
(** With subclass_ok the objects of subclasses decide about the split but are not wiggled. *)
Theorem C90_subclasses_not_wiggled_refuted :
  ~ (forall t cls sub a b w, split_instrument t cls sub = Ok (a, b, w) -> w = elements_of_class t cls sub false).
Proof.
  intros H. specialize (H (Tree 0 ["Sequence"] true [Tree 1 ["CATGrating"; "FlatGrating"] false []]) "FlatGrating" true). cbn in H. specialize (H _ _ _ eq_refl). discriminate.
Qed.
Print Assumptions C90_subclasses_not_wiggled_refuted.
(** If all objects are of subclasses the simulation runs with nothing wiggled. *)
Theorem C90_nothing_wiggled : forall t cls a b w, split_instrument t cls true = Ok (a, b, w) -> (forall n, In n (nodes t) -> Container_Model.comp false cls n = false) -> w = [].
Proof.
  intros t cls a b w H N. unfold split_instrument in H. destruct (first_of_class_top_level t cls true) as [ind|]; [|discriminate]. injection H as <- <- <-.
  apply elements_of_none. exact N.
Qed.
Print Assumptions C90_nothing_wiggled.
Example C90_example : split_instrument (Tree 0 ["Sequence"] true [Tree 1 ["Mirror"] false []; Tree 2 ["Parallel"] true [Tree 3 ["CATGrating"; "FlatGrating"] false []]; Tree 4 ["Detector"] false []])
    "CATGrating" false
  = Ok ([Tree 1 ["Mirror"] false []], [Tree 2 ["Parallel"] true [Tree 3 ["CATGrating"; "FlatGrating"] false []]; Tree 4 ["Detector"] false []], [Tree 3 ["CATGrating"; "FlatGrating"] false []]).
Proof. reflexivity. Qed.
