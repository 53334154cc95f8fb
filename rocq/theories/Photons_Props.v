(** Properties C01-C04, C10, C11, C72, C73: processing of photon lists. *)
From Verif Require Import Photons_Model Photons_Proofs Photons_Proofs2 Photons_Proofs3 Photons_Proofs4 Photons_Proofs5.
Open Scope nat_scope.

(** A concrete photon list with three photons and elements used in the examples. *)
Definition N (q : Q) : cell := CNum (Some q).
Definition v3 (a b c : Q) : cell := CVec [Some a; Some b; Some c].
Definition t3 : table :=
  mkT 3 [("pos", [v3 0 0 0; v3 1 0 0; v3 2 0 0]); ("dir", [v3 1 0 0; v3 1 0 0; v3 1 0 0]);
         ("energy", [N 1; N 2; N 3]); ("polarization", [v3 0 1 0; v3 0 1 0; v3 0 1 0]);
         ("probability", [N 1; N (1#2); N (1#4)])].
Definition filter_half : element :=
  {| meth := Specific (fun _ _ => Ok [(Some "probability", Scalar (N (1#2))); (Some "thickness", Scalar (N 7))]);
     output_columns := ["extra"]; loc_coos_name := Some ("y", "z"); id_col := Some "id"; id_num := 5 |}.
Definition filter_array : element :=
  {| meth := Specific (fun _ _ => Ok [(Some "probability", Array [N (1#3); N (1#5)])]);
     output_columns := []; loc_coos_name := None; id_col := None; id_num := 0 |}.
Definition m3 : list bool := [true; false; true].
Definition ipos3 : list cell := [v3 9 0 0; nan; v3 9 1 0].
Definition icoos3 : list (cell * cell) := [(N 1, N 2); (nan, nan); (N 3, N 4)].

(** C01. Photons that an element (without baffles inside) does not hit keep all their values; new columns hold the
    default value for them. Also true for the photon list that is left behind if the element raises. *)
Theorem C01_missed_photons_unchanged : forall o m ipos icoos t,
  has_baffle o = false -> changes_only m (ids_of o) t (fst (process o m ipos icoos t)).
Proof. intros o m ipos icoos t H. exact (sc_process m ipos icoos o H t). Qed.
Print Assumptions C01_missed_photons_unchanged.
Example C01_example :
  let t' := fst (process (Std filter_half) m3 ipos3 icoos3 t3) in
  snd (process (Std filter_half) m3 ipos3 icoos3 t3) = None /\
  colnames t' = ["pos"; "dir"; "energy"; "polarization"; "probability"; "extra"; "thickness"; "id"; "y"; "z"] /\
  map (fun c => getcell t' c 1) ["probability"; "extra"; "thickness"; "id"; "y"] =
    [Some (N (1#2)); Some nan; Some nan; Some (CInt (-1)); Some nan] /\
  map (fun c => getcell t' c 2) ["probability"; "extra"; "thickness"; "id"; "y"] =
    [Some (N (1#8)); Some nan; Some (N 7); Some (CInt 5); Some (N 3)].
Proof. vm_compute. repeat split. Qed.

(** C01, what an element does not return, declare or use for bookkeeping is not touched, not even for hit photons. *)
Theorem C01_other_columns_unchanged : forall e f m ipos icoos t outs c,
  meth e = Specific f -> f t m = Ok outs ->
  ~ In c (output_columns e) -> ~ In (Some c) (map fst outs) -> ~ In c (loc_list e) -> id_col e <> Some c -> c <> "pos" ->
  getcol (fst (process_photons e m ipos icoos t)) c = getcol t c.
Proof.
  intros e f m ipos icoos t outs c Em Ef H1 H2 H3 H4 H5. apply (sb_process_photons e f m ipos icoos t outs Em Ef).
  unfold written. rewrite !in_app_iff, <- In_somes. cbn [In]. destruct (id_col e) as [d|]; cbn [opt_list In] in *; intuition congruence.
Qed.
Print Assumptions C01_other_columns_unchanged.
Example C01_other_example : getcol (fst (process_photons filter_half m3 ipos3 icoos3 t3)) "energy" = Some [N 1; N 2; N 3].
Proof. reflexivity. Qed.

(** C01, what is written for hit photons: position, id, local coordinates and the returned values end up in the row
    of the photon they belong to. *)
Theorem C01_hit_photons_get_their_values : forall e m ipos icoos t t' i,
  wf t -> process_photons e m ipos icoos t = (t', None) -> nth_error m i = Some true ->
  getcell t' "pos" i = nth_error ipos i /\
  (forall c, id_col e = Some c -> c <> "pos" -> getcell t' c i = Some (CInt (id_num e))) /\
  (forall a b, loc_coos_name e = Some (a, b) -> a <> b -> ~ In "pos" [a; b] -> id_col e <> Some a -> id_col e <> Some b ->
     getcell t' a i = option_map fst (nth_error icoos i) /\ getcell t' b i = option_map snd (nth_error icoos i)) /\
  (forall f outs c v, meth e = Specific f -> f t m = Ok outs -> NoDup (map fst outs) -> In (Some c, v) outs ->
     c <> "probability" -> ~ In c (loc_list e) -> id_col e <> Some c -> c <> "pos" ->
     getcell t' c i = entry v m i).
Proof. exact hit_values. Qed.
Print Assumptions C01_hit_photons_get_their_values.
Example C01_hit_example : wf t3 /\ exists t', process_photons filter_half m3 ipos3 icoos3 t3 = (t', None) /\
  getcell t' "pos" 2 = Some (v3 9 1 0) /\ getcell t' "z" 2 = Some (N 4).
Proof.
  split.
  - split; [repeat constructor; cbn; intuition discriminate|]. intros c l H. apply dget_In' in H. cbn in H.
    repeat destruct H as [H|H]; try (injection H as <- <-; reflexivity). contradiction.
  - eexists. vm_compute. repeat split.
Qed.

(** C01. The same for elements with the interface for one photon: the k-th value that is returned for a photon goes to the k-th column. The function sees the photon as it was
    before the element; the probability is multiplied. *)
Theorem C01_per_photon_values : forall e f m ipos icoos t t' i d p en po outs,
  wf t -> meth e = PerPhoton f -> process_photons e m ipos icoos t = (t', None) -> nth_error m i = Some true ->
  getcell t "dir" i = Some d -> getcell t "pos" i = Some p -> getcell t "energy" i = Some en -> getcell t "polarization" i = Some po ->
  f d p en po = Ok outs -> let columns := ["dir"; "pos"; "energy"; "polarization"; "probability"] ++ output_columns e in NoDup columns ->
  (forall k c x, nth_error columns k = Some c -> nth_error outs k = Some x -> c <> "probability" -> c <> "pos" -> ~ In c (loc_list e) -> id_col e <> Some c ->
     getcell t' c i = Some x) /\
  (forall x q, nth_error outs 4 = Some x -> probability t i = Some q -> ~ In "probability" (loc_list e) -> id_col e <> Some "probability" ->
     exists y, cmul (CNum (Some q)) x = Some y /\ getcell t' "probability" i = Some y).
Proof. exact per_photon_values. Qed.
Print Assumptions C01_per_photon_values.
Example C01_per_photon_example : exists t', process_photons {| meth := PerPhoton (fun d p en po => Ok [d; p; N 9; po; N (1#2)]); output_columns := []; loc_coos_name := None; id_col := None; id_num := 0 |}
    m3 ipos3 icoos3 t3 = (t', None) /\ map (getcell t' "energy") [0; 1; 2] = [Some (N 9); Some (N 2); Some (N 9)].
Proof. eexists. split; vm_compute; reflexivity. Qed.

(** C02. All probabilities stay in [0,1] and never increase, through any instrument whose elements return numbers;
    also for the photon list that is left behind by an exception. *)
Theorem C02_probability_in_range : forall i t, instr_ok i -> prob01 t ->
  prob01 (fst (run i t)) /\ nrows (fst (run i t)) = nrows t /\
  forall k q, k < nrows t -> probability t k = Some q ->
    exists q', probability (fst (run i t)) k = Some q' /\ (0 <= q' <= q)%Q.
Proof. exact run_prob01. Qed.
Print Assumptions C02_probability_in_range.
Definition instr1 : instrument :=
  Container [Elem (Std filter_half) (fun _ => Ok (m3, ipos3, icoos3)); Container [Elem Baffle (fun _ => Ok (m3, ipos3, icoos3))];
             Elem (Stack filter_half [Std filter_array; Std filter_half]) (fun _ => Ok (m3, ipos3, icoos3))].
Example C02_example : instr_ok instr1 /\ prob01 t3 /\ snd (run instr1 t3) = None /\
  map (probability (fst (run instr1 t3))) [0; 1; 2] = [Some (1#12); Some 0; Some (1#80)]%Q.
Proof.
  split; [|split; [|vm_compute; split; reflexivity]].
  - assert (Hh : elem_ok filter_half).
    { split; [discriminate|]. split; [intros a b E; injection E as <- <-; split; discriminate|].
      intros t m outs v E H. injection E as <-. destruct H as [H|[H|[]]]; [injection H as <-; exact I|discriminate]. }
    assert (Ha : elem_ok filter_array).
    { split; [discriminate|]. split; [discriminate|].
      intros t m outs v E H. injection E as <-. destruct H as [H|[]]. injection H as <-. repeat constructor. }
    cbn [instr_ok opt_ok instr1]. pose proof Hh as (H1 & H2 & _). tauto.
  - intros i Hi. cbn in Hi. destruct i as [|[|[|i]]]; try lia; eexists; (split; [reflexivity|]); split; discriminate.
Qed.

(** C03. A factor below 0 or above 1 is rejected and the probability column stays as it was. *)
Theorem C03_bad_factor_rejected_partial : forall e f m ipos icoos t outs v c,
  meth e = Specific f -> f t m = Ok outs -> NoDup (map fst outs) -> In (Some "probability", v) outs ->
  In c (match v with Scalar c => [c] | Array l => l end) -> outside01 c ->
  length m = nrows t -> length ipos = nrows t -> length icoos = nrows t -> existsb (fun b => b) m = true ->
  In "probability" (colnames t) ->
  snd (process_photons e m ipos icoos t) = Some ValueError /\
  getcol (fst (process_photons e m ipos icoos t)) "probability" = getcol t "probability".
Proof. intros e f m ipos icoos t outs v c A B C D E F. apply outside01_bad in F. exact (bad_probability e f m ipos icoos t outs v c A B C D E F). Qed.
Print Assumptions C03_bad_factor_rejected_partial.
Definition amplifier : element :=
  {| meth := Specific (fun _ _ => Ok [(Some "thickness", Scalar (N 7)); (Some "probability", Array [N (1#2); N (11#10)])]);
     output_columns := []; loc_coos_name := None; id_col := None; id_num := 0 |}.
Example C03_example : snd (process_photons amplifier m3 ipos3 icoos3 t3) = Some ValueError.
Proof. reflexivity. Qed.

(** C03 fails for nan: comparisons with nan are false, so the factor is accepted and the photon's probability is lost. *)
Definition nan_filter : element :=
  {| meth := Specific (fun _ _ => Ok [(Some "probability", Array [N (1#2); nan])]);
     output_columns := []; loc_coos_name := None; id_col := None; id_num := 0 |}.
Theorem C03_nan_factor_refuted : exists e f outs v m ipos icoos t t',
  meth e = Specific f /\ f t m = Ok outs /\ In (Some "probability", v) outs /\ entry v m 2 = Some nan /\
  prob01 t /\ process_photons e m ipos icoos t = (t', None) /\ probability t' 2 = None.
Proof.
  exists nan_filter, (fun _ _ => Ok [(Some "probability", Array [N (1#2); nan])]), [(Some "probability", Array [N (1#2); nan])],
    (Array [N (1#2); nan]), m3, ipos3, icoos3, t3.
  eexists. repeat split; try reflexivity; [now left|apply C02_example].
Qed.
Print Assumptions C03_nan_factor_refuted.

(** C04. If no photon hits, nothing changes (elements other than baffles). *)
Theorem C04_no_hit_no_change : forall o ipos icoos t m,
  has_baffle o = false -> length m = nrows t -> length ipos = nrows t -> length icoos = nrows t ->
  (forall i, nth_error m i <> Some true) -> process o m ipos icoos t = (t, None).
Proof. exact process_nohit. Qed.
Print Assumptions C04_no_hit_no_change.
Example C04_example : process (Stack filter_half [Std filter_half]) [false; false; false] ipos3 icoos3 t3 = (t3, None).
Proof. reflexivity. Qed.

(** C10. A baffle sets the probability of all photons outside the opening to 0 and leaves the probability of the
    others alone; it changes nothing else but the position of photons that pass. *)
Theorem C10_baffle : forall m ipos icoos t t',
  wf t -> process Baffle m ipos icoos t = (t', None) ->
  nrows t' = nrows t /\ colnames t' = colnames t /\
  forall i, i < nrows t ->
    (nth_error m i = Some true ->
       getcell t' "pos" i = nth_error ipos i /\ forall c, c <> "pos" -> getcell t' c i = getcell t c i) /\
    (nth_error m i = Some false ->
       probability t' i = Some 0%Q /\ forall c, c <> "probability" -> getcell t' c i = getcell t c i).
Proof. exact baffle_spec. Qed.
Print Assumptions C10_baffle.
(** C10, blocked photons stay blocked *)
Theorem C10_blocked_forever : forall i t k, instr_ok i -> k < nrows t -> probability t k = Some 0%Q ->
  exists q, probability (fst (run i t)) k = Some q /\ (q == 0)%Q.
Proof. exact zero_stays. Qed.
Print Assumptions C10_blocked_forever.
Example C10_example : exists t', process Baffle m3 ipos3 icoos3 t3 = (t', None) /\
  map (probability t') [0; 1; 2] = [Some 1; Some 0; Some (1#4)]%Q.
Proof. eexists. vm_compute. split; reflexivity. Qed.

(** C11. The probability of a photon that hits a stack is multiplied with the factors of all layers (each layer sees
    the photon list as the previous layer left it, and the same hit pattern). *)
Theorem C11_stack_multiplies : forall e layers m ipos icoos t t' i q fs,
  wf t -> process (Stack e layers) m ipos icoos t = (t', None) -> nth_error m i = Some true ->
  prob_name_free e -> (forall o, In o layers -> exists e', o = Std e' /\ prob_name_free e') ->
  factors layers m ipos icoos i (fst (process (Std (stack_element e)) m ipos icoos t)) = map Some fs ->
  probability t i = Some q ->
  exists q', probability t' i = Some q' /\ (q' == q * fold_right Qmult 1 fs)%Q.
Proof. exact stack_spec. Qed.
Print Assumptions C11_stack_multiplies.
Example C11_example :
  let t0 := fst (process (Std (stack_element filter_half)) m3 ipos3 icoos3 t3) in
  let t' := fst (process (Stack filter_half [Std filter_array; Std filter_half]) m3 ipos3 icoos3 t3) in
  factors [Std filter_array; Std filter_half] m3 ipos3 icoos3 2 t0 = [Some (1#5); Some (1#2)]%Q /\
  map (probability t') [0; 1; 2] = [Some (1#6); Some (1#2); Some (1#40)]%Q.
Proof. vm_compute. split; reflexivity. Qed.
Theorem C11_stack_misses : forall e layers m ipos icoos t,
  existsb has_baffle layers = false -> changes_only m (ids_of (Stack e layers)) t (fst (process (Stack e layers) m ipos icoos t)).
Proof. intros e layers m ipos icoos t H. exact (sc_process m ipos icoos (Stack e layers) H t). Qed.
Print Assumptions C11_stack_misses.

(** C72 is false: an element with the one-photon-at-a-time interface that declares output columns cannot process a
    photon list that does not have these columns yet. For every such element and every photon list with a hit, the
    call raises. *)
Theorem C72_per_photon_output_refuted : forall e f m ipos icoos t c,
  meth e = PerPhoton f -> In c (output_columns e) -> ~ In c (colnames t) ->
  (forall d p en po outs, f d p en po = Ok outs -> 5 + length (output_columns e) <= length outs) ->
  existsb (fun b => b) m = true ->
  snd (process_photons e m ipos icoos t) <> None.
Proof. exact per_photon_missing_col. Qed.
Print Assumptions C72_per_photon_output_refuted.
Definition per_photon (out : list string) (extra : list cell) : element :=
  {| meth := PerPhoton (fun d p en po => Ok ([d; p; en; po; N (1#2)] ++ extra)); output_columns := out;
     loc_coos_name := None; id_col := None; id_num := 0 |}.
Example C72_example :
  snd (process_photons (per_photon ["order"] [N 1]) m3 ipos3 icoos3 t3) = Some KeyError /\
  snd (process_photons (per_photon [] []) m3 ipos3 icoos3 t3) = None.
Proof. vm_compute. split; reflexivity. Qed.

(** C73 is false: an exception in the middle of the processing leaves a modified photon list behind. *)
Definition half_then_bad : element :=
  {| meth := Specific (fun _ _ => Ok [(Some "energy", Scalar (N 42)); (Some "probability", Scalar (N 2))]);
     output_columns := []; loc_coos_name := None; id_col := None; id_num := 0 |}.
Theorem C73_exception_atomic_refuted : exists e m ipos icoos t t' er,
  wf t /\ process_photons e m ipos icoos t = (t', Some er) /\ getcol t' "energy" <> getcol t "energy".
Proof.
  exists half_then_bad, m3, ipos3, icoos3, t3. eexists. eexists. split; [apply C01_hit_example|].
  split; [reflexivity|]. vm_compute. discriminate.
Qed.
Print Assumptions C73_exception_atomic_refuted.

(** C05 for instruments made of the elements above: a container gives the photons to its elements one after the other. *)
Theorem C05_instrument : (forall t, run (Container []) t = (t, None)) /\ (forall x t, run (Container [x]) t = run x t) /\
  (forall a b t t' er, run (Container a) t = (t', er) -> run (Container (a ++ b)) t = match er with None => run (Container b) t' | Some _ => (t', er) end).
Proof.
  split; [reflexivity|]. split.
  - intros x t. cbn. unfold andthen. destruct (run x t) as [t' [er|]]; reflexivity.
  - induction a as [|x a IH]; intros b t t' er H.
    + cbn in H. injection H as <- <-. reflexivity.
    + cbn in *. unfold andthen in *. destruct (run x t) as [t1 [e1|]]; [injection H as <- <-; reflexivity|]. exact (IH b t1 t' er H).
Qed.
Print Assumptions C05_instrument.
Example C05_instrument_example : exists t', run instr1 t3 = (t', None) /\ map (probability t') [0; 1; 2] = [Some (1 * (1#2) * (1#3) * (1#2)); Some 0; Some ((1#4) * (1#2) * (1#5) * (1#2))]%Q.
Proof. eexists. split; [vm_compute; reflexivity|]. vm_compute. reflexivity. Qed.
