(** Lemmas for photons in any instrument: vectorized processing is processing of one photon at a time. *)
From Verif Require Import Instrument_Model.
From Verif Require Import Base_Proofs Vec_Proofs.
Open Scope R_scope.
Open Scope list_scope.

Definition of_rows (l : list lphoton) : ctable := CTable (map l_dir l) (map l_pos l) (map l_pol l) (map l_energy l) (map l_prob l).
Lemma rows_of_rows l : crows (of_rows l) = l.
Proof. induction l as [|[d x v e f] l IH]; [reflexivity|]. unfold crows, of_rows in *. cbn [c_dir c_pos c_pol c_energy c_prob map zip2] in *. now rewrite IH. Qed.
Lemma of_rows_rows t : rectangular t -> of_rows (crows t) = t.
Proof.
  destruct t as [a b c d e]. unfold rectangular, of_rows, crows. cbn [c_dir c_pos c_pol c_energy c_prob].
  revert b c d e. induction a as [|x a IH]; intros [|y b] [|z c] [|w d] [|u e] (H1 & H2 & H3 & H4); cbn [length] in *; try discriminate; [reflexivity|].
  specialize (IH b c d e ltac:(repeat split; congruence)). cbn [zip2 map l_dir l_pos l_pol l_energy l_prob].
  pose proof (f_equal c_dir IH) as E1. pose proof (f_equal c_pos IH) as E2. pose proof (f_equal c_pol IH) as E3. pose proof (f_equal c_energy IH) as E4. pose proof (f_equal c_prob IH) as E5.
  cbn [c_dir c_pos c_pol c_energy c_prob] in *. now rewrite E1, E2, E3, E4, E5.
Qed.
Lemma of_rows_rect l : rectangular (of_rows l).
Proof. unfold rectangular, of_rows. cbn [c_dir c_pos c_pol c_energy c_prob]. now rewrite !map_length. Qed.
Lemma stack_rows l l' : stack (of_rows l) (of_rows l') = of_rows (l ++ l').
Proof. unfold stack, of_rows. cbn [c_dir c_pos c_pol c_energy c_prob]. now rewrite !map_app. Qed.
Lemma crows_length t : rectangular t -> length (crows t) = length (c_dir t).
Proof. intros H. rewrite <- (of_rows_rows t H) at 2. unfold of_rows. cbn [c_dir]. now rewrite map_length. Qed.
Lemma crows_stack t t' : rectangular t -> rectangular t' -> crows (stack t t') = crows t ++ crows t' /\ rectangular (stack t t').
Proof.
  intros H H'. rewrite <- (of_rows_rows t H) at 1 3. rewrite <- (of_rows_rows t' H') at 1 3. rewrite stack_rows, rows_of_rows. split; [reflexivity|apply of_rows_rect].
Qed.

Definition dr0 : draw := Draw 0 0 0 0 0 0 0.
Fixpoint each_row (p : part) (drs : list draw) (rows : list lphoton) : result (list lphoton) :=
  match rows with
  | [] => Ok []
  | ph :: rows =>
      if draws_for p ph then
        match drs with
        | dr :: drs => bind (one p dr ph) (fun a => bind (each_row p drs rows) (fun r => Ok (a :: r)))
        | [] => Err ValueError
        end
      else bind (one p dr0 ph) (fun a => bind (each_row p drs rows) (fun r => Ok (a :: r)))
  end.

Lemma brewster_err m minv rs rp d v e : brewster m minv rs rp d v = Err e -> e = ValueError.
Proof.
  unfold brewster. destruct (unit4 d); [|discriminate]. destruct (e_x m); [|discriminate]. destruct (Brewster_Model.reflect m minv d); [|discriminate].
  destruct (unit3 _); [|discriminate]. cbv zeta. destruct (Rltb _ _); [congruence|discriminate].
Qed.
Lemma effect_err p dr ph d q loc e : effect p dr ph d q loc = Err e -> e = ValueError.
Proof.
  destruct p; cbn [effect]; try discriminate.
  - destruct (perfect_lens _ _ _ _ _ _) as [[o pr]|]; discriminate.
  - destruct (thin_lens _ _ _ _ _) as [[o pr]|]; discriminate.
  - destruct (l_pos ph); discriminate.
  - destruct on; discriminate.
  - destruct (_ || _); [congruence|discriminate].
  - destruct (l_pol ph); [|discriminate]. destruct (brewster _ _ _ _ _ _) as [r|e'] eqn:E; cbn [bind]; [discriminate|]. apply brewster_err in E. congruence.
Qed.
Lemma one_err p dr ph e : one p dr ph = Err e -> e = ValueError.
Proof.
  assert (G : forall hit : lphoton -> option (v3 * v3 * (R * R)), match hit ph with None => Ok ph | Some (d, q, loc) => bind (effect p dr ph d q loc) (fun o =>
    if bad_factor (snd o) then Err ValueError else Ok (LPhoton (fst (fst o)) (Some q) (snd (fst o)) (l_energy ph) (times (l_prob ph) (snd o)))) end = Err e -> e = ValueError).
  { intros hit. destruct (hit ph) as [[[d q] loc]|]; [|discriminate]. destruct (effect p dr ph d q loc) as [o|e'] eqn:E; cbn [bind].
    - destruct (bad_factor (snd o)); [congruence|discriminate].
    - apply effect_err in E. congruence. }
  destruct p; cbn [one surface]; try apply (G (meets m)); try apply (G (meets_tube m minv lim0 lim1)).
  - discriminate.
  - destruct (_ || _); [congruence|discriminate].
  - discriminate.
Qed.
Lemma one_dr p dr dr' ph : draws_for p ph = false -> one p dr ph = one p dr' ph.
Proof.
  intros H. destruct p; cbn [one surface draws_for] in *; try reflexivity; try (destruct (meets m ph) as [[[d q] loc]|]; try reflexivity; discriminate).
Qed.
Lemma each_err p : forall rows drs e, each_row p drs rows = Err e -> e = ValueError.
Proof.
  induction rows as [|ph rows IH]; intros drs e; cbn [each_row]; [discriminate|].
  assert (G : forall dr drs, bind (one p dr ph) (fun a => bind (each_row p drs rows) (fun r => Ok (a :: r))) = Err e -> e = ValueError).
  { intros dr drs'. destruct (one p dr ph) as [a|e'] eqn:E; cbn [bind]; [|apply one_err in E; congruence].
    destruct (each_row p drs' rows) as [r|e'] eqn:E'; cbn [bind]; [discriminate|]. apply IH in E'. congruence. }
  destruct (draws_for p ph); [|apply G]. destruct drs; [congruence|apply G].
Qed.

(** ** an element with geometry *)
Section Vector.
Variable p : part.
Variable hit : lphoton -> option (v3 * v3 * (R * R)).
Hypothesis GM : surface p = Some hit.
Hypothesis NB : forall m', p <> PBaffle m'.
Let inter rows := map hit rows.
Let mask rows := map is_some (inter rows).
Let values drs rows := zip2 (fun dr hp => effect p dr (snd hp) (fst (fst (hit_data (fst hp)))) (snd (fst (hit_data (fst hp)))) (snd (hit_data (fst hp)))) drs
  (combine (select (mask rows) (inter rows)) (select (mask rows) rows)).

Lemma draws_meets ph : draws_for p ph = is_some (hit ph).
Proof. unfold draws_for. rewrite GM. destruct p; try reflexivity. now destruct (NB m). Qed.
Lemma one_meets dr ph : one p dr ph = match hit ph with None => Ok ph | Some (d, q, loc) => bind (effect p dr ph d q loc) (fun o =>
    if bad_factor (snd o) then Err ValueError else Ok (LPhoton (fst (fst o)) (Some q) (snd (fst o)) (l_energy ph) (times (l_prob ph) (snd o)))) end.
Proof. destruct p; cbn [one]; rewrite ?GM; try reflexivity; [now destruct (NB m)|discriminate GM|discriminate GM]. Qed.
Lemma select_hits rows : length (select (mask rows) (inter rows)) = hits_of p rows.
Proof.
  unfold hits_of, mask, inter. induction rows as [|ph rows IH]; [reflexivity|]. cbn [map select filter]. rewrite draws_meets.
  destruct (is_some (hit ph)); cbn [length]; now rewrite IH.
Qed.
(** everything is fine *)
Lemma values_ok : forall rows drs outs, length drs = hits_of p rows -> sequence (values drs rows) = Ok outs -> existsb bad_factor (map snd outs) = false ->
  each_row p drs rows = Ok (crows (CTable (put (mask rows) (map l_dir rows) (map (fun o => fst (fst o)) outs))
    (put (mask rows) (map l_pos rows) (map (fun h => Some (snd (fst (hit_data h)))) (select (mask rows) (inter rows))))
    (put (mask rows) (map l_pol rows) (map (fun o => snd (fst o)) outs)) (map l_energy rows)
    (put (mask rows) (map l_prob rows) (zip2 times (select (mask rows) (map l_prob rows)) (map snd outs))))).
Proof.
  unfold values, mask, inter, hits_of. induction rows as [|ph rows IH]; intros drs outs L S B; [reflexivity|].
  cbn [map select each_row filter] in *. rewrite draws_meets in *. rewrite !one_meets in *. destruct (hit ph) as [[[d q] loc]|] eqn:M; cbn [is_some] in *.
  - destruct drs as [|dr drs]; [discriminate|]. cbn [length] in L. rewrite one_meets, M. cbn [combine zip2 sequence fst snd hit_data] in S.
    destruct (effect p dr ph d q loc) as [o|e] eqn:E; [|discriminate]. cbn [bind] in S |- *.
    destruct (sequence _) as [outs'|e] eqn:S'; [|discriminate]. cbn [bind] in S. assert (outs = o :: outs') as -> by congruence.
    cbn [map existsb] in B. apply orb_false_iff in B. destruct B as [B B']. rewrite B.
    rewrite (IH drs outs') by (congruence || assumption || (injection L; auto)). cbn [bind map put zip2 hit_data fst snd].
    unfold crows at 2. cbn [c_dir c_pos c_pol c_energy c_prob zip2]. reflexivity.
  - rewrite (IH drs outs L S B). cbn [bind put]. unfold crows at 2. cbn [c_dir c_pos c_pol c_energy c_prob zip2]. now destruct ph.
Qed.
(** errors *)
Lemma values_bad : forall rows drs, length drs = hits_of p rows ->
  (forall outs, sequence (values drs rows) = Ok outs -> existsb bad_factor (map snd outs) = true) -> each_row p drs rows = Err ValueError.
Proof.
  unfold values, mask, inter, hits_of. induction rows as [|ph rows IH]; intros drs L S.
  - specialize (S [] ltac:(destruct drs; reflexivity)). discriminate.
  - cbn [map select each_row filter] in *. rewrite draws_meets in *. destruct (hit ph) as [[[d q] loc]|] eqn:M; cbn [is_some] in *.
    + destruct drs as [|dr drs]; [discriminate|]. cbn [length] in L. rewrite one_meets, M. cbn [combine zip2 sequence fst snd hit_data] in S.
      destruct (effect p dr ph d q loc) as [o|e] eqn:E; cbn [bind] in *; [|apply effect_err in E; congruence].
      destruct (bad_factor (snd o)) eqn:B; [reflexivity|]. cbn [bind]. rewrite IH; [reflexivity|congruence|].
      intros outs O. rewrite O in S. cbn [bind] in S. specialize (S _ eq_refl). cbn [map existsb] in S. now rewrite B in S.
    + rewrite one_meets, M. cbn [bind]. now rewrite (IH drs L S).
Qed.
Lemma put_len {A} : forall mk (l vals : list A), length (put mk l vals) = length l.
Proof. induction mk as [|b mk IH]; intros [|c l] [|v vals]; cbn; try reflexivity; try (destruct b; cbn; try reflexivity; now rewrite IH). Qed.
Lemma process_vector drs rows : length drs = hits_of p rows -> process p drs (of_rows rows) = bind (each_row p drs rows) (fun r => Ok (of_rows r)).
Proof.
  intros L. set (T := process p drs (of_rows rows)).
  assert (E : T = if negb (existsb (fun b => b) (mask rows)) then Ok (of_rows rows) else
     if negb (Nat.eqb (length drs) (length (select (mask rows) (inter rows)))) then Err ValueError else
     bind (sequence (values drs rows)) (fun outs => if existsb bad_factor (map snd outs) then Err ValueError else
       Ok (CTable (put (mask rows) (map l_dir rows) (map (fun o => fst (fst o)) outs))
         (put (mask rows) (map l_pos rows) (map (fun h => Some (snd (fst (hit_data h)))) (select (mask rows) (inter rows))))
         (put (mask rows) (map l_pol rows) (map (fun o => snd (fst o)) outs)) (map l_energy rows)
         (put (mask rows) (map l_prob rows) (zip2 times (select (mask rows) (map l_prob rows)) (map snd outs)))))).
  { unfold T, process, values, mask, inter. rewrite rows_of_rows. unfold of_rows. cbn [c_dir c_pos c_pol c_energy c_prob].
    destruct p; cbn [surface] in *; try discriminate GM; try (now destruct (NB m)); injection GM as <-; reflexivity. }
  rewrite E. clear E T. destruct (existsb (fun b => b) (mask rows)) eqn:X; cbn [negb].
  - rewrite select_hits, L, Nat.eqb_refl. cbn [negb]. destruct (sequence (values drs rows)) as [outs|e] eqn:S; cbn [bind].
    + destruct (existsb bad_factor (map snd outs)) eqn:B.
      * rewrite values_bad by (try exact L; intros o O; congruence). reflexivity.
      * rewrite (values_ok rows drs outs L S B). cbn [bind]. f_equal. symmetry. apply of_rows_rows. unfold rectangular. cbn [c_dir c_pos c_pol c_energy c_prob]. now rewrite !put_len, !map_length.
    + rewrite values_bad by (try exact L; intros o O; congruence). cbn [bind]. f_equal.
      revert S. unfold values. generalize (combine (select (mask rows) (inter rows)) (select (mask rows) rows)). clear. revert drs.
      induction drs as [|dr drs IH]; intros [|hp l]; cbn [zip2 sequence]; try discriminate. destruct (effect p dr _ _ _ _) as [o|e'] eqn:E; cbn [bind].
      * destruct (sequence _) eqn:S; cbn [bind]; [discriminate|]. intros H. apply (IH l). congruence.
      * intros H. apply effect_err in E. congruence.
  - assert (G : each_row p drs rows = Ok rows).
    { clear L. revert X. unfold mask, inter. induction rows as [|ph l IH]; [reflexivity|]. cbn [map existsb]. intros X. apply orb_false_iff in X. destruct X as [X1 X2].
      cbn [each_row]. rewrite draws_meets, X1, one_meets. destruct (hit ph); [discriminate|]. cbn [bind]. now rewrite (IH X2). }
    now rewrite G.
Qed.
End Vector.

Lemma zip2_map {A B C D} (f : B -> C -> D) (g : A -> B) (h : A -> C) l : zip2 f (map g l) (map h l) = map (fun x => f (g x) (h x)) l.
Proof. induction l; cbn; congruence. Qed.
Lemma process_each p drs rows : length drs = hits_of p rows -> process p drs (of_rows rows) = bind (each_row p drs rows) (fun r => Ok (of_rows r)).
Proof.
  intros L. destruct p as [m off f refl rn|m f|c tr m g per|m ip pp|m on|m f|m minv|m|m|f|dist|m minv la lb];
    try (apply (process_vector _ (meets m)); [reflexivity|intros m'; discriminate|exact L]).
  - (* baffle *)
    unfold process. cbn [surface]. rewrite rows_of_rows. unfold of_rows at 1 2 3 4 5. cbn [c_dir c_pos c_pol c_energy c_prob]. clear L.
    revert drs. induction rows as [|ph rows IH]; intros drs; [reflexivity|]. specialize (IH drs). cbn [each_row draws_for one bind].
    destruct (each_row (PBaffle m) drs rows) as [r|e]; cbn [bind] in IH |- *; [|discriminate].
    assert (I : CTable (map l_dir rows) (put (map is_some (map (meets m) rows)) (map l_pos rows) (map (fun h => Some (snd (fst (hit_data h)))) (select (map is_some (map (meets m) rows)) (map (meets m) rows))))
      (map l_pol rows) (map l_energy rows) (put (map negb (map is_some (map (meets m) rows))) (map l_prob rows) (map (fun _ => Some 0) (filter negb (map is_some (map (meets m) rows))))) = of_rows r) by congruence.
    clear IH. pose proof (f_equal c_dir I) as E1. pose proof (f_equal c_pos I) as E2. pose proof (f_equal c_pol I) as E3. pose proof (f_equal c_energy I) as E4. pose proof (f_equal c_prob I) as E5.
    unfold of_rows in *. cbn [c_dir c_pos c_pol c_energy c_prob map] in *. f_equal.
    destruct (meets m ph) as [[[d q] loc]|]; cbn [is_some negb put select filter map hit_data fst snd l_dir l_pos l_pol l_energy l_prob];
      rewrite E1, E3, E4; f_equal; f_equal; assumption.
  - (* filter for all *)
    assert (E : process (PGlobal f) drs (of_rows rows) = if existsb (fun f => Rltb f 0) (map (fun x => f (l_energy x)) rows) || existsb (fun f => Rltb 1 f) (map (fun x => f (l_energy x)) rows) then Err ValueError
      else Ok (CTable (map l_dir rows) (map l_pos rows) (map l_pol rows) (map l_energy rows) (map (fun x => times (l_prob x) (Some (f (l_energy x)))) rows))).
    { unfold process, of_rows. cbn [c_dir c_pos c_pol c_energy c_prob]. rewrite map_map, zip2_map. reflexivity. }
    rewrite E. clear E. clear L. revert drs. induction rows as [|ph rows IH]; intros drs; [reflexivity|].
    specialize (IH drs). cbn [each_row draws_for one surface map existsb bind]. destruct (Rltb (f (l_energy ph)) 0) eqn:A; [reflexivity|]. destruct (Rltb 1 (f (l_energy ph))) eqn:B.
    { cbn [orb bind]. rewrite orb_true_r. reflexivity. }
    cbn [orb bind]. destruct (_ || _).
    + destruct (each_row (PGlobal f) drs rows) as [r|e] eqn:R; cbn [bind] in *; [discriminate|]. congruence.
    + destruct (each_row (PGlobal f) drs rows) as [r|e]; cbn [bind] in *; [|discriminate].
      assert (I : CTable (map l_dir rows) (map l_pos rows) (map l_pol rows) (map l_energy rows) (map (fun x => times (l_prob x) (Some (f (l_energy x)))) rows) = of_rows r).
      { congruence. }
      f_equal. pose proof (f_equal c_dir I) as E1. pose proof (f_equal c_pos I) as E2. pose proof (f_equal c_pol I) as E3. pose proof (f_equal c_energy I) as E4. pose proof (f_equal c_prob I) as E5.
      unfold of_rows in *. cbn [c_dir c_pos c_pol c_energy c_prob map l_dir l_pos l_pol l_energy l_prob] in *. now rewrite E1, E2, E3, E4, E5.
  - (* propagator *)
    assert (E : process (PPropagate dist) drs (of_rows rows) = Ok (CTable (map l_dir rows) (map (fun x => match l_pos x with Some x0 => match l_dir x with Some v => Some (add3 x0 (scale3 dist v)) | None => None end | None => None end) rows) (map l_pol rows) (map l_energy rows) (map l_prob rows))).
    { unfold process, of_rows. cbn [c_dir c_pos c_pol c_energy c_prob]. rewrite zip2_map. reflexivity. }
    rewrite E. clear E. clear L. revert drs. induction rows as [|ph rows IH]; intros drs; [reflexivity|].
    specialize (IH drs). cbn [each_row draws_for one surface bind]. destruct (each_row (PPropagate dist) drs rows) as [r|e]; cbn [bind] in *; [|discriminate].
    assert (I : CTable (map l_dir rows) (map (fun x => match l_pos x with Some x0 => match l_dir x with Some v => Some (add3 x0 (scale3 dist v)) | None => None end | None => None end) rows) (map l_pol rows) (map l_energy rows) (map l_prob rows) = of_rows r) by congruence.
    f_equal. pose proof (f_equal c_dir I) as E1. pose proof (f_equal c_pos I) as E2. pose proof (f_equal c_pol I) as E3. pose proof (f_equal c_energy I) as E4. pose proof (f_equal c_prob I) as E5.
    unfold of_rows in *. cbn [c_dir c_pos c_pol c_energy c_prob map l_dir l_pos l_pol l_energy l_prob] in *. now rewrite E1, E2, E3, E4, E5.
  - (* tube *) apply (process_vector _ (meets_tube m minv la lb)); [reflexivity|intros m'; discriminate|exact L].
Qed.
Lemma process_table p drs t : rectangular t -> length drs = hits_of p (crows t) ->
  process p drs t = bind (each_row p drs (crows t)) (fun r => Ok (of_rows r)).
Proof. intros H L. rewrite <- (of_rows_rows t H) at 1. now apply process_each. Qed.

(** ** rows *)
Lemma each_nth p : forall rows drs out, each_row p drs rows = Ok out -> length out = length rows /\
  forall i ph, nth_error rows i = Some ph -> exists ph', nth_error out i = Some ph' /\
    (draws_for p ph = false -> forall dr, one p dr ph = Ok ph') /\
    (draws_for p ph = true -> exists dr, nth_error drs (hits_of p (firstn i rows)) = Some dr /\ one p dr ph = Ok ph').
Proof.
  unfold hits_of. induction rows as [|a rows IH]; intros drs out H; cbn [each_row] in H.
  { assert (out = []) as -> by congruence. split; [reflexivity|]. intros [|i]; discriminate. }
  destruct (draws_for p a) eqn:D.
  - destruct drs as [|dr drs]; [discriminate|]. destruct (one p dr a) as [b|e] eqn:O; [|discriminate]. cbn [bind] in H.
    destruct (each_row p drs rows) as [r|e] eqn:R; [|discriminate]. cbn [bind] in H. assert (out = b :: r) as -> by congruence.
    destruct (IH _ _ R) as [L N]. split; [cbn; congruence|]. intros [|i] ph P; cbn [nth_error] in *.
    + assert (a = ph) as -> by congruence. exists b. split; [reflexivity|]. rewrite D. split; [discriminate|]. intros _. exists dr. now split.
    + destruct (N i ph P) as (ph' & P' & A & B). exists ph'. split; [exact P'|]. split; [exact A|]. intros D'. destruct (B D') as (dr' & Q & O'). exists dr'. split; [|exact O'].
      cbn [firstn filter]. rewrite D. cbn [length nth_error]. exact Q.
  - destruct (one p dr0 a) as [b|e] eqn:O; [|discriminate]. cbn [bind] in H.
    destruct (each_row p drs rows) as [r|e] eqn:R; [|discriminate]. cbn [bind] in H. assert (out = b :: r) as -> by congruence.
    destruct (IH _ _ R) as [L N]. split; [cbn; congruence|]. intros [|i] ph P; cbn [nth_error] in *.
    + assert (a = ph) as -> by congruence. exists b. split; [reflexivity|]. rewrite D. split; [|discriminate]. intros _ dr. now rewrite (one_dr p dr dr0 ph D).
    + destruct (N i ph P) as (ph' & P' & A & B). exists ph'. split; [exact P'|]. split; [exact A|]. intros D'. destruct (B D') as (dr' & Q & O'). exists dr'. split; [|exact O'].
      cbn [firstn filter]. now rewrite D.
Qed.
Lemma hits_app p a b : hits_of p (a ++ b) = (hits_of p a + hits_of p b)%nat.
Proof. unfold hits_of. now rewrite filter_app, app_length. Qed.
Lemma each_app p : forall r1 d1 d2 r2, length d1 = hits_of p r1 ->
  each_row p (d1 ++ d2) (r1 ++ r2) = bind (each_row p d1 r1) (fun a => bind (each_row p d2 r2) (fun b => Ok (a ++ b))).
Proof.
  unfold hits_of. induction r1 as [|ph r1 IH]; intros d1 d2 r2 L; cbn [each_row app filter] in *.
  { destruct d1; [|discriminate]. cbn [app bind]. now destruct (each_row p d2 r2). }
  destruct (draws_for p ph); cbn [length] in L.
  - destruct d1 as [|dr d1]; [discriminate|]. cbn [app]. destruct (one p dr ph) as [a|e]; cbn [bind]; [|reflexivity].
    rewrite IH by (injection L; auto). destruct (each_row p d1 r1); cbn [bind]; [|reflexivity]. now destruct (each_row p d2 r2).
  - destruct (one p dr0 ph) as [a|e]; cbn [bind]; [|reflexivity]. rewrite IH by exact L. destruct (each_row p d1 r1); cbn [bind]; [|reflexivity]. now destruct (each_row p d2 r2).
Qed.
