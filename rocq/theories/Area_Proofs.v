(** Lemmas for effective areas of instruments. *)
From Verif Require Import Area_Model.
From Verif Require Import Base_Proofs Vec_Proofs Instrument_Proofs Instrument_Proofs2 Analysis_Proofs.
Open Scope R_scope.
Open Scope list_scope.

Definition lower (a b : option R) : Prop := forall b', b = Some b' -> b' = 0 \/ exists a', a = Some a' /\ (0 <= a' -> 0 <= b' <= a').
Lemma lower_refl a : lower a a.
Proof. intros b' ->. right. exists b'. split; [reflexivity|lra]. Qed.
Lemma lower_trans a b c : lower a b -> lower b c -> lower a c.
Proof.
  intros A B c' C. destruct (B c' C) as [Z|(b' & Eb & Hb)]; [now left|]. destruct (A b' Eb) as [Z|(a' & Ea & Ha)].
  - left. subst b'. specialize (Hb ltac:(lra)). lra.
  - right. exists a'. split; [exact Ea|]. intros N. specialize (Ha N). specialize (Hb ltac:(lra)). lra.
Qed.
Lemma times_lower a f : bad_factor f = false -> lower a (times a f).
Proof.
  intros B b' E. destruct a as [a|], f as [f|]; cbn [times] in E; try discriminate. right. exists a. split; [reflexivity|]. assert (b' = a * f) as -> by congruence.
  cbn [bad_factor] in B. apply orb_false_iff in B. destruct B as [B1 B2]. apply Rltb_false in B1. apply Rltb_false in B2. intros N. split; nra.
Qed.
Lemma one_lower p dr ph ph' : one p dr ph = Ok ph' -> lower (l_prob ph) (l_prob ph').
Proof.
  intros H.
  assert (G : forall hit : lphoton -> option (v3 * v3 * (R * R)), match hit ph with None => Ok ph | Some (d, q, loc) => bind (effect p dr ph d q loc) (fun o =>
    if bad_factor (snd o) then Err ValueError else Ok (LPhoton (fst (fst o)) (Some q) (snd (fst o)) (l_energy ph) (times (l_prob ph) (snd o)))) end = Ok ph' -> lower (l_prob ph) (l_prob ph')).
  { intros hit X. destruct (hit ph) as [[[d q] loc]|].
    - destruct (effect p dr ph d q loc) as [o|]; cbn [bind] in X; [|discriminate]. destruct (bad_factor (snd o)) eqn:B; [discriminate|].
      assert (l_prob ph' = times (l_prob ph) (snd o)) as -> by (apply (f_equal (fun r => match r with Ok a => l_prob a | Err _ => None end)) in X; cbn [l_prob] in X; congruence). now apply times_lower.
    - assert (ph = ph') as <- by congruence. apply lower_refl. }
  destruct p as [m off f refl rn|m f|c tr m g per|m ip pp|m on|m f|m minv|m|m|f|dist|m minv la lb]; cbn [one surface] in H; try (exact (G _ H)).
  - destruct (meets m ph) as [[[d q] loc]|]; apply (f_equal (fun r => match r with Ok a => l_prob a | Err _ => None end)) in H; cbn [l_prob] in H; rewrite <- H; [apply lower_refl|]. intros b' E. left. congruence.
  - destruct (Rltb (f (l_energy ph)) 0 || Rltb 1 (f (l_energy ph))) eqn:B; [discriminate|]. apply (f_equal (fun r => match r with Ok a => l_prob a | Err _ => None end)) in H. cbn [l_prob] in H. rewrite <- H. apply times_lower. exact B.
  - apply (f_equal (fun r => match r with Ok a => l_prob a | Err _ => None end)) in H. cbn [l_prob] in H. rewrite <- H. apply lower_refl.
Qed.
Lemma each_lower p : forall rows drs out, each_row p drs rows = Ok out -> Forall2 lower (map l_prob rows) (map l_prob out).
Proof.
  induction rows as [|a rows IH]; intros drs out H; cbn [each_row] in H.
  { assert (out = []) as -> by congruence. constructor. }
  assert (G : forall dr drs', bind (one p dr a) (fun a => bind (each_row p drs' rows) (fun r => Ok (a :: r))) = Ok out -> Forall2 lower (map l_prob (a :: rows)) (map l_prob out)).
  { intros dr drs' X. destruct (one p dr a) as [b|] eqn:O; cbn [bind] in X; [|discriminate]. destruct (each_row p drs' rows) as [r|] eqn:E; cbn [bind] in X; [|discriminate].
    assert (out = b :: r) as -> by congruence. cbn [map]. constructor; [now apply (one_lower p dr)|now apply (IH drs')]. }
  destruct (draws_for p a); [destruct drs as [|dr drs]; [discriminate|]|]; now apply G in H.
Qed.
Lemma lower_list_trans : forall l1 l2 l3, Forall2 lower l1 l2 -> Forall2 lower l2 l3 -> Forall2 lower l1 l3.
Proof. intros l1 l2 l3 H. revert l3. induction H as [|a b l1 l2 H F IH]; intros l3 G; inversion G; subst; constructor; [now apply (lower_trans a b)|now apply IH]. Qed.
Lemma prob_rows t : rectangular t -> c_prob t = map l_prob (crows t).
Proof. intros R. rewrite <- (of_rows_rows t R) at 1. reflexivity. Qed.
Lemma lower_list_refl : forall l, Forall2 lower l l.
Proof. induction l; constructor; [apply lower_refl|assumption]. Qed.
Lemma run_lower : forall ps drs t t', rectangular t -> run ps drs t = Ok t' -> rectangular t' /\ Forall2 lower (c_prob t) (c_prob t').
Proof.
  induction ps as [|p ps IH]; intros drs t t' R H; cbn [run] in H.
  - assert (t = t') as <- by congruence. split; [exact R|apply lower_list_refl].
  - destruct (process p (hd [] drs) t) as [u|] eqn:U; cbn [bind] in H; [|discriminate]. pose proof (process_rect p _ t u R U) as RU.
    destruct (IH _ u t' RU H) as [R' L]. split; [exact R'|]. refine (lower_list_trans _ _ _ _ L).
    destruct (process_ok_rows p _ t u R U) as (drs' & rows' & _ & E & ->). rewrite (prob_rows t R). unfold of_rows. cbn [c_prob]. exact (each_lower p _ _ _ E).
Qed.
Definition good (pr : option R) : Prop := exists p, pr = Some p /\ 0 <= p <= 1.
Lemma lower_good : forall l l', Forall2 lower l l' -> Forall good l -> Forall (fun pr => pr <> None) l' -> Forall good l'.
Proof.
  induction 1 as [|a b l l' H F IH]; intros G N; constructor; inversion G as [|? ? G1 G2]; inversion N as [|? ? N1 N2]; subst; [|now apply IH].
  destruct b as [b|]; [|congruence]. exists b. split; [reflexivity|]. destruct (H b eq_refl) as [->|(a' & -> & A)]; [lra|]. destruct G1 as (x & X & Y). assert (a' = x) as -> by congruence. specialize (A ltac:(lra)). lra.
Qed.
Lemma prob_lower : forall l l', Forall2 lower l l' -> Forall good l -> Forall (fun pr => pr <> None) l' -> forall orders o, 0 <= prob_in (zip2 (fun o pr => AP o (value_of pr) None 0) orders l') o <= prob_in (zip2 (fun o pr => AP o (value_of pr) None 0) orders l) o.
Proof.
  induction 1 as [|a b l l' H F IH]; intros G N orders o.
  { destruct orders; cbn; unfold prob_in; cbn; lra. }
  destruct orders as [|c orders]; [unfold prob_in; cbn; lra|]. cbn [zip2]. rewrite !prob_cons. cbn [a_order a_prob]. inversion G as [|? ? G1 G2]; inversion N as [|? ? N1 N2]; subst. specialize (IH G2 N2 orders o).
  destruct (Z.eqb c o); [|lra]. destruct b as [b|]; [|congruence]. cbn [value_of]. destruct G1 as (x & -> & Y). cbn [value_of]. destruct (H b eq_refl) as [->|(a' & E & A)]; [lra|]. assert (a' = x) as -> by congruence. specialize (A ltac:(lra)). lra.
Qed.
Lemma map_le {A} (f g : A -> R) : (forall x, f x <= g x) -> forall l, Forall2 Rle (map f l) (map g l).
Proof. intros H. induction l; constructor; [apply H|assumption]. Qed.
Lemma factor_pos A n : 0 <= A -> n <> 0%nat -> 0 <= A / INR n.
Proof. intros P N. unfold Rdiv. apply Rmult_le_pos; [exact P|]. left. apply Rinv_0_lt_compat. apply lt_0_INR. destruct n; [congruence|apply Nat.lt_0_succ]. Qed.
Lemma areas_lower ps drs t t' orders labels n A : rectangular t -> run ps drs t = Ok t' -> sensible t -> no_nan t' -> n <> 0%nat -> 0 <= A ->
  exists a a', effectivearea (analysed orders t) labels n A = map Some a /\ effectivearea (analysed orders t') labels n A = map Some a' /\ Forall (fun x => 0 <= x) a' /\ Forall2 Rle a' a /\ sensible t'.
Proof.
  intros R H S NN N P. destruct (run_lower ps drs t t' R H) as [R' L]. pose proof (factor_pos A n P N) as K.
  exists (map (fun o => A / INR n * prob_in (analysed orders t) o) labels), (map (fun o => A / INR n * prob_in (analysed orders t') o) labels).
  split; [now apply effectivearea_some|]. split; [now apply effectivearea_some|]. split; [|split].
  - apply Forall_forall. intros x X. apply in_map_iff in X. destruct X as (o & <- & _). apply Rmult_le_pos; [exact K|]. apply (prob_lower _ _ L S NN orders o).
  - apply map_le. intros o. apply Rmult_le_compat_l; [exact K|]. apply (prob_lower _ _ L S NN orders o).
  - exact (lower_good _ _ L S NN).
Qed.
Lemma zip_app {A B C} (f : A -> B -> C) : forall l1 m1 l2 m2, length l1 = length m1 -> zip2 f (l1 ++ l2) (m1 ++ m2) = zip2 f l1 m1 ++ zip2 f l2 m2.
Proof. induction l1 as [|a l1 IH]; intros [|b m1] l2 m2 H; try discriminate; [reflexivity|]. cbn [app zip2]. rewrite IH by (cbn in H; congruence). reflexivity. Qed.
Lemma prob_app a b o : prob_in (a ++ b) o = prob_in a o + prob_in b o.
Proof. induction a as [|p a IH]; [cbn [app]; unfold prob_in at 2; cbn [filter map]; change (Rsum []) with 0; ring|]. cbn [app]. rewrite !prob_cons, IH. lra. Qed.
Lemma total_bound : forall l orders (labels : list Z), Forall good l -> length orders = length l ->
  Rsum (map a_prob (filter (fun p => existsb (Z.eqb (a_order p)) labels) (zip2 (fun o pr => AP o (value_of pr) None 0) orders l))) <= INR (length l).
Proof.
  induction l as [|a l IH]; intros [|o orders] labels G L; try discriminate; [cbn; lra|]. inversion G as [|? ? (x & -> & X) G2]; subst. cbn [length] in L. specialize (IH orders labels G2 ltac:(congruence)).
  cbn [zip2 filter a_order]. cbn [length]. rewrite S_INR. destruct (existsb _ labels); [cbn [map a_prob value_of]; rewrite Rsum_cons; lra|lra].
Qed.
Lemma areas_bound ps drs t t' orders labels A : rectangular t -> run ps drs t = Ok t' -> sensible t -> no_nan t' -> c_dir t <> [] -> 0 <= A -> length orders = length (c_dir t) -> NoDup labels ->
  exists a', effectivearea (analysed orders t') labels (length (c_dir t)) A = map Some a' /\ Forall (fun x => 0 <= x) a' /\ Rsum a' <= A.
Proof.
  intros R H S NN NE P L ND. assert (N : length (c_dir t) <> 0%nat) by (destruct (c_dir t); [congruence|discriminate]).
  destruct (areas_lower ps drs t t' orders labels (length (c_dir t)) A R H S NN N P) as (a & a' & _ & E' & PO & _ & S'). exists a'. split; [exact E'|]. split; [exact PO|].
  destruct (area_total (analysed orders t') labels (length (c_dir t)) A N ND) as (l & EL & _ & T). assert (l = a') as ->.
  { rewrite E' in EL. clear - EL. revert l EL. induction a' as [|x a' IH]; intros [|y l] EL; try discriminate; [reflexivity|]. cbn [map] in EL. injection EL as E1 E2. f_equal; [congruence|now apply IH]. }
  rewrite T. destruct (run_lower ps drs t t' R H) as [R' LW]. assert (LEN : length (c_prob t') = length (c_dir t)).
  { assert (length (c_prob t) = length (c_prob t')) as <- by (clear - LW; induction LW; cbn; congruence). destruct R as (_ & _ & _ & R4). exact R4. }
  pose proof (total_bound (c_prob t') orders labels S' ltac:(congruence)) as B. unfold analysed. rewrite LEN in B. set (s := Rsum _) in *. assert (I : 0 < INR (length (c_dir t))) by (apply lt_0_INR; destruct (c_dir t); [congruence|apply Nat.lt_0_succ]).
  apply Rle_trans with (A / INR (length (c_dir t)) * INR (length (c_dir t))); [apply Rmult_le_compat_l; [now apply factor_pos|exact B]|]. right. field. lra.
Qed.
Lemma areas_batches ps d1 d2 t1 t2 u1 u2 o1 o2 o n1 n2 A : length d1 = length d2 -> rectangular t1 -> rectangular t2 -> Instrument_Model.fits ps d1 t1 -> Instrument_Model.fits ps d2 t2 -> run ps d1 t1 = Ok u1 -> run ps d2 t2 = Ok u2 ->
  length o1 = length (c_dir t1) -> n1 <> 0%nat -> n2 <> 0%nat ->
  exists u a1 a2, run ps (zip2 (@app draw) d1 d2) (stack t1 t2) = Ok u /\ effectivearea (analysed o1 u1) [o] n1 A = [Some a1] /\ effectivearea (analysed o2 u2) [o] n2 A = [Some a2] /\
    effectivearea (analysed (o1 ++ o2) u) [o] (n1 + n2) A = [Some ((INR n1 * a1 + INR n2 * a2) / (INR n1 + INR n2))].
Proof.
  intros L R1 R2 F1 F2 H1 H2 LO N1 N2. exists (stack u1 u2), (A / INR n1 * prob_in (analysed o1 u1) o), (A / INR n2 * prob_in (analysed o2 u2) o).
  split; [now apply run_split|]. split; [now rewrite effectivearea_some|]. split; [now rewrite effectivearea_some|].
  rewrite effectivearea_some by (destruct n1; [congruence|discriminate]). cbn [map]. do 2 f_equal. unfold analysed, stack. cbn [c_prob]. destruct (run_lower ps d1 t1 u1 R1 H1) as [R1' LW].
  assert (LEN : length (c_prob u1) = length (c_dir t1)). { assert (length (c_prob t1) = length (c_prob u1)) as <- by (clear - LW; induction LW; cbn; congruence). destruct R1 as (_ & _ & _ & R4). exact R4. }
  rewrite zip_app by congruence. rewrite prob_app, plus_INR. assert (0 < INR n1) by (apply lt_0_INR; destruct n1; [congruence|apply Nat.lt_0_succ]). assert (0 < INR n2) by (apply lt_0_INR; destruct n2; [congruence|apply Nat.lt_0_succ]).
  field. lra.
Qed.
Lemma run_app : forall ps1 ps2 drs t, run (ps1 ++ ps2) drs t = bind (run ps1 drs t) (run ps2 (skipn (length ps1) drs)).
Proof.
  induction ps1 as [|p ps1 IH]; intros ps2 drs t; [cbn [app run length skipn bind]; reflexivity|]. cbn [app run length]. destruct (process p (hd [] drs) t) as [u|]; cbn [bind]; [|reflexivity]. rewrite IH.
  destruct (run ps1 (tl drs) u); cbn [bind]; [|reflexivity]. f_equal. destruct drs; [cbn [tl]; now rewrite skipn_nil|reflexivity].
Qed.
Lemma filter_areas c drs t t' orders labels n A : 0 <= c <= 1 -> rectangular t -> sensible t -> n <> 0%nat -> run [PGlobal (fun _ => c)] drs t = Ok t' ->
  exists a, effectivearea (analysed orders t) labels n A = map Some a /\ effectivearea (analysed orders t') labels n A = map Some (map (Rmult c) a).
Proof.
  intros C R S N H. exists (map (fun o => A / INR n * prob_in (analysed orders t) o) labels). split; [now apply effectivearea_some|]. rewrite effectivearea_some by exact N. f_equal. rewrite map_map. apply map_ext. intros o.
  cbn [run process] in H. destruct (_ || _); cbn [bind] in H; [discriminate|].
  assert (E : c_prob t' = zip2 (fun pr f => times pr (Some f)) (c_prob t) (map (fun _ => c) (c_energy t))) by (apply (f_equal (fun r => match r with Ok a => c_prob a | Err _ => [] end)) in H; cbn [c_prob] in H; congruence).
  unfold analysed. rewrite E. destruct R as (_ & _ & R3 & R4). assert (L : length (c_prob t) = length (c_energy t)) by congruence. clear - L S. unfold sensible in S. revert orders L S. generalize (c_energy t). induction (c_prob t) as [|a l IH]; intros [|e es] orders L S; try discriminate.
  - destruct orders; unfold prob_in; cbn; lra.
  - destruct orders as [|k orders]; [unfold prob_in; cbn; lra|]. inversion S as [|? ? (x & -> & X) S2]; subst. cbn [map zip2]. rewrite !prob_cons. cbn [a_order a_prob times value_of].
    specialize (IH es orders ltac:(cbn in L; congruence) S2). rewrite Rmult_plus_distr_l, IH. destruct (Z.eqb k o); ring.
Qed.
Lemma baffle_areas m drs t t' o n A : rectangular t -> Forall (fun pr => pr = Some 1) (c_prob t) -> n <> 0%nat -> run [PBaffle m] drs t = Ok t' ->
  effectivearea (analysed (repeat o (length (c_dir t))) t') [o] n A = [Some (A * (INR (length (filter (fun ph => is_some (meets m ph)) (crows t))) / INR n))].
Proof.
  intros R S N H. rewrite effectivearea_some by exact N. cbn [map]. do 2 f_equal. cbn [run] in H. destruct (process (PBaffle m) (hd [] drs) t) as [u|] eqn:U; cbn [bind] in H; [|discriminate]. assert (u = t') as -> by congruence. clear H.
  destruct (process_ok_rows _ _ t t' R U) as (drs' & rows' & _ & E & ->). unfold analysed, of_rows. cbn [c_prob].
  rewrite <- (crows_length t R). rewrite (prob_rows t R) in S.
  assert (K : prob_in (zip2 (fun o0 pr => AP o0 (value_of pr) None 0) (repeat o (length (crows t))) (map l_prob rows')) o = INR (length (filter (fun ph => is_some (meets m ph)) (crows t)))).
  { clear - S E. revert rows' drs' E. induction (crows t) as [|ph l IH]; intros rows' drs' E.
    - cbn [each_row] in E. assert (rows' = []) as -> by congruence. cbn. reflexivity.
    - cbn [each_row draws_for one bind] in E. destruct (each_row (PBaffle m) drs' l) as [r|] eqn:Er; cbn [bind] in E; [|discriminate]. cbn [map] in S. inversion S as [|? ? S1 S2]; subst.
      assert (X : exists a, rows' = a :: r /\ l_prob a = Some (if is_some (meets m ph) then 1 else 0)).
      { destruct (meets m ph) as [[[d q] loc]|]; eexists; (split; [symmetry; injection E as E'; exact E'|]); cbn [l_prob is_some]; [exact S1|reflexivity]. }
      destruct X as (a & -> & A). cbn [length repeat map zip2 filter]. rewrite prob_cons. cbn [a_order a_prob]. rewrite A. cbn [value_of]. rewrite Z.eqb_refl, (IH S2 r drs' Er).
      destruct (is_some (meets m ph)); [cbn [length]; rewrite S_INR|]; ring. }
  rewrite K. field. now apply not_0_INR.
Qed.
Definition numeric (p : part) : Prop := match p with PBrewster _ _ => False | PLens _ _ _ _ rn => forall e, rn e <> None | _ => True end.
Lemma effect_num p dr ph d q loc o : numeric p -> effect p dr ph d q loc = Ok o -> snd o <> None.
Proof.
  intros P H. destruct p as [m off f refl rn|m f|c tr m g per|m ip pp|m on|m f|m minv|m|m|f|dist|m minv la lb]; cbn [effect numeric] in *; try contradiction; try (injection H as <-; discriminate).
  - destruct (perfect_lens _ _ _ _ _ _) as [[out pr]|]; injection H as <-; cbn [snd]; [discriminate|apply P].
  - destruct (thin_lens _ _ _ _ _) as [[out pol]|]; injection H as <-; discriminate.
  - destruct (l_pos ph); injection H as <-; discriminate.
  - destruct on; injection H as <-; discriminate.
  - destruct (_ || _); [discriminate|]. injection H as <-. discriminate.
Qed.
Lemma one_num p dr ph ph' : numeric p -> one p dr ph = Ok ph' -> l_prob ph <> None -> l_prob ph' <> None.
Proof.
  intros P H N. assert (G : forall hit : lphoton -> option (v3 * v3 * (R * R)), match hit ph with None => Ok ph | Some (d, q, loc) => bind (effect p dr ph d q loc) (fun o =>
    if bad_factor (snd o) then Err ValueError else Ok (LPhoton (fst (fst o)) (Some q) (snd (fst o)) (l_energy ph) (times (l_prob ph) (snd o)))) end = Ok ph' -> l_prob ph' <> None).
  { intros hit X. destruct (hit ph) as [[[d q] loc]|]; [|congruence].
    destruct (effect p dr ph d q loc) as [o|] eqn:E; cbn [bind] in X; [|discriminate]. destruct (bad_factor (snd o)) eqn:B; [discriminate|].
    assert (l_prob ph' = times (l_prob ph) (snd o)) as -> by (apply (f_equal (fun r => match r with Ok a => l_prob a | Err _ => None end)) in X; cbn [l_prob] in X; congruence).
    pose proof (effect_num p dr ph d q loc o P E). destruct (l_prob ph), (snd o); cbn; congruence. }
  destruct p as [m off f refl rn|m f|c tr m g per|m ip pp|m on|m f|m minv|m|m|f|dist|m minv la lb]; cbn [one surface] in H; try (exact (G _ H)).
  - destruct (meets m ph) as [[[d q] loc]|]; apply (f_equal (fun r => match r with Ok a => l_prob a | Err _ => None end)) in H; cbn [l_prob] in H; rewrite <- H; [exact N|discriminate].
  - destruct (Rltb (f (l_energy ph)) 0 || Rltb 1 (f (l_energy ph))) eqn:B; [discriminate|]. apply (f_equal (fun r => match r with Ok a => l_prob a | Err _ => None end)) in H. cbn [l_prob] in H. rewrite <- H. destruct (l_prob ph); cbn; congruence.
  - apply (f_equal (fun r => match r with Ok a => l_prob a | Err _ => None end)) in H. cbn [l_prob] in H. now rewrite <- H.
Qed.
Lemma each_num p : numeric p -> forall rows drs out, each_row p drs rows = Ok out -> Forall (fun pr => pr <> None) (map l_prob rows) -> Forall (fun pr => pr <> None) (map l_prob out).
Proof.
  intros P. induction rows as [|a rows IH]; intros drs out H N; cbn [each_row] in H.
  { assert (out = []) as -> by congruence. constructor. }
  cbn [map] in N. inversion N as [|? ? N1 N2]; subst.
  assert (G : forall dr drs', bind (one p dr a) (fun a => bind (each_row p drs' rows) (fun r => Ok (a :: r))) = Ok out -> Forall (fun pr => pr <> None) (map l_prob out)).
  { intros dr drs' X. destruct (one p dr a) as [b|] eqn:O; cbn [bind] in X; [|discriminate]. destruct (each_row p drs' rows) as [r|] eqn:E; cbn [bind] in X; [|discriminate].
    assert (out = b :: r) as -> by congruence. cbn [map]. constructor; [now apply (one_num p dr a)|now apply (IH drs')]. }
  destruct (draws_for p a); [destruct drs as [|dr drs]; [discriminate|]|]; now apply G in H.
Qed.
Lemma run_num : forall ps drs t t', Forall numeric ps -> rectangular t -> run ps drs t = Ok t' -> no_nan t -> no_nan t'.
Proof.
  induction ps as [|p ps IH]; intros drs t t' P R H N; cbn [run] in H; [congruence|].
  destruct (process p (hd [] drs) t) as [u|] eqn:U; cbn [bind] in H; [|discriminate]. inversion P as [|? ? P1 P2]; subst. apply (IH (tl drs) u t' P2 (process_rect p _ t u R U) H).
  destruct (process_ok_rows p _ t u R U) as (drs' & rows' & _ & E & ->). unfold no_nan in *. rewrite (prob_rows t R) in N. exact (each_num p P1 _ _ _ E N).
Qed.
