(** Proofs about line spread functions. *)
From Coq Require Import Permutation Ascii.
From Verif Require Import Base_Proofs Vec_Proofs Rmf_Proofs Sampling_Proofs Analysis_Proofs.
From Verif Require Export Lsf_Model.
Open Scope R_scope.

(** ** Names *)
Lemma match_lit_spec p : forall s r, match_lit p s = Some r <-> s = (p ++ r)%string.
Proof.
  induction p as [|a p IH]; intros s r; cbn.
  - split; [intros H; injection H as <-; reflexivity|intros <-; reflexivity].
  - destruct s as [|b s]; [split; discriminate|]. destruct (Ascii.eqb_spec a b) as [<-|N].
    + rewrite IH. split; [intros ->; reflexivity|intros H; injection H as ->; reflexivity].
    + split; [discriminate|intros H; injection H as H _; congruence].
Qed.
Lemma skip_digits_spec s : exists d, Forall (fun c => is_digit c = true) (list_ascii_of_string d) /\ s = (d ++ skip_digits s)%string.
Proof.
  induction s as [|c s (d & F & E)]; [exists EmptyString; cbn; auto|]. cbn. destruct (is_digit c) eqn:D.
  - exists (String c d). cbn. split; [constructor; auto|congruence].
  - exists EmptyString. cbn. auto.
Qed.
Lemma skip_digits_app d : forall c r, Forall (fun c => is_digit c = true) (list_ascii_of_string d) -> is_digit c = false ->
  skip_digits (d ++ String c r) = String c r.
Proof. induction d as [|a d IH]; intros c r F N; cbn; [now rewrite N|]. inversion F; subst. rewrite H1. apply IH; auto. Qed.
Lemma match_parms_spec name s : match_parms name s = true <-> exists d t, digits d /\ s = (name ++ d ++ "_PARMS" ++ t)%string.
Proof.
  unfold match_parms. split.
  - destruct (match_lit name s) as [r|] eqn:L; [|discriminate]. destruct (match_digits r) as [r'|] eqn:D; [|discriminate].
    destruct (match_lit "_PARMS" r') as [t|] eqn:P; [|discriminate]. intros _. apply match_lit_spec in L. apply match_lit_spec in P.
    destruct r as [|c r]; [discriminate|]. cbn in D. destruct (is_digit c) eqn:C; [|discriminate]. destruct (skip_digits_spec r) as (d & F & E).
    injection D as D. exists (String c d), t. split; [split; [discriminate|cbn; auto]|]. rewrite L. f_equal. cbn [append]. f_equal. rewrite E at 1. rewrite D, P. reflexivity.
  - intros (d & t & [N F] & ->). rewrite (proj2 (match_lit_spec name _ (d ++ "_PARMS" ++ t)%string) eq_refl).
    destruct d as [|c d]; [congruence|]. inversion F as [|? ? C F']; subst. cbn [append match_digits]. rewrite C.
    replace (skip_digits (d ++ String "_" (String "P" (String "A" (String "R" (String "M" (String "S" t))))))%string) with ("_PARMS" ++ t)%string.
    + cbn [match_lit append]. reflexivity.
    + symmetry. apply (skip_digits_app d); auto.
Qed.
Lemma gauss_not_lorentz s : gaussn s = true -> lorentzn s = false.
Proof.
  intros G. destruct (lorentzn s) eqn:L; [|reflexivity]. apply match_parms_spec in G. apply match_parms_spec in L.
  destruct G as (d & t & _ & ->). destruct L as (d' & t' & _ & E). discriminate E.
Qed.
Lemma kind_of_spec s k : kind_of s = Some k <-> exists d t, digits d /\ s = ((match k with NormGauss1D => "GAUSS" | Lorentz1D => "LORENTZ" end) ++ d ++ "_PARMS" ++ t)%string.
Proof.
  unfold kind_of. destruct k; rewrite <- match_parms_spec; fold gaussn lorentzn.
  - change (match_parms "GAUSS" s) with (gaussn s). destruct (gaussn s); [tauto|]. destruct (lorentzn s); split; discriminate.
  - change (match_parms "LORENTZ" s) with (lorentzn s). destruct (gaussn s) eqn:G; [rewrite (gauss_not_lorentz s G)|]; [split; discriminate|]. destruct (lorentzn s); split; intros; congruence.
Qed.
Lemma kind_ee : kind_of "EE_FRACS" = None. Proof. reflexivity. Qed.
Lemma modelnames_kind s : modelnames s = true <-> exists k, kind_of s = Some k.
Proof.
  unfold modelnames, kind_of. destruct (gaussn s); cbn; [split; eauto|]. destruct (lorentzn s); split; eauto; try discriminate. intros [k K]. discriminate.
Qed.

(** ** Models *)
Definition fold_sum (c : comp) (r : list comp) : shmodel := fold_left (fun m c => MAdd m (MComp c)) r (MComp c).
Lemma flatten_fold r : forall m, flatten (fold_left (fun m c => MAdd m (MComp c)) r m) = flatten m ++ map MComp r.
Proof. induction r as [|c r IH]; intros m; cbn [fold_left map]; [now rewrite app_nil_r|]. rewrite IH. cbn [flatten]. now rewrite <- app_assoc. Qed.
Lemma meval_fold F lo hi r : forall m, meval F (fold_left (fun m c => MAdd m (MComp c)) r m) lo hi = meval F m lo hi + Rsum (map (fun c => meval F (MComp c) lo hi) r).
Proof. induction r as [|c r IH]; intros m; cbn [fold_left map]; [cbn; ring|]. rewrite IH, Rsum_cons. cbn [meval]. ring. Qed.
Lemma normalise_nil l : normalise l = [] -> l = []. Proof. destruct l; [reflexivity|discriminate]. Qed.
Lemma normalise_sum l : sumampl l <> 0 -> Rsum (map c_ampl (normalise l)) = 1.
Proof.
  intros N. unfold normalise. rewrite map_map. cbn [c_ampl]. transitivity (Rsum (map (fun x => / sumampl l * x) (map c_ampl l))).
  - rewrite map_map. f_equal. apply map_ext. intros. unfold Rdiv. ring.
  - rewrite Rsum_scale. fold (sumampl l). now apply Rinv_l.
Qed.
Lemma assemble_spec e l m : assemble e l = Ok m <-> exists x, e = Some x /\ l <> [] /\ exists c r, normalise l = c :: r /\ m = MMul (MScale "EE_FRACS" x) (fold_sum c r).
Proof.
  unfold assemble. destruct e as [x|].
  - destruct (normalise l) as [|c r] eqn:N.
    + split; [discriminate|]. intros (x' & _ & L & c & r & E & _). discriminate.
    + split.
      * intros H. exists x. split; [reflexivity|]. split; [intros ->; discriminate|]. exists c, r. split; [reflexivity|]. unfold fold_sum. congruence.
      * intros (x' & X & _ & c' & r' & E & ->). assert (x' = x) by congruence. injection E as <- <-. subst x'. reflexivity.
  - split; [discriminate|]. intros (x & X & _). discriminate.
Qed.
Lemma assemble_parts e l m : assemble e l = Ok m -> exists x, e = Some x /\ l <> [] /\ flatten m = MScale "EE_FRACS" x :: map MComp (normalise l) /\
  forall F lo hi, meval F m lo hi = x * Rsum (map (fun c => meval F (MComp c) lo hi) (normalise l)).
Proof.
  intros H. apply assemble_spec in H. destruct H as (x & -> & N & c & r & E & ->). exists x. split; [reflexivity|]. split; [exact N|]. split.
  - cbn [flatten app]. unfold fold_sum. rewrite flatten_fold, E. reflexivity.
  - intros F lo hi. cbn [meval]. unfold fold_sum. rewrite meval_fold, E. cbn [map]. rewrite Rsum_cons. reflexivity.
Qed.
(** what is read from the table *)
Lemma caldb_comps_spec i j : forall cols e l, caldb_comps cols i j = Ok (e, l) ->
  l = flat_map (table_comp i j) cols /\ (forall x, e = Some x -> exists z, In ("EE_FRACS"%string, Frac z) cols /\ at2 z i j = Ok x) /\
  (e = None -> ~ In "EE_FRACS"%string (map fst cols)).
Proof.
  induction cols as [|[col c] cols IH]; intros e l H; [injection H as <- <-; cbn; repeat split; auto; discriminate|].
  cbn [caldb_comps] in H. destruct (String.eqb_spec col "EE_FRACS") as [->|N].
  - destruct c as [z| |]; try discriminate. destruct (at2 z i j) as [x|] eqn:A; [|discriminate]. cbn [bind] in H.
    destruct (caldb_comps cols i j) as [[e' l']|] eqn:C; [|discriminate]. cbn [bind fst snd app] in H. destruct (IH e' l' eq_refl) as (L & X & Y).
    assert (E1 : e = match e' with Some e0 => Some e0 | None => Some x end) by congruence. assert (E2 : l = l') by congruence. rewrite E2. clear E2. split; [|split].
    + cbn [flat_map]. unfold table_comp at 1. cbn [fst snd]. rewrite kind_ee. exact L.
    + intros y Y'. destruct e' as [x'|].
      * destruct (X x' eq_refl) as (z' & I & B). exists z'. split; [right; exact I|congruence].
      * exists z. split; [left; reflexivity|congruence].
    + destruct e'; rewrite E1; discriminate.
  - destruct (kind_of col) as [k|] eqn:K.
    + destruct c as [|z|]; try discriminate. destruct (at2 z i j) as [p|] eqn:A; [|discriminate]. cbn [bind] in H.
      destruct (caldb_comps cols i j) as [[e' l']|] eqn:C; [|discriminate]. cbn [bind fst snd app] in H. destruct (IH e' l' eq_refl) as (L & X & Y).
      assert (E1 : e = e') by (destruct e'; congruence). assert (E2 : l = new_comp k col p :: l') by congruence. subst e. split; [|split].
      * rewrite E2, L. cbn [flat_map]. unfold table_comp at 2. cbn [fst snd]. rewrite K, A. reflexivity.
      * intros y Y'. destruct (X y Y') as (z' & I & B). exists z'. split; [right; exact I|exact B].
      * intros E [I|I]; [cbn in I; congruence|]. now apply Y.
    + destruct (caldb_comps cols i j) as [[e' l']|] eqn:C; [|discriminate]. cbn [bind fst snd app] in H. destruct (IH e' l' eq_refl) as (L & X & Y).
      assert (E1 : e = e') by (destruct e'; congruence). assert (E2 : l = l') by congruence. rewrite E2. clear E2. subst e. split; [|split].
      * cbn [flat_map]. unfold table_comp at 1. cbn [fst snd]. rewrite K. exact L.
      * intros y Y'. destruct (X y Y') as (z' & I & B). exists z'. split; [right; exact I|exact B].
      * intros E [I|I]; [cbn in I; congruence|]. now apply Y.
Qed.
Lemma caldb_model row i j m : caldb2sherpa row i j = Ok m -> exists e z, In ("EE_FRACS"%string, Frac z) (w_cols row) /\ at2 z i j = Ok e /\
  let comps := flat_map (table_comp i j) (w_cols row) in comps <> [] /\ flatten m = MScale "EE_FRACS" e :: map MComp (normalise comps) /\
  forall F lo hi, meval F m lo hi = e * Rsum (map (fun c => meval F (MComp c) lo hi) (normalise comps)).
Proof.
  unfold caldb2sherpa. intros H. destruct (caldb_comps (w_cols row) i j) as [[e l]|] eqn:C; [|discriminate]. cbn [bind fst snd] in H.
  destruct (caldb_comps_spec _ _ _ _ _ C) as (L & X & _). destruct (assemble_parts _ _ _ H) as (x & -> & N & FL & EV).
  destruct (X x eq_refl) as (z & I & A). exists x, z. cbv zeta. rewrite <- L. auto.
Qed.
Lemma whole_line F l lo hi : sumampl l <> 0 -> (forall c, In c l -> F (c_kind c) (c_fwhm c) (c_pos c) lo = 0 /\ F (c_kind c) (c_fwhm c) (c_pos c) hi = 1) ->
  Rsum (map (fun c => meval F (MComp c) lo hi) (normalise l)) = 1.
Proof.
  intros N H. rewrite <- (normalise_sum l N). f_equal. apply map_ext_in. intros c I. cbn [meval]. unfold normalise in I. apply in_map_iff in I. destruct I as (c0 & <- & I).
  cbn [c_kind c_fwhm c_pos c_ampl]. destruct (H c0 I) as [-> ->]. ring.
Qed.

(** ** Back to the table *)
Definition parms (c : comp) : R * R * R := (c_ampl c, c_fwhm c / conv_fwhm (c_kind c), c_pos c).
Definition step2 (d : result (dict (R * R * R))) (m : shmodel) : result (dict (R * R * R)) := bind d (fun d => match m with
    | MComp c => Ok (dset (c_name c) (c_ampl c, c_fwhm c / conv_fwhm (c_kind c), c_pos c) d) | _ => Err Exception end).
Lemma step2_err l e : fold_left step2 l (Err e) = Err e.
Proof. induction l; cbn; auto. Qed.
Lemma step2_comps l : forall d, fold_left step2 (map MComp l) (Ok d) = Ok (dupdate d (map (fun c => (c_name c, parms c)) l)).
Proof. induction l as [|c l IH]; intros d; [reflexivity|]. cbn [map fold_left]. cbn [step2 bind]. rewrite IH. reflexivity. Qed.
Lemma sherpa2caldb_comps c r : sherpa2caldb (fold_sum c r) = Ok (dupdate [] (map (fun c => (c_name c, parms c)) (c :: r))).
Proof. unfold sherpa2caldb, fold_sum. rewrite flatten_fold. change (flatten (MComp c) ++ map MComp r) with (map MComp (c :: r)). apply (step2_comps (c :: r) []). Qed.
Lemma sherpa2caldb_caldb row i j m : caldb2sherpa row i j = Ok m -> sherpa2caldb m = Err Exception.
Proof. intros H. destruct (caldb_model _ _ _ _ H) as (e & z & _ & _ & _ & FL & _). unfold sherpa2caldb. rewrite FL. apply (step2_err _ Exception). Qed.
Lemma gconv_pos : 0 < gconv.
Proof.
  unfold gconv. assert (0 < ln 2). { rewrite <- ln_1. apply ln_increasing; lra. } apply Rmult_lt_0_compat; [lra|]. apply sqrt_lt_R0. lra.
Qed.
Lemma conv_pos k : 0 < conv_fwhm k. Proof. destruct k; [apply gconv_pos|cbn; lra]. Qed.
Lemma dget_dupdate_notin {V} (d2 : list (string * V)) : forall d k, ~ In k (map fst d2) -> dget k (dupdate d d2) = dget k d.
Proof.
  induction d2 as [|[k' v] d2 IH]; intros d k N; [reflexivity|]. cbn [dupdate fold_left fst snd]. fold (dupdate (dset k' v d) d2). rewrite IH by (intros I; apply N; right; exact I).
  apply dget_dset_neq. intros E. apply N. left. cbn. congruence.
Qed.
Lemma dget_dupdate_in {V} (d2 : list (string * V)) : forall d k v, NoDup (map fst d2) -> In (k, v) d2 -> dget k (dupdate d d2) = Some v.
Proof.
  induction d2 as [|[k' v'] d2 IH]; intros d k v ND I; [destruct I|]. inversion ND as [|? ? N ND']; subst. cbn [dupdate fold_left fst snd]. fold (dupdate (dset k' v' d) d2).
  destruct I as [I|I].
  - injection I as -> ->. rewrite dget_dupdate_notin by exact N. apply dget_dset_eq.
  - apply IH; auto.
Qed.
Lemma table_comp_in i j cols c : In c (flat_map (table_comp i j) cols) -> exists k z p, In (c_name c, Parms z) cols /\ kind_of (c_name c) = Some k /\ at2 z i j = Ok p /\ c = new_comp k (c_name c) p.
Proof.
  intros I. apply in_flat_map in I. destruct I as ([col x] & I & J). unfold table_comp in J. cbn [fst snd] in J. destruct (kind_of col) as [k|] eqn:K; [|destruct J].
  destruct x as [|z|]; try destruct J. destruct (at2 z i j) as [p|] eqn:A; [|destruct J]. destruct J as [<-|[]]. exists k, z, p.
  assert (E : c_name (new_comp k col p) = col) by (unfold new_comp; destruct p as [[a w] x]; reflexivity). rewrite E. auto.
Qed.
Lemma table_comp_of i j cols col k z p : In (col, Parms z) cols -> kind_of col = Some k -> at2 z i j = Ok p -> In (new_comp k col p) (flat_map (table_comp i j) cols).
Proof. intros I K A. apply in_flat_map. exists (col, Parms z). split; [exact I|]. unfold table_comp. cbn [fst snd]. rewrite K, A. left. reflexivity. Qed.
Lemma table_names i j cols : NoDup (map fst cols) -> NoDup (map c_name (flat_map (table_comp i j) cols)).
Proof.
  induction cols as [|[col x] cols IH]; intros ND; [constructor|]. inversion ND as [|? ? N ND']; subst. cbn [flat_map].
  assert (R : forall l, (l = [] \/ exists k p, l = [new_comp k col p]) -> NoDup (map c_name (l ++ flat_map (table_comp i j) cols))).
  { intros l [->|(k & p & ->)]; [now apply IH|]. cbn [app map]. assert (E : c_name (new_comp k col p) = col) by (unfold new_comp; destruct p as [[a w] y]; reflexivity). rewrite E.
    constructor; [|now apply IH]. intros I. apply in_map_iff in I. destruct I as (c & C & I). apply table_comp_in in I. destruct I as (k' & z & p' & I & _). apply N. cbn [fst]. rewrite <- C. apply in_map_iff. exists (c_name c, Parms z). auto. }
  apply R. unfold table_comp. cbn [fst snd]. destruct (kind_of col) as [k|]; [|auto]. destruct x as [|z|]; auto. destruct (at2 z i j) as [p|]; eauto.
Qed.
Lemma round_trip_parms row i j m : NoDup (map fst (w_cols row)) -> caldb2sherpa row i j = Ok m ->
  exists e s d, m = MMul (MScale "EE_FRACS" e) s /\ sherpa2caldb s = Ok d /\
    forall col k z a w x, In (col, Parms z) (w_cols row) -> kind_of col = Some k -> at2 z i j = Ok (a, w, x) ->
      dget col d = Some (a / sumampl (flat_map (table_comp i j) (w_cols row)), w, x).
Proof.
  intros ND H. unfold caldb2sherpa in H. destruct (caldb_comps (w_cols row) i j) as [[e l]|] eqn:C; [|discriminate]. cbn [bind fst snd] in H.
  destruct (caldb_comps_spec _ _ _ _ _ C) as (L & _ & _). apply assemble_spec in H. destruct H as (x0 & _ & _ & c & r & E & ->).
  exists x0, (fold_sum c r). eexists. split; [reflexivity|]. split; [apply sherpa2caldb_comps|]. intros col k z a w x I K A. rewrite <- E, <- L.
  apply dget_dupdate_in.
  - rewrite map_map. cbn [fst]. unfold normalise. rewrite map_map. cbn [c_name]. rewrite L. now apply table_names.
  - pose proof (table_comp_of i j _ _ _ _ _ I K A) as T. rewrite <- L in T. apply in_map_iff. exists (Comp k col (a / sumampl l) (w * conv_fwhm k) x). split.
    + unfold parms. cbn [c_name c_ampl c_fwhm c_kind c_pos]. do 2 f_equal. f_equal. field. pose proof (conv_pos k). lra.
    + unfold normalise. apply in_map_iff. eexists. split; [|exact T]. reflexivity.
Qed.

(** ** Interpolation *)
Definition absc (c : comp) : comp := Comp (c_kind c) (c_name c) (Rabs (c_ampl c)) (Rabs (c_fwhm c)) (Rabs (c_pos c)).
Lemma rectangle_spec {A} n m (z : list (list A)) : rectangle n m z = true <-> List.length z = n /\ forall l, In l z -> List.length l = m.
Proof.
  unfold rectangle. rewrite Bool.andb_true_iff, Nat.eqb_eq, forallb_forall. split; intros [H1 H2]; (split; [exact H1|]); intros l I; specialize (H2 l I); now apply Nat.eqb_eq in H2 || now apply Nat.eqb_eq.
Qed.
Lemma rectangle_map {A B} (f : A -> B) n m z : rectangle n m z = true -> rectangle n m (map (map f) z) = true.
Proof.
  rewrite !rectangle_spec, map_length. intros [H1 H2]. split; [exact H1|]. intros l I. apply in_map_iff in I. destruct I as (l0 & <- & I). rewrite map_length. now apply H2.
Qed.
Lemma interp_single i1 i2 row z lam j w : interp1_ok i1 -> w_num_widths row = 1%nat -> NoDup (w_lambdas row) -> rectangle 1 (List.length (w_lambdas row)) z = true ->
  nth_error (w_lambdas row) j = Some lam -> exists f v, interp i1 i2 row z = Ok f /\ at2 z 0 j = Ok v /\ f w lam = v.
Proof.
  intros I1 N ND R J. apply rectangle_spec in R. destruct R as [L H]. destruct z as [|l [|? ?]]; try discriminate. specialize (H l (or_introl eq_refl)).
  unfold interp. rewrite N. cbn [Nat.ltb Nat.leb]. rewrite (proj2 (Nat.eqb_eq _ _) H). cbn [at2 nth_error].
  destruct (nth_error l j) as [v|] eqn:V. 2:{ apply nth_error_None in V. assert (j < List.length (w_lambdas row))%nat by (apply nth_error_Some; congruence). lia. }
  eexists _, v. split; [reflexivity|]. split; [reflexivity|]. now apply (I1 (w_lambdas row) l j lam v).
Qed.
Lemma at2_map {A B} (f : A -> B) z i j : at2 (map (map f) z) i j = match at2 z i j with Ok x => Ok (f x) | Err e => Err e end.
Proof. unfold at2. rewrite nth_error_map. destruct (nth_error z i) as [l|]; [|reflexivity]. cbn. rewrite nth_error_map. destruct (nth_error l j); reflexivity. Qed.
Lemma splines_single i1 i2 row lam j w : interp1_ok i1 -> w_num_widths row = 1%nat -> NoDup (w_lambdas row) -> nth_error (w_lambdas row) j = Some lam ->
  forall cols, Forall (col_ok 1 (List.length (w_lambdas row))) cols ->
  exists s e l, caldb_interp i1 i2 row cols = Ok s /\ caldb_comps cols 0 j = Ok (e, l) /\ spline_comps s w lam = Ok (e, map absc l).
Proof.
  intros I1 N ND J. induction cols as [|[col c] cols IH]; intros H; [exists [], None, []; auto|]. inversion H as [|? ? [H1 H2] H']; subst. cbn [fst snd] in H1, H2.
  destruct (IH H') as (s & e & l & S & C & P). cbn [caldb_interp caldb_comps]. rewrite S, C. destruct (String.eqb_spec col "EE_FRACS") as [->|NE].
  - destruct (H1 eq_refl) as (z & -> & R). destruct (interp_single i1 i2 row z lam j w I1 N ND R J) as (f & v & -> & -> & V). cbn [bind fst snd app].
    eexists _, _, _. split; [reflexivity|]. split; [reflexivity|]. cbn [spline_comps String.eqb Ascii.eqb Bool.eqb]. rewrite P. cbn [bind fst snd app]. rewrite V. reflexivity.
  - destruct (kind_of col) as [k|] eqn:K.
    + assert (M : modelnames col = true) by (apply modelnames_kind; eauto). rewrite M. destruct (H2 M) as (z & -> & R).
      destruct (interp_single i1 i2 row _ lam j w I1 N ND (rectangle_map p_a _ _ _ R) J) as (fa & va & -> & A1 & A2).
      destruct (interp_single i1 i2 row _ lam j w I1 N ND (rectangle_map p_w _ _ _ R) J) as (fw & vw & -> & W1 & W2).
      destruct (interp_single i1 i2 row _ lam j w I1 N ND (rectangle_map p_x _ _ _ R) J) as (fx & vx & -> & X1 & X2).
      rewrite at2_map in A1, W1, X1. destruct (at2 z 0 j) as [[[a wd] x]|]; [|discriminate]. cbn [p_a p_w p_x fst snd] in *. injection A1 as A1. injection W1 as W1. injection X1 as X1.
      cbn [bind fst snd app]. eexists _, _, _. split; [reflexivity|]. split; [reflexivity|]. cbn [spline_comps]. apply String.eqb_neq in NE. rewrite NE, K. cbn [bind]. rewrite P.
      cbn [bind fst snd app map]. rewrite A2, W2, X2, <- A1, <- W1, <- X1. unfold absc at 2. cbn [new_comp c_kind c_name c_ampl c_fwhm c_pos]. destruct e; reflexivity.
    + assert (M : modelnames col = false). { destruct (modelnames col) eqn:M; [|reflexivity]. apply modelnames_kind in M. destruct M as [k M]. congruence. }
      rewrite M. cbn [bind fst snd app]. eexists _, _, _. split; [reflexivity|]. split; [reflexivity|]. rewrite P. destruct e; reflexivity.
Qed.
Lemma absc_id l : (forall c, In c l -> 0 <= c_ampl c /\ 0 <= c_fwhm c /\ 0 <= c_pos c) -> map absc l = l.
Proof.
  induction l as [|c l IH]; intros H; [reflexivity|]. cbn [map]. rewrite IH by (intros; apply H; right; auto). f_equal. destruct (H c (or_introl eq_refl)) as (A & B & C).
  unfold absc. rewrite !Rabs_right by lra. now destruct c.
Qed.
Lemma node_single i1 i2 row width lam j : interp1_ok i1 -> table_ok row -> List.length (w_widths row) = 1%nat -> NoDup (w_lambdas row) -> nth_error (w_lambdas row) j = Some (q_value lam) ->
  exists s, CALDB_interp i1 i2 row = Ok s /\
  ((forall col k z a w x, In (col, Parms z) (w_cols row) -> kind_of col = Some k -> at2 z 0 j = Ok (a, w, x) -> 0 <= a /\ 0 <= w /\ 0 <= x) ->
   sherpa_from_spline s width lam = caldb2sherpa row 0 j).
Proof.
  intros I1 [N T] W ND J. rewrite W in N, T. destruct (splines_single i1 i2 row (q_value lam) j (q_value width) I1 N ND J _ T) as (s & e & l & S & C & P).
  exists s. split; [exact S|]. intros H. unfold sherpa_from_spline, caldb2sherpa. rewrite P, C. cbn [bind fst snd]. rewrite absc_id; [reflexivity|].
  intros c I. destruct (caldb_comps_spec _ _ _ _ _ C) as (L & _). rewrite L in I. apply table_comp_in in I. destruct I as (k & z & [[a w] x] & I & K & A & E). rewrite E.
  cbn [new_comp c_ampl c_fwhm c_pos]. destruct (H _ _ _ _ _ _ I K A) as (H1 & H2 & H3). split; [exact H1|]. split; [|exact H3]. pose proof (conv_pos k). apply Rmult_le_pos; lra.
Qed.
Lemma several_widths i1 i2 row : table_ok row -> (1 < List.length (w_widths row))%nat -> List.length (w_widths row) <> List.length (w_lambdas row) ->
  forall cols, Forall (col_ok (List.length (w_widths row)) (List.length (w_lambdas row))) cols -> (exists col, In col (map fst cols) /\ (col = "EE_FRACS"%string \/ modelnames col = true)) ->
  caldb_interp i1 i2 row cols = Err ValueError.
Proof.
  intros [N _] W D. assert (B : forall z, rectangle (List.length (w_widths row)) (List.length (w_lambdas row)) z = true -> interp i1 i2 row z = Err ValueError).
  { intros z R. unfold interp. rewrite N, (proj2 (Nat.ltb_lt _ _) W). destruct (rectangle (List.length (w_lambdas row)) (List.length (w_widths row)) z) eqn:R'; [|reflexivity].
    apply rectangle_spec in R. apply rectangle_spec in R'. destruct R, R'. congruence. }
  induction cols as [|[col c] cols IH]; intros H (cl & I & Q); [destruct I|]. inversion H as [|? ? [H1 H2] H']; subst. cbn [fst snd] in H1, H2. cbn [caldb_interp].
  destruct (String.eqb_spec col "EE_FRACS") as [->|NE].
  - destruct (H1 eq_refl) as (z & -> & R). now rewrite B.
  - destruct (modelnames col) eqn:M.
    + destruct (H2 eq_refl) as (z & -> & R). rewrite (B _ (rectangle_map p_a _ _ _ R)). reflexivity.
    + cbn [bind]. rewrite IH; [reflexivity|exact H'|]. exists cl. destruct I as [I|I]; [cbn in I; destruct Q; congruence|auto].
Qed.
Lemma square_transposed i1 i2 row z i j w lam v : interp2_ok i2 -> table_ok row -> (1 < List.length (w_widths row))%nat -> List.length (w_widths row) = List.length (w_lambdas row) ->
  NoDup (w_widths row) -> NoDup (w_lambdas row) -> rectangle (List.length (w_widths row)) (List.length (w_lambdas row)) z = true ->
  nth_error (w_widths row) i = Some w -> nth_error (w_lambdas row) j = Some lam -> at2 z j i = Ok v -> exists f, interp i1 i2 row z = Ok f /\ f w lam = v.
Proof.
  intros I2 [N _] W E ND1 ND2 R I J A. unfold interp. rewrite N, (proj2 (Nat.ltb_lt _ _) W). rewrite E in R at 1. rewrite <- E in R at 2. rewrite R. eexists. split; [reflexivity|].
  unfold at2 in A. destruct (nth_error z j) as [l|] eqn:L; [|discriminate]. destruct (nth_error l i) as [x|] eqn:X; [|discriminate]. injection A as <-.
  now apply (I2 _ _ _ i j _ _ l).
Qed.
(** functions that fulfil the contracts: look up the number in the table *)
Fixpoint find_pos (xs : list R) (x : R) : nat := match xs with [] => 0%nat | y :: r => if Req_EM_T x y then 0%nat else S (find_pos r x) end.
Definition tab1 : interp1 := fun xs ys x => nth (find_pos xs x) ys 0.
Definition tab2 : interp2 := fun xs ys z x y => nth (find_pos xs x) (nth (find_pos ys y) z []) 0.
Lemma find_pos_nth xs : forall i x, NoDup xs -> nth_error xs i = Some x -> find_pos xs x = i.
Proof.
  induction xs as [|y xs IH]; intros [|i] x ND H; try discriminate; cbn in H |- *; inversion ND as [|? ? N ND']; subst.
  - injection H as ->. destruct (Req_EM_T x x); congruence.
  - destruct (Req_EM_T x y) as [->|_]; [|f_equal; auto]. exfalso. apply N. eapply nth_error_In; eauto.
Qed.
Lemma tab1_ok : interp1_ok tab1.
Proof. intros xs ys i x y ND X Y. unfold tab1. rewrite (find_pos_nth xs i x ND X). now apply nth_error_nth. Qed.
Lemma tab2_ok : interp2_ok tab2.
Proof. intros xs ys z i j x y l v N1 N2 X Y L V. unfold tab2. rewrite (find_pos_nth xs i x N1 X), (find_pos_nth ys j y N2 Y). rewrite (nth_error_nth _ _ _ L). now apply nth_error_nth. Qed.

(** ** The response matrix *)
Lemma combine_rev {A B} (a : list A) : forall (b : list B), List.length a = List.length b -> combine (rev a) (rev b) = rev (combine a b).
Proof.
  induction a as [|x a IH]; intros [|y b] L; try discriminate; [reflexivity|]. injection L as L. cbn [rev combine]. rewrite <- (IH b L).
  assert (forall (u : list A) (v : list B), List.length u = List.length v -> combine (u ++ [x]) (v ++ [y]) = combine u v ++ [(x, y)]) as K.
  { induction u as [|p u IHu]; intros [|q v] L'; try discriminate; [reflexivity|]. cbn. f_equal. apply IHu. now injection L'. }
  apply K. rewrite !rev_length. exact L.
Qed.
Lemma matrix_row_spec F m lo hi thr a b r : List.length lo = List.length hi -> matrix_row F m lo hi thr a b = Ok r -> exists sm, m = Ok sm /\ r_lo r = a /\ r_hi r = b /\
  full_rmf (List.length lo) 0 r = Ok (cut thr (map (fun b => meval F sm (fst b) (snd b)) (combine lo hi))).
Proof.
  unfold matrix_row. intros L H. destruct m as [sm|]; [|discriminate]. cbn [bind] in H. exists sm. split; [reflexivity|].
  rewrite combine_rev, map_rev, rev_involutive in H by exact L. set (arr := map (fun b => meval F sm (fst b) (snd b)) (combine lo hi)) in *.
  destruct (round_trip arr 0 thr a b) as (ng & fc & nc & mat & E & RT). rewrite E in H. cbn [bind] in H. assert (H' : r = Mrow a b ng (Arr fc) (Arr nc) mat) by congruence. subst r.
  cbn [r_lo r_hi]. split; [reflexivity|]. split; [reflexivity|]. replace (List.length lo) with (List.length arr); [exact RT|]. unfold arr. rewrite map_length, combine_length, L. lia.
Qed.
Lemma removelast_length {A} (l : list A) : List.length (removelast l) = (List.length l - 1)%nat.
Proof. induction l as [|x [|y l] IH]; [reflexivity|reflexivity|]. cbn [removelast List.length] in *. rewrite IH. lia. Qed.
Lemma tl_length {A} (l : list A) : List.length (tl l) = (List.length l - 1)%nat. Proof. destruct l; cbn; lia. Qed.
Lemma sortR_length l : List.length (sortR l) = List.length l. Proof. apply Permutation_length, sortR_perm. Qed.
Lemma nth_combine {A B} (a : list A) : forall (b : list B) i x y, nth_error a i = Some x -> nth_error b i = Some y -> nth_error (combine a b) i = Some (x, y).
Proof. induction a as [|u a IH]; intros [|v b] [|i] x y H1 H2; try discriminate; cbn in *; [congruence|auto]. Qed.
Lemma combine_nth_inv {A B} (a : list A) : forall (b : list B) i p, nth_error (combine a b) i = Some p -> nth_error a i = Some (fst p) /\ nth_error b i = Some (snd p).
Proof. induction a as [|u a IH]; intros [|v b] [|i] p H; try discriminate; cbn in *; [injection H as <-; auto|auto]. Qed.
Lemma Forall2_nth {A B} (P : A -> B -> Prop) l r : Forall2 P l r -> forall i y, nth_error r i = Some y -> exists x, nth_error l i = Some x /\ P x y.
Proof. induction 1 as [|x y l r H F IH]; intros [|i] z Z; try discriminate; cbn in *; [injection Z as <-; eauto|eauto]. Qed.
Lemma Forall2_len {A B} (P : A -> B -> Prop) l r : Forall2 P l r -> List.length l = List.length r.
Proof. induction 1; cbn; congruence. Qed.
Lemma make_rmf_rows i1 i2 F hc row edges width thr f : make_rmf i1 i2 F hc row edges width thr = Ok f ->
  let s := sortR (map (fun w => hc / w) edges) in let lo := removelast s in let hi := tl s in
  f_ebounds f = (seq 0 (List.length edges - 1), lo, hi) /\ List.length (f_matrix f) = (List.length edges - 1)%nat /\ f_detchans f = (List.length edges - 1)%nat /\
  exists sp, CALDB_interp i1 i2 row = Ok sp /\ forall r mr, nth_error (f_matrix f) r = Some mr ->
    nth_error lo r = Some (r_lo mr) /\ nth_error hi r = Some (r_hi mr) /\ exists m,
    sherpa_from_spline sp width (Q (1 / 2 * (hc / r_hi mr + hc / r_lo mr)) 1) = Ok m /\
    full_rmf (List.length edges - 1) 0 mr = Ok (cut thr (map (fun b => meval F m (hc / snd b) (hc / fst b)) (combine lo hi))).
Proof.
  intros H s lo hi. unfold make_rmf, ebounds_from_edges in H. fold s lo hi in H. destruct (CALDB_interp i1 i2 row) as [sp|]; [|discriminate]. cbn [bind] in H.
  set (alo := map (fun e => hc / e) hi) in *. set (ahi := map (fun e => hc / e) lo) in *.
  match type of H with bind ?x _ = _ => destruct x as [m|] eqn:M end; [|discriminate]. cbn [bind] in H.
  assert (H' : f = Rmffile m (seq 0 (List.length edges - 1), lo, hi) (List.length edges - 1) (copy_keywords (w_meta row) [("TLMIN4", "0")]%string) (copy_keywords (w_meta row) [("TLMIN1", "0")]%string)) by congruence.
  subst f. cbn [f_ebounds f_matrix f_detchans]. apply sequence_Forall2 in M. pose proof (Forall2_len _ _ _ M) as LM.
  assert (LS : List.length s = List.length edges) by (unfold s; now rewrite sortR_length, map_length).
  assert (LL : List.length lo = (List.length edges - 1)%nat) by (unfold lo; rewrite removelast_length; lia).
  assert (LH : List.length hi = (List.length edges - 1)%nat) by (unfold hi; rewrite tl_length; lia).
  assert (AL : List.length alo = List.length ahi) by (unfold alo, ahi; rewrite !map_length; lia).
  split; [reflexivity|]. split; [rewrite <- LM, !combine_length, map_length, combine_length; unfold alo, ahi; rewrite !map_length; lia|]. split; [reflexivity|].
  exists sp. split; [reflexivity|]. intros r mr R. destruct (Forall2_nth _ _ _ M r mr R) as ([mid [a b]] & C & MR). cbn [fst snd] in MR.
  apply combine_nth_inv in C. cbn [fst snd] in C. destruct C as [C1 C2]. apply combine_nth_inv in C2. cbn [fst snd] in C2. destruct C2 as [CL CH].
  destruct (matrix_row_spec _ _ _ _ _ _ _ _ AL MR) as (sm & SM & <- & <- & FR). split; [exact CL|]. split; [exact CH|]. exists sm.
  rewrite nth_error_map in C1. destruct (nth_error (combine alo ahi) r) as [[p q]|] eqn:PQ; [|discriminate]. apply combine_nth_inv in PQ. cbn [fst snd] in PQ. destruct PQ as [P1 P2].
  unfold alo, ahi in P1, P2. rewrite nth_error_map in P1, P2. rewrite CH in P1. rewrite CL in P2. cbn [option_map fst snd] in *.
  assert (E : mid = 1 / 2 * (hc / r_hi mr + hc / r_lo mr)) by congruence. rewrite <- E. split; [exact SM|].
  replace (List.length edges - 1)%nat with (List.length alo) by (unfold alo; rewrite map_length; lia). rewrite FR. f_equal. f_equal.
  unfold alo, ahi. clearbody lo hi. clear. revert hi. induction lo as [|x l IH]; intros [|y h]; try reflexivity. cbn. f_equal. apply IH.
Qed.
Lemma telescope (G : R -> R) s : Rsum (map (fun b => G (fst b) - G (snd b)) (combine (removelast s) (tl s))) = match s with [] => 0 | x :: _ => G x - G (last s x) end.
Proof.
  induction s as [|x [|y s] IH]; [reflexivity|cbn; ring|]. change (removelast (x :: y :: s)) with (x :: removelast (y :: s)). cbn [tl combine map]. rewrite Rsum_cons.
  change (tl (y :: s)) with s in IH. cbn [tl] in *. rewrite IH. cbn [fst snd]. change (last (x :: y :: s) x) with (last (y :: s) x).
  assert (last (y :: s) x = last (y :: s) y) as ->; [|ring]. clear. revert x y. induction s as [|z s IH]; intros x y; [reflexivity|]. change (last (y :: z :: s) x) with (last (z :: s) x). change (last (y :: z :: s) y) with (last (z :: s) y). rewrite (IH x z), (IH y z). reflexivity.
Qed.
Lemma Rsum_map_add {A} (f g : A -> R) l : Rsum (map (fun x => f x + g x) l) = Rsum (map f l) + Rsum (map g l).
Proof. induction l as [|x l IH]; [cbn; ring|]. cbn [map]. rewrite !Rsum_cons, IH. ring. Qed.
Lemma Rsum_map_scale {A} (f : A -> R) c l : Rsum (map (fun x => c * f x) l) = c * Rsum (map f l).
Proof. induction l as [|x l IH]; [cbn; ring|]. cbn [map]. rewrite !Rsum_cons, IH. ring. Qed.
Lemma Rsum_swap {A B} (f : A -> B -> R) la lb : Rsum (map (fun a => Rsum (map (f a) lb)) la) = Rsum (map (fun b => Rsum (map (fun a => f a b) la)) lb).
Proof.
  induction la as [|a la IH]; [change (0 = Rsum (map (fun _ : B => 0) lb)); induction lb as [|b lb IH]; [reflexivity|]; cbn [map]; rewrite Rsum_cons, <- IH; ring|]. cbn [map]. rewrite Rsum_cons, IH. rewrite <- Rsum_map_add. f_equal.
Qed.
Lemma Rsum_le {A} (f g : A -> R) l : (forall x, In x l -> f x <= g x) -> Rsum (map f l) <= Rsum (map g l).
Proof. induction l as [|x l IH]; intros H; [cbn; lra|]. cbn [map]. rewrite !Rsum_cons. apply Rplus_le_compat; [apply H; left; reflexivity|apply IH; intros; apply H; right; auto]. Qed.
Lemma asc_pairs s : ascending s -> forall b, In b (combine (removelast s) (tl s)) -> fst b <= snd b.
Proof.
  induction s as [|x [|y s] IH]; intros A b I; [destruct I|destruct I|]. change (removelast (x :: y :: s)) with (x :: removelast (y :: s)) in I. cbn [tl combine] in I.
  destruct A as [A1 A2]. destruct I as [<-|I]; [exact A1|]. apply IH; auto.
Qed.
Lemma in_pairs {s : list R} {b} : In b (combine (removelast s) (tl s)) -> In (fst b) s /\ In (snd b) s.
Proof.
  intros I. destruct b as [a b]. cbn [fst snd]. split.
  - apply in_combine_l in I. clear -I. induction s as [|x [|y s] IH]; [destruct I|destruct I|]. change (removelast (x :: y :: s)) with (x :: removelast (y :: s)) in I. destruct I as [<-|I]; [now left|right; auto].
  - apply in_combine_r in I. destruct s; [destruct I|now right].
Qed.
Lemma cut_bound thr l : Forall (fun x => 0 <= x) l -> Forall (fun x => 0 <= x) (cut thr l) /\ 0 <= Rsum (cut thr l) <= Rsum l.
Proof.
  induction l as [|x l IH]; intros H; [cbn; repeat split; try constructor; lra|]. inversion H; subst. destruct (IH H3) as [I1 [I2 I3]]. cbn [cut map]. fold (cut thr l).
  rewrite !Rsum_cons. destruct (above thr x); (split; [constructor; [lra|exact I1]|lra]).
Qed.
Lemma normalise_in l c : In c (normalise l) -> exists c0, In c0 l /\ c_kind c = c_kind c0 /\ c_fwhm c = c_fwhm c0 /\ c_pos c = c_pos c0 /\ c_ampl c = c_ampl c0 / sumampl l.
Proof. unfold normalise. intros I. apply in_map_iff in I. destruct I as (c0 & <- & I). exists c0. cbn. auto. Qed.
Lemma spline_ampl_nonneg s w lam : forall e l, spline_comps s w lam = Ok (e, l) -> forall c, In c l -> 0 <= c_ampl c.
Proof.
  induction s as [|[col f] s IH]; intros e l H; [injection H as <- <-; intros c []|]. cbn [spline_comps] in H.
  match type of H with bind ?x _ = _ => destruct x as [[e1 l1]|] eqn:X end; [|discriminate]. cbn [bind] in H.
  destruct (spline_comps s w lam) as [[e2 l2]|] eqn:S; [|discriminate]. cbn [bind fst snd] in H. assert (L : l = l1 ++ l2) by congruence. rewrite L. intros c I. apply in_app_iff in I.
  destruct I as [I|I]; [|exact (IH _ _ eq_refl c I)]. destruct (String.eqb col "EE_FRACS").
  - destruct f; [|discriminate]. assert (l1 = []) by congruence. subst l1. destruct I.
  - destruct (kind_of col); [|assert (l1 = []) by congruence; subst l1; destruct I]. destruct f as [|a0 w0 x0]; [discriminate|]. injection X as <- <-. destruct I as [<-|[]]. cbn. apply Rabs_pos.
Qed.
Lemma sumampl_nonneg l : (forall c, In c l -> 0 <= c_ampl c) -> 0 <= sumampl l.
Proof. intros H. apply Rsum_ge0, Forall_forall. intros x I. apply in_map_iff in I. destruct I as (c & <- & I). auto. Qed.
Lemma row_total F m e l s hc thr : profile_ok F -> 0 < hc -> Forall (fun x => 0 < x) s -> ascending s -> 0 <= e -> (forall c, In c l -> 0 <= c_ampl c) -> sumampl l <> 0 ->
  (forall lo hi, meval F m lo hi = e * Rsum (map (fun c => meval F (MComp c) lo hi) (normalise l))) ->
  let arr := map (fun b => meval F m (hc / snd b) (hc / fst b)) (combine (removelast s) (tl s)) in
  Forall (fun x => 0 <= x) (cut thr arr) /\ 0 <= Rsum (cut thr arr) <= e.
Proof.
  intros FO HC SP AS E0 AM SN EV arr. assert (SPOS : 0 < sumampl l) by (pose proof (sumampl_nonneg l AM); lra).
  assert (AN : forall c, In c (normalise l) -> 0 <= c_ampl c).
  { intros c I. destruct (normalise_in _ _ I) as (c0 & I0 & _ & _ & _ & ->). apply Rle_mult_inv_pos; auto. }
  assert (NN : Forall (fun x => 0 <= x) arr).
  { apply Forall_forall. intros x I. apply in_map_iff in I. destruct I as (b & <- & I). rewrite EV. apply Rmult_le_pos; [exact E0|]. apply Rsum_ge0, Forall_forall.
    intros y Y. apply in_map_iff in Y. destruct Y as (c & <- & C). cbn [meval]. apply Rmult_le_pos; [now apply AN|].
    destruct (FO (c_kind c) (c_fwhm c) (c_pos c)) as [MO _]. assert (hc / snd b <= hc / fst b); [|specialize (MO _ _ H); lra].
    destruct (in_pairs I) as [B1 B2]. rewrite Forall_forall in SP. pose proof (SP _ B1). pose proof (SP _ B2). pose proof (asc_pairs s AS b I).
    unfold Rdiv. apply Rmult_le_compat_l; [lra|]. apply Rinv_le_contravar; lra. }
  destruct (cut_bound thr arr NN) as [C1 [C2 C3]]. split; [exact C1|]. split; [exact C2|]. eapply Rle_trans; [exact C3|].
  assert (T : Rsum arr = e * Rsum (map (fun c => c_ampl c * match s with [] => 0 | x :: _ => F (c_kind c) (c_fwhm c) (c_pos c) (hc / x) - F (c_kind c) (c_fwhm c) (c_pos c) (hc / last s x) end) (normalise l))).
  { unfold arr. rewrite (map_ext _ _ (fun b => EV (hc / snd b) (hc / fst b))). rewrite Rsum_map_scale. f_equal. rewrite (Rsum_swap (fun b c => meval F (MComp c) (hc / snd b) (hc / fst b))). f_equal. apply map_ext. intros c.
    cbn [meval]. rewrite Rsum_map_scale. f_equal. rewrite (telescope (fun x => F (c_kind c) (c_fwhm c) (c_pos c) (hc / x)) s). reflexivity. }
  rewrite T. rewrite <- (Rmult_1_r e) at 2. apply Rmult_le_compat_l; [exact E0|]. rewrite <- (normalise_sum l SN). apply Rsum_le. intros c I. rewrite <- (Rmult_1_r (c_ampl c)) at 2.
  apply Rmult_le_compat_l; [now apply AN|]. destruct s as [|x s]; [lra|]. destruct (FO (c_kind c) (c_fwhm c) (c_pos c)) as [_ B].
  pose proof (B (hc / x)). pose proof (B (hc / last (x :: s) x)). lra.
Qed.

(** ** Empty tables *)
Lemma nodupb_spec l : nodupb l = true <-> NoDup l.
Proof.
  induction l as [|x l IH]; cbn; [split; [constructor|reflexivity]|]. rewrite Bool.andb_true_iff, IH, Bool.negb_true_iff. split.
  - intros [N D]. constructor; [|exact D]. intros I. apply inb_In in I. congruence.
  - intros H. inversion H as [|? ? N D]; subst. split; [|exact D]. destruct (inb x l) eqn:I; [|reflexivity]. apply inb_In in I. contradiction.
Qed.
Lemma diffR_nil l : diffR l = [] <-> (List.length l < 2)%nat.
Proof. destruct l as [|x [|y l]]; cbn; split; intros; try reflexivity; try lia; discriminate. Qed.
Lemma maxR_ge l : forall x y, In y (x :: l) -> y <= maxR x l.
Proof.
  induction l as [|z l IH]; intros x y [<-|I]; cbn; try lra; try (destruct I); try apply Rmax_l.
  - subst. eapply Rle_trans; [apply IH; left; reflexivity|apply Rmax_r].
  - eapply Rle_trans; [apply IH; right; eassumption|apply Rmax_r].
Qed.
Lemma maxR_in l : forall x, In (maxR x l) (x :: l).
Proof. induction l as [|z l IH]; intros x; [left; reflexivity|]. cbn. unfold Rmax. destruct (Rle_dec x (maxR z l)); [right; apply IH|left; reflexivity]. Qed.
Lemma diffR_nth l : forall i a b, nth_error l i = Some a -> nth_error l (S i) = Some b -> In (b - a) (diffR l).
Proof.
  induction l as [|x l IH]; intros i a b A B; [destruct i; discriminate|]. destruct l as [|y l]; [destruct i as [|[|i]]; discriminate|]. destruct i as [|i].
  - cbn in A, B. injection A as ->. injection B as ->. left. reflexivity.
  - cbn [diffR]. right. apply (IH i a b); [exact A|exact B].
Qed.
Lemma table_spec date widths waves model ext order : 
  ((2 <= List.length waves)%nat /\ NoDup (map mname (flatten model)) /\ (forall m, In m (flatten model) -> exists c, m = MComp c) ->
    exists cols meta, empty_lsfparmtable date widths waves model ext order = Ok (cols, meta)) /\
  ((~ ((2 <= List.length waves)%nat /\ NoDup (map mname (flatten model)) /\ (forall m, In m (flatten model) -> exists c, m = MComp c))) ->
    empty_lsfparmtable date widths waves model ext order = Err ValueError).
Proof.
  unfold empty_lsfparmtable. destruct (diffR waves) as [|d r] eqn:D.
  - apply diffR_nil in D. split; [intros (L & _); lia|reflexivity].
  - assert (L : (2 <= List.length waves)%nat). { destruct (Nat.lt_ge_cases (List.length waves) 2) as [H|H]; [apply diffR_nil in H; congruence|exact H]. }
    cbv zeta. destruct (nodupb (map mname (flatten model))) eqn:N.
    + apply nodupb_spec in N. destruct (forallb is_comp (flatten model)) eqn:F; cbn [negb].
      * split; [eauto|]. intros H. exfalso. apply H. split; [exact L|]. split; [exact N|]. intros m I. rewrite forallb_forall in F. specialize (F m I). destruct m; try discriminate. eauto.
      * split; [|reflexivity]. intros (_ & _ & H). exfalso. assert (forallb is_comp (flatten model) = true); [|congruence]. apply forallb_forall. intros m I. destruct (H m I) as [c ->]. reflexivity.
    + split; [|reflexivity]. intros (_ & H & _). apply nodupb_spec in H. congruence.
Qed.
Lemma parms_len s : String.length (s ++ "_PARMS") = (String.length s + 6)%nat.
Proof. induction s as [|c s IH]; cbn; [|rewrite IH]; reflexivity. Qed.
Definition fixed_columns : list string := ["NUM_WIDTHS"; "WIDTHS"; "NUM_LAMBDAS"; "LAMBDAS"; "TG_LAM_LO"; "TG_LAM_HI"; "EE_FRACS"]%string.
Lemma table_columns date widths waves model ext order cols meta : empty_lsfparmtable date widths waves model ext order = Ok (cols, meta) ->
  map l_name cols = fixed_columns ++ map (fun m => (mname m ++ "_PARMS")%string) (flatten model) /\ NoDup (map l_name cols) /\
  (forall c m, In c cols -> In m (flatten model) -> l_name c = (mname m ++ "_PARMS")%string -> l_shape c = [List.length widths; List.length waves; 3%nat]).
Proof.
  unfold empty_lsfparmtable. destruct (diffR waves) as [|d r]; [discriminate|]. cbv zeta. destruct (nodupb (map mname (flatten model))) eqn:N; [|discriminate].
  destruct (forallb is_comp (flatten model)); [|discriminate]. cbn [negb]. intros H. match type of H with Ok (?a ++ ?b, _) = _ => set (fx := a) in H; set (pm := b) in H end. assert (HC : cols = fx ++ pm) by congruence. subst cols. clear H.
  assert (NI : forall k x, In k fixed_columns -> k <> (x ++ "_PARMS")%string).
  { intros k x I E. assert (LAST : forall s, String.get (String.length (s ++ "_PARMS") - 2) (s ++ "_PARMS")%string = Some "M"%char).
    { intros s. rewrite parms_len.
      replace (String.length s + 6 - 2)%nat with (4 + String.length s)%nat by lia. induction s as [|c s' IH]; [reflexivity|]. cbn [append String.length]. replace (4 + S (String.length s'))%nat with (S (4 + String.length s'))%nat by lia. exact IH. }
    specialize (LAST x). rewrite <- E in LAST. unfold fixed_columns in I. cbn [In] in I. repeat (destruct I as [<-|I]; [cbn in LAST; discriminate|]). destruct I. }
  split; [|split].
  - rewrite map_app. unfold pm. rewrite !map_map. reflexivity.
  - rewrite map_app. unfold pm. rewrite map_map. apply nodupb_spec in N. change (NoDup (fixed_columns ++ map (fun x => (x ++ "_PARMS")%string) (map mname (flatten model)))).
    assert (ND2 : NoDup (map (fun x => (x ++ "_PARMS")%string) (map mname (flatten model)))).
    { assert (APP : forall a b, (a ++ "_PARMS")%string = (b ++ "_PARMS")%string -> a = b).
      { induction a as [|c a IH]; intros [|c' b] E; [reflexivity| | |].
        - exfalso. apply (f_equal String.length) in E. rewrite !parms_len in E. cbn in E. lia.
        - exfalso. apply (f_equal String.length) in E. rewrite !parms_len in E. cbn in E. lia.
        - cbn in E. injection E as -> E. f_equal. now apply IH. }
      clear - N APP. induction N as [|x l H N IH]; [constructor|]. cbn. constructor; [|exact IH]. intros I. apply in_map_iff in I. destruct I as (y & E & I). apply APP in E. congruence. }
    assert (ND1 : NoDup fixed_columns) by (apply nodupb_spec; reflexivity).
    clear - ND1 ND2 NI. revert ND1 NI. generalize fixed_columns. induction l as [|k l IH]; intros ND1 NI; [exact ND2|]. inversion ND1; subst. cbn. constructor.
    + intros I. apply in_app_iff in I. destruct I as [I|I]; [contradiction|]. apply in_map_iff in I. destruct I as (x & E & _). now apply (NI k x (or_introl eq_refl)).
    + apply IH; [assumption|]. intros k' x I. apply NI. right. exact I.
  - intros c m I _ E. apply in_app_iff in I. destruct I as [I|I].
    + exfalso. apply (NI (l_name c) (mname m)); [|exact E]. unfold fixed_columns. unfold fx in I. cbn [In] in I |- *. repeat (destruct I as [<-|I]; [cbn; tauto|]). destruct I.
    + apply in_map_iff in I. destruct I as (n & <- & _). reflexivity.
Qed.
Lemma asc_diff l : ascending l -> forall x, In x (diffR l) -> 0 <= x.
Proof. induction l as [|a [|b l] IH]; intros A x I; [destruct I|destruct I|]. destruct A as [A1 A2]. cbn [diffR] in I. destruct I as [<-|I]; [lra|now apply IH]. Qed.
Lemma table_box date widths waves model ext order cols meta lo hi : empty_lsfparmtable date widths waves model ext order = Ok (cols, meta) -> ascending waves ->
  In (Col "TG_LAM_LO" [List.length waves] lo) cols -> In (Col "TG_LAM_HI" [List.length waves] hi) cols ->
  forall i w, nth_error waves i = Some w -> exists a b, nth_error lo i = Some a /\ nth_error hi i = Some b /\ a = 2 * w - b /\
    forall j w', (j = i \/ j = S i \/ i = S j) -> nth_error waves j = Some w' -> a + 12 / 10 <= w' <= b - 12 / 10.
Proof.
  unfold empty_lsfparmtable. destruct (diffR waves) as [|d r] eqn:D; [discriminate|]. cbv zeta. destruct (nodupb (map mname (flatten model))); [|discriminate].
  destruct (forallb is_comp (flatten model)); [|discriminate]. cbn [negb]. intros H AS I1 I2 i w W. set (dw := maxR d r + 12 / 10) in *. match type of H with Ok (?a ++ ?b, _) = _ => set (fx := a) in H; set (pm := b) in H end. assert (HC : cols = fx ++ pm) by congruence. subst cols. clear H.
  assert (NP : forall n, (n ++ "_PARMS")%string <> "TG_LAM_LO"%string /\ (n ++ "_PARMS")%string <> "TG_LAM_HI"%string).
  { intros n. split; intros E; pose proof (f_equal String.length E) as E'; rewrite parms_len in E'; cbn in E'; (destruct n as [|c1 [|c2 [|c3 [|c4 n]]]]; cbn in E'; try lia; cbn in E; discriminate). }
  assert (EL : lo = map (fun w => w - dw) waves).
  { apply in_app_iff in I1. destruct I1 as [I1|I1]; [unfold fx in I1; cbn [In] in I1; repeat (destruct I1 as [I1|I1]; [try discriminate I1; congruence|]); destruct I1|].
    apply in_map_iff in I1. destruct I1 as (n & E & _). injection E as E _. now destruct (NP n). }
  assert (EH : hi = map (fun w => w + dw) waves).
  { apply in_app_iff in I2. destruct I2 as [I2|I2]; [unfold fx in I2; cbn [In] in I2; repeat (destruct I2 as [I2|I2]; [try discriminate I2; congruence|]); destruct I2|].
    apply in_map_iff in I2. destruct I2 as (n & E & _). injection E as E _. now destruct (NP n). }
  rewrite EL, EH, !nth_error_map, W. cbn [option_map]. eexists _, _. split; [reflexivity|]. split; [reflexivity|]. split; [ring|].
  assert (MX : forall i a b, nth_error waves i = Some a -> nth_error waves (S i) = Some b -> 0 <= b - a <= dw - 12 / 10).
  { intros k a b A B. unfold dw. pose proof (diffR_nth _ _ _ _ A B) as I. split; [exact (asc_diff _ AS _ I)|]. rewrite D in I. pose proof (maxR_ge _ _ _ I). lra. }
  assert (DW : 12 / 10 <= dw). { pose proof (asc_diff _ AS d) as P. rewrite D in P. specialize (P (or_introl eq_refl)). pose proof (maxR_ge r d d (or_introl eq_refl)). unfold dw. lra. }
  intros j w' Hj W'; destruct Hj as [Hj|[Hj|Hj]]; subst; [assert (w' = w) by congruence; subst; lra|pose proof (MX _ _ _ W W'); lra|pose proof (MX _ _ _ W' W); lra].
Qed.

(** ** The histogram *)
Lemma filter_sum3 (p q r : R * R -> bool) vals : (forall v, In v vals -> r v = orb (p v) (q v) /\ andb (p v) (q v) = false) ->
  Rsum (map snd (filter p vals)) + Rsum (map snd (filter q vals)) = Rsum (map snd (filter r vals)).
Proof.
  induction vals as [|v vals IH]; intros H; [cbn; ring|]. specialize (IH (fun v I => H v (or_intror I))). destruct (H v (or_introl eq_refl)) as [E N]. cbn [filter].
  rewrite E. destruct (p v), (q v); cbn [orb andb] in *; try discriminate; cbn [map]; rewrite ?Rsum_cons; lra.
Qed.
Fixpoint strict (l : list R) : Prop := match l with x :: (y :: _) as r => x < y /\ strict r | _ => True end.
Lemma strict_last l : forall x d, strict (x :: l) -> x <= last (x :: l) d.
Proof. induction l as [|y l IH]; intros x d S; [cbn; lra|]. destruct S as [S1 S2]. specialize (IH y d S2). change (last (x :: y :: l) d) with (last (y :: l) d). lra. Qed.
Lemma histogram_sum vals : forall edges lo hi, strict (lo :: hi :: edges) ->
  Rsum (histogram (lo :: hi :: edges) vals) = Rsum (map snd (filter (fun v => andb (Rleb lo (fst v)) (Rleb (fst v) (last (hi :: edges) 0))) vals)).
Proof.
  induction edges as [|e edges IH]; intros lo hi S.
  - cbn [histogram]. rewrite Rsum_cons. cbn [last]. unfold Rsum at 2. cbn. ring.
  - destruct S as [S1 S2]. change (histogram (lo :: hi :: e :: edges) vals) with (Rsum (map snd (filter (fun v => andb (Rleb lo (fst v)) (Rltb (fst v) hi)) vals)) :: histogram (hi :: e :: edges) vals).
    rewrite Rsum_cons, IH by exact S2. apply filter_sum3. intros v _. change (last (hi :: e :: edges) 0) with (last (e :: edges) 0). set (t := last (e :: edges) 0).
    assert (hi < t). { destruct S2 as [S2 S3]. pose proof (strict_last edges e 0 S3). fold t in H. lra. }
    unfold Rleb, Rltb. destruct (Rle_dec lo (fst v)), (Rle_dec (fst v) t), (Rlt_dec (fst v) hi), (Rle_dec hi (fst v)); cbn; split; try reflexivity; lra.
Qed.
Lemma histogram_nth vals : forall edges i lo hi, nth_error edges i = Some lo -> nth_error edges (S i) = Some hi ->
  nth_error (histogram edges vals) i = Some (Rsum (map snd (filter (fun v => andb (Rleb lo (fst v)) (if Nat.eqb (S (S i)) (List.length edges) then Rleb (fst v) hi else Rltb (fst v) hi)) vals))).
Proof.
  induction edges as [|x edges IH]; intros i lo hi A B; [destruct i; discriminate|]. destruct edges as [|y edges]; [destruct i as [|[|i]]; discriminate|]. destruct i as [|i].
  - cbn in A, B. injection A as ->. injection B as ->. destruct edges as [|z edges]; reflexivity.
  - cbn [nth_error] in A. change (nth_error (y :: edges) (S i) = Some hi) in B. change (histogram (x :: y :: edges) vals) with (nth 0 (histogram (x :: y :: edges) vals) 0 :: histogram (y :: edges) vals).
    cbn [nth_error]. rewrite (IH i lo hi A B). reflexivity.
Qed.
Lemma histogram_length vals edges : List.length (histogram edges vals) = (List.length edges - 1)%nat.
Proof. induction edges as [|x [|y edges] IH]; [reflexivity|reflexivity|]. cbn [histogram List.length] in *. rewrite IH. lia. Qed.
Lemma strict_seq a s : 0 < s -> forall n k, strict (map (fun i => a + INR i * s) (seq k n)).
Proof.
  intros S. induction n as [|n IH]; intros k; [exact I|]. destruct n as [|n]; [exact I|]. cbn [seq map]. split; [|apply (IH (Datatypes.S k))].
  rewrite S_INR. lra.
Qed.
Lemma last_map_seq (f : nat -> R) d : forall n k, last (map f (seq k (Datatypes.S n))) d = f (k + n)%nat.
Proof. induction n as [|n IH]; intros k; [cbn; f_equal; lia|]. change (seq k (Datatypes.S (Datatypes.S n))) with (k :: seq (Datatypes.S k) (Datatypes.S n)). cbn [map]. rewrite <- (Nat.add_succ_comm k n), <- IH. reflexivity. Qed.
Lemma arangeR_spec a b s : 0 < s -> a < b -> exists n, (1 <= n)%nat /\ arangeR a b s = map (fun i => a + INR i * s) (seq 0 n) /\ INR (n - 1) * s < b - a <= INR n * s.
Proof.
  intros S L. unfold arangeR. set (q := (b - a) / s). assert (Q : 0 < q) by (apply Rdiv_lt_0_compat; lra). destruct (Rceil_spec q) as [C1 C2].
  assert (P : (0 < Rceil q)%Z) by (apply lt_IZR; lra). exists (Z.to_nat (Rceil q)). split; [lia|]. split; [reflexivity|].
  assert (E : b - a = q * s) by (unfold q; field; lra). rewrite E. rewrite minus_INR by lia. rewrite !INR_IZR_INZ, Z2Nat.id by lia. cbn [INR IZR]. change (IZR (Z.of_nat 1)) with 1.
  split; [apply Rmult_lt_compat_r; lra|apply Rmult_le_compat_r; lra].
Qed.
Lemma fit_data_spec evt bin d edges hist err : fit_data evt bin d = Ok (edges, hist, err) -> 0 < bin -> bin < 2 * d ->
  exists n mean, mean = Rsum (map fst evt) / INR (List.length evt) /\ (2 <= n)%nat /\ INR (n - 1) * bin < 2 * d <= INR n * bin /\
  List.length edges = n /\ (forall i e, nth_error edges i = Some e -> e = mean - d + INR i * bin) /\
  List.length hist = (n - 1)%nat /\
  Rsum hist = Rsum (map snd (filter (fun v => andb (Rleb (mean - d) (fst v)) (Rleb (fst v) (mean - d + INR (n - 1) * bin))) evt)) /\
  err = map (fun h => Rmax 1 (sqrt h)) hist.
Proof.
  unfold fit_data. intros H B D. destruct evt as [|v0 evt]; [discriminate|]. set (ev := v0 :: evt) in *. set (mean := meanR (map fst ev)) in *.
  destruct (arangeR_spec (- d) d bin B ltac:(lra)) as (n & N & E & L1 & L2). replace (d - - d) with (2 * d) in L1, L2 by ring. rewrite E in H. rewrite map_map in H.
  assert (N2 : (2 <= n)%nat). { destruct n as [|[|n]]; [lia| |lia]. cbn in L2. lra. }
  assert (X1 : edges = map (fun x => mean + (- d + INR x * bin)) (seq 0 n)) by congruence. assert (X2 : hist = histogram edges ev) by congruence. assert (X3 : err = map (fun h => Rmax 1 (sqrt h)) hist) by congruence.
  assert (X4 : edges = map (fun i => mean - d + INR i * bin) (seq 0 n)) by (rewrite X1; apply map_ext; intros; ring).
  exists n, mean. split; [unfold mean, meanR; now rewrite map_length|]. split; [exact N2|]. split; [lra|]. split; [rewrite X4, map_length, seq_length; reflexivity|]. split.
  - intros i e I. rewrite X4, nth_error_map in I. destruct (nth_error (seq 0 n) i) as [k|] eqn:K; [|discriminate]. cbn in I.
    assert (k = i). { assert (i < List.length (seq 0 n))%nat by (apply nth_error_Some; congruence). rewrite seq_length in H0. rewrite (nth_error_nth' _ 0%nat) in K by (now rewrite seq_length). rewrite seq_nth in K by exact H0. cbn in K. congruence. }
    subst k. congruence.
  - split; [rewrite X2, histogram_length, X4, map_length, seq_length; reflexivity|]. split; [|exact X3].
    destruct n as [|[|n]]; [lia|lia|]. rewrite X2. pose proof (strict_seq (mean - d) bin B (S (S n)) 0) as ST. rewrite <- X4 in ST.
    pose proof (last_map_seq (fun i => mean - d + INR i * bin) 0 (S n) 0) as LA. rewrite <- X4 in LA.
    assert (HD : exists hi rest, edges = (mean - d) :: hi :: rest). { rewrite X4. cbn [seq map]. eexists _, _. f_equal. cbn. ring. }
    destruct HD as (hi & rest & HE). rewrite HE in ST, LA |- *. rewrite histogram_sum by exact ST. change (last (mean - d :: hi :: rest) 0) with (last (hi :: rest) 0) in LA. rewrite LA.
    replace (S (S n) - 1)%nat with (0 + S n)%nat by lia. reflexivity.
Qed.
