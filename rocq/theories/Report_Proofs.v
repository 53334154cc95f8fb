(** Proofs for [Report_Model]. *)
From Coq Require Import Ascii.
From Verif Require Import Base_Proofs Vec_Proofs Analysis_Proofs Osip_Proofs ArcusArf_Proofs Rmf_Proofs2.
From Verif Require Export Report_Model.
Open Scope string_scope.
Open Scope list_scope.
Open Scope R_scope.

(** ** Mixture *)
Section Mix.
Variables (rng : R -> Z -> R * R) (cdf : R -> R -> R).
Definition fac (order : Z) (e : R) (t : Z) : R := cdf (snd (rng e order)) (e * (IZR t / IZR order)) - cdf (fst (rng e order)) (e * (IZR t / IZR order)).
Lemma factor_same ens order t : order <> 0%Z -> Z.sgn order = Z.sgn t -> factor_curve rng cdf ens order t = Ok (Curve (map (fun e => fac order e t) ens)).
Proof.
  intros N E. unfold factor_curve. rewrite E, Z.eqb_refl. cbn [negb].
  assert (S : sequence (map (fun e => osip_factor rng cdf e order t) ens) = Ok (map (fun e => fac order e t) ens)).
  { induction ens as [|e ens IH]; [reflexivity|]. cbn [map sequence]. unfold osip_factor at 1. rewrite E, Z.eqb_refl. cbn [negb]. destruct (Z.eqb_spec order 0) as [Z0|_]; [contradiction|]. cbn [bind]. rewrite IH. reflexivity. }
  now rewrite S.
Qed.
Lemma factor_other ens order t : Z.sgn order <> Z.sgn t -> factor_curve rng cdf ens order t = Ok (Number 0).
Proof. intros N. unfold factor_curve. destruct (Z.eqb_spec (Z.sgn order) (Z.sgn t)); [contradiction|reflexivity]. Qed.
Lemma draw_ok grid ens lab (f : R -> R) : List.length ens = List.length grid -> draw grid lab (Curve (map f ens)) = Ok (lab, map f ens).
Proof. intros L. unfold draw. rewrite map_length, L, Nat.eqb_refl. reflexivity. Qed.
Lemma add_map (f g : R -> R) ens : add_curve (map f ens) (Curve (map g ens)) = map (fun e => f e + g e) ens.
Proof. cbn [add_curve]. induction ens as [|e ens IH]; [reflexivity|]. cbn. now rewrite IH. Qed.
Definition others (offsets : list Z) : list Z := filter (fun o => negb (Z.eqb o 0)) offsets.
Lemma contaminants_ok grid ens order offsets : order <> 0%Z -> List.length ens = List.length grid -> Forall (fun o => o = 0%Z \/ Z.sgn (order + o) = Z.sgn order) offsets -> forall f,
  contaminants rng cdf grid ens order offsets (map f ens) =
  Ok (map (fun o => (String.append "contam " (str_int o), map (fun e => fac order e (order + o)) ens)) (others offsets),
      map (fun e => f e + fold_right Rplus 0 (map (fun o => fac order e (order + o)) (others offsets))) ens).
Proof.
  intros N L F. induction F as [|o offsets Ho F IH]; intros f.
  - cbn. f_equal. f_equal. apply map_ext. intros e. lra.
  - cbn [contaminants others filter]. destruct (Z.eqb_spec o 0) as [->|No]; cbn [negb].
    + apply IH.
    + destruct Ho as [Ho|Ho]; [contradiction|]. rewrite factor_same by (assumption || now symmetry). cbn [bind]. rewrite draw_ok by exact L. cbn [bind]. rewrite add_map, IH. cbn [bind fst snd map fold_right]. f_equal. f_equal. apply map_ext. intros e. fold (others offsets). now rewrite Rplus_assoc.
Qed.
Lemma mixture_ok hc grid order offsets : order <> 0%Z -> Forall (fun o => o = 0%Z \/ Z.sgn (order + o) = Z.sgn order) offsets -> let ens := mix_energies hc grid order in
  plot_mixture rng cdf hc grid order offsets =
  Ok (("main order", map (fun e => fac order e order) ens) :: map (fun o => (String.append "contam " (str_int o), map (fun e => fac order e (order + o)) ens)) (others offsets) ++
      [("sum", map (fun e => fold_right Rplus 0 (map (fac order e) (order :: map (Z.add order) (others offsets)))) ens)]).
Proof.
  intros N F ens. unfold plot_mixture. fold ens. rewrite factor_same by auto. cbn [bind]. assert (L : List.length ens = List.length grid) by (unfold ens, mix_energies; now rewrite map_length).
  rewrite draw_ok by exact L. cbn [bind snd]. rewrite (contaminants_ok grid ens order offsets N L F). cbn [bind fst snd]. do 5 f_equal. apply map_ext. intros e. cbn [map fold_right]. now rewrite map_map.
Qed.
Lemma contaminants_bad grid ens order offsets : order <> 0%Z -> List.length ens = List.length grid -> List.length grid <> 1%nat -> Exists (fun o => o <> 0%Z /\ Z.sgn (order + o) <> Z.sgn order) offsets -> forall cm,
  contaminants rng cdf grid ens order offsets cm = Err ValueError.
Proof.
  intros N L L1 B. induction offsets as [|o offsets IH]; [inversion B|]. intros cm. cbn [contaminants]. destruct (Z.eqb_spec o 0) as [->|No].
  - apply IH. inversion B as [? ? [X _]|]; subst; [now destruct X|assumption].
  - destruct (Z.eq_dec (Z.sgn (order + o)) (Z.sgn order)) as [E|E].
    + rewrite factor_same by auto. cbn [bind]. rewrite draw_ok by exact L. cbn [bind]. rewrite IH; [reflexivity|]. inversion B as [? ? [_ X]|]; subst; [contradiction|assumption].
    + rewrite factor_other by (intros X; now apply E). cbn [bind]. unfold draw. cbn [List.length]. destruct (Nat.eqb_spec (List.length grid) 1); [contradiction|reflexivity].
Qed.
Lemma mixture_bad hc grid order offsets : order <> 0%Z -> List.length grid <> 1%nat -> Exists (fun o => o <> 0%Z /\ Z.sgn (order + o) <> Z.sgn order) offsets -> plot_mixture rng cdf hc grid order offsets = Err ValueError.
Proof.
  intros N L1 B. unfold plot_mixture. set (ens := mix_energies hc grid order). assert (L : List.length ens = List.length grid) by (unfold ens, mix_energies; now rewrite map_length).
  rewrite factor_same by auto. cbn [bind]. rewrite draw_ok by exact L. cbn [bind]. now rewrite contaminants_bad.
Qed.
Lemma mixture_zero hc grid offsets : grid <> [] -> plot_mixture rng cdf hc grid 0 offsets = Err ValueError.
Proof. intros H. destruct grid as [|g grid]; [now destruct H|]. reflexivity. Qed.
End Mix.

(** ** Summed area *)
Lemma summed_nodes arfs w ss : Forall2 (fun a s => ascP (rev a) /\ In (w, s) a) arfs ss -> summed_arf arfs w = Ok (fold_right Rplus 0 ss).
Proof.
  intros H. induction H as [|a s arfs ss [A I] F IH]; [reflexivity|]. cbn [summed_arf fold_right]. rewrite (interp_node (rev a) w s A) by (now apply in_rev in I). cbn [bind]. now rewrite IH.
Qed.
Lemma summed_short arfs w : Forall (fun a => a <> [] /\ w < fst (last a (0, 0))) arfs -> summed_arf arfs w = Ok (fold_right Rplus 0 (map (fun a => snd (last a (0, 0))) arfs)).
Proof.
  intros H. induction H as [|a arfs [N W] F IH]; [reflexivity|]. cbn [summed_arf map fold_right]. destruct (exists_last N) as (b & [x y] & ->). rewrite last_last in *. rewrite rev_app_distr. cbn [rev app interp fst snd] in *.
  rewrite (proj2 (Rltb_true w x) W). cbn [bind]. now rewrite IH.
Qed.

(** ** Templates *)
Lemma sapp_nil_r s : String.append s "" = s. Proof. induction s as [|c s IH]; [reflexivity|]. cbn. now rewrite IH. Qed.
Lemma sapp_assoc a b c : String.append (String.append a b) c = String.append a (String.append b c). Proof. induction a as [|x a IH]; [reflexivity|]. cbn. now rewrite IH. Qed.
Lemma bind_Ok_ext {A B} (r : result A) (f g : A -> result B) : (forall x, f x = g x) -> bind r f = bind r g. Proof. intros H. destruct r; cbn; auto. Qed.
Lemma bind_bind {A B C} (r : result A) (f : A -> result B) (g : B -> result C) : bind (bind r f) g = bind r (fun x => bind (f x) g). Proof. now destruct r. Qed.
Lemma bind_id (r : result string) : bind r (fun x => Ok x) = r. Proof. now destruct r. Qed.
Lemma sub_text d s t : no_dollar s = true -> substitute d Plain (String.append s t) = bind (substitute d Plain t) (fun r => Ok (String.append s r)).
Proof.
  induction s as [|c s IH]; intros H; [cbn [String.append]; now rewrite bind_id|]. unfold no_dollar in *. cbn [all_chars] in H. apply andb_true_iff in H. destruct H as [Hc H]. apply negb_true_iff in Hc.
  cbn [String.append substitute]. rewrite Hc, IH, bind_bind by exact H. reflexivity.
Qed.
Lemma sub_ident d n acc t : all_chars id_char n = true -> substitute d (Ident acc) (String.append n t) = substitute d (Ident (String.append acc n)) t.
Proof.
  revert acc. induction n as [|c n IH]; intros acc H; [cbn [String.append]; now rewrite sapp_nil_r|]. cbn [all_chars] in H. apply andb_true_iff in H. destruct H as [Hc H].
  cbn [String.append substitute]. rewrite Hc, IH by exact H. f_equal. f_equal. unfold snoc. now rewrite sapp_assoc.
Qed.
Lemma sub_end d n t : match t with EmptyString => true | String c _ => negb (id_char c) end = true -> substitute d (Ident n) t = bind (lookup d n) (fun v => bind (substitute d Plain t) (fun r => Ok (String.append v r))).
Proof.
  intros H. destruct t as [|c t]; cbn [substitute].
  - destruct (lookup d n) as [v|]; [|reflexivity]. cbn [bind]. now rewrite sapp_nil_r.
  - apply negb_true_iff in H. rewrite H. apply bind_Ok_ext. intros v. destruct (Ascii.eqb c dollar); [reflexivity|]. now rewrite bind_bind.
Qed.
Lemma start_no_dollar c : id_start c = true -> Ascii.eqb c dollar = false.
Proof. intros H. destruct (Ascii.eqb_spec c dollar) as [->|]; [discriminate|reflexivity]. Qed.
Lemma template_meaning d l : template_ok l = true -> substitute d Plain (render l) = meaning d l.
Proof.
  induction l as [|[s|n] l IH]; intros H; [reflexivity| |]; cbn [template_ok] in H.
  - apply andb_true_iff in H. destruct H as [Hs H]. cbn [render meaning]. rewrite sub_text by exact Hs. now rewrite IH.
  - apply andb_true_iff in H. destruct H as [H Ht]. apply andb_true_iff in H. destruct H as [Hn He]. cbn [render meaning String.append substitute]. change (Ascii.eqb dollar dollar) with true. cbn iota.
    destruct n as [|c n]; [discriminate|]. cbn [identifier] in Hn. apply andb_true_iff in Hn. destruct Hn as [Hc Hn]. cbn [String.append substitute]. rewrite (start_no_dollar c Hc), Hc, (sub_ident d n (String c "") _ Hn). cbn [String.append].
    rewrite sub_end by exact He. apply bind_Ok_ext. intros v. now rewrite IH.
Qed.
(** *** the README *)
Lemma readme_ok t0 t1 t2 t3 t4 t5 t6 meta desc offs outroot chan tag : template_ok (osip_template t0 t1 t2 t3 t4 t5 t6) = true -> tagstring meta = Ok tag ->
  exists n0 n1 n2, arcus_out_name "" chan (-4) (-4) = Ok n0 /\ arcus_out_name "" chan (-5) (-4) = Ok n1 /\ arcus_out_name "" chan (-3) (-4) = Ok n2 /\
    write_readme (render (osip_template t0 t1 t2 t3 t4 t5 t6)) meta desc offs outroot chan =
    Ok (fold_right String.append "" [t0; desc; t1; offs; t2; n0; t3; n1; t4; n2; t5; tag; t6]).
Proof.
  intros T G. unfold write_readme, readme_values. rewrite G. cbn [bind]. unfold arcus_out_name, arcus_filename. cbn [dget String.eqb Ascii.eqb Bool.eqb bind ddel filter fst negb filename_from_meta kw_text].
  eexists. eexists. eexists. split; [reflexivity|]. split; [reflexivity|]. split; [reflexivity|]. rewrite template_meaning by exact T. unfold osip_template, meaning, lookup. cbn [dget String.eqb Ascii.eqb Bool.eqb bind]. reflexivity.
Qed.

(** *** names *)
Lemma start_chars c : id_start c = existsb (Ascii.eqb c) (list_ascii_of_string "ABCDEFGHIJKLMNOPQRSTUVWXYZabcdefghijklmnopqrstuvwxyz_").
Proof. destruct c as [[] [] [] [] [] [] [] []]; reflexivity. Qed.
Lemma name_chars c : id_char c = existsb (Ascii.eqb c) (list_ascii_of_string "ABCDEFGHIJKLMNOPQRSTUVWXYZabcdefghijklmnopqrstuvwxyz_0123456789").
Proof. destruct c as [[] [] [] [] [] [] [] []]; reflexivity. Qed.
Lemma all_chars_list f s : all_chars f s = forallb f (list_ascii_of_string s).
Proof. induction s as [|c s IH]; [reflexivity|]. cbn. now rewrite IH. Qed.
Lemma forallb_same {A} (f g : A -> bool) l : (forall a, f a = g a) -> forallb f l = forallb g l.
Proof. intros H. induction l as [|a l IH]; [reflexivity|]. cbn. now rewrite H, IH. Qed.
Lemma identifier_chars c s : identifier (String c s) =
  existsb (Ascii.eqb c) (list_ascii_of_string "ABCDEFGHIJKLMNOPQRSTUVWXYZabcdefghijklmnopqrstuvwxyz_") &&
  forallb (fun c => existsb (Ascii.eqb c) (list_ascii_of_string "ABCDEFGHIJKLMNOPQRSTUVWXYZabcdefghijklmnopqrstuvwxyz_0123456789")) (list_ascii_of_string s).
Proof. unfold identifier. rewrite start_chars, all_chars_list. f_equal. apply forallb_same, name_chars. Qed.
Lemma snoc_app s c t : String.append (snoc s c) t = String.append s (String c t).
Proof. unfold snoc. now rewrite sapp_assoc. Qed.
Lemma in_braces d t : forall n p, p <> "" -> all_chars (fun c => negb (Ascii.eqb c "}"%char)) n = true ->
  substitute d (Brace p) (String.append n (String.append "}" t)) =
  if all_chars id_char n then bind (lookup d (String.append p n)) (fun v => bind (substitute d Plain t) (fun r => Ok (String.append v r))) else Err ValueError.
Proof.
  induction n as [|c n IH]; intros p P A; cbn [String.append substitute all_chars].
  - change (Ascii.eqb "}" "}") with true. cbn iota. assert (E : String.append p "" = p) by (clear; induction p as [|y q IH]; [reflexivity|cbn; now rewrite IH]). rewrite E. destruct p; [now destruct P|reflexivity].
  - cbn [all_chars] in A. apply andb_prop in A as [A B]. apply negb_true_iff in A. rewrite A. destruct p as [|x p'] eqn:Ep; [now destruct P|]. destruct (id_char c); [|reflexivity]. cbn [andb]. rewrite <- Ep. rewrite IH; [|destruct p; subst; discriminate|exact B].
    now rewrite snoc_app.
Qed.
Lemma braces d s n t : no_dollar s = true -> all_chars (fun c => negb (Ascii.eqb c "}"%char)) n = true ->
  substitute d Plain (String.append s (String.append "${" (String.append n (String.append "}" t)))) =
  if identifier n then bind (lookup d n) (fun v => bind (substitute d Plain t) (fun r => Ok (String.append s (String.append v r)))) else Err ValueError.
Proof.
  intros S B. rewrite sub_text by exact S. cbn [String.append substitute]. change (Ascii.eqb "$" dollar) with true. cbn iota. change (Ascii.eqb "{" dollar) with false. change (id_start "{") with false. change (Ascii.eqb "{" "{") with true. cbn iota.
  destruct n as [|c n]; [reflexivity|]. cbn [String.append substitute]. cbn [all_chars] in B. apply andb_prop in B as [A B]. apply negb_true_iff in A. rewrite A. unfold identifier. destruct (id_start c); [|reflexivity]. cbn [andb].
  unfold snoc. cbn [String.append]. change (String "}" t) with (String.append "}" t). rewrite (in_braces d t n (String c "")) by (try discriminate; exact B). destruct (all_chars id_char n); [|reflexivity]. cbn [String.append]. destruct (lookup d (String c n)); [|reflexivity]. cbn [bind]. destruct (substitute d Plain t); reflexivity.
Qed.
