(** Properties C202 and C203: plots and README for order sorting. *)
From Coq Require Import Ascii.
From Verif Require Import Base_Proofs Vec_Proofs Analysis_Proofs Osip_Proofs ArcusArf_Proofs Rmf_Proofs2.
From Verif Require Export Report_Model.
From Verif Require Import Report_Proofs.
Open Scope string_scope.
Open Scope list_scope.
Open Scope R_scope.

(** ** C202 *)
(** The plot of the mixture has a curve for the order, one for each order that contaminates it and the sum of all these: the fraction of the photons of each order in the
    window of the order that is plotted. *)
Theorem C202_mixture : forall rng cdf hc grid order offsets, order <> 0%Z -> (forall o, In o offsets -> (Z.abs o < Z.abs order)%Z) ->
  let fraction l t := let e := hc / (l / IZR (Z.abs order)) in cdf (snd (rng e order)) (e * (IZR t / IZR order)) - cdf (fst (rng e order)) (e * (IZR t / IZR order)) in
  let others := filter (fun o => negb (Z.eqb o 0)) offsets in
  plot_mixture rng cdf hc grid order offsets =
  Ok (("main order", map (fun l => fraction l order) grid) :: map (fun o => (String.append "contam " (str_int o), map (fun l => fraction l (order + o)%Z) grid)) others ++
      [("sum", map (fun l => fold_right Rplus 0 (map (fraction l) (order :: map (Z.add order) others))) grid)]).
Proof.
  intros rng cdf hc grid order offsets N F fraction oth. rewrite mixture_ok; [|exact N|].
  - unfold mix_energies. rewrite !map_map. f_equal. f_equal. f_equal. apply map_ext. intros o. now rewrite map_map.
  - apply Forall_forall. intros o I. specialize (F o I). right. destruct (Z_lt_le_dec 0 order); [now rewrite !Z.sgn_pos by lia|now rewrite !Z.sgn_neg by lia].
Qed.
Print Assumptions C202_mixture.
(** There is no such plot if one of these orders is on the other side of order 0 or is order 0: the 0 for it can not be drawn. Neither is there one for order 0. *)
Theorem C202_crossing_refuted : forall rng cdf hc grid order offsets, order <> 0%Z -> List.length grid <> 1%nat -> (exists o, In o offsets /\ o <> 0%Z /\ Z.sgn (order + o) <> Z.sgn order) ->
  plot_mixture rng cdf hc grid order offsets = Err ValueError.
Proof. intros rng cdf hc grid order offsets N L (o & I & B). apply mixture_bad; [exact N|exact L|]. apply Exists_exists. eauto. Qed.
Print Assumptions C202_crossing_refuted.
Theorem C202_zero : forall rng cdf hc grid offsets, grid <> [] -> plot_mixture rng cdf hc grid 0 offsets = Err ValueError.
Proof. exact mixture_zero. Qed.
Print Assumptions C202_zero.
(** Only if there is one wavelength, the 0 can be drawn. *)
Theorem C202_single : forall rng cdf hc l order o, order <> 0%Z -> o <> 0%Z -> Z.sgn (order + o) <> Z.sgn order ->
  let e := hc / (l / IZR (Z.abs order)) in let main := cdf (snd (rng e order)) e - cdf (fst (rng e order)) e in
  plot_mixture rng cdf hc [l] order [o] = Ok [("main order", [main]); (String.append "contam " (str_int o), [0]); ("sum", [main])].
Proof.
  intros rng cdf hc l order o N O S e main. unfold plot_mixture, mix_energies. cbn [map]. fold e. unfold factor_curve at 1. rewrite Z.eqb_refl. cbn [negb map sequence]. unfold osip_factor at 1. rewrite Z.eqb_refl. cbn [negb].
  assert (E : e * (IZR order / IZR order) = e) by (field; now apply not_0_IZR).
  destruct (Z.eqb order 0) eqn:Z0; [apply Z.eqb_eq in Z0; contradiction|]. cbn [bind].
  unfold draw at 1. cbn [List.length Nat.eqb bind contaminants]. destruct (Z.eqb o 0) eqn:O0; [apply Z.eqb_eq in O0; contradiction|].
  unfold factor_curve. destruct (Z.eqb (Z.sgn order) (Z.sgn (order + o))) eqn:G; [apply Z.eqb_eq in G; congruence|]. cbn [negb bind]. unfold draw. cbn [List.length Nat.eqb bind contaminants add_curve map fst snd app].
  rewrite ?E. unfold main. rewrite Rplus_0_r. reflexivity.
Qed.
Print Assumptions C202_single.
(** When many ARFs are made, the plots are made last, for the order in the middle of the list: they are there if it is far enough from 0, *)
Theorem C202_all : forall rng cdf hc grid offsets ex orders o, nth_error orders (List.length orders / 2) = Some o -> o <> 0%Z -> (forall d, In d offsets -> (Z.abs d < Z.abs o)%Z) ->
  osip_pairs offsets ex orders <> [] ->
  apply_osip_all rng cdf hc grid offsets ex orders = ((osip_pairs offsets ex orders, ["OSIP_regions.pdf"; "ARF_sum.pdf"]), None).
Proof.
  intros rng cdf hc grid offsets ex orders o M N F P. unfold apply_osip_all, mid_order. rewrite M. cbn [bind]. rewrite (C202_mixture rng cdf hc grid o offsets N F). destruct (osip_pairs offsets ex orders); [now destruct P|reflexivity].
Qed.
Print Assumptions C202_all.
(** but if it is next to order 0, all ARFs are written, and then the call fails without the plots. *)
Theorem C202_all_refuted : forall rng cdf hc grid ex orders o, nth_error orders (List.length orders / 2) = Some o -> (Z.abs o <= 1)%Z -> (2 <= List.length grid)%nat ->
  osip_pairs [-1; 0; 1]%Z ex orders <> [] -> apply_osip_all rng cdf hc grid [-1; 0; 1]%Z ex orders = ((osip_pairs [-1; 0; 1]%Z ex orders, []), Some ValueError).
Proof.
  intros rng cdf hc grid ex orders o M B L P. unfold apply_osip_all, mid_order. rewrite M. cbn [bind].
  assert (E : plot_mixture rng cdf hc grid o [-1; 0; 1]%Z = Err ValueError).
  { destruct (Z.eq_dec o 0) as [->|N]; [apply mixture_zero; intros ->; cbn in L; lia|]. apply C202_crossing_refuted; [exact N|lia|]. assert (C : (o = 1 \/ o = -1)%Z) by lia. destruct C as [-> | ->]; [exists (-1)%Z|exists 1%Z]; cbn; repeat split; try tauto; lia. }
  rewrite E. destruct (osip_pairs _ ex orders); [now destruct P|reflexivity].
Qed.
Print Assumptions C202_all_refuted.
(** If no ARFs are made there are no plots and no error. *)
Theorem C202_no_files : forall rng cdf hc grid offsets ex orders, osip_pairs offsets ex orders = [] -> apply_osip_all rng cdf hc grid offsets ex orders = (([], []), None).
Proof. intros rng cdf hc grid offsets ex orders E. unfold apply_osip_all. now rewrite E. Qed.
Print Assumptions C202_no_files.
(** The plot of the area of all ARFs is the sum of their areas, at every wavelength that is in the tables. *)
Theorem C202_sum : forall arfs w areas, Forall2 (fun a s => ascP (rev a) /\ In (w, s) a) arfs areas -> summed_arf arfs w = Ok (fold_right Rplus 0 areas).
Proof. exact summed_nodes. Qed.
Print Assumptions C202_sum.
(** At wavelengths where the ARFs have no bins it is not 0 but the area in the last bin. *)
Theorem C202_outside_refuted : forall arfs w, Forall (fun a => a <> [] /\ w < fst (last a (0, 0))) arfs -> summed_arf arfs w = Ok (fold_right Rplus 0 (map (fun a => snd (last a (0, 0))) arfs)).
Proof. exact summed_short. Qed.
Print Assumptions C202_outside_refuted.
Example C202_example : (forall rng cdf hc, exists c, plot_mixture rng cdf hc [20; 21] 3 [-1; 0; 1]%Z = Ok c /\ map fst c = ["main order"; "contam -1"; "contam 1"; "sum"]) /\
  (forall rng cdf hc, apply_osip_all rng cdf hc [20; 21] [-1; 0; 1]%Z (fun _ => true) [-1; 0; 1]%Z = (([(-1, -2); (-1, -1); (1, 1); (1, 2)]%Z, []), Some ValueError)) /\
  summed_arf [[(3, 5); (2, 7)]; [(3, 10); (2, 20)]] 2 = Ok 27 /\ summed_arf [[(3, 5); (2, 7)]; [(3, 10); (2, 20)]] 1 = Ok 27.
Proof.
  split; [|split; [|split]].
  - intros rng cdf hc. rewrite C202_mixture; [|discriminate|cbn; intros o; lia]. eexists. split; reflexivity.
  - intros rng cdf hc. change [(-1, -2); (-1, -1); (1, 1); (1, 2)]%Z with (osip_pairs [-1; 0; 1]%Z (fun _ => true) [-1; 0; 1]%Z). apply (C202_all_refuted _ _ _ _ _ _ 0%Z); [reflexivity|lia|cbn; lia|discriminate].
  - rewrite (C202_sum _ 2 [7; 20]); [cbn; f_equal; lra|]. repeat constructor; cbn; try lra; tauto.
  - rewrite C202_outside_refuted; [cbn; f_equal; lra|]. repeat constructor; cbn; try lra; discriminate.
Qed.

(** ** C203 *)
(** Templates: names after a dollar are replaced by their values and nothing else is changed. *)
Theorem C203_template : forall d l, template_ok l = true -> substitute d Plain (render l) = meaning d l.
Proof. exact template_meaning. Qed.
Print Assumptions C203_template.
(** Names have letters, digits and underscores, but no digit in front. *)
Theorem C203_names : forall c s, identifier (String c s) =
  existsb (Ascii.eqb c) (list_ascii_of_string "ABCDEFGHIJKLMNOPQRSTUVWXYZabcdefghijklmnopqrstuvwxyz_") &&
  forallb (fun c => existsb (Ascii.eqb c) (list_ascii_of_string "ABCDEFGHIJKLMNOPQRSTUVWXYZabcdefghijklmnopqrstuvwxyz_0123456789")) (list_ascii_of_string s).
Proof. exact identifier_chars. Qed.
Print Assumptions C203_names.
(** A name can be in braces; other text in braces is an error. *)
Theorem C203_braces : forall d s n t, no_dollar s = true -> all_chars (fun c => negb (Ascii.eqb c "}"%char)) n = true ->
  substitute d Plain (String.append s (String.append "${" (String.append n (String.append "}" t)))) =
  if identifier n then bind (lookup d n) (fun v => bind (substitute d Plain t) (fun r => Ok (String.append s (String.append v r)))) else Err ValueError.
Proof. exact braces. Qed.
Print Assumptions C203_braces.
(** A dollar that is no name is an error, two dollars are one. *)
Theorem C203_dollar : forall d s t, no_dollar s = true -> (match t with EmptyString => True | String c _ => id_start c = false /\ c <> dollar /\ c <> "{"%char end) ->
  substitute d Plain (String.append s (String dollar t)) = Err ValueError /\ substitute d Plain (String.append s (String dollar (String dollar ""))) = Ok (String.append s "$").
Proof.
  intros d s t S T. split; rewrite sub_text by exact S; [|reflexivity]. cbn [substitute]. change (Ascii.eqb dollar dollar) with true. cbn iota. destruct t as [|c t]; [reflexivity|]. destruct T as (A & B & C). cbn [substitute]. apply Ascii.eqb_neq in B, C. rewrite B, A, C. reflexivity.
Qed.
Print Assumptions C203_dollar.
(** The README: the text with the description, the offsets, the names of three files that apply_osip writes (without a prefix), and the meta information. *)
Theorem C203_readme : forall t0 t1 t2 t3 t4 t5 t6 meta desc offs outroot chan tag, template_ok (osip_template t0 t1 t2 t3 t4 t5 t6) = true -> tagstring meta = Ok tag ->
  exists n0 n1 n2, arcus_out_name "" chan (-4) (-4) = Ok n0 /\ arcus_out_name "" chan (-5) (-4) = Ok n1 /\ arcus_out_name "" chan (-3) (-4) = Ok n2 /\
    write_readme (render (osip_template t0 t1 t2 t3 t4 t5 t6)) meta desc offs outroot chan =
    Ok (fold_right String.append "" [t0; desc; t1; offs; t2; n0; t3; n1; t4; n2; t5; tag; t6]).
Proof. exact readme_ok. Qed.
Print Assumptions C203_readme.
(** The prefix of the files is ignored: with one, the README names files that are not there. *)
Theorem C203_outroot_refuted : forall template meta desc offs outroot chan, write_readme template meta desc offs outroot chan = write_readme template meta desc offs "" chan /\
  (outroot <> "" -> forall m order n n', arcus_out_name outroot chan m order = Ok n -> arcus_out_name "" chan m order = Ok n' -> n <> n').
Proof.
  intros template meta desc offs outroot chan. split; [reflexivity|]. intros H m order n n' A B. unfold arcus_out_name in *. destruct (arcus_filename _ _) as [f|]; [|discriminate]. cbn [bind] in *. injection A as <-. injection B as <-.
  intros E. apply H. assert (L : String.length (String.append outroot f) = String.length f) by now rewrite E. assert (G : forall a b, String.length (String.append a b) = (String.length a + String.length b)%nat) by (induction a as [|x a IH]; intros b; cbn; [reflexivity|now rewrite IH]).
  rewrite G in L. destruct outroot; [reflexivity|cbn in L; lia].
Qed.
Print Assumptions C203_outroot_refuted.
(** The meta information has one line per entry, if all entries are texts or tuples with a comment; other entries are an error. *)
Theorem C203_tags : forall meta, (Forall (fun kv => match snd kv with MStr _ => True | MTuple l => (2 <= List.length l)%nat | MNumber => False end) meta <-> exists s, tagstring meta = Ok s) /\
  forall a b s t, tagstring a = Ok s -> tagstring b = Ok t -> tagstring (a ++ b) = Ok (String.append s t).
Proof.
  intros meta. split; [split|].
  - intros F. induction F as [|[k v] meta H F [s IH]]; [now exists ""|]. cbn [tagstring]. rewrite IH. cbn [snd] in H. unfold meta_line. cbn [fst snd]. destruct v as [x|[|x [|y l]]|]; try (cbn in H; lia); try destruct H; cbn [bind]; eauto.
  - induction meta as [|[k v] meta IH]; intros [s E]; [constructor|]. cbn [tagstring] in E. destruct (meta_line (k, v)) as [a|] eqn:M; [|discriminate]. cbn [bind] in E. destruct (tagstring meta) as [r|]; [|discriminate]. constructor; [|now apply IH; exists r].
    cbn [snd]. unfold meta_line in M. cbn [snd fst] in M. destruct v as [x|[|x [|y l]]|]; try discriminate; cbn; try exact Logic.I; lia.
  - induction a as [|kv a IH]; intros b s t A B; [injection A as <-; exact B|]. cbn [tagstring app] in *. destruct (meta_line kv) as [x|]; [|discriminate]. cbn [bind] in *. destruct (tagstring a) as [r|]; [|discriminate]. cbn [bind] in A. injection A as <-. rewrite (IH b r t eq_refl B). cbn [bind]. now rewrite sapp_assoc.
Qed.
Print Assumptions C203_tags.
Theorem C203_lines : forall k s a b l, tagstring [(k, MStr s)] = Ok (fold_right String.append "" [k; ": "; s; newline]) /\
  tagstring [(k, MTuple (a :: b :: l))] = Ok (fold_right String.append "" [k; ": "; a; "   // "; b; newline]).
Proof. intros k s a b l. split; cbn [tagstring meta_line fst snd bind fold_right]; now rewrite ?sapp_assoc. Qed.
Print Assumptions C203_lines.
Example C203_example : let nl := newline in template_ok (osip_template "README for:" nl nl nl nl nl "end") = false /\ template_ok (osip_template "README for:" nl nl nl nl nl nl) = true /\
  write_readme "See $filenameupper or $$5." [] "d" "o" "x" "1111" = Ok "See chan_all_ccdord_-4_true_-5.arf or $5." /\ write_readme "See $file" [] "d" "o" "x" "1111" = Err KeyError /\ write_readme "It is 5$" [] "d" "o" "x" "1111" = Err ValueError /\
  tagstring [("DATE", MTuple ["2026"; "day"]); ("A", MStr "b")] = Ok (String.append "DATE: 2026   // day" (String.append newline (String.append "A: b" newline))).
Proof. cbn zeta. repeat split. Qed.
