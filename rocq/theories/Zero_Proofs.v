(** Proofs about Zero_Model. *)
From Coq Require Import Permutation.
From Verif Require Import Rmf_Props.
From Verif Require Export Analysis_Proofs Lsf_Proofs Ogip_Proofs Ogip_Props Zero_Model.
Open Scope R_scope.

Lemma removelast_len {A} (l : list A) : List.length (removelast l) = (List.length l - 1)%nat.
Proof. induction l as [|x l IH]; [reflexivity|]. destruct l as [|y l]; [reflexivity|]. change (removelast (x :: y :: l)) with (x :: removelast (y :: l)). cbn [List.length] in *. lia. Qed.
Lemma tl_len {A} (l : list A) : List.length (tl l) = (List.length l - 1)%nat. Proof. destruct l; cbn; lia. Qed.
Lemma nth_combine {A B} (a : list A) (b : list B) r x y : nth_error (combine a b) r = Some (x, y) -> nth_error a r = Some x /\ nth_error b r = Some y.
Proof. revert b r. induction a as [|p a IH]; intros b r H; [destruct r; discriminate|]. destruct b as [|q b]; [destruct r; discriminate|]. destruct r as [|r]; [injection H as -> ->; split; reflexivity|]. exact (IH b r H). Qed.
Lemma combine_nth_some {A B} (a : list A) (b : list B) r x y : nth_error a r = Some x -> nth_error b r = Some y -> nth_error (combine a b) r = Some (x, y).
Proof. revert b r. induction a as [|p a IH]; intros b r H K; [destruct r; discriminate|]. destruct b as [|q b]; [destruct r; discriminate|]. destruct r as [|r]; [cbn in *; congruence|]. exact (IH b r H K). Qed.

Lemma zero_rows F conv edges ccd thr m eb : mkrmf0 F conv edges ccd thr = Ok (m, eb) ->
  let s := sortR (map conv edges) in let lo := removelast s in let hi := tl s in
  eb = (seq 0 (List.length edges - 1), lo, hi) /\ List.length m = (List.length edges - 1)%nat /\
  forall r mr, nth_error m r = Some mr -> nth_error lo r = Some (r_lo mr) /\ nth_error hi r = Some (r_hi mr) /\ exists w, let mid := 1 / 2 * (r_lo mr + r_hi mr) in
    Analysis_Model.interp (map (fun p => (fst p, snd p / 1000)) ccd) mid = Ok w /\
    full_rmf (List.length edges - 1) 0 mr = Ok (cut thr (map (fun c => F NormGauss1D w mid (snd c) - F NormGauss1D w mid (fst c)) (combine lo hi))).
Proof.
  unfold mkrmf0, ebounds_from_edges. cbv zeta. intros H. set (s := sortR (map conv edges)) in *. apply bind_inv in H. destruct H as (m' & M & H). injection H as <- <-. split; [reflexivity|].
  assert (LS : List.length s = List.length edges) by (unfold s; rewrite (Permutation_length (sortR_perm _)); apply map_length).
  assert (LC : List.length (combine (removelast s) (tl s)) = (List.length edges - 1)%nat) by (rewrite combine_length, removelast_len, tl_len; lia).
  pose proof (sequence_Forall2 _ _ _ M) as F2. pose proof (Forall2_len _ _ _ F2) as LF. split; [congruence|].
  intros r mr R. assert (exists b, nth_error (combine (removelast s) (tl s)) r = Some b) as [b B].
  { destruct (nth_error (combine (removelast s) (tl s)) r) eqn:E; [eauto|]. apply nth_error_None in E. rewrite LF in E. apply nth_error_None in E. congruence. }
  assert (Z : zero_row F (map (fun p => (fst p, snd p / 1000)) ccd) thr (removelast s) (tl s) b = Ok mr).
  { clear - F2 R B. revert r R B. induction F2 as [|x y a b' X F2 IH]; intros r R B; [destruct r; discriminate|]. destruct r as [|r]; [cbn in *; congruence|]. exact (IH r R B). }
  unfold zero_row in Z. apply bind_inv in Z. destruct Z as (w & W & Z). apply bind_inv in Z. destruct Z as ([[[ng fc] nc] mt] & A & Z).
  destruct b as [b1 b2]. cbn [fst snd] in *. apply nth_combine in B.
  match type of A with arr_to_rmf_matrix_row ?full _ _ = _ => destruct (C51_round_trip full 0 thr b1 b2) as (ng' & fc' & nc' & mt' & A' & FR) end. rewrite A in A'.
  assert (E : mr = Mrow b1 b2 ng (Rmf_Model.Arr fc) (Rmf_Model.Arr nc) mt) by congruence. subst mr. cbn [r_lo r_hi]. split; [apply B|]. split; [apply B|]. exists w. split; [exact W|].
  assert (X : (ng', fc', nc', mt') = (ng, fc, nc, mt)) by congruence. injection X as -> -> -> ->. rewrite map_length, LC in FR. exact FR.
Qed.
Lemma zero_ok F conv edges ccd thr : ccd <> [] -> exists m eb, mkrmf0 F conv edges ccd thr = Ok (m, eb).
Proof.
  intros N. unfold mkrmf0, ebounds_from_edges. cbv zeta. set (s := sortR (map conv edges)).
  destruct (sequence_ok (map (zero_row F (map (fun p => (fst p, snd p / 1000)) ccd) thr (removelast s) (tl s)) (combine (removelast s) (tl s)))) as [m M].
  - intros x X. apply in_map_iff in X. destruct X as (b & <- & _). unfold zero_row. destruct ccd as [|[e0 w0] ccd]; [congruence|]. cbn [map Analysis_Model.interp bind fst snd].
    match goal with |- context [arr_to_rmf_matrix_row ?full _ _] => destruct (C51_round_trip full 0 thr 0 0) as (ng' & fc' & nc' & mt' & A' & FR) end. rewrite A'. cbn [bind]. eexists. reflexivity.
  - rewrite M. cbn [bind]. eauto.
Qed.
Lemma zero_empty F conv edges thr : (2 <= List.length edges)%nat -> mkrmf0 F conv edges [] thr = Err ValueError.
Proof.
  intros L. unfold mkrmf0, ebounds_from_edges. cbv zeta. set (s := sortR (map conv edges)).
  assert (LS : List.length s = List.length edges) by (unfold s; rewrite (Permutation_length (sortR_perm _)); apply map_length).
  destruct (combine (removelast s) (tl s)) as [|b c] eqn:C.
  - apply (f_equal (@List.length _)) in C. rewrite combine_length, removelast_len, tl_len in C. cbn in C. lia.
  - reflexivity.
Qed.
(** ** totals *)
Lemma bins_total F k w x s thr : profile_ok F -> ascending s -> let arr := map (fun c => F k w x (snd c) - F k w x (fst c)) (combine (removelast s) (tl s)) in
  Forall (fun v => 0 <= v) (cut thr arr) /\ 0 <= Rsum (cut thr arr) <= 1.
Proof.
  intros FO A arr. destruct (FO k w x) as [MO BO]. assert (NN : Forall (fun v => 0 <= v) arr).
  { apply Forall_forall. intros v V. apply in_map_iff in V. destruct V as (b & <- & B). pose proof (MO _ _ (asc_pairs s A b B)). lra. }
  destruct (cut_bound thr arr NN) as [C1 [C2 C3]]. split; [exact C1|]. split; [exact C2|]. eapply Rle_trans; [exact C3|].
  assert (T : Rsum arr = - Rsum (map (fun b => F k w x (fst b) - F k w x (snd b)) (combine (removelast s) (tl s)))).
  { unfold arr. clear. induction (combine (removelast s) (tl s)) as [|b l IH]; [cbn; lra|]. cbn [map]. rewrite !Rsum_cons, IH. lra. }
  rewrite T, (telescope (F k w x)). destruct s as [|y s]; [lra|]. pose proof (BO y). pose proof (BO (last (y :: s) y)). lra.
Qed.
Lemma zero_total F conv edges ccd thr m eb r mr : mkrmf0 F conv edges ccd thr = Ok (m, eb) -> profile_ok F -> nth_error m r = Some mr ->
  exists arr, full_rmf (List.length edges - 1) 0 mr = Ok arr /\ Forall (fun x => 0 <= x) arr /\ 0 <= Rsum arr <= 1.
Proof.
  intros H FO R. destruct (zero_rows _ _ _ _ _ _ _ H) as (_ & _ & ROW). destruct (ROW r mr R) as (_ & _ & w & _ & FR). eexists. split; [exact FR|]. apply bins_total; [exact FO|apply sortR_asc].
Qed.
(** ** the shape *)
Lemma even_bins F w a b c d : even_profile F -> b - a = d - c -> let mid := 1 / 2 * (b + c) in F NormGauss1D w mid b - F NormGauss1D w mid a = F NormGauss1D w mid d - F NormGauss1D w mid c.
Proof.
  intros E L mid. pose proof (E NormGauss1D w mid (mid - b)) as P. pose proof (E NormGauss1D w mid (mid - a)) as Q. replace (mid - (mid - b)) with b in P by lra. replace (mid - (mid - a)) with a in Q by lra.
  replace (mid + (mid - b)) with c in P by (unfold mid; lra). replace (mid + (mid - a)) with d in Q by (unfold mid; lra). lra.
Qed.
Lemma nth_cut_map {A} thr (f : A -> R) l i x : nth_error l i = Some x -> nth_error (cut thr (map f l)) i = Some (if above thr (f x) then f x else 0).
Proof. intros H. unfold cut. rewrite map_map, nth_error_map, H. reflexivity. Qed.
Lemma zero_symmetric F conv edges ccd thr m eb r mr arr a d : mkrmf0 F conv edges ccd thr = Ok (m, eb) -> even_profile F -> nth_error m (S r) = Some mr ->
  let s := sortR (map conv edges) in nth_error s r = Some a -> nth_error s (r + 3) = Some d -> r_lo mr - a = d - r_hi mr -> full_rmf (List.length edges - 1) 0 mr = Ok arr -> nth_error arr r = nth_error arr (r + 2) /\ nth_error arr r <> None.
Proof.
  intros H E Rn s A D L FR. destruct (zero_rows _ _ _ _ _ _ _ H) as (_ & _ & ROW). destruct (ROW (S r) mr Rn) as (LO & HI & w & _ & FR'). cbv zeta in FR'. fold s in LO, HI, FR'. rewrite FR' in FR. injection FR as <-.
  assert (S1 : forall (l : list R) i x, nth_error (tl l) i = Some x <-> nth_error l (S i) = Some x) by (intros [|y l] i x; [destruct i; cbn; split; discriminate|reflexivity]).
  assert (S2 : forall (l : list R) i x, nth_error l i = Some x -> (S i < List.length l)%nat -> nth_error (removelast l) i = Some x).
  { intros l i x X LL. destruct l as [|z l0] eqn:EL; [cbn in LL; lia|]. rewrite <- EL in *. assert (NE : l <> []) by congruence. rewrite (app_removelast_last 0 NE) in X. rewrite nth_error_app1 in X by (rewrite removelast_len; lia). exact X. }
  assert (S3 : forall (l : list R) i x, nth_error (removelast l) i = Some x -> nth_error l i = Some x).
  { intros l i x X. destruct l as [|z l0] eqn:EL; [destruct i; discriminate|]. rewrite <- EL in *. assert (NE : l <> []) by congruence. rewrite (app_removelast_last 0 NE). rewrite nth_error_app1; [exact X|]. apply nth_error_Some. congruence. }
  apply S3 in LO. pose proof (proj1 (S1 s (S r) (r_hi mr)) HI) as HI2. clear HI. rename HI2 into HI. assert (LD : (r + 3 < List.length s)%nat) by (apply nth_error_Some; congruence).
  assert (B0 : nth_error (combine (removelast s) (tl s)) r = Some (a, r_lo mr)) by (apply combine_nth_some; [apply S2; [exact A|lia]|apply (proj2 (S1 s r (r_lo mr))); exact LO]).
  assert (B2 : nth_error (combine (removelast s) (tl s)) (r + 2) = Some (r_hi mr, d)).
  { apply combine_nth_some; [apply S2; [replace (r + 2)%nat with (S (S r)) by lia; exact HI|lia]|apply (proj2 (S1 s (r + 2)%nat d)); replace (S (r + 2)) with (r + 3)%nat by lia; exact D]. }
  rewrite (nth_cut_map thr _ _ _ _ B0), (nth_cut_map thr _ _ _ _ B2). cbn [fst snd]. rewrite (even_bins F w a (r_lo mr) (r_hi mr) d E L). split; [reflexivity|discriminate].
Qed.
(** in wavelengths, the channel with lower energy is wider *)
Lemma gauss_uneven F hc sigma a b c d : even_profile F -> rising F -> 0 < hc -> 0 < a < b -> b < c < d -> b - a = d - c -> 0 < sigma ->
  let wave := 1 / 2 * (hc / c + hc / b) in gauss_bin F sigma wave (hc / d) (hc / c) < gauss_bin F sigma wave (hc / b) (hc / a).
Proof.
  intros E RI HC AB CD L SG wave. unfold gauss_bin. set (W := sigma * _). assert (WP : 0 < W).
  { unfold W. apply Rmult_lt_0_compat; [exact SG|]. apply Rmult_lt_0_compat; [lra|]. apply sqrt_lt_R0. apply Rmult_lt_0_compat; [lra|]. rewrite <- ln_1. apply ln_increasing; lra. }
  assert (K : hc / c - hc / d < hc / a - hc / b).
  { assert (X : hc / c - hc / d = hc * (d - c) / (c * d)) by (field; lra). assert (Y : hc / a - hc / b = hc * (b - a) / (a * b)) by (field; lra). rewrite X, Y, L. unfold Rdiv.
    apply Rmult_lt_compat_l; [apply Rmult_lt_0_compat; lra|]. apply Rinv_lt_contravar; [repeat apply Rmult_lt_0_compat; lra|]. apply Rmult_gt_0_lt_compat; nra. }
  pose proof (E NormGauss1D W wave (hc / b - wave)) as P. replace (wave + (hc / b - wave)) with (hc / b) in P by lra. replace (wave - (hc / b - wave)) with (hc / c) in P by (unfold wave; lra).
  pose proof (E NormGauss1D W wave (wave - hc / d)) as Q. replace (wave - (wave - hc / d)) with (hc / d) in Q by lra.
  assert (M : F NormGauss1D W wave (wave + (wave - hc / d)) < F NormGauss1D W wave (hc / a)) by (apply RI; [exact WP|]; unfold wave in *; lra). lra.
Qed.
(** ** input files *)
Lemma log_once read calls : forall s, exists l, snd (load_all read calls s) = snd s ++ l /\ fst (load_all read calls s) = (fst s || existsb (readable read) calls)%bool /\
  l = (if (negb (fst s) && existsb (readable read) calls)%bool then [Hash] else []) ++ map (fun c => Loading (fst (fst c)) (snd (fst c))) (filter (readable read) calls).
Proof.
  induction calls as [|[[d f] o] calls IH]; intros [sh log].
  - exists []. cbn. rewrite app_nil_r, orb_false_r, andb_false_r. auto.
  - assert (ST : fst (match o with Some c => (fst (load_number read d f c (sh, log)), tt) | None => (fst (load_table read d f (sh, log)), tt) end) =
      if readable read (d, f, o) then log_tab_metadata d f (sh, log) else (sh, log)).
    { unfold readable, load_number, load_table. cbn [fst snd]. destruct o; destruct (read d f); reflexivity. }
    assert (E : load_all read ((d, f, o) :: calls) (sh, log) = load_all read calls (if readable read (d, f, o) then log_tab_metadata d f (sh, log) else (sh, log))) by (rewrite <- ST; destruct o; reflexivity).
    rewrite E. cbn [existsb filter]. destruct (readable read (d, f, o)) eqn:RD; [|destruct (IH (sh, log)) as (l & A & B & C); exists l; cbn [orb]; auto].
    destruct (IH (log_tab_metadata d f (sh, log))) as (l & A & B & C). cbn [orb log_tab_metadata fst snd map] in *. rewrite A, B, C. cbn [negb andb orb app].
    destruct sh; cbn [negb andb app orb]; eexists; (split; [rewrite <- !app_assoc; reflexivity|split; reflexivity]).
Qed.
