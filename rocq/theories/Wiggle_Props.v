(** Properties C187 to C190: changed gratings and plots of tolerances. *)
From Coq Require Import Permutation Sorted Ascii.
From Verif Require Import Wiggle_Proofs Base_Proofs Vec_Proofs Tol_Proofs.
From Verif Require Export Wiggle_Model.
Open Scope R_scope.

(** C187 *)
(** with a scatter that is not negative every grating gets its own draw as period, and nothing else of it changes *)
Theorem C187_period : forall V mean sigma (es : list (elem V)) z, 0 <= sigma -> (forall e, In e es -> e_d e <> None) -> (List.length es <= List.length z)%nat ->
  exists out, varyperiod mean sigma z es = (skipn (List.length es) z, out, None) /\ List.length out = List.length es /\
  forall i e x, nth_error es i = Some e -> nth_error z i = Some x -> nth_error out i = Some (Elem (Some (Const (mean + sigma * x))) (e_sel e)).
Proof.
  intros V mean sigma es z S0 D L. eexists. split; [exact (period_ok mean sigma S0 es z D L)|]. split; [rewrite map_length, combine_length; lia|].
  clear. revert z. induction es as [|a es IH]; intros z [|i] e x E X; destruct z as [|y z]; try discriminate; cbn in *; [congruence|]. exact (IH z i e x E X).
Qed.
Print Assumptions C187_period.
(** elements without period: the gratings before have changed, this one and those behind have not *)
Theorem C187_stops : forall V mean sigma (a : list (elem V)) e b z, 0 <= sigma -> (forall x, In x a -> e_d x <> None) -> e_d e = None -> (List.length a <= List.length z)%nat ->
  exists a', varyperiod mean sigma z (a ++ e :: b) = (skipn (List.length a) z, a' ++ e :: b, Some ValueError) /\ List.length a' = List.length a /\
  forall i x y, nth_error a i = Some x -> nth_error z i = Some y -> nth_error a' i = Some (Elem (Some (Const (mean + sigma * y))) (e_sel x)).
Proof.
  intros V mean sigma a e b z S0 D N L. eexists. split; [exact (period_fail mean sigma S0 a e b z D N L)|]. split; [rewrite map_length, combine_length; lia|].
  clear. revert z. induction a as [|x0 a IH]; intros z [|i] x y E X; destruct z as [|y0 z]; try discriminate; cbn in *; [congruence|]. exact (IH z i x y E X).
Qed.
Print Assumptions C187_stops.
(** a negative scatter changes nothing *)
Theorem C187_negative : forall V mean sigma (e : elem V) es z, sigma < 0 -> varyperiod mean sigma z (e :: es) = (z, e :: es, Some ValueError).
Proof.
  intros V mean sigma e es z N. unfold varyperiod. cbn [for_each]. unfold varyperiod1. destruct (e_d e); [|reflexivity]. now rewrite (proj2 (Rltb_true sigma 0) N).
Qed.
Print Assumptions C187_negative.
(** the grating afterwards diffracts everywhere with the drawn period *)
Theorem C187_diffraction : forall V mean sigma (e : elem V) z x, 0 <= sigma -> e_d e <> None ->
  exists e', varyperiod mean sigma (x :: z) [e] = (z, [e'], None) /\ e_sel e' = e_sel e /\
  forall c tr mat groove uv dir m wave, elem_diffract c tr mat groove e' uv dir m wave = grating c tr mat groove dir m wave (mean + sigma * x).
Proof.
  intros V mean sigma e z x S0 D. rewrite (period_ok mean sigma S0 [e] (x :: z)); [|intros a [<-|[]]; exact D|cbn; lia]. cbn [List.length skipn combine map fst snd].
  eexists. split; [destruct z; reflexivity|]. split; reflexivity.
Qed.
Print Assumptions C187_diffraction.
(** A period that is a function is taken at the place where the photon hits. *)
Theorem C187_place : forall V (f : R * R -> R) (s : option V) c tr mat groove u w dir m wave,
  elem_diffract c tr mat groove (Elem (Some (Chirp f)) s) (u, w) dir m wave = elem_diffract c tr mat groove (Elem (Some (Const (f (u, w)))) s) (w, u) dir m wave /\
  elem_diffract c tr mat groove (Elem (Some (Const (f (u, w)))) s) (w, u) dir m wave = grating c tr mat groove dir m wave (f (u, w)).
Proof. intros. split; reflexivity. Qed.
Print Assumptions C187_place.
(** "the period is scattered around its old value at every place": a bent grating has a period that depends on the place (C152), which is lost, even without any scatter *)
Theorem C187_chirp_refuted : exists (e : elem unit) uv uv' d d', e_d e = Some d /\ d_at d uv <> d_at d uv' /\ varyperiod (d_at d uv) 0 [0] [e] = ([], [Elem (Some d') (e_sel e)], None) /\ d_at d' uv' <> d_at d uv' /\ d_at d' uv' = d_at d' uv.
Proof.
  exists (Elem (Some (Chirp (fun uv => 2 + fst uv))) (Some tt)), (0, 0), (1, 0), (Chirp (fun uv => 2 + fst uv)), (Const (2 + 0 + 0 * 0)). split; [reflexivity|]. split; [cbn; lra|].
  split; [|split; [cbn; lra|reflexivity]]. rewrite (period_ok _ 0 (Rle_refl 0)); [reflexivity|intros a [<-|[]]; discriminate|cbn; lia].
Qed.
Print Assumptions C187_chirp_refuted.
Example C187_case : varyperiod 2 (1 / 2) [1; -1; 7] [Elem (Some (Const 5)) (Some true); Elem (Some (Chirp fst)) None] =
  ([7], [Elem (Some (Const (2 + 1 / 2 * 1))) (Some true); Elem (Some (Const (2 + 1 / 2 * -1))) None], None).
Proof. rewrite (period_ok 2 (1 / 2)); [reflexivity|lra|intros e [<-|[<-|[]]]; discriminate|cbn; lia]. Qed.

(** C188 *)
(** each element gets a selector of its own, from calls one after the other, and keeps its period *)
Theorem C188_selectors : forall V S (make : S -> S * result V) (es : list (elem V)) s s' out, varyorderselector make s es = (s', out, None) -> exists trace,
  List.length trace = List.length es /\ out = map (fun p => Elem (e_d (fst p)) (Some (snd p))) (combine es trace) /\ (forall e, In e es -> e_sel e <> None) /\
  forall i v, nth_error trace i = Some v -> exists si, snd (make si) = Ok v /\ (i = 0%nat -> si = s) /\
    (forall j w, i = Datatypes.S j -> nth_error trace j = Some w -> exists sj, snd (make sj) = Ok w /\ fst (make sj) = si).
Proof. intros V S make es s s' out H. exact (selector_ok make es s s' out H). Qed.
Print Assumptions C188_selectors.
(** the first element without selector ends the loop *)
Theorem C188_stops : forall V S (make : S -> S * result V), (forall s, exists v, snd (make s) = Ok v) -> forall (a : list (elem V)) e b s, (forall x, In x a -> e_sel x <> None) -> e_sel e = None ->
  exists s' a', varyorderselector make s (a ++ e :: b) = (s', a' ++ e :: b, Some ValueError) /\ List.length a' = List.length a.
Proof. intros V S make M a e b s D N. exact (selector_fail make M a e b s D N). Qed.
Print Assumptions C188_stops.
(** an error of the class leaves the element, and is passed on *)
Theorem C188_error : forall V S (make : S -> S * result V) (e : elem V) es s x, e_sel e <> None -> snd (make s) = Err x -> varyorderselector make s (e :: es) = (fst (make s), e :: es, Some x).
Proof.
  intros V S make e es s x D M. unfold varyorderselector. cbn [for_each]. unfold varyorderselector1. destruct (e_sel e); [|congruence]. destruct (make s) as [s1 r]. cbn in M. subst r. reflexivity.
Qed.
Print Assumptions C188_error.
Example C188_case : varyorderselector (fun n : nat => (Datatypes.S n, Ok n)) 4%nat [Elem (Some (Const 5)) (Some 0%nat); Elem None (Some 1%nat)] = (6%nat, [Elem (Some (Const 5)) (Some 4%nat); Elem None (Some 5%nat)], None).
Proof. reflexivity. Qed.

(** C189 *)
(** the points of a panel are the rows in which no other parameter is changed, each exactly once; one line for each wavelength, in order;
    the points of a line follow the parameter, with rotations in degrees *)
Theorem C189_lines : forall sb ag y2 acc tab par pl face extra pan, plot_wiggle sb ag y2 acc tab par pl face extra = Ok pan -> (forall r, In r tab -> forall k, In k pl -> dget k r <> None) ->
  (exists sel, (forall r, In r sel <-> In r tab /\ only par pl r) /\ subseq sel tab /\ Permutation (map snd (flat_map snd (p_lines pan))) sel) /\
  StronglySorted Rlt (map fst (p_lines pan)) /\
  forall l, In l (p_lines pan) -> snd l <> [] /\ StronglySorted (fun a b => fst a <= fst b) (snd l) /\
    forall x r, In (x, r) (snd l) <-> (In r tab /\ only par pl r) /\ dget "wave" r = Some (fst l) /\ exists v, dget par r = Some v /\ x = if is_r par then v * 180 / PI else v.
Proof.
  intros sb ag y2 acc tab par pl face extra pan H C. destruct (plot_inv _ _ _ _ _ _ _ _ _ _ H) as (t & S & HP & HW & NE & L & _). destruct (select_spec tab par pl (fun r k I K _ => C r I k K)) as (out & O & SS & IN).
  assert (t = out) by congruence. subst out. assert (IN' : forall r, In r t <-> In r tab /\ only par pl r) by (intros r; rewrite IN; reflexivity). split; [|split].
  - exists t. split; [exact IN'|]. split; [exact SS|]. rewrite L, lines_perm, groups_perm. apply sort_by_perm.
  - rewrite L. apply lines_sorted.
  - intros l I. rewrite L in I. destruct (line_in par t l HW HP I) as (A & B & D). split; [exact A|]. split; [exact B|]. intros x r. rewrite D, IN'. tauto.
Qed.
Print Assumptions C189_lines.
(** the texts follow from the name of the parameter *)
Theorem C189_texts : forall sb ag y2 acc tab c d rest pl face extra pan, plot_wiggle sb ag y2 acc tab (String c (String d rest)) pl face extra = Ok pan ->
  p_face pan = face /\
  (c = "d"%char -> p_xlabel pan = "shift [mm]"%string /\ p_title pan = Some (String.append "Shift along " (String d EmptyString))) /\
  (c = "r"%char -> p_xlabel pan = "Rotation [degree]"%string /\ p_title pan = Some (String.append "Rotation around " (String d EmptyString))) /\
  (c <> "d"%char -> c <> "r"%char -> p_xlabel pan = String c (String d rest) /\ p_title pan = None).
Proof.
  intros sb ag y2 acc tab c d rest pl face extra pan H. destruct (plot_inv _ _ _ _ _ _ _ _ _ _ H) as (t & _ & _ & _ & _ & _ & F & _ & _ & A & B & C). split; [exact F|].
  unfold is_d, is_r in A, B, C. cbn [first_char] in A, B, C. split; [|split].
  - intros ->. destruct (A eq_refl) as (q & Q & X). cbn in Q. injection Q as <-. exact X.
  - intros ->. destruct (B eq_refl) as (q & Q & X). cbn in Q. injection Q as <-. exact X.
  - intros N1 N2. apply C; apply Ascii.eqb_neq; assumption.
Qed.
Print Assumptions C189_texts.
(** an own second axis, or no second axis at all, work only with a matplotlib that has the name SubplotBase *)
Theorem C189_own_axis : forall acc tab par pl face extra y2 pan, plot_wiggle false true y2 acc tab par pl face extra <> Ok pan.
Proof. intros acc tab par pl face extra y2 pan H. destruct (plot_inv _ _ _ _ _ _ _ _ _ _ H) as (t & _ & _ & _ & _ & _ & _ & _ & (b & B) & _). unfold second_axis in B. cbn in B. discriminate. Qed.
Print Assumptions C189_own_axis.
Theorem C189_no_axis : forall acc tab par pl face extra ag pan, plot_wiggle false ag false acc tab par pl face extra <> Ok pan.
Proof. intros acc tab par pl face extra ag pan H. destruct (plot_inv _ _ _ _ _ _ _ _ _ _ H) as (t & _ & _ & _ & _ & _ & _ & _ & (b & B) & _). unfold second_axis in B. rewrite andb_false_r in B. discriminate. Qed.
Print Assumptions C189_no_axis.
(** without one, and with a label for the axis, there is a panel for each table with the columns, whatever matplotlib *)
Theorem C189_made : forall sb acc tab c d rest pl face extra, (forall r, In r tab -> forall k, In k (String c (String d rest) :: "wave"%string :: pl) -> dget k r <> None) -> (forall k, In k extra -> In k acc) ->
  exists pan, plot_wiggle sb false true acc tab (String c (String d rest)) pl face extra = Ok pan.
Proof.
  intros sb acc tab c d rest pl face extra C A. set (par := String c (String d rest)) in *. destruct (select_spec tab par pl) as (out & O & _ & IN); [intros r k I K _; apply C; [exact I|right; right; exact K]|].
  assert (HH : forall k, k = par \/ k = "wave"%string -> forall t, Permutation t out -> has k t = true).
  { intros k K t P. unfold has. apply forallb_forall. intros r I. apply (Permutation_in _ P) in I. apply IN in I. destruct I as [I _]. assert (N : dget k r <> None) by (apply C; [exact I|destruct K as [-> | ->]; [left; reflexivity|right; left; reflexivity]]).
    destruct (din k r) eqn:E; [reflexivity|]. apply din_false in E. contradiction. }
  unfold plot_wiggle. rewrite O. cbn [bind]. rewrite (HH par (or_introl eq_refl) out (Permutation_refl _)). cbv zeta. cbn [negb]. rewrite (HH "wave"%string (or_intror eq_refl) (sort_by par out) (sort_by_perm par out)). cbn [negb second_axis andb bind].
  assert (FA : forallb (fun k => inb k acc) extra = true) by (apply forallb_forall; intros k K; apply inb_In; exact (A k K)). rewrite FA. assert (FC : first_char par = Some c) by reflexivity. assert (S2 : second par = Ok (String d EmptyString)) by reflexivity. rewrite FC, S2.
  assert (X : forall g : list (R * list row), match g with [] => Ok tt | _ :: _ => Ok tt end = Ok tt) by (intros [|]; reflexivity). rewrite X. cbn [bind]. destruct (is_d par); [eexists; reflexivity|]. destruct (is_r par); eexists; reflexivity.
Qed.
Print Assumptions C189_made.
(** a parameter called "d" or "r" has no direction for the title, so that there is no panel *)
Theorem C189_short : forall sb ag y2 acc tab c pl face extra pan, c = "d"%char \/ c = "r"%char -> plot_wiggle sb ag y2 acc tab (String c EmptyString) pl face extra <> Ok pan.
Proof.
  intros sb ag y2 acc tab c pl face extra pan D H. destruct (plot_inv _ _ _ _ _ _ _ _ _ _ H) as (t & _ & _ & _ & _ & _ & _ & _ & _ & A & B & _).
  destruct D as [-> | ->]; [destruct (A eq_refl) as (q & Q & _)|destruct (B eq_refl) as (q & Q & _)]; discriminate Q.
Qed.
Print Assumptions C189_short.
Definition two_rows : list row := [[("rx", 1); ("dx", 0); ("wave", 7)]; [("rx", 0); ("dx", 2); ("wave", 7)]]%string.
Example C189_case : exists pan, plot_wiggle false false true dispersed_accepts two_rows "rx" ["rx"; "dx"]%string "w" [] = Ok pan /\ p_title pan = Some "Rotation around x"%string.
Proof.
  destruct (C189_made false dispersed_accepts two_rows "r" "x" "" ["rx"; "dx"]%string "w" []) as [pan P].
  - intros r [<-|[<-|[]]] k K; destruct K as [<-|[<-|[<-|[<-|[]]]]]; discriminate.
  - intros k [].
  - exists pan. split; [exact P|]. apply (C189_texts _ _ _ _ _ _ _ _ _ _ _ _ P). reflexivity.
Qed.

(** C190 *)
(** one panel for each parameter, all with the same colour *)
Theorem C190_panels : forall sb y2 acc bg filename tab pl kwargs ps, load_and_plot sb y2 acc bg filename tab pl kwargs = Ok ps ->
  List.length ps = List.length pl /\ (List.length pl <= 6)%nat /\ exists face extra ag, forall j par p, nth_error pl j = Some par -> nth_error ps j = Some p -> plot_wiggle sb ag y2 acc tab par pl face extra = Ok p /\ p_face p = face.
Proof.
  intros sb y2 acc bg filename tab pl kwargs ps H. unfold load_and_plot in H. destruct (panels_spec _ _ _ _ H) as (A & B & C). split; [exact A|]. split; [destruct B as [B|B]; [exact B|rewrite B; cbn; lia]|].
  do 3 eexists. intros j par p X Y. specialize (C j par p X Y). split; [exact C|]. destruct (plot_inv _ _ _ _ _ _ _ _ _ _ C) as (t & _ & _ & _ & _ & _ & F & _). exact F.
Qed.
Print Assumptions C190_panels.
(** the colour: of the last entry of the table whose name is a part of the name of the file *)
Theorem C190_colour : forall sb y2 acc bg filename tab pl kwargs ps p n c a b, load_and_plot sb y2 acc bg filename tab pl kwargs = Ok ps -> In p ps -> dget "axis_facecolor" kwargs = None ->
  bg = a ++ (n, c) :: b -> part_of n filename -> (forall m, In m b -> ~ part_of (fst m) filename) -> p_face p = c.
Proof.
  intros sb y2 acc bg filename tab pl kwargs ps p n c a b H I N B P L. unfold load_and_plot in H. destruct (panels_spec _ _ _ _ H) as (LL & _ & C). apply In_nth_error in I. destruct I as [j J].
  destruct (nth_error pl j) as [par|] eqn:E; [|apply nth_error_None in E; assert (X : nth_error ps j <> None) by congruence; apply nth_error_Some in X; lia]. specialize (C j par p E J).
  destruct (plot_inv _ _ _ _ _ _ _ _ _ _ C) as (t & _ & _ & _ & _ & _ & F & _). rewrite F. rewrite face_get. rewrite (proj2 (din_false _ _) N). cbn [String.eqb Ascii.eqb Bool.eqb].
  assert (Q : find (fun nc => contains (fst nc) filename) (rev bg) = Some (n, c)); [|rewrite Q; reflexivity]. rewrite B, rev_app_distr. cbn [rev]. rewrite <- app_assoc. cbn [app].
  assert (LR : forall m, In m (rev b) -> ~ part_of (fst m) filename) by (intros m M; apply L; apply in_rev; exact M). clear - LR P. induction (rev b) as [|m l IH].
  - cbn [app find fst]. now rewrite (proj2 (contains_iff n filename) P).
  - cbn [app find]. destruct (contains (fst m) filename) eqn:X; [exfalso; apply (LR m (or_introl eq_refl)), contains_iff, X|]. apply IH. intros q I. apply LR. right. exact I.
Qed.
Print Assumptions C190_colour.
(** with no entry it is the colour of the user, or white *)
Theorem C190_no_entry : forall sb y2 acc bg filename tab pl kwargs ps p, load_and_plot sb y2 acc bg filename tab pl kwargs = Ok ps -> In p ps -> (forall m, In m bg -> ~ part_of (fst m) filename) ->
  p_face p = match dget "axes_facecolor" kwargs with Some c => c | None => "w"%string end.
Proof.
  intros sb y2 acc bg filename tab pl kwargs ps p H I L. unfold load_and_plot in H. destruct (panels_spec _ _ _ _ H) as (LL & _ & C). apply In_nth_error in I. destruct I as [j J].
  destruct (nth_error pl j) as [par|] eqn:E; [|apply nth_error_None in E; assert (X : nth_error ps j <> None) by congruence; apply nth_error_Some in X; lia]. specialize (C j par p E J).
  destruct (plot_inv _ _ _ _ _ _ _ _ _ _ C) as (t & _ & _ & _ & _ & _ & F & _). rewrite F. rewrite face_get. destruct (din "axis_facecolor" kwargs); [reflexivity|]. cbn [String.eqb Ascii.eqb Bool.eqb].
  assert (Q : find (fun nc => contains (fst nc) filename) (rev bg) = None); [|rewrite Q; reflexivity].
  destruct (find _ _) as [m|] eqn:X; [|reflexivity]. apply find_some in X. destruct X as [X1 X2]. exfalso. apply (L m); [apply in_rev; exact X1|]. now apply contains_iff.
Qed.
Print Assumptions C190_no_entry.
(** "a colour given by the user is kept": it is lost for a file with one of the names, as the code asks for another word *)
Theorem C190_user_refuted : forall sb y2 acc tab pl ps p colour, load_and_plot sb y2 acc bg_colors "run_global.fits" tab pl [("axes_facecolor", colour)]%string = Ok ps -> In p ps -> p_face p = "0.9"%string.
Proof.
  intros sb y2 acc tab pl ps p colour H I. apply (C190_colour _ _ _ _ _ _ _ _ _ p "global" "0.9" [] [("individual", "(1.0, 0.9, 0.9)")]%string H I); [reflexivity|reflexivity| |].
  - exists "run_"%string, ".fits"%string. reflexivity.
  - intros m [<-|[]] Q. apply contains_iff in Q. discriminate.
Qed.
Print Assumptions C190_user_refuted.
(** and with the word that the code asks for there is no plot, as soon as there is something to plot *)
Theorem C190_word_refuted : forall sb y2 bg filename tab par pl kwargs ps r, dget "axis_facecolor" kwargs <> None -> (forall r, In r tab -> forall k, In k (par :: pl) -> dget k r <> None) -> In r tab -> only par (par :: pl) r ->
  load_and_plot sb y2 dispersed_accepts bg filename tab (par :: pl) kwargs <> Ok ps.
Proof.
  intros sb y2 bg filename tab par pl kwargs ps r K C I O H. unfold load_and_plot in H. destruct (panels_spec _ _ _ _ H) as (LL & _ & CC). destruct ps as [|p ps]; [discriminate|]. specialize (CC 0%nat par p eq_refl eq_refl).
  destruct (plot_inv _ _ _ _ _ _ _ _ _ _ CC) as (t & S & _ & _ & _ & _ & _ & E & _). destruct (select_spec tab par (par :: pl) (fun r k I K _ => C r I k K)) as (out & OO & _ & IN). assert (t = out) by congruence. subst out.
  assert (R : In r t) by (apply IN; split; [exact I|exact O]). assert (T : t <> []) by (destruct t; [destruct R|discriminate]).
  assert (A : In "axis_facecolor"%string dispersed_accepts).
  { apply (E T). apply filter_In. split; [|reflexivity]. apply inb_In. assert (D : din "axis_facecolor" kwargs = true) by (destruct (din "axis_facecolor" kwargs) eqn:X; [reflexivity|]; apply din_false in X; contradiction).
    change (din "axis_facecolor" (choose_face bg filename kwargs) = true). unfold choose_face. rewrite D. exact D. }
  destruct A as [A|[A|[]]]; discriminate.
Qed.
Print Assumptions C190_word_refuted.
(** more than six parameters do not fit into the figure *)
Theorem C190_six : forall sb y2 acc bg filename tab pl kwargs ps, (6 < List.length pl)%nat -> load_and_plot sb y2 acc bg filename tab pl kwargs <> Ok ps.
Proof. intros sb y2 acc bg filename tab pl kwargs ps L. unfold load_and_plot. apply panels_many; [exact L|destruct pl; [cbn in L; lia|discriminate]]. Qed.
Print Assumptions C190_six.
Example C190_case : exists p q, load_and_plot false true dispersed_accepts bg_colors "individual_global" two_rows ["rx"; "dx"]%string [] = Ok [p; q] /\ p_face q = "(1.0, 0.9, 0.9)"%string /\ p_title q = Some "Shift along x"%string.
Proof.
  unfold load_and_plot. cbn [panels Nat.ltb Nat.leb Nat.add]. match goal with |- context [plot_wiggle _ _ _ _ _ "rx" _ ?f ?e] => destruct (C189_made false dispersed_accepts two_rows "r" "x" "" ["rx"; "dx"]%string f e) as [p P];
    [intros r [<-|[<-|[]]] k K; destruct K as [<-|[<-|[<-|[<-|[]]]]]; discriminate|intros k []|];
    destruct (C189_made false dispersed_accepts two_rows "d" "x" "" ["rx"; "dx"]%string f e) as [q Q]; [intros r [<-|[<-|[]]] k K; destruct K as [<-|[<-|[<-|[<-|[]]]]]; discriminate|intros k []|] end.
  exists p, q. split.
  - match goal with |- context [din "axt" ?k] => change (din "axt" k) with false end. rewrite P. cbn [bind]. rewrite Q. reflexivity.
  - destruct (C189_texts _ _ _ _ _ _ _ _ _ _ _ _ Q) as (F & T & _). split; [rewrite F; reflexivity|]. apply T. reflexivity.
Qed.
