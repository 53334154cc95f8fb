(** Proofs about changed gratings and plots of tolerances. *)
From Coq Require Import Permutation Sorted.
From Verif Require Import Base_Proofs Vec_Proofs Tol_Proofs.
From Verif Require Export Wiggle_Model.
Open Scope R_scope.

(** ** Elements *)
Lemma period_ok {V} mean sigma : 0 <= sigma -> forall (es : list (elem V)) z, (forall e, In e es -> e_d e <> None) -> (List.length es <= List.length z)%nat ->
  varyperiod mean sigma z es = (skipn (List.length es) z, map (fun p => Elem (Some (Const (mean + sigma * snd p))) (e_sel (fst p))) (combine es z), None).
Proof.
  intros S0. unfold varyperiod. induction es as [|e es IH]; intros z D L; [destruct z; reflexivity|]. destruct z as [|x z]; cbn [List.length] in L; [lia|]. cbn [for_each]. unfold varyperiod1 at 1.
  destruct (e_d e) as [p|] eqn:E; [|exfalso; apply (D e (or_introl eq_refl)); exact E]. rewrite (proj2 (Rltb_false sigma 0)) by lra. rewrite IH; [|intros a I; apply D; right; exact I|lia]. reflexivity.
Qed.
Lemma period_fail {V} mean sigma : 0 <= sigma -> forall (a : list (elem V)) e b z, (forall x, In x a -> e_d x <> None) -> e_d e = None -> (List.length a <= List.length z)%nat ->
  varyperiod mean sigma z (a ++ e :: b) = (skipn (List.length a) z, map (fun p => Elem (Some (Const (mean + sigma * snd p))) (e_sel (fst p))) (combine a z) ++ e :: b, Some ValueError).
Proof.
  intros S0. unfold varyperiod. induction a as [|x a IH]; intros e b z D N L.
  - cbn [app for_each List.length skipn combine map]. unfold varyperiod1. rewrite N. reflexivity.
  - destruct z as [|y z]; cbn [List.length] in L; [lia|]. cbn [app for_each]. unfold varyperiod1 at 1. destruct (e_d x) as [p|] eqn:E; [|exfalso; apply (D x (or_introl eq_refl)); exact E].
    rewrite (proj2 (Rltb_false sigma 0)) by lra. rewrite IH; [|intros q I; apply D; right; exact I|exact N|lia]. reflexivity.
Qed.
Lemma selector_ok {V S} (make : S -> S * result V) : forall (es : list (elem V)) s s' out, varyorderselector make s es = (s', out, None) -> exists trace,
  List.length trace = List.length es /\ out = map (fun p => Elem (e_d (fst p)) (Some (snd p))) (combine es trace) /\ (forall e, In e es -> e_sel e <> None) /\
  forall i v, nth_error trace i = Some v -> exists si, snd (make si) = Ok v /\ (i = 0%nat -> si = s) /\
    (forall j w, i = Datatypes.S j -> nth_error trace j = Some w -> exists sj, snd (make sj) = Ok w /\ fst (make sj) = si).
Proof.
  induction es as [|e es IH]; intros s s' out H.
  - unfold varyorderselector in H. cbn in H. exists []. split; [reflexivity|]. split; [now inversion H|]. split; [intros e []|]. intros [|i] v X; discriminate.
  - unfold varyorderselector in H. cbn [for_each] in H. unfold varyorderselector1 at 1 in H. destruct (e_sel e) as [v0|] eqn:E; [|discriminate]. destruct (make s) as [s1 [v|x]] eqn:M; [|discriminate].
    fold (varyorderselector make s1 es) in H. destruct (varyorderselector make s1 es) as [[s2 r] y] eqn:R. assert (y = None) by congruence. subst y.
    destruct (IH s1 s2 r R) as (tr & L & O & D & T). exists (v :: tr). split; [cbn; now rewrite L|]. split; [cbn [combine map fst snd]; rewrite <- O; congruence|].
    split; [intros q [<-|I]; [rewrite E; discriminate|exact (D q I)]|]. intros i w X. destruct i as [|i].
    + exists s. injection X as <-. rewrite M. split; [reflexivity|]. split; [reflexivity|]. intros j w' J. discriminate.
    + destruct (T i w X) as (si & A & B & C). destruct i as [|i].
      * exists si. split; [exact A|]. split; [discriminate|]. intros j w' J Y. assert (j = 0%nat) by congruence. subst j. injection Y as <-. exists s. rewrite M. split; [reflexivity|]. cbn. symmetry. apply B. reflexivity.
      * exists si. split; [exact A|]. split; [discriminate|]. intros j w' J Y. assert (j = Datatypes.S i) by congruence. subst j. cbn in Y. exact (C i w' eq_refl Y).
Qed.
Lemma selector_fail {V S} (make : S -> S * result V) : (forall s, exists v, snd (make s) = Ok v) -> forall (a : list (elem V)) e b s, (forall x, In x a -> e_sel x <> None) -> e_sel e = None ->
  exists s' a', varyorderselector make s (a ++ e :: b) = (s', a' ++ e :: b, Some ValueError) /\ List.length a' = List.length a.
Proof.
  intros MK. unfold varyorderselector. induction a as [|x a IH]; intros e b s D N.
  - exists s, []. cbn [app for_each]. unfold varyorderselector1. rewrite N. split; reflexivity.
  - cbn [app for_each]. unfold varyorderselector1 at 1. destruct (e_sel x) as [v0|] eqn:E; [|exfalso; apply (D x (or_introl eq_refl)); exact E]. destruct (MK s) as [v V1]. destruct (make s) as [s1 r]. cbn [snd] in V1. rewrite V1.
    destruct (IH e b s1 (fun q I => D q (or_intror I)) N) as (s' & a' & R & L). rewrite R. exists s', (Elem (e_d x) (Some v) :: a'). split; [reflexivity|]. cbn. now rewrite L.
Qed.

(** ** Sorting and groups *)
Lemma ins_by_perm k x l : Permutation (ins_by k x l) (x :: l).
Proof. induction l as [|y l IH]; [reflexivity|]. cbn [ins_by]. destruct (Rleb (col k x) (col k y)); [reflexivity|]. rewrite IH. apply perm_swap. Qed.
Lemma sort_by_perm k l : Permutation (sort_by k l) l.
Proof. induction l as [|x l IH]; [reflexivity|]. cbn [sort_by fold_right]. fold (sort_by k l). rewrite ins_by_perm. now constructor. Qed.
Lemma ins_by_sorted k x l : StronglySorted (fun a b => col k a <= col k b) l -> StronglySorted (fun a b => col k a <= col k b) (ins_by k x l).
Proof.
  induction l as [|y l IH]; intros H; [repeat constructor|]. cbn [ins_by]. inversion H as [|? ? H1 H2]; subst. destruct (Rleb (col k x) (col k y)) eqn:E.
  - apply Rleb_true in E. constructor; [exact H|]. constructor; [exact E|]. eapply Forall_impl; [|exact H2]. cbn. intros. lra.
  - apply Rleb_false in E. constructor; [exact (IH H1)|]. apply Forall_forall. intros z I. apply (Permutation_in _ (ins_by_perm k x l)) in I. destruct I as [<-|I]; [lra|]. rewrite Forall_forall in H2. exact (H2 z I).
Qed.
Lemma sort_by_sorted k l : StronglySorted (fun a b => col k a <= col k b) (sort_by k l).
Proof. induction l as [|x l IH]; [constructor|]. cbn [sort_by fold_right]. apply ins_by_sorted. exact IH. Qed.
Lemma filter_sorted {A} (rel : A -> A -> Prop) f l : StronglySorted rel l -> StronglySorted rel (filter f l).
Proof.
  induction l as [|x l IH]; intros H; [constructor|]. inversion H as [|? ? H1 H2]; subst. cbn [filter]. destruct (f x); [|exact (IH H1)]. constructor; [exact (IH H1)|].
  apply Forall_forall. intros y I. apply filter_In in I. rewrite Forall_forall in H2. exact (H2 y (proj1 I)).
Qed.
Lemma ins_val_in x l : forall y, In y (ins_val x l) <-> y = x \/ In y l.
Proof.
  induction l as [|z l IH]; intros y; cbn [ins_val]; [cbn; intuition|]. destruct (Rltb x z) eqn:A; [cbn; intuition|]. destruct (Rltb z x) eqn:B.
  - cbn [In]. rewrite IH. cbn. intuition.
  - apply Rltb_false in A. apply Rltb_false in B. assert (x = z) by lra. subst z. cbn. intuition.
Qed.
Lemma ins_val_sorted x l : StronglySorted Rlt l -> StronglySorted Rlt (ins_val x l).
Proof.
  induction l as [|z l IH]; intros H; cbn [ins_val]; [repeat constructor|]. inversion H as [|? ? H1 H2]; subst. destruct (Rltb x z) eqn:A.
  - apply Rltb_true in A. constructor; [exact H|]. constructor; [exact A|]. eapply Forall_impl; [|exact H2]. cbn. intros. lra.
  - destruct (Rltb z x) eqn:B; [|exact H]. apply Rltb_true in B. constructor; [exact (IH H1)|]. apply Forall_forall. intros y I. apply ins_val_in in I. destruct I as [->|I]; [exact B|]. rewrite Forall_forall in H2. exact (H2 y I).
Qed.
Lemma values_spec l : StronglySorted Rlt (values l) /\ forall y, In y (values l) <-> In y l.
Proof.
  induction l as [|x l [A B]]; [split; [constructor|reflexivity]|]. cbn [values fold_right]. fold (values l). split; [now apply ins_val_sorted|]. intros y. rewrite ins_val_in, B. cbn. intuition.
Qed.
Lemma sorted_nodup l : StronglySorted Rlt l -> NoDup l.
Proof.
  induction l as [|x l IH]; intros H; [constructor|]. inversion H as [|? ? H1 H2]; subst. constructor; [|exact (IH H1)]. intros I. rewrite Forall_forall in H2. specialize (H2 x I). lra.
Qed.
Lemma groups_perm_aux k (vs : list R) : NoDup vs -> forall t, (forall r, In r t -> In (col k r) vs) -> Permutation (flat_map (fun w => filter (fun r => Reqb (col k r) w) t) vs) t.
Proof.
  intros N. induction t as [|x t IH]; intros H.
  - clear. induction vs; [constructor|exact IHvs].
  - assert (G : forall us, NoDup us -> (In (col k x) us -> Permutation (flat_map (fun w => filter (fun r => Reqb (col k r) w) (x :: t)) us) (x :: flat_map (fun w => filter (fun r => Reqb (col k r) w) t) us)) /\
      (~ In (col k x) us -> flat_map (fun w => filter (fun r => Reqb (col k r) w) (x :: t)) us = flat_map (fun w => filter (fun r => Reqb (col k r) w) t) us)).
    { induction us as [|u us IHu]; intros NU; [split; [intros []|reflexivity]|]. inversion NU as [|? ? NI NU']; subst. destruct (IHu NU') as [A B]. cbn [flat_map]. split.
      - intros [->|I].
        + cbn [filter]. rewrite (proj2 (Reqb_true _ _) eq_refl). rewrite <- app_comm_cons. constructor. cbn [filter] in B. rewrite B by exact NI. reflexivity.
        + cbn [filter]. rewrite (proj2 (Reqb_false (col k x) u)) by (intros Q; apply NI; rewrite <- Q; exact I). cbn [filter] in A. rewrite (A I). symmetry. apply Permutation_middle.
      - intros NI2. cbn [filter]. rewrite (proj2 (Reqb_false (col k x) u)) by (intros E; apply NI2; left; symmetry; exact E). cbn [filter] in B. rewrite B; [reflexivity|]. intros I. apply NI2. right. exact I. }
    rewrite (proj1 (G vs N) (H x (or_introl eq_refl))). constructor. apply IH. intros r I. apply H. right. exact I.
Qed.
Lemma groups_perm k t : Permutation (flat_map snd (groups k t)) t.
Proof.
  unfold groups. destruct (values_spec (map (col k) t)) as [S V]. rewrite flat_map_concat_map, map_map. cbn [snd]. rewrite <- flat_map_concat_map. apply groups_perm_aux; [now apply sorted_nodup|].
  intros r I. apply V. now apply in_map.
Qed.
Lemma has_get k t r : has k t = true -> In r t -> exists v, dget k r = Some v /\ col k r = v.
Proof.
  intros H I. unfold has in H. rewrite forallb_forall in H. specialize (H r I). destruct (dget k r) as [v|] eqn:E; [exists v; unfold col; rewrite E; auto|]. apply din_false in E. congruence.
Qed.
Lemma rad2deg_le a b : a <= b -> rad2deg a <= rad2deg b.
Proof. intros L. unfold rad2deg, Rdiv. pose proof PI_RGT_0. apply Rmult_le_compat_r; [left; now apply Rinv_0_lt_compat|lra]. Qed.

(** ** One panel *)
Definition axis (par : string) (r : row) : R := if is_r par then rad2deg (col par r) else col par r.
Lemma plot_inv sb ag y2 acc tab par pl face extra pan : plot_wiggle sb ag y2 acc tab par pl face extra = Ok pan -> exists t,
  select_1dof_changed tab par pl = Ok t /\ has par t = true /\ has "wave" t = true /\ par <> EmptyString /\
  p_lines pan = map (fun g => (fst g, map (fun r => (axis par r, r)) (snd g))) (groups "wave" (sort_by par t)) /\ p_face pan = face /\
  (t <> [] -> forall k, In k extra -> In k acc) /\ (exists b, second_axis sb ag y2 = Ok b) /\
  (is_d par = true -> exists c, second par = Ok c /\ p_xlabel pan = "shift [mm]"%string /\ p_title pan = Some (String.append "Shift along " c)) /\
  (is_r par = true -> exists c, second par = Ok c /\ p_xlabel pan = "Rotation [degree]"%string /\ p_title pan = Some (String.append "Rotation around " c)) /\
  (is_d par = false -> is_r par = false -> p_xlabel pan = par /\ p_title pan = None).
Proof.
  unfold plot_wiggle. destruct (select_1dof_changed tab par pl) as [t|] eqn:S; [|discriminate]. cbn [bind]. destruct (has par t) eqn:HP; [|discriminate]. cbn [negb]. cbv zeta.
  destruct (has "wave" (sort_by par t)) eqn:HW; [|discriminate]. cbn [negb]. destruct (second_axis sb ag y2) as [b|] eqn:A; [|discriminate]. cbn [bind].
  destruct (first_char par) as [c0|] eqn:F; [|discriminate].
  match goal with |- bind ?x _ = _ -> _ => destruct x as [[]|] eqn:X end; [|discriminate]. cbn [bind]. intros H. exists t. split; [reflexivity|]. split; [first [exact HP | reflexivity]|].
  assert (HW' : has "wave" t = true).
  { unfold has in *. rewrite forallb_forall in *. intros r I. apply HW. eapply Permutation_in; [symmetry; apply sort_by_perm|exact I]. }
  split; [exact HW'|]. split; [intros ->; discriminate|].
  assert (DR : is_d par = true -> is_r par = false).
  { unfold is_d, is_r. rewrite F. intros D. apply Ascii.eqb_eq in D. rewrite D. reflexivity. }
  assert (E : t <> [] -> forall k, In k extra -> In k acc).
  { intros NE k I. destruct (groups "wave" (sort_by par t)) as [|g gs] eqn:G.
    - exfalso. apply NE. pose proof (groups_perm "wave" (sort_by par t)) as P. rewrite G in P. cbn in P. rewrite sort_by_perm in P. apply Permutation_nil in P. exact P.
    - destruct (forallb _ _) eqn:FA; [|discriminate]. rewrite forallb_forall in FA. apply inb_In. exact (FA k I). }
  destruct (is_d par) eqn:D; [|destruct (is_r par) eqn:R].
  - destruct (second par) as [c|] eqn:C; [|discriminate]. cbn [bind] in H. assert (P := f_equal (fun r => match r with Ok p => p | Err _ => pan end) H). cbv beta iota in P. subst pan. cbn [p_lines p_face p_xlabel p_title].
    split; [unfold axis; rewrite (DR eq_refl); reflexivity|]. split; [reflexivity|]. split; [exact E|]. split; [eauto|]. split; [eauto|]. split; [rewrite (DR eq_refl); discriminate|discriminate].
  - destruct (second par) as [c|] eqn:C; [|discriminate]. cbn [bind] in H. assert (P := f_equal (fun r => match r with Ok p => p | Err _ => pan end) H). cbv beta iota in P. subst pan. cbn [p_lines p_face p_xlabel p_title].
    split; [unfold axis; rewrite R; reflexivity|]. split; [reflexivity|]. split; [exact E|]. split; [eauto|]. split; [discriminate|]. split; [eauto|discriminate].
  - assert (P := f_equal (fun r => match r with Ok p => p | Err _ => pan end) H). cbv beta iota in P. subst pan. cbn [p_lines p_face p_xlabel p_title].
    split; [unfold axis; rewrite R; reflexivity|]. split; [reflexivity|]. split; [exact E|]. split; [eauto|]. split; [discriminate|]. split; [discriminate|auto].
Qed.
Lemma lines_perm par g : map snd (flat_map snd (map (fun g : R * list row => (fst g, map (fun r => (axis par r, r)) (snd g))) g)) = flat_map snd g.
Proof. induction g as [|[w l] g IH]; [reflexivity|]. cbn [map flat_map snd fst]. rewrite map_app, IH, map_map. cbn [snd]. rewrite map_id. reflexivity. Qed.
Lemma line_in par t (l : line) : has "wave" t = true -> has par t = true -> In l (map (fun g => (fst g, map (fun r => (axis par r, r)) (snd g))) (groups "wave" (sort_by par t))) ->
  snd l <> [] /\ StronglySorted (fun a b => fst a <= fst b) (snd l) /\
  forall x r, In (x, r) (snd l) <-> In r t /\ dget "wave" r = Some (fst l) /\ exists v, dget par r = Some v /\ x = if is_r par then v * 180 / PI else v.
Proof.
  intros HW HP I. apply in_map_iff in I. destruct I as ([w rs] & <- & I). cbn [fst snd]. unfold groups in I. apply in_map_iff in I. destruct I as (w' & E & W). assert (w' = w) by congruence. subst w'.
  assert (RS : rs = filter (fun r => Reqb (col "wave" r) w) (sort_by par t)) by congruence. clear E.
  assert (IN : forall r, In r rs <-> In r t /\ col "wave" r = w).
  { intros r. rewrite RS, filter_In, Reqb_true. split; intros [A B]; (split; [|exact B]); eapply Permutation_in; try exact A; [|symmetry]; apply sort_by_perm. }
  split; [|split].
  - apply (proj1 (proj2 (values_spec _) w)) in W. apply in_map_iff in W. destruct W as (r & R & J). assert (K : In r rs). { apply IN. split; [eapply Permutation_in; [apply sort_by_perm|exact J]|exact R]. }
    destruct rs; [destruct K|discriminate].
  - assert (SS : StronglySorted (fun a b => col par a <= col par b) rs) by (rewrite RS; apply filter_sorted, sort_by_sorted). clear - SS. induction SS as [|r l S IH F]; [constructor|]. cbn [map]. constructor; [exact IH|].
    apply Forall_forall. intros q Q. apply in_map_iff in Q. destruct Q as (s & <- & Q). cbn [fst]. rewrite Forall_forall in F. specialize (F s Q). unfold axis. destruct (is_r par); [now apply rad2deg_le|exact F].
  - intros x r. rewrite in_map_iff. split.
    + intros (s & E & J). assert (s = r) by congruence. subst s. apply IN in J. destruct J as [J1 J2]. split; [exact J1|]. destruct (has_get _ _ _ HW J1) as (v & V1 & V2). split; [congruence|].
      destruct (has_get _ _ _ HP J1) as (u & U1 & U2). exists u. split; [exact U1|]. assert (x = axis par r) by congruence. subst x. unfold axis, rad2deg. rewrite U2. reflexivity.
    + intros (J & V & u & U & ->). exists r. split; [|apply IN; split; [exact J|unfold col; rewrite V; reflexivity]]. unfold axis, rad2deg, col. rewrite U. reflexivity.
Qed.
Lemma lines_sorted par t : StronglySorted Rlt (map fst (map (fun g : R * list row => (fst g, map (fun r => (axis par r, r)) (snd g))) (groups "wave" t))).
Proof. unfold groups. rewrite !map_map. cbn [fst]. rewrite map_id. apply values_spec. Qed.

(** ** Colours *)
Lemma face_get bg filename kwargs : forall k, dget k (choose_face bg filename kwargs) =
  if din "axis_facecolor" kwargs then dget k kwargs
  else if String.eqb k "axes_facecolor" then match find (fun nc => contains (fst nc) filename) (rev bg) with Some nc => Some (snd nc) | None => dget k kwargs end else dget k kwargs.
Proof.
  intros k. unfold choose_face. destruct (din "axis_facecolor" kwargs); [reflexivity|]. rewrite <- (rev_involutive bg) at 1. generalize (rev bg) as l. clear bg. induction l as [|nc l IH].
  - cbn. destruct (String.eqb k "axes_facecolor"); reflexivity.
  - cbn [rev find]. rewrite fold_left_app. cbn [fold_left]. destruct (contains (fst nc) filename); [|exact IH]. destruct (String.eqb_spec k "axes_facecolor") as [->|N]; [apply dget_dset_eq|]. rewrite dget_dset_neq by exact N. exact IH.
Qed.
Lemma panels_spec one : forall pars i ps, panels one i pars = Ok ps -> List.length ps = List.length pars /\ (i + List.length pars <= 6 \/ pars = [])%nat /\
  forall j par p, nth_error pars j = Some par -> nth_error ps j = Some p -> one par = Ok p.
Proof.
  induction pars as [|q pars IH]; intros i ps H; cbn [panels] in H.
  - injection H as <-. split; [reflexivity|]. split; [auto|]. intros [|j] par p X; discriminate.
  - destruct (Nat.ltb_spec 6 (i + 1)) as [|L]; [discriminate|]. destruct (one q) as [p|] eqn:O; [|discriminate]. cbn [bind] in H. destruct (panels one (Datatypes.S i) pars) as [l|] eqn:P; [|discriminate]. injection H as <-.
    destruct (IH _ _ P) as (A & B & C). split; [cbn; now rewrite A|]. split; [left; destruct B as [B| ->]; cbn; lia|]. intros [|j] par p' X Y; cbn in X, Y; [congruence|]. exact (C j par p' X Y).
Qed.
Lemma panels_many one : forall pars i, (6 < i + List.length pars)%nat -> pars <> [] -> forall ps, panels one i pars <> Ok ps.
Proof. intros pars i L N ps H. destruct (panels_spec _ _ _ _ H) as (_ & [B|B] & _); [lia|contradiction]. Qed.

(** ** Parts of a text *)
Lemma prefix_app n : forall s, String.prefix n s = true <-> exists b, s = (n ++ b)%string.
Proof.
  induction n as [|c n IH]; intros s; [split; [intros _; exists s; reflexivity|destruct s; reflexivity]|]. destruct s as [|d s]; [split; [discriminate|intros [b B]; discriminate]|].
  cbn [String.prefix String.append]. destruct (Ascii.ascii_dec c d) as [<-|N].
  - rewrite IH. split; intros [b B]; exists b; [now rewrite B|]. now injection B.
  - split; [discriminate|]. intros [b B]. injection B as B1 B2. congruence.
Qed.
Lemma contains_iff n : forall s, contains n s = true <-> part_of n s.
Proof.
  unfold contains, part_of. induction s as [|d s IH].
  - cbn [String.index]. destruct n as [|c n]; [split; [intros _; exists ""%string, ""%string; reflexivity|reflexivity]|]. split; [discriminate|]. intros (a & b & E). destruct a; discriminate.
  - cbn [String.index]. destruct (String.prefix n (String d s)) eqn:P.
    + split; [intros _|reflexivity]. apply prefix_app in P. destruct P as [b B]. exists ""%string, b. exact B.
    + destruct (String.index 0 n s) as [m|].
      * split; [intros _|reflexivity]. destruct (proj1 IH eq_refl) as (a & b & E). exists (String d a), b. cbn. now rewrite E.
      * split; [discriminate|]. intros (a & b & E). destruct a as [|a0 a].
        -- assert (X : String.prefix n (String d s) = true) by (apply prefix_app; exists b; exact E). congruence.
        -- injection E as E1 E2. apply IH. exists a, b. exact E2.
Qed.
