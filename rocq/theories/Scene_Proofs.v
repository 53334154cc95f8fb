(** Proofs about scenes and the output of the backends for plots. *)
From Coq Require Import Ascii.
From Verif Require Import Base_Proofs Vec_Proofs Detector_Proofs.
From Verif Require Export Scene_Model.
Open Scope R_scope.

(** ** Trees of elements *)
Fixpoint obj_ind2 (P : obj -> Prop) (H : forall od pts els, (forall l, els = Some l -> Forall P l) -> P (Obj od pts els)) (o : obj) {struct o} : P o :=
  match o with
  | Obj od pts els =>
      H od pts els (fun l E =>
        match els as e return e = Some l -> Forall P l with
        | None => fun Q => False_ind _ (eq_ind (@None (list obj)) (fun x => match x with None => True | Some _ => False end) I (Some l) Q)
        | Some l0 => fun Q =>
            eq_ind l0 (fun x => Forall P x)
              ((fix go (l : list obj) : Forall P l := match l with [] => Forall_nil P | e :: r => Forall_cons e (obj_ind2 P H e) (go r) end) l0) l
              (f_equal (fun x => match x with Some y => y | None => l end) Q)
        end E)
  end.
Section X3d.
Context (to_rgb : colorspec -> result (list cval)) (prec : nat).
Notation plot := (x3d_plot to_rgb prec).
Fixpoint plot_list (l : list obj) (scene : list node) : list node * option err :=
  match l with [] => (scene, None) | e :: r => match plot e None scene with (sc, None) => plot_list r sc | (sc, Some x) => (sc, Some x) end end.
Definition chosen (display od : option disp) : option disp := match display with Some d => Some d | None => od end.
Lemma plot_eq od points els display scene : plot (Obj od points els) display scene =
  match chosen display od with
  | None => (scene, None)
  | Some d => match d_shape d with
    | None => (scene, None)
    | Some shape => match dispatch x3d_registry (shapes_of shape) with
      | Hidden | Warned => (scene, None)
      | Plotted s => match get_color to_rgb (d_color d) with
        | Err e => (scene, Some e)
        | Ok c => if String.eqb s "container" then match els with None => (scene, Some AttributeError) | Some l => plot_list l scene end
                  else match points s with Err e => (scene, Some e) | Ok p => (scene ++ [Node s c (transparency d) (format_points prec p)], None) end
        end end end end.
Proof. reflexivity. Qed.
Lemma plot_appends : forall o display, exists new e, forall scene, plot o display scene = (scene ++ new, e).
Proof.
  intros o. induction o as [od pts els IH] using obj_ind2. intros display.
  assert (T : forall e, exists new e', forall scene : list node, (scene, e) = (scene ++ new, e' : option err)) by (intros e; exists [], e; intros scene; now rewrite app_nil_r).
  destruct (chosen display od) as [d|] eqn:C; [|destruct (T None) as (new & e & N); exists new, e; intros scene; rewrite plot_eq, C; apply N].
  destruct (d_shape d) as [shape|] eqn:S; [|destruct (T None) as (new & e & N); exists new, e; intros scene; rewrite plot_eq, C, S; apply N].
  destruct (dispatch x3d_registry (shapes_of shape)) as [s| |] eqn:D; [|destruct (T None) as (new & e & N); exists new, e; intros scene; rewrite plot_eq, C, S, D; apply N..].
  destruct (get_color to_rgb (d_color d)) as [c|x] eqn:G; [|destruct (T (Some x)) as (new & e & N); exists new, e; intros scene; rewrite plot_eq, C, S, D, G; apply N].
  destruct (String.eqb s "container") eqn:K.
  - destruct els as [l|]; [|destruct (T (Some AttributeError)) as (new & e & N); exists new, e; intros scene; rewrite plot_eq, C, S, D, G, K; apply N].
    assert (L : exists new e, forall scene, plot_list l scene = (scene ++ new, e)).
    { specialize (IH l eq_refl). clear - IH. induction IH as [|o l H IHl IHL]; [exists [], None; intros scene; cbn; now rewrite app_nil_r|]. destruct (H None) as (n1 & [e1|] & N1).
      - exists n1, (Some e1). intros scene. cbn [plot_list]. now rewrite N1.
      - destruct IHL as (n2 & e2 & N2). exists (n1 ++ n2), e2. intros scene. cbn [plot_list]. rewrite N1, N2. now rewrite app_assoc. }
    destruct L as (new & e & N). exists new, e. intros scene. rewrite plot_eq, C, S, D, G, K. apply N.
  - destruct (pts s) as [p|x] eqn:P.
    + eexists _, None. intros scene. rewrite plot_eq, C, S, D, G, K, P. reflexivity.
    + destruct (T (Some x)) as (new & e & N). exists new, e. intros scene. rewrite plot_eq, C, S, D, G, K, P. apply N.
Qed.
Lemma list_parts : forall l new, plot_list l [] = (new, None) -> exists news, new = concat news /\ Forall2 (fun e n => plot e None [] = (n, None)) l news.
Proof.
  assert (A : forall l, exists new e, forall scene, plot_list l scene = (scene ++ new, e)).
  { induction l as [|o l IHL]; [exists [], None; intros scene; cbn; now rewrite app_nil_r|]. destruct (plot_appends o None) as (n1 & [e1|] & N1).
    - exists n1, (Some e1). intros scene. cbn [plot_list]. now rewrite N1.
    - destruct IHL as (n2 & e2 & N2). exists (n1 ++ n2), e2. intros scene. cbn [plot_list]. rewrite N1, N2. now rewrite app_assoc. }
  induction l as [|o l IH]; intros new H; cbn [plot_list] in H.
  - exists []. split; [cbn; congruence|constructor].
  - destruct (plot_appends o None) as (n1 & e1 & N1). rewrite N1 in H. destruct e1 as [e1|]; [discriminate|]. destruct (A l) as (n2 & e2 & N2). rewrite N2 in H. assert (e2 = None) by congruence. subst e2.
    destruct (IH n2) as (news & E & F); [apply N2|]. exists (n1 :: news). split; [cbn; rewrite <- E; cbn in H; congruence|]. constructor; [apply N1|exact F].
Qed.
Lemma plot_nodes : forall o display new, plot o display [] = (new, None) -> forall n, In n new <-> appears to_rgb prec n o display.
Proof.
  intros o. induction o as [od pts els IH] using obj_ind2. intros display new H n. rewrite plot_eq in H.
  destruct (chosen display od) as [d|] eqn:C; [|assert (new = []) by congruence; subst new; split; [intros []|intros X; inversion X; unfold chosen in C; congruence]].
  destruct (d_shape d) as [shape|] eqn:S; [|assert (new = []) by congruence; subst new; split; [intros []|intros X; inversion X; unfold chosen in C; congruence]].
  destruct (dispatch x3d_registry (shapes_of shape)) as [s| |] eqn:D; [|assert (new = []) by congruence; subst new; split; [intros []|intros X; inversion X; unfold chosen in C; congruence]..].
  destruct (get_color to_rgb (d_color d)) as [c|x] eqn:G; [|discriminate]. destruct (String.eqb_spec s "container") as [->|K].
  - destruct els as [l|]; [|discriminate]. destruct (list_parts l new H) as (news & -> & F). specialize (IH l eq_refl). split.
    + intros I. apply in_concat in I. destruct I as (m & M & I). enough (E : exists e, In e l /\ appears to_rgb prec n e None) by (destruct E as (e & E1 & E2); eapply App_inside; eauto).
      clear - F IH M I. induction F as [|e n' l news P F IHF]; [destruct M|]. inversion IH as [|? ? Q IH']; subst. destruct M as [<-|M].
      * exists e. split; [left; reflexivity|]. apply (Q None _ P). exact I.
      * destruct (IHF IH' M) as (e' & E1 & E2). exists e'. split; [right; exact E1|exact E2].
    + intros X. inversion X; subst; [exfalso; unfold chosen in C; congruence|]. apply in_concat.
      match goal with I : In ?e l, A : appears _ _ n ?e None |- _ => revert I A; generalize e end. clear - F IH. intros e I A. induction F as [|e' n' l news P F IHF]; [destruct I|]. inversion IH as [|? ? Q IH']; subst. destruct I as [->|I].
      * exists n'. split; [left; reflexivity|]. apply (Q None _ P). exact A.
      * destruct (IHF IH' I) as (m & M1 & M2). exists m. split; [right; exact M1|exact M2].
  - destruct (pts s) as [p|x] eqn:P; [|discriminate]. assert (E : new = [Node s c (transparency d) (format_points prec p)]) by (cbn in H; congruence). subst new. split.
    + intros [<-|[]]. eapply App_shape; eauto.
    + intros X. inversion X; subst.
      * left. unfold chosen in C. match goal with U : match display with Some _ => _ | None => _ end = Some ?q |- _ => assert (q = d) by congruence end. subst. 
        repeat match goal with U : d_shape d = Some ?q |- _ => lazymatch q with shape => fail | _ => assert (q = shape) by congruence; subst q end end.
        repeat match goal with U : dispatch _ _ = Plotted ?q |- _ => lazymatch q with s => fail | _ => assert (q = s) by congruence; subst q end end. congruence.
      * exfalso. unfold chosen in C. congruence.
Qed.
End X3d.

(** ** Points *)
Lemma pow10 d : 0 < 10 ^ d.
Proof. apply pow_lt. lra. Qed.
Lemma round_near d x : Rabs (round_to d x - x) <= 1 / 2 / 10 ^ d.
Proof.
  unfold round_to. pose proof (pow10 d) as P. pose proof (Rround_near (x * 10 ^ d)) as N. replace (IZR (Rround (x * 10 ^ d)) / 10 ^ d - x) with ((IZR (Rround (x * 10 ^ d)) - x * 10 ^ d) / 10 ^ d) by (field; lra).
  unfold Rdiv at 1. rewrite Rabs_mult, (Rabs_pos_eq (/ 10 ^ d)) by (left; now apply Rinv_0_lt_compat). unfold Rdiv at 2. apply Rmult_le_compat_r; [left; now apply Rinv_0_lt_compat|exact N].
Qed.
Lemma mm_near p c : Rabs (1000 * round_to (p + 3) (c / 1000) - c) <= 1 / 2 / 10 ^ p.
Proof.
  pose proof (round_near (p + 3) (c / 1000)) as N. pose proof (pow10 p) as P. rewrite pow_add in N. replace (10 ^ 3) with 1000 in N by (cbn; lra).
  replace (1000 * round_to (p + 3) (c / 1000) - c) with (1000 * (round_to (p + 3) (c / 1000) - c / 1000)) by field. rewrite Rabs_mult, (Rabs_pos_eq 1000) by lra.
  replace (1 / 2 / 10 ^ p) with (1000 * (1 / 2 / (10 ^ p * 1000))) by (field; lra). apply Rmult_le_compat_l; [lra|exact N].
Qed.
Lemma mm_exact p z : 1000 * round_to (p + 3) (IZR z / 10 ^ p / 1000) = IZR z / 10 ^ p.
Proof.
  pose proof (pow10 p) as P. unfold round_to. rewrite pow_add. replace (10 ^ 3) with 1000 by (cbn; lra). replace (IZR z / 10 ^ p / 1000 * (10 ^ p * 1000)) with (IZR z) by (field; lra). rewrite Rround_IZR. field. lra.
Qed.

(** ** Rays *)
Lemma nth_flat {A B} (f : A -> list B) N : (forall x, length (f x) = N) -> forall l i j x, nth_error l i = Some x -> (j < N)%nat -> nth_error (flat_map f l) (i * N + j) = nth_error (f x) j.
Proof.
  intros L. induction l as [|y l IH]; intros [|i] j x E J; try discriminate; cbn [flat_map].
  - injection E as ->. cbn [Nat.mul Nat.add]. rewrite nth_error_app1; [reflexivity|rewrite L; exact J].
  - cbn [nth_error] in E. rewrite nth_error_app2; rewrite L; [|cbn; lia]. replace (S i * N + j - N)%nat with (i * N + j)%nat by (cbn; lia). now apply IH.
Qed.
Lemma nth_repeat_lt {A} (x : A) N j : (j < N)%nat -> nth_error (repeat x N) j = Some x.
Proof. revert j. induction N as [|N IH]; intros [|j] J; try lia; [reflexivity|]. cbn. apply IH. lia. Qed.
Lemma flat_len {A B} (f : A -> list B) N : (forall x, length (f x) = N) -> forall l, length (flat_map f l) = (length l * N)%nat.
Proof. intros L l. induction l as [|x l IH]; [reflexivity|]. cbn [flat_map length]. rewrite app_length, L, IH. cbn. lia. Qed.
Lemma concat_nth {A} N : forall (l : list (list A)) i j r, forallb (fun r => Nat.eqb (length r) N) l = true -> nth_error l i = Some r -> (j < N)%nat -> nth_error (concat l) (i * N + j) = nth_error r j.
Proof.
  induction l as [|y l IH]; intros [|i] j r F E J; try discriminate; cbn [forallb] in F; apply andb_true_iff in F; destruct F as [F1 F2]; apply Nat.eqb_eq in F1; cbn [concat].
  - injection E as ->. cbn [Nat.mul Nat.add]. rewrite nth_error_app1; [reflexivity|rewrite F1; exact J].
  - cbn [nth_error] in E. rewrite nth_error_app2; rewrite F1; [|cbn; lia]. replace (S i * N + j - N)%nat with (i * N + j)%nat by (cbn; lia). now apply IH.
Qed.
Lemma concat_len {A} N : forall (l : list (list A)), forallb (fun r => Nat.eqb (length r) N) l = true -> length (concat l) = (length l * N)%nat.
Proof. induction l as [|r l IH]; intros F; [reflexivity|]. cbn [forallb] in F. apply andb_true_iff in F. destruct F as [F1 F2]. apply Nat.eqb_eq in F1. cbn [concat length]. rewrite app_length, IH by exact F2. cbn. lia. Qed.
(** ** Text *)
Fixpoint has_slash (s : string) : bool := match s with EmptyString => false | String c r => (Ascii.eqb c "/" || has_slash r)%bool end.
Lemma basename_aux_no cur s : has_slash s = false -> basename_aux cur s = cur.
Proof. revert cur. induction s as [|c s IH]; intros cur H; [reflexivity|]. cbn in *. apply orb_false_iff in H. destruct H as [-> H]. now apply IH. Qed.
Lemma basename_aux_slash b : has_slash b = false -> forall a cur, basename_aux cur (a ++ String "/" b)%string = b.
Proof. intros N. induction a as [|c a IH]; intros cur; cbn [String.append basename_aux]; [now apply basename_aux_no|]. destruct (Ascii.eqb c "/"); apply IH. Qed.
