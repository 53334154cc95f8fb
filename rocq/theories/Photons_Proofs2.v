(** Lemmas about [Photons_Model]: probabilities, values written to rows that are hit, baffles and stacks. *)
From Verif Require Import Base_Proofs Photons_Model Photons_Proofs.
From Coq Require Import Lqa.
Open Scope nat_scope.

(** *** probabilities *)

Definition le_prob (t t' : table) : Prop :=
  nrows t' = nrows t /\
  forall i q, probability t i = Some q -> (0 <= q)%Q ->
    exists q', probability t' i = Some q' /\ (0 <= q' <= q)%Q.

Lemma lp_refl t : le_prob t t.
Proof. split; [reflexivity|]. intros i q H Hq. exists q. split; [exact H|]. split; [exact Hq|apply Qle_refl]. Qed.

Lemma lp_trans t t' t'' : le_prob t t' -> le_prob t' t'' -> le_prob t t''.
Proof.
  intros [N1 H1] [N2 H2]. split; [congruence|]. intros i q H Hq.
  destruct (H1 i q H Hq) as (q1 & P1 & B1 & C1). destruct (H2 i q1 P1 B1) as (q2 & P2 & B2 & C2).
  exists q2. split; [exact P2|]. split; [exact B2|]. eapply Qle_trans; eassumption.
Qed.

Lemma lp_same t t' : nrows t' = nrows t ->
  (forall i, getcell t' "probability" i = getcell t "probability" i) -> le_prob t t'.
Proof.
  intros N H. split; [exact N|]. intros i q Hp Hq. exists q. unfold probability in *. rewrite H.
  split; [exact Hp|]. split; [exact Hq|apply Qle_refl].
Qed.

Definition step_lp (f : M) : Prop := forall t, le_prob t (fst (f t)).

Lemma slp_ret : step_lp ret. Proof. intros t. apply lp_refl. Qed.
Lemma slp_raise e : step_lp (raise e). Proof. intros t. apply lp_refl. Qed.
Lemma slp_andthen f g : step_lp f -> step_lp g -> step_lp (andthen f g).
Proof.
  intros Hf Hg t. unfold andthen. specialize (Hf t). destruct (f t) as [t' [e|]]; cbn [fst] in *; [exact Hf|].
  eapply lp_trans; [exact Hf|apply Hg].
Qed.
Lemma slp_steps l : Forall step_lp l -> step_lp (steps l).
Proof. intros H. induction H as [|f l Hf Hl IH]; [apply slp_ret|]. now apply slp_andthen. Qed.

Lemma Qltb_false a b : Qltb a b = false -> (b <= a)%Q.
Proof.
  unfold Qltb. destruct (Qcompare a b) eqn:E; intros H; try discriminate.
  - apply Qeq_alt in E. lra.
  - apply Qgt_alt in E. lra.
Qed.

Lemma Qltb_true a b : Qltb a b = true <-> (a < b)%Q.
Proof.
  unfold Qltb. rewrite Qlt_alt. destruct (Qcompare a b); split; congruence.
Qed.

(** product of a probability with a factor that passed the check *)
Lemma cmul_good q c d :
  cmul (CNum (Some q)) c = Some d -> num_cell c -> cell_bad c = false -> (0 <= q)%Q ->
  exists r, d = CNum (Some r) /\ (0 <= r <= q)%Q.
Proof.
  intros H Hn Hb Hq. destruct c as [[x|]|z|v]; cbn [num_cell] in Hn; try contradiction;
    cbn [cmul nmul] in H; injection H as <-.
  - cbn [cell_bad num_bad] in Hb. apply orb_false_iff in Hb. destruct Hb as [B1 B2].
    apply Qltb_false in B1, B2. eexists. split; [reflexivity|]. split; nra.
  - cbn [cell_bad] in Hb. apply orb_false_iff in Hb. destruct Hb as [B1 B2].
    apply Z.ltb_ge in B1, B2. eexists. split; [reflexivity|].
    assert ((0 <= inject_Z z)%Q /\ (inject_Z z <= 1)%Q) as [Z1 Z2].
    { change 0%Q with (inject_Z 0). change 1%Q with (inject_Z 1). rewrite <- !Zle_Qle. lia. }
    split; nra.
Qed.

Lemma mask_write_mul m : forall l vs new i q,
  cmul_list (select m l) vs = Some new ->
  Forall num_cell vs -> Forall (fun c => cell_bad c = false) vs ->
  nth_error l i = Some (CNum (Some q)) -> (0 <= q)%Q ->
  exists r, nth_error (mask_write m l new) i = Some (CNum (Some r)) /\ (0 <= r <= q)%Q.
Proof.
  induction m as [|b m IH]; intros l vs new i q HM HN HB Hi Hq.
  - exists q. split; [destruct l; exact Hi|lra].
  - destruct l as [|c l]; [destruct i; discriminate|].
    destruct b; cbn [select mask_write] in *.
    + destruct vs as [|v vs]; [discriminate|]. cbn [cmul_list] in HM.
      destruct (cmul c v) as [z|] eqn:E; [|discriminate].
      destruct (cmul_list (select m l) vs) as [zs|] eqn:E'; [|discriminate]. injection HM as <-.
      inversion HN; subst. inversion HB; subst.
      destruct i as [|i]; cbn [nth_error] in *.
      * injection Hi as ->. destruct (cmul_good _ _ _ E) as (r & -> & Hr); try assumption. eauto.
      * eapply IH; eassumption.
    + destruct i as [|i]; cbn [nth_error] in *.
      * exists q. split; [exact Hi|lra].
      * eapply IH; eassumption.
Qed.

Lemma broadcast_num n v vs : broadcast n v = Some vs -> num_value v -> Forall num_cell vs.
Proof.
  intros H Hv. destruct v as [c|l].
  - cbn in H. injection H as <-. cbn in Hv. apply Forall_forall. intros x Hx. apply repeat_spec in Hx. now subst.
  - cbn [num_value] in Hv. destruct l as [|c [|d l]]; cbn [broadcast] in H.
    + destruct (Nat.eqb _ _); [injection H as <-; constructor|discriminate].
    + injection H as <-. inversion Hv; subst. apply Forall_forall. intros x Hx. apply repeat_spec in Hx. now subst.
    + destruct (Nat.eqb _ _); [injection H as <-; exact Hv|discriminate].
Qed.

Lemma existsb_false_Forall {A} (f : A -> bool) l : existsb f l = false <-> Forall (fun c => f c = false) l.
Proof.
  induction l as [|x l IH]; cbn [existsb]; [split; [constructor|reflexivity]|].
  rewrite orb_false_iff, IH. split.
  - intros [H1 H2]. now constructor.
  - intros H. inversion H; subst. now split.
Qed.

Lemma broadcast_bad n v vs : broadcast n v = Some vs -> value_bad v = false ->
  Forall (fun c => cell_bad c = false) vs.
Proof.
  intros H Hv. destruct v as [c|l].
  - cbn in H. injection H as <-. cbn in Hv. apply Forall_forall. intros x Hx. apply repeat_spec in Hx. now subst.
  - cbn [value_bad] in Hv. apply existsb_false_Forall in Hv. destruct l as [|c [|d l]]; cbn [broadcast] in H.
    + destruct (Nat.eqb _ _); [injection H as <-; constructor|discriminate].
    + injection H as <-. inversion Hv; subst. apply Forall_forall. intros x Hx. apply repeat_spec in Hx. now subst.
    + destruct (Nat.eqb _ _); [injection H as <-; exact Hv|discriminate].
Qed.

Lemma probability_cell t i q : probability t i = Some q <-> getcell t "probability" i = Some (CNum (Some q)).
Proof.
  unfold probability. destruct (getcell t "probability" i) as [[[x|]|z|v]|]; split; congruence.
Qed.

Lemma slp_assign col m v : (col = Some "probability" -> num_value v) -> step_lp (assign_col_value col m v).
Proof.
  intros Hv t. unfold assign_col_value. destruct col as [c|]; [|apply lp_refl].
  destruct (String.eqb c "probability") eqn:Ec.
  - apply String.eqb_eq in Ec. subst c. specialize (Hv eq_refl).
    destruct (value_bad v) eqn:Eb; [apply lp_refl|].
    destruct (getcol t "probability") as [old|] eqn:G; [|apply lp_refl].
    destruct (broadcast (count m) v) as [vs|] eqn:Ev; [|apply lp_refl].
    destruct (cmul_list (select m old) vs) as [new|] eqn:En; [|apply lp_refl].
    cbn [fst]. split; [reflexivity|]. intros i q Hp Hq.
    apply probability_cell in Hp. unfold getcell in Hp. rewrite G in Hp.
    destruct (mask_write_mul m old vs new i q En) as (r & Hr & B); try assumption.
    + eapply broadcast_num; eassumption.
    + eapply broadcast_bad; eassumption.
    + exists r. split; [|exact B]. apply probability_cell. now rewrite getcell_setcol_eq.
  - apply String.eqb_neq in Ec.
    destruct (getcol t c) as [old|] eqn:G; [|apply lp_refl].
    destruct (broadcast (count m) v) as [vs|]; [|apply lp_refl].
    cbn [fst]. apply lp_same; [reflexivity|]. intros i. apply getcell_setcol_neq. congruence.
Qed.

Lemma slp_write c m v : c <> "probability" -> step_lp (write_col c m v).
Proof.
  intros Hc t. unfold write_col. destruct (getcol t c) as [old|] eqn:G; [|apply lp_refl].
  cbn [fst]. apply lp_same; [reflexivity|]. intros i. apply getcell_setcol_neq. congruence.
Qed.

Lemma lp_add_col n d t : le_prob t (add_col n d t).
Proof.
  destruct n as [c|]; cbn [add_col]; [|apply lp_refl].
  destruct (inb c (colnames t)) eqn:E; [apply lp_refl|].
  split; [reflexivity|]. intros i q Hp Hq. exists q. split; [|lra].
  apply probability_cell in Hp. apply probability_cell. unfold getcell in *.
  destruct (getcol t "probability") as [l|] eqn:G; [|discriminate].
  pose proof (getcol_In _ _ _ G) as Hin. unfold getcol in *. cbn [cols].
  rewrite dget_app_l by exact Hin. now rewrite G.
Qed.

Lemma slp_add_output e names : step_lp (add_output_cols e names).
Proof.
  intros t. unfold add_output_cols. cbn [fst]. eapply lp_trans; [|apply lp_add_col].
  generalize (map Some (output_columns e) ++ names) as l. intros l. revert t.
  induction l as [|n l IH]; intros t; cbn [fold_left]; [apply lp_refl|].
  eapply lp_trans; [apply lp_add_col|apply IH].
Qed.

Lemma Forall_map_in {A B} (P : B -> Prop) (f : A -> B) l : (forall x, In x l -> P (f x)) -> Forall P (map f l).
Proof. intros H. apply Forall_forall. intros y Hy. apply in_map_iff in Hy. destruct Hy as (x & <- & Hx). now apply H. Qed.

Lemma slp_process_values e m : elem_ok e -> step_lp (process_values e m).
Proof.
  intros (_ & _ & Hm) t. unfold process_values. destruct (meth e) as [f|f].
  - destruct (f t m) as [outcols|er] eqn:E; [|apply lp_refl].
    apply slp_andthen; [apply slp_add_output|]. apply slp_steps. apply Forall_map_in.
    intros [c v] Hin. cbn [fst snd]. apply slp_assign. intros ->. eapply Hm; eassumption.
  - apply slp_steps. apply Forall_map_in. intros i _. unfold per_photon_step.
    destruct (getcell t "dir" i) as [d|]; [|apply slp_raise].
    destruct (getcell t "pos" i) as [p|]; [|apply slp_raise].
    destruct (getcell t "energy" i) as [en|]; [|apply slp_raise].
    destruct (getcell t "polarization" i) as [po|]; [|apply slp_raise].
    destruct (f d p en po) as [outs|er] eqn:E; [|apply slp_raise].
    apply slp_steps. apply Forall_map_in. intros [c b] Hin. cbn [fst snd]. apply slp_assign.
    intros Ec. injection Ec as ->. cbn [num_value]. eapply Hm; eassumption.
Qed.

Lemma slp_process_photons e m ipos icoos : elem_ok e -> step_lp (process_photons e m ipos icoos).
Proof.
  intros H t. pose proof H as (Hi & Hl & _). unfold process_photons.
  destruct (negb _); [apply lp_refl|]. destruct (negb _); [apply lp_refl|].
  apply slp_steps. constructor; [now apply slp_process_values|]. constructor.
  { destruct (loc_coos_name e) as [[a b]|] eqn:E; [|apply slp_ret]. destruct (Hl a b eq_refl) as [Ha Hb].
    apply slp_steps. constructor; [apply slp_add_output|]. constructor; [now apply slp_write|].
    constructor; [now apply slp_write|constructor]. }
  constructor.
  { destruct (id_col e) as [c|]; [|apply slp_ret]. apply slp_write. congruence. }
  constructor; [|constructor]. apply slp_write. discriminate.
Qed.

Lemma slp_process o m ipos icoos : opt_ok o -> step_lp (process o m ipos icoos).
Proof.
  induction o as [e|e l IH|] using opt_ind'; intros H.
  - now apply slp_process_photons.
  - cbn [opt_ok process] in *. destruct H as (H1 & H2 & H3). intros t. destruct (negb _); [apply lp_refl|].
    apply slp_andthen.
    + apply slp_process_photons. split; [exact H1|]. split; [exact H2|]. cbn [meth stack_element].
      intros t0 m0 outs v E Hin. injection E as <-. contradiction.
    + apply slp_steps. clear -IH H3. induction IH as [|o l Ho Hl IHl]; cbn [map]; constructor.
      * apply Ho. apply H3.
      * apply IHl. apply H3.
  - cbn [process]. intros t. destruct (negb _); [apply lp_refl|].
    apply slp_steps. constructor; [apply slp_write; discriminate|]. constructor; [|constructor].
    intros t0. unfold write_col. destruct (getcol t0 "probability") as [old|] eqn:G; [|apply lp_refl].
    cbn [fst]. split; [reflexivity|]. intros i q Hp Hq.
    destruct (nth_error (map negb m) i) as [[|]|] eqn:Em.
    + (* missed: written or left when the lists do not match *)
      apply probability_cell in Hp. unfold getcell in Hp. rewrite G in Hp.
      assert (exists r, nth_error (mask_write (map negb m) old (repeat (CNum (Some 0%Q)) (count (map negb m)))) i
              = Some (CNum (Some r)) /\ (0 <= r <= q)%Q) as (r & Hr & B).
      { clear -Hp Hq. revert old i Hp. generalize (map negb m) as m'. intros m'.
        assert (Gn : forall n old i, nth_error old i = Some (CNum (Some q)) ->
          exists r, nth_error (mask_write m' old (repeat (CNum (Some 0%Q)) n)) i = Some (CNum (Some r)) /\ (0 <= r <= q)%Q).
        { induction m' as [|b m' IH]; intros n old i Hp.
          - exists q. split; [destruct old; exact Hp|lra].
          - destruct old as [|c old]; [destruct i; discriminate|]. destruct b; cbn [mask_write].
            + destruct n as [|n]; cbn [repeat].
              * exists q. split; [exact Hp|lra].
              * destruct i as [|i]; cbn [nth_error] in *.
                -- exists 0%Q. split; [reflexivity|lra].
                -- now apply IH.
            + destruct i as [|i]; cbn [nth_error] in *.
              * exists q. split; [exact Hp|lra].
              * now apply IH. }
        intros old i Hp. now apply Gn. }
      exists r. split; [|exact B]. apply probability_cell. now rewrite getcell_setcol_eq.
    + exists q. split; [|lra]. apply probability_cell in Hp. apply probability_cell. rewrite getcell_setcol_eq.
      rewrite mask_write_miss by congruence. unfold getcell in Hp. now rewrite G in Hp.
    + exists q. split; [|lra]. apply probability_cell in Hp. apply probability_cell. rewrite getcell_setcol_eq.
      rewrite mask_write_miss by congruence. unfold getcell in Hp. now rewrite G in Hp.
Qed.

Lemma slp_run i : instr_ok i -> step_lp (run i).
Proof.
  induction i as [o g|l IH] using instrument_ind'; intros H.
  - cbn [run instr_ok] in *. intros t. destruct (g t) as [[[m ipos] icoos]|e]; [|apply lp_refl].
    now apply slp_process.
  - cbn [run instr_ok] in *. apply slp_steps.
    induction IH as [|o l Ho Hl IHl]; cbn [map]; constructor.
    + apply Ho. apply H.
    + apply IHl. apply H.
Qed.

Lemma run_prob01 i t : instr_ok i -> prob01 t -> prob01 (fst (run i t)) /\
  nrows (fst (run i t)) = nrows t /\
  forall k q, k < nrows t -> probability t k = Some q ->
    exists q', probability (fst (run i t)) k = Some q' /\ (0 <= q' <= q)%Q.
Proof.
  intros Hi Hp. destruct (slp_run i Hi t) as [N H].
  assert (A : forall k q, k < nrows t -> probability t k = Some q ->
    exists q', probability (fst (run i t)) k = Some q' /\ (0 <= q' <= q)%Q).
  { intros k q Hk Hq. apply H; [exact Hq|]. destruct (Hp k Hk) as (q0 & E & B). rewrite Hq in E.
    injection E as <-. apply B. }
  split; [|split; [exact N|exact A]].
  intros k Hk. rewrite N in Hk. destruct (Hp k Hk) as (q & E & B).
  destruct (A k q Hk E) as (q' & E' & B'). exists q'. split; [exact E'|]. split; [apply B'|].
  eapply Qle_trans; [apply B'|apply B].
Qed.

Lemma zero_stays i t k : instr_ok i -> k < nrows t -> probability t k = Some 0%Q ->
  exists q, probability (fst (run i t)) k = Some q /\ (q == 0)%Q.
Proof.
  intros Hi Hk Hq. destruct (slp_run i Hi t) as [N H].
  destruct (H k 0%Q Hq) as (q & E & B); [lra|]. exists q. split; [exact E|]. lra.
Qed.

(** *** rejected factors *)
Lemma assign_bad m v t c : In c (match v with Scalar c => [c] | Array l => l end) -> cell_bad c = true ->
  assign_col_value (Some "probability") m v t = (t, Some ValueError).
Proof.
  intros Hin Hb. unfold assign_col_value. cbn [String.eqb Ascii.eqb Bool.eqb].
  assert (value_bad v = true) as ->.
  { destruct v as [x|l]; cbn [value_bad].
    - destruct Hin as [->|[]]. exact Hb.
    - apply existsb_exists. eauto. }
  reflexivity.
Qed.

(** *** well-formedness is preserved *)
Definition step_wf (f : M) : Prop := forall t, wf t -> wf (fst (f t)).
Lemma sw_andthen f g : step_wf f -> step_wf g -> step_wf (andthen f g).
Proof.
  intros Hf Hg t H. unfold andthen. specialize (Hf t H). destruct (f t) as [t' [e|]]; cbn [fst] in *; [exact Hf|].
  now apply Hg.
Qed.
Lemma sw_ret : step_wf ret. Proof. intros t H. exact H. Qed.
Lemma sw_raise e : step_wf (raise e). Proof. intros t H. exact H. Qed.
Lemma sw_steps l : Forall step_wf l -> step_wf (steps l).
Proof. intros H. induction H as [|f l Hf Hl IH]; [apply sw_ret|]. now apply sw_andthen. Qed.

Lemma wf_setcol t c l l' : wf t -> getcol t c = Some l -> length l' = length l -> wf (setcol t c l').
Proof.
  intros [HN HL] G E. split.
  - rewrite colnames_setcol; [exact HN|]. now apply getcol_In in G.
  - intros c' l0 G'. unfold getcol, setcol in G'. cbn [cols] in G'. destruct (string_dec c' c) as [->|N].
    + rewrite dget_dset_eq in G'. injection G' as <-. rewrite E. cbn [nrows setcol]. eapply HL. exact G.
    + rewrite dget_dset_neq in G' by exact N. eapply HL. exact G'.
Qed.

Lemma sw_write c m v : step_wf (write_col c m v).
Proof.
  intros t H. unfold write_col. destruct (getcol t c) as [old|] eqn:G; [|exact H]. cbn [fst].
  eapply wf_setcol; [exact H|exact G|apply mask_write_length].
Qed.

Lemma sw_assign c m v : step_wf (assign_col_value c m v).
Proof.
  intros t H. unfold assign_col_value. destruct c as [c|]; [|exact H].
  destruct (String.eqb c "probability").
  - destruct (value_bad v); [exact H|]. destruct (getcol t c) as [old|] eqn:G; [|exact H].
    destruct (broadcast (count m) v) as [vs|]; [|exact H].
    destruct (cmul_list (select m old) vs) as [new|]; [|exact H].
    eapply wf_setcol; [exact H|exact G|apply mask_write_length].
  - destruct (getcol t c) as [old|] eqn:G; [|exact H].
    destruct (broadcast (count m) v) as [vs|]; [|exact H].
    eapply wf_setcol; [exact H|exact G|apply mask_write_length].
Qed.

Lemma wf_add_col n d t : wf t -> wf (add_col n d t).
Proof.
  intros H. destruct n as [c|]; cbn [add_col]; [|exact H].
  destruct (inb c (colnames t)) eqn:E; [exact H|]. apply inb_false in E. destruct H as [HN HL]. split.
  - unfold colnames, dkeys in *. cbn [cols]. rewrite map_app. cbn [map fst].
    apply (Permutation.Permutation_NoDup (Permutation.Permutation_cons_append _ _)). now constructor.
  - intros c' l G. unfold getcol in G. cbn [cols nrows] in *.
    destruct (in_dec string_dec c' (colnames t)) as [Hin|Hout].
    + rewrite dget_app_l in G by exact Hin. eapply HL. exact G.
    + rewrite dget_app_r in G by exact Hout. cbn [dget] in G.
      destruct (String.eqb c' c); [|discriminate]. injection G as <-. apply repeat_length.
Qed.

Lemma sw_add_output e names : step_wf (add_output_cols e names).
Proof.
  intros t H. unfold add_output_cols. cbn [fst]. apply wf_add_col. revert t H.
  generalize (map Some (output_columns e) ++ names) as l.
  intros l. induction l as [|n l IH]; intros t H; cbn [fold_left]; [exact H|]. apply IH. now apply wf_add_col.
Qed.

Lemma sw_process_values e m : step_wf (process_values e m).
Proof.
  intros t H. unfold process_values. destruct (meth e) as [f|f].
  - destruct (f t m) as [outcols|er]; [|exact H].
    apply sw_andthen; [apply sw_add_output| |exact H]. apply sw_steps. apply Forall_map_in. intros cv _. apply sw_assign.
  - apply sw_steps; [|exact H]. apply Forall_map_in. intros i _. unfold per_photon_step.
    destruct (getcell t "dir" i) as [d|]; [|apply sw_raise].
    destruct (getcell t "pos" i) as [p|]; [|apply sw_raise].
    destruct (getcell t "energy" i) as [en|]; [|apply sw_raise].
    destruct (getcell t "polarization" i) as [po|]; [|apply sw_raise].
    destruct (f d p en po) as [outs|er]; [|apply sw_raise].
    apply sw_steps. apply Forall_map_in. intros cb _. apply sw_assign.
Qed.

Lemma sw_process_photons e m ipos icoos : step_wf (process_photons e m ipos icoos).
Proof.
  intros t H. unfold process_photons. destruct (negb _); [exact H|]. destruct (negb _); [exact H|].
  apply sw_steps; [|exact H]. constructor; [apply sw_process_values|]. constructor.
  { destruct (loc_coos_name e) as [[a b]|]; [|apply sw_ret]. apply sw_steps.
    constructor; [apply sw_add_output|]. constructor; [apply sw_write|]. constructor; [apply sw_write|constructor]. }
  constructor; [destruct (id_col e); [apply sw_write|apply sw_ret]|]. constructor; [apply sw_write|constructor].
Qed.

Lemma sw_process o m ipos icoos : step_wf (process o m ipos icoos).
Proof.
  induction o as [e|e l IH|] using opt_ind'.
  - apply sw_process_photons.
  - cbn [process]. intros t H. destruct (negb _); [exact H|].
    apply sw_andthen; [apply sw_process_photons| |exact H]. apply sw_steps. apply Forall_map_in.
    rewrite Forall_forall in IH. exact IH.
  - cbn [process]. intros t H. destruct (negb _); [exact H|]. apply sw_steps; [|exact H].
    constructor; [apply sw_write|]. constructor; [apply sw_write|constructor].
Qed.

(** *** frame: which columns can be touched at all *)
Definition same_but (cs : list string) (t t' : table) : Prop :=
  forall c, ~ In c cs -> getcol t' c = getcol t c.
Definition step_sb cs (f : M) : Prop := forall t, same_but cs t (fst (f t)).
Lemma sb_andthen cs f g : step_sb cs f -> step_sb cs g -> step_sb cs (andthen f g).
Proof.
  intros Hf Hg t c Hc. unfold andthen. specialize (Hf t c Hc). destruct (f t) as [t' [e|]]; cbn [fst] in *; [exact Hf|].
  rewrite (Hg t' c Hc). exact Hf.
Qed.
Lemma sb_ret cs : step_sb cs ret. Proof. intros t c _. reflexivity. Qed.
Lemma sb_raise cs e : step_sb cs (raise e). Proof. intros t c _. reflexivity. Qed.
Lemma sb_steps cs l : Forall (step_sb cs) l -> step_sb cs (steps l).
Proof. intros H. induction H as [|f l Hf Hl IH]; [apply sb_ret|]. now apply sb_andthen. Qed.
Lemma sb_setcol cs t c l : In c cs -> same_but cs t (setcol t c l).
Proof.
  intros H c' Hc. unfold getcol, setcol. cbn [cols]. apply dget_dset_neq. intros ->. contradiction.
Qed.
Lemma sb_write cs c m v : In c cs -> step_sb cs (write_col c m v).
Proof.
  intros H t. unfold write_col. destruct (getcol t c); [now apply sb_setcol|]. intros c' _. reflexivity.
Qed.
Lemma sb_assign cs c m v : (forall n, c = Some n -> In n cs) -> step_sb cs (assign_col_value c m v).
Proof.
  intros H t. unfold assign_col_value. destruct c as [c|]; [|intros c' _; reflexivity]. specialize (H c eq_refl).
  destruct (String.eqb c "probability").
  - destruct (value_bad v); [intros c' _; reflexivity|]. destruct (getcol t c) as [old|]; [|intros c' _; reflexivity].
    destruct (broadcast (count m) v) as [vs|]; [|intros c' _; reflexivity].
    destruct (cmul_list (select m old) vs) as [new|]; [|intros c' _; reflexivity]. now apply sb_setcol.
  - destruct (getcol t c) as [old|]; [|intros c' _; reflexivity].
    destruct (broadcast (count m) v) as [vs|]; [|intros c' _; reflexivity]. now apply sb_setcol.
Qed.
Lemma sb_add_col cs n d t : (forall c, n = Some c -> In c cs) -> same_but cs t (add_col n d t).
Proof.
  intros H c' Hc. destruct n as [c|]; cbn [add_col]; [|reflexivity].
  destruct (inb c (colnames t)); [reflexivity|]. unfold getcol. cbn [cols].
  destruct (in_dec string_dec c' (colnames t)) as [Hin|Hout].
  - now rewrite dget_app_l.
  - rewrite dget_app_r by exact Hout. cbn [dget]. destruct (String.eqb c' c) eqn:E.
    + apply String.eqb_eq in E. subst. exfalso. apply Hc. now apply H.
    + symmetry. now apply dget_none_notin.
Qed.
Lemma sb_add_output cs e names :
  incl (output_columns e) cs -> (forall c, In (Some c) names -> In c cs) -> incl (opt_list (id_col e)) cs ->
  step_sb cs (add_output_cols e names).
Proof.
  intros H1 H2 H3 t. unfold add_output_cols. cbn [fst]. intros c Hc. rewrite (sb_add_col cs); [| |exact Hc].
  - assert (HH : forall n, In n (map Some (output_columns e) ++ names) -> forall c, n = Some c -> In c cs).
    { intros n Hn c' ->. apply in_app_or in Hn. destruct Hn as [Hn|Hn].
      - apply in_map_iff in Hn. destruct Hn as (x & E & Hx). injection E as ->. now apply H1.
      - now apply H2. }
    revert t HH. generalize (map Some (output_columns e) ++ names) as l. induction l as [|n l IH]; intros t HH;
      cbn [fold_left]; [reflexivity|].
    rewrite IH; [|intros n' Hn'; apply HH; now right]. apply (sb_add_col cs); [|exact Hc]. apply HH. now left.
  - intros c' E. apply H3. rewrite E. now left.
Qed.

(** columns an element with [specific_process_photons] writes when it returns [outs] *)
Definition somes {A} (l : list (option A)) : list A := flat_map opt_list l.
Definition written (e : element) (outs : list (option string * value)) : list string :=
  output_columns e ++ somes (map fst outs) ++ loc_list e ++ opt_list (id_col e) ++ ["pos"].

Lemma In_somes {A} (l : list (option A)) x : In (Some x) l <-> In x (somes l).
Proof.
  unfold somes. rewrite in_flat_map. split.
  - intros H. exists (Some x). split; [exact H|now left].
  - intros (o & H & Hx). destruct o as [y|]; [|contradiction]. destruct Hx as [->|[]]. exact H.
Qed.

Lemma sb_process_photons e f m ipos icoos t outs :
  meth e = Specific f -> f t m = Ok outs ->
  same_but (written e outs) t (fst (process_photons e m ipos icoos t)).
Proof.
  intros Hm Hf. unfold process_photons.
  destruct (negb _); [intros c _; reflexivity|]. destruct (negb _); [intros c _; reflexivity|].
  unfold steps. cbn [fold_right].
  set (cs := written e outs).
  assert (Hv : same_but cs t (fst (process_values e m t))).
  { unfold process_values. rewrite Hm, Hf. apply sb_andthen.
    - apply sb_add_output.
      + intros c Hc. unfold cs, written. apply in_or_app. now left.
      + intros c Hc. unfold cs, written. apply in_or_app. right. apply in_or_app. left. now apply In_somes.
      + intros c Hc. unfold cs, written. rewrite !in_app_iff. tauto.
    - apply sb_steps. apply Forall_map_in. intros [c v] Hin. cbn [fst snd]. apply sb_assign. intros n ->.
      unfold cs, written. rewrite !in_app_iff. right. left. apply In_somes.
      apply in_map_iff. exists (Some n, v). now split. }
  unfold andthen at 1. destruct (process_values e m t) as [t' [er|]]; cbn [fst] in *; [exact Hv|].
  intros c Hc. rewrite <- (Hv c Hc). revert c Hc.
  change (same_but cs t' (fst (andthen
     match loc_coos_name e with
     | Some (a, b) =>
         steps [add_output_cols e [Some a; Some b]; write_col a m (select m (map fst icoos));
                write_col b m (select m (map snd icoos))]
     | None => ret
     end
     (andthen match id_col e with
           | Some c => write_col c m (repeat (CInt (id_num e)) (count m))
           | None => ret
           end (andthen (write_col "pos" m (select m ipos)) ret)) t'))).
  apply sb_andthen; [|apply sb_andthen; [|apply sb_andthen; [|apply sb_ret]]].
  - destruct (loc_coos_name e) as [[a b]|] eqn:El; [|apply sb_ret].
    assert (Ha : In a cs) by (unfold cs, written, loc_list; rewrite El, !in_app_iff; cbn [In]; tauto).
    assert (Hb : In b cs) by (unfold cs, written, loc_list; rewrite El, !in_app_iff; cbn [In]; tauto).
    apply sb_steps. constructor; [|constructor; [now apply sb_write|constructor; [now apply sb_write|constructor]]].
    apply sb_add_output.
    + intros c Hc. unfold cs, written. rewrite !in_app_iff. tauto.
    + intros c [E|[E|[]]]; injection E as <-; assumption.
    + intros c Hc. unfold cs, written. rewrite !in_app_iff. tauto.
  - destruct (id_col e) as [c|] eqn:Ei; [|apply sb_ret]. apply sb_write.
    unfold cs, written. rewrite Ei, !in_app_iff. cbn [opt_list In]. tauto.
  - apply sb_write. unfold cs, written. rewrite !in_app_iff. cbn [In]. tauto.
Qed.
