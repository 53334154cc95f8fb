(** Lemmas about [Ccd_Model]. *)
From Verif Require Import Base_Proofs Photons_Proofs.
From Verif Require Export Ccd_Model.
Open Scope nat_scope.

Lemma count_repeat n : count (repeat true n) = n.
Proof. unfold count. induction n; cbn in *; congruence. Qed.
Lemma mask_write_all n l v : length l = n -> length v = n -> mask_write (repeat true n) l v = v.
Proof.
  revert l v. induction n; intros [|c l] [|d v] L V; cbn in *; try discriminate; [reflexivity|]. f_equal. apply IHn; lia.
Qed.
Lemma count_le m : count m <= length m.
Proof. unfold count. induction m as [|[] m IH]; cbn in *; lia. Qed.
Lemma combine_len {A B} (l : list A) (l' : list B) : length l = length l' -> length (combine l l') = length l.
Proof. rewrite combine_length. lia. Qed.
Lemma broadcast_eq n v : length v = n -> broadcast n (Array v) = Some v.
Proof.
  intros L. unfold broadcast. destruct v as [|c [|d v]]; cbn in *.
  - now subst.
  - subst. reflexivity.
  - subst n. rewrite Nat.eqb_refl. reflexivity.
Qed.
Lemma broadcast_none n v : 2 <= length v -> length v <> n -> broadcast n (Array v) = None.
Proof.
  intros L N. unfold broadcast. destruct v as [|c [|d v]]; cbn in *; try lia. destruct n as [|[|n]]; try reflexivity. now rewrite (proj2 (Nat.eqb_neq _ _)) by lia.
Qed.

Definition withcol (t : table) : table := add_col (Some "energy_detected"%string) nan t.
Lemma withcol_col t : wf t -> exists old, getcol (withcol t) "energy_detected" = Some old /\ length old = nrows t.
Proof.
  intros [N W]. unfold withcol, add_col. destruct (inb "energy_detected" (colnames t)) eqn:E.
  - apply inb_In in E. apply In_getcol in E. destruct E as [l G]. exists l. split; [exact G|]. now apply W in G.
  - apply inb_false in E. exists (repeat nan (nrows t)). unfold getcol. cbn [cols]. rewrite dget_app_r by exact E. cbn. split; [reflexivity|apply repeat_length].
Qed.
Lemma withcol_other t c : In c (colnames t) -> getcol (withcol t) c = getcol t c.
Proof.
  intros H. unfold withcol, add_col. destruct (inb "energy_detected" (colnames t)) eqn:E; [reflexivity|].
  unfold getcol. cbn [cols]. now apply dget_app_l.
Qed.
Lemma withcol_nrows t : nrows (withcol t) = nrows t.
Proof. unfold withcol, add_col. now destruct (inb _ _). Qed.
Lemma ccd_values sigma draws en m t : getcol t "energy" = Some en ->
  process_values (ccd sigma draws) m t =
  assign_col_value (Some "energy_detected"%string) m (Array (map (fun ed => redist sigma (fst ed) (snd ed)) (combine en draws))) (withcol t).
Proof.
  intros G. unfold process_values. cbn [meth ccd]. unfold ccd_specific. rewrite G. cbn [map fst snd steps fold_right].
  unfold andthen at 1. unfold add_output_cols. cbn [output_columns ccd map app fold_left id_col add_col].
  change (match inb "energy_detected" (colnames t) with true => t | false => _ end) with (withcol t).
  unfold andthen. destruct (assign_col_value _ _ _ (withcol t)) as [t' [e|]]; reflexivity.
Qed.
Lemma ccd_all sigma draws en t ipos icoos n : wf t -> nrows t = S n -> getcol t "energy" = Some en -> length draws = S n -> In "pos"%string (colnames t) ->
  length ipos = S n -> length icoos = S n ->
  exists t', process_photons (ccd sigma draws) (repeat true (S n)) ipos icoos t = (t', None) /\
    getcol t' "energy_detected" = Some (map (fun ed => redist sigma (fst ed) (snd ed)) (combine en draws)).
Proof.
  intros W N G D P L1 L2. set (vals := map _ (combine en draws)).
  assert (Le : length en = S n) by (rewrite <- N; now apply (proj2 W) in G).
  assert (Lv : length vals = S n) by (unfold vals; rewrite map_length, combine_len; congruence).
  unfold process_photons. rewrite N, L1, L2, repeat_length, Nat.eqb_refl. cbn [andb negb]. 
  replace (existsb (fun b => b) (repeat true (S n))) with true by reflexivity. cbn [negb loc_coos_name id_col ccd steps fold_right].
  unfold andthen at 1. change (process_values {| meth := _; output_columns := _; loc_coos_name := _; id_col := _; id_num := _ |}) with (process_values (ccd sigma draws)).
  rewrite (ccd_values sigma draws en _ t G). fold vals. unfold assign_col_value. change (String.eqb "energy_detected" "probability") with false. cbv iota.
  destruct (withcol_col t W) as (old & Go & Lo). rewrite Go, count_repeat, (broadcast_eq _ _ Lv).
  rewrite mask_write_all by congruence.
  set (t1 := setcol (withcol t) "energy_detected" vals).
  assert (Ip : In "pos"%string (colnames (withcol t))).
  { destruct (In_getcol t _ P) as [l Gl]. apply (getcol_In _ _ l). now rewrite withcol_other. }
  assert (Gp : exists l, getcol t1 "pos" = Some l).
  { destruct (In_getcol _ _ Ip) as [l Gl]. exists l. unfold t1, getcol, setcol. cbn [cols]. rewrite dget_dset_neq by discriminate. exact Gl. }
  destruct Gp as [l Gp]. unfold andthen, ret, write_col. rewrite Gp. eexists. split; [reflexivity|].
  unfold getcol, setcol. cbn [cols]. rewrite dget_dset_neq by discriminate. unfold t1, setcol. cbn [cols]. apply dget_dset_eq.
Qed.
Lemma ccd_some sigma draws en t m ipos icoos : wf t -> getcol t "energy" = Some en -> length draws = nrows t ->
  length m = nrows t -> length ipos = nrows t -> length icoos = nrows t ->
  2 <= nrows t -> In true m -> In false m ->
  snd (process_photons (ccd sigma draws) m ipos icoos t) = Some ValueError.
Proof.
  intros W G D L1 L2 L3 N T F. set (vals := map (fun ed => redist sigma (fst ed) (snd ed)) (combine en draws)).
  assert (Le : length en = nrows t) by (now apply (proj2 W) in G).
  assert (Lv : length vals = nrows t) by (unfold vals; rewrite map_length, combine_len; congruence).
  assert (C : count m <> nrows t).
  { rewrite <- L1. clear - F. induction m as [|[] m IH]; cbn in *; [contradiction| |].
    - destruct F as [F|F]; [discriminate|]. apply IH in F. unfold count in *. cbn. lia.
    - unfold count in *. cbn. pose proof (count_le m). unfold count in *. lia. }
  unfold process_photons. rewrite L1, L2, L3, Nat.eqb_refl. cbn [andb negb].
  assert (E : existsb (fun b => b) m = true) by (apply existsb_exists; eauto). rewrite E. cbn [negb loc_coos_name id_col ccd steps fold_right].
  unfold andthen at 1. change (process_values {| meth := _; output_columns := _; loc_coos_name := _; id_col := _; id_num := _ |}) with (process_values (ccd sigma draws)).
  rewrite (ccd_values sigma draws en _ t G). fold vals. unfold assign_col_value. change (String.eqb "energy_detected" "probability") with false. cbv iota.
  destruct (withcol_col t W) as (old & Go & Lo). rewrite Go, broadcast_none by lia. reflexivity.
Qed.
