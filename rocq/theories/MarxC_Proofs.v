(** Lemmas for the conversion of tables to the C structures of MARX. *)
From Coq Require Import Permutation Sorted.
From Verif Require Import MarxC_Model.
From Verif Require Import Vec_Proofs Placement_Proofs Rot_Proofs Rot_Props.
Open Scope R_scope.

Lemma insert_perm {A} (key : A -> R) x l : Permutation (insert_by key x l) (x :: l).
Proof.
  induction l as [|y l IH]; cbn [insert_by]; [reflexivity|]. destruct (Rleb (key x) (key y)); [reflexivity|].
  rewrite IH. apply perm_swap.
Qed.
Lemma sort_perm {A} (key : A -> R) l : Permutation (sort_by key l) l.
Proof. induction l as [|x l IH]; [reflexivity|]. cbn [sort_by fold_right]. fold (sort_by key l). rewrite insert_perm. now constructor. Qed.
Definition key_le {A} (key : A -> R) (x y : A) : Prop := key x <= key y.
Lemma insert_sorted {A} (key : A -> R) x l : StronglySorted (key_le key) l -> StronglySorted (key_le key) (insert_by key x l).
Proof.
  induction l as [|y l IH]; intros S; cbn [insert_by]; [repeat constructor|].
  inversion S as [|? ? S' F]; subst. destruct (Rleb (key x) (key y)) eqn:E.
  - apply Rleb_true in E. constructor; [assumption|]. constructor; [exact E|].
    eapply Forall_impl; [|exact F]. intros z Z. unfold key_le in *. lra.
  - apply Rleb_false in E. constructor; [now apply IH|].
    apply (Permutation_Forall (Permutation_sym (insert_perm key x l))). constructor; [unfold key_le; lra|assumption].
Qed.
Lemma sort_sorted {A} (key : A -> R) l : StronglySorted (key_le key) (sort_by key l).
Proof. induction l as [|x l IH]; [constructor|]. cbn [sort_by fold_right]. now apply insert_sorted. Qed.
Lemma insert_map {A} (key : A -> R) x l : map key (insert_by key x l) = insert_by (fun r => r) (key x) (map key l).
Proof. induction l as [|y l IH]; cbn [insert_by map]; [reflexivity|]. destruct (Rleb (key x) (key y)); cbn [map]; [reflexivity|]. now rewrite IH. Qed.
Lemma sort_map {A} (key : A -> R) l : map key (sort_by key l) = sort_by (fun r => r) (map key l).
Proof. induction l as [|x l IH]; [reflexivity|]. cbn [sort_by fold_right map]. rewrite insert_map. now f_equal. Qed.
Lemma map_fst_combine {A B} : forall (l : list A) (l' : list B), length l = length l' -> map fst (combine l l') = l.
Proof. induction l as [|a l IH]; intros [|b l'] H; cbn in *; try congruence. f_equal. apply IH. congruence. Qed.
Lemma map_snd_combine {A B} : forall (l : list A) (l' : list B), length l = length l' -> map snd (combine l l') = l'.
Proof. induction l as [|a l IH]; intros [|b l'] H; cbn in *; try congruence. f_equal. apply IH. congruence. Qed.
Lemma argsort_perm l : Permutation (argsort l) (seq 0 (length l)).
Proof.
  unfold argsort. rewrite (Permutation_map snd (sort_perm fst _)). now rewrite map_snd_combine by now rewrite seq_length.
Qed.
Lemma combine_seq_in {A} : forall (l : list A) k x i, In (x, i) (combine l (seq k (length l))) -> (k <= i)%nat /\ nth_error l (i - k) = Some x.
Proof.
  induction l as [|a l IH]; intros k x i H; [destruct H|]. cbn [length seq combine] in H. destruct H as [H|H].
  - assert (a = x /\ k = i) as [-> ->] by (split; congruence). split; [lia|]. now rewrite Nat.sub_diag.
  - destruct (IH (S k) x i H) as [L N]. split; [lia|]. replace (i - k)%nat with (S (i - S k)) by lia. exact N.
Qed.
Lemma argsort_values l : map (nth_error l) (argsort l) = map Some (sort_by (fun r => r) l).
Proof.
  assert (E : sort_by (fun r => r) l = map fst (sort_by fst (combine l (seq 0 (length l))))).
  { rewrite sort_map. now rewrite map_fst_combine by now rewrite seq_length. }
  rewrite E. unfold argsort. rewrite !map_map. apply map_ext_in. intros [x i] H.
  apply (Permutation_in _ (sort_perm fst _)) in H. apply combine_seq_in in H. cbn [fst snd]. rewrite Nat.sub_0_r in H. exact (proj2 H).
Qed.

Lemma fold_max : forall l x, let m := fold_left Rmax l x in In m (x :: l) /\ forall y, In y (x :: l) -> y <= m.
Proof.
  induction l as [|a l IH]; intros x; cbn [fold_left]; [split; [now left|]; intros y [->|[]]; lra|].
  destruct (IH (Rmax x a)) as [I B]. cbv zeta in *. split.
  - destruct I as [I|I]; [|right; now right]. rewrite <- I. unfold Rmax. destruct (Rle_dec x a); [right; now left|now left].
  - pose proof (B _ (or_introl eq_refl)) as T. pose proof (Rmax_l x a). pose proof (Rmax_r x a).
    intros y [<-|[<-|Y]]; [lra|lra|]. apply B. now right.
Qed.
Lemma fold_min : forall l x, let m := fold_left Rmin l x in In m (x :: l) /\ forall y, In y (x :: l) -> m <= y.
Proof.
  induction l as [|a l IH]; intros x; cbn [fold_left]; [split; [now left|]; intros y [->|[]]; lra|].
  destruct (IH (Rmin x a)) as [I B]. cbv zeta in *. split.
  - destruct I as [I|I]; [|right; now right]. rewrite <- I. unfold Rmin. destruct (Rle_dec x a); [now left|right; now left].
  - pose proof (B _ (or_introl eq_refl)) as T. pose proof (Rmin_l x a). pose proof (Rmin_r x a).
    intros y [<-|[<-|Y]]; [lra|lra|]. apply B. now right.
Qed.
Lemma collect_map_ok {A B} (f : A -> result B) g : forall l, (forall x, In x l -> f x = Ok (g x)) -> collect (map f l) = Ok (map g l).
Proof.
  induction l as [|a l IH]; intros H; [reflexivity|]. cbn [map collect]. rewrite (H a (or_introl eq_refl)). cbn [bind].
  rewrite IH by (intros x X; apply H; now right). reflexivity.
Qed.

(** the structure element for a row *)
Definition attr_of (rt : mrow * Z) : cattr := CAttr (m_energy (fst rt)) (xyz (m_pos (fst rt))) (xyz (m_dir (fst rt))) (m_time (fst rt)) (snd rt) false false 0.
Lemma row2c_ok rt : proper_row (fst rt) -> row2c rt = Ok (attr_of rt).
Proof. intros [P D]. unfold row2c. rewrite (h2e1_w1 _ P), (h2e1_w0 _ D). reflexivity. Qed.

Lemma table2c_ok t : mt_rows t <> [] -> Forall proper_row (mt_rows t) ->
  exists tmax tmin, let en := map m_energy (mt_rows t) in let n := length (mt_rows t) in
  table2c t = Ok (MTable (mt_rows t) (Some (tags_of t)),
                  CList (map attr_of (combine (mt_rows t) (tags_of t))) n n tmax tmin (argsort en) (sort_by (fun x => x) en) n) /\
  In tmax (map m_time (mt_rows t)) /\ In tmin (map m_time (mt_rows t)) /\
  forall r, In r (mt_rows t) -> tmin <= m_time r <= tmax.
Proof.
  intros N P. unfold table2c. fold (tags_of t).
  rewrite (collect_map_ok row2c attr_of).
  2:{ intros [r z] H. apply row2c_ok. apply in_combine_l in H. rewrite Forall_forall in P. now apply P. }
  cbn [bind]. destruct (mt_rows t) as [|r l]; [congruence|]. cbn [map fold1].
  pose proof (fold_max (map m_time l) (m_time r)) as [I1 B1]. pose proof (fold_min (map m_time l) (m_time r)) as [I2 B2].
  exists (fold_left Rmax (map m_time l) (m_time r)), (fold_left Rmin (map m_time l) (m_time r)). cbv zeta.
  split; [reflexivity|]. split; [exact I1|]. split; [exact I2|].
  intros x X. apply (in_map m_time) in X. cbn [map] in X. split; [now apply B2|now apply B1].
Qed.
Lemma table2c_empty tag : table2c (MTable [] tag) = Err ValueError.
Proof. reflexivity. Qed.
Lemma tags_distinct rows : NoDup (tags_of (MTable rows None)) /\ length (tags_of (MTable rows None)) = length rows.
Proof.
  unfold tags_of. cbn [mt_tag mt_rows]. split; [|now rewrite map_length, seq_length].
  apply FinFun.Injective_map_NoDup; [intros a b; apply Nat2Z.inj|apply seq_NoDup].
Qed.

(** all photons come back *)
Lemma c2table_all c : cl_num_sorted c = length (cl_attr c) -> c2table c = Ok (map c2row (cl_attr c)).
Proof. intros H. unfold c2table. rewrite H, Nat.leb_refl, firstn_all. reflexivity. Qed.
Lemma c2table_rows c out : c2table c = Ok out -> length out = cl_num_sorted c /\
  forall i o, nth_error out i = Some o -> exists a, nth_error (cl_attr c) i = Some a /\
    o = ORow (hom (ca_x a) 1) (hom (ca_p a) 0) (ca_energy a) (ca_time a) (ca_tag a) (ca_unreflected a) (ca_vblocked a) (ca_shell a).
Proof.
  unfold c2table. destruct (Nat.leb _ _) eqn:E; [|discriminate]. apply Nat.leb_le in E. intros H.
  assert (out = map c2row (firstn (cl_num_sorted c) (cl_attr c))) as -> by congruence.
  split; [rewrite map_length, firstn_length; lia|]. intros i o H'.
  rewrite nth_error_map in H'. destruct (nth_error (firstn (cl_num_sorted c) (cl_attr c)) i) as [a|] eqn:A; [|discriminate].
  exists a. cbn [option_map] in H'. split; [|unfold c2row in H'; congruence].
  rewrite <- (firstn_skipn (cl_num_sorted c) (cl_attr c)). rewrite nth_error_app1; [exact A|]. apply nth_error_Some. congruence.
Qed.
Lemma combine_full {A B} (l : list A) (l' : list B) : length l' = length l -> length (combine l l') = length l.
Proof. intros H. rewrite combine_length. lia. Qed.
(** a C function that reflects each photon on its own *)
Definition each (g : cattr -> cattr) (c : clist) : Z * clist :=
  (0%Z, CList (map g (cl_attr c)) (cl_n c) (cl_max_n c) (cl_total_time c) (cl_start_time c) (cl_index c) (cl_energies c) (cl_num_sorted c)).
Definition move1 (m : m4) (r : mrow) : mrow := MRow (app4 m (m_pos r)) (app4 m (m_dir r)) (m_energy r) (m_time r) (m_pol r).
Definition moveo (m : m4) (o : orow) : orow :=
  ORow (app4 m (o_pos o)) (app4 m (o_dir o)) (o_energy o) (o_time o) (o_tag o) (o_unreflected o) (o_vblocked o) (o_shell o).
Lemma tags_moved m t : tags_of (move_rows m t) = tags_of t.
Proof. unfold tags_of, move_rows. cbn [mt_tag mt_rows]. now rewrite map_length. Qed.
Lemma process_each m minv g t : mt_rows t <> [] -> length (tags_of t) = length (mt_rows t) ->
  Forall (fun r => proper_row (move1 minv r)) (mt_rows t) ->
  process_photons_in_c m minv (each g) t =
    Ok (MTable (map (move1 minv) (mt_rows t)) (Some (tags_of t)),
        Some (map (fun rt => moveo m (c2row (g (attr_of (move1 minv (fst rt), snd rt))))) (combine (mt_rows t) (tags_of t)))).
Proof.
  intros N L P. unfold process_photons_in_c, localcoords, in_c.
  destruct (table2c_ok (move_rows minv t)) as (tmax & tmin & E & _).
  { unfold move_rows. cbn [mt_rows]. destruct (mt_rows t); [congruence|discriminate]. }
  { unfold move_rows. cbn [mt_rows]. rewrite Forall_map. exact P. }
  cbv zeta in E. rewrite E. clear E. cbn [bind snd fst each].
  rewrite tags_moved. unfold move_rows at 1 2 3 4 5 6 7 8. cbn [mt_rows mt_tag cl_attr cl_n cl_max_n cl_total_time cl_start_time cl_index cl_energies cl_num_sorted].
  cbn [Z.eqb negb]. rewrite c2table_all.
  2:{ cbn [cl_num_sorted cl_attr mt_rows]. unfold move_rows. cbn [mt_rows]. repeat rewrite ?map_length, ?combine_length. lia. }
  cbn [bind cl_attr]. unfold move_new. fold (moveo m). rewrite !map_map.
  fold (move1 minv). do 3 f_equal.
  revert L. clear. generalize (tags_of t) as tg. induction (mt_rows t) as [|r l IH]; intros [|z tg] L; cbn [map combine length] in *; try congruence.
  f_equal. apply IH. congruence.
Qed.

(** the polarization of the caller's row and the new row *)
Lemma pol_along d1 d2 rn pol : unit3 (xyz d1) = Some (xyz d1) -> unit3 (xyz d2) = Some (xyz d2) -> isclose (norm3 (cross3 (xyz d1) (xyz d2))) 0 = false ->
  xyz pol = xyz d1 -> parallel_transport d1 d2 pol None rn = Some (hom (xyz d2) 0).
Proof.
  intros U1 U2 C P. unfold parallel_transport. destruct (C26_matrix _ _ _ _ true U1 U2 C) as (m & M & _ & A). rewrite M, P, A. reflexivity.
Qed.
