(** C207: photons to and from the C structures of MARX.  C208: local coordinates of a MARX mirror. *)
From Coq Require Import Permutation Sorted.
From Verif Require Import MarxC_Model.
From Verif Require Import Vec_Proofs Placement_Proofs Rot_Proofs Rot_Props MarxC_Proofs.
Open Scope R_scope.

(** ** C207 *)
(** Element i of the C array is photon i. *)
Theorem C207_elements : forall t, mt_rows t <> [] -> Forall proper_row (mt_rows t) ->
  exists c, table2c t = Ok (MTable (mt_rows t) (Some (tags_of t)), c) /\
  cl_n c = length (mt_rows t) /\ cl_max_n c = length (mt_rows t) /\ cl_num_sorted c = length (mt_rows t) /\
  forall i r z, nth_error (mt_rows t) i = Some r -> nth_error (tags_of t) i = Some z ->
    exists a, nth_error (cl_attr c) i = Some a /\ hom (ca_x a) 1 = m_pos r /\ hom (ca_p a) 0 = m_dir r /\
      ca_energy a = m_energy r /\ ca_time a = m_time r /\ ca_tag a = z /\ ca_unreflected a = false /\ ca_vblocked a = false.
Proof.
  intros t N P. destruct (table2c_ok t N P) as (tmax & tmin & E & _). eexists. split; [exact E|].
  cbn [cl_n cl_max_n cl_num_sorted cl_attr]. split; [reflexivity|]. split; [reflexivity|]. split; [reflexivity|].
  intros i r z R Z. exists (attr_of (r, z)). rewrite nth_error_map.
  assert (C : nth_error (combine (mt_rows t) (tags_of t)) i = Some (r, z)).
  { clear - R Z. revert i R Z. generalize (tags_of t). induction (mt_rows t) as [|a l IH]; intros [|b l'] [|i] R Z; cbn in *; try discriminate; [congruence|]. now apply IH. }
  rewrite C. split; [reflexivity|]. unfold attr_of. cbn [ca_x ca_p ca_energy ca_time ca_tag ca_unreflected ca_vblocked fst snd].
  apply nth_error_In in R. rewrite Forall_forall in P. destruct (P _ R) as [P1 P2].
  split; [destruct (m_pos r); cbn in *; now subst|]. split; [destruct (m_dir r); cbn in *; now subst|]. repeat split; reflexivity.
Qed.
Print Assumptions C207_elements.
(** The index array orders the photons by energy, each photon once; the limits of the times are those of the photons. *)
Theorem C207_sorted : forall t, mt_rows t <> [] -> Forall proper_row (mt_rows t) ->
  exists t' c, table2c t = Ok (t', c) /\
  Permutation (cl_index c) (seq 0 (length (mt_rows t))) /\
  map (fun i => option_map m_energy (nth_error (mt_rows t) i)) (cl_index c) = map Some (cl_energies c) /\
  StronglySorted Rle (cl_energies c) /\
  In (cl_total_time c) (map m_time (mt_rows t)) /\ In (cl_start_time c) (map m_time (mt_rows t)) /\
  forall r, In r (mt_rows t) -> cl_start_time c <= m_time r <= cl_total_time c.
Proof.
  intros t N P. destruct (table2c_ok t N P) as (tmax & tmin & E & T1 & T2 & T3). do 2 eexists. split; [exact E|].
  cbn [cl_index cl_energies cl_total_time cl_start_time]. split.
  { etransitivity; [apply argsort_perm|]. now rewrite map_length. }
  split. { rewrite <- argsort_values. apply map_ext. intros i. now rewrite nth_error_map. }
  split; [apply (sort_sorted (fun x => x))|]. split; [exact T1|]. split; [exact T2|exact T3].
Qed.
Print Assumptions C207_sorted.
(** Photons without tags get distinct tags; a column tag is not changed. *)
Theorem C207_tags : forall rows, NoDup (tags_of (MTable rows None)) /\ length (tags_of (MTable rows None)) = length rows /\
  forall tag, tags_of (MTable rows (Some tag)) = tag.
Proof. intros rows. destruct (tags_distinct rows). auto. Qed.
Print Assumptions C207_tags.
(** The limits of the times do not exist for a table without rows, so the mirror fails. *)
Theorem C207_empty : forall m minv reflect tag, process_photons_in_c m minv reflect (MTable [] tag) = Err ValueError.
Proof. reflexivity. Qed.
Print Assumptions C207_empty.
(** An error in C is an exception. *)
Theorem C207_status : forall m minv reflect t, (forall c, fst (reflect c) <> 0%Z) -> exists e, process_photons_in_c m minv reflect t = Err e.
Proof.
  intros m minv reflect t H. unfold process_photons_in_c, localcoords, in_c. destruct (table2c (move_rows minv t)) as [[t' c]|e]; cbn [bind]; [|eauto].
  cbn [snd]. specialize (H c). destruct (reflect c) as [s c']. cbn [fst] in H. apply Z.eqb_neq in H. rewrite H. cbn [negb bind]. eauto.
Qed.
Print Assumptions C207_status.
(** Row i that comes back is element i of the C array. *)
Theorem C207_back : forall c out, c2table c = Ok out -> length out = cl_num_sorted c /\
  forall i o, nth_error out i = Some o -> exists a, nth_error (cl_attr c) i = Some a /\
    o = ORow (hom (ca_x a) 1) (hom (ca_p a) 0) (ca_energy a) (ca_time a) (ca_tag a) (ca_unreflected a) (ca_vblocked a) (ca_shell a).
Proof. exact c2table_rows. Qed.
Print Assumptions C207_back.
(** A mirror that changes nothing gives the photons back, wherever it is. *)
Theorem C207_round_trip : forall m minv t, affine minv -> (forall v, app4 m (app4 minv v) = v) ->
  mt_rows t <> [] -> Forall proper_row (mt_rows t) -> length (tags_of t) = length (mt_rows t) ->
  exists left out, process_photons_in_c m minv (fun c => (0%Z, c)) t = Ok (left, Some out) /\
    map o_pos out = map m_pos (mt_rows t) /\ map o_dir out = map m_dir (mt_rows t) /\ map o_energy out = map m_energy (mt_rows t) /\
    map o_time out = map m_time (mt_rows t) /\ map o_tag out = tags_of t.
Proof.
  intros m minv t A I N P L.
  assert (PR : Forall (fun r => proper_row (move1 minv r)) (mt_rows t)).
  { eapply Forall_impl; [|exact P]. intros r [P1 P2]. unfold proper_row, move1. cbn [m_pos m_dir].
    destruct A as (A0 & A1 & A2 & A3). clear I. destruct minv as [c0 c1 c2 c3]. cbn [b0 b1 b2 b3] in *.
    split; [destruct (m_pos r)|destruct (m_dir r)]; cbn in *; subst; rewrite A0, A1, A2, A3; ring. }
  pose proof (process_each m minv (fun a => a) t N L PR) as E.
  assert (Q : process_photons_in_c m minv (fun c => (0%Z, c)) t = process_photons_in_c m minv (each (fun a => a)) t).
  { unfold process_photons_in_c, localcoords, in_c, each. destruct (table2c (move_rows minv t)) as [[t' c]|e]; [|reflexivity]. cbn [bind snd]. rewrite map_id. now destruct c. }
  rewrite Q, E. do 2 eexists. split; [reflexivity|].
  assert (M : forall r z, In (r, z) (combine (mt_rows t) (tags_of t)) -> moveo m (c2row (attr_of (move1 minv r, z))) = ORow (m_pos r) (m_dir r) (m_energy r) (m_time r) z false false 0).
  { intros r z H. apply in_combine_l in H. rewrite Forall_forall in PR. destruct (PR _ H) as [P1 P2].
    unfold moveo, c2row, attr_of. cbn [fst snd ca_x ca_p ca_energy ca_time ca_tag ca_unreflected ca_vblocked ca_shell o_pos o_dir o_energy o_time o_tag o_unreflected o_vblocked o_shell].
    unfold move1 in *. cbn [m_pos m_dir m_energy m_time] in *.
    replace (hom (xyz (app4 minv (m_pos r))) 1) with (app4 minv (m_pos r)) by (destruct (app4 minv (m_pos r)); cbn in *; now subst).
    replace (hom (xyz (app4 minv (m_dir r))) 0) with (app4 minv (m_dir r)) by (destruct (app4 minv (m_dir r)); cbn in *; now subst).
    now rewrite !I. }
  rewrite !map_map.
  assert (F : forall B (f : orow -> B) (g : mrow * Z -> B), (forall r z, f (ORow (m_pos r) (m_dir r) (m_energy r) (m_time r) z false false 0) = g (r, z)) ->
    map (fun x => f (moveo m (c2row (attr_of (move1 minv (fst x), snd x))))) (combine (mt_rows t) (tags_of t)) = map g (combine (mt_rows t) (tags_of t))).
  { intros B f g G. apply map_ext_in. intros [r z] H. cbn [fst snd]. now rewrite (M r z H), G. }
  assert (F1 : forall B (g : mrow -> B), map (fun x => g (fst x)) (combine (mt_rows t) (tags_of t)) = map g (mt_rows t)).
  { intros B g. rewrite <- (map_map fst g). now rewrite map_fst_combine by congruence. }
  rewrite (F _ o_pos (fun x => m_pos (fst x))), (F _ o_dir (fun x => m_dir (fst x))), (F _ o_energy (fun x => m_energy (fst x))),
    (F _ o_time (fun x => m_time (fst x))), (F _ o_tag snd) by reflexivity. rewrite !F1.
  rewrite map_snd_combine by congruence. now repeat split.
Qed.
Print Assumptions C207_round_trip.
Definition ex_row : mrow := MRow (V4 1 2 3 1) (V4 (-1) 0 0 0) 2 10 (V4 0 1 0 0).
Definition ex_row2 : mrow := MRow (V4 4 5 6 1) (V4 (-1) 0 0 0) 1 20 (V4 0 0 1 0).
Example C207_ex : mt_rows (MTable [ex_row; ex_row2] None) <> [] /\ Forall proper_row [ex_row; ex_row2] /\
  length (tags_of (MTable [ex_row; ex_row2] None)) = 2%nat /\ affine id4 /\ forall v, app4 id4 (app4 id4 v) = v.
Proof. split; [discriminate|]. split; [repeat constructor|]. split; [reflexivity|]. split; [repeat split; reflexivity|]. intros v. vring. Qed.
(** The comment calls num_sorted the number of valid photons; MARX lists them in sorted_index.  If C drops a photon from this list, the rows that come
    back are the first ones of the array and not those that are listed. *)
Theorem C207_listed_refuted : exists c out, c2table c = Ok out /\ length (cl_index c) = cl_num_sorted c /\ NoDup (cl_index c) /\
  Forall (fun i => (i < length (cl_attr c))%nat) (cl_index c) /\
  map (fun o => Some (o_tag o)) out <> map (option_map ca_tag) (selected c).
Proof.
  pose (a := CAttr 1 (V3 0 0 0) (V3 1 0 0) 0 0 false false 0). pose (b := CAttr 1 (V3 0 0 0) (V3 1 0 0) 0 1 false false 0).
  exists (CList [a; b] 2 2 0 0 [1%nat] [1] 1). eexists. split; [reflexivity|]. cbn [cl_index cl_num_sorted cl_attr].
  split; [reflexivity|]. split; [repeat constructor; intros []|]. split; [repeat constructor|]. cbn. intros H.
  assert (T : forall x y : Z, [Some x] = [Some y] -> x = y) by congruence. apply T in H. discriminate.
Qed.
Print Assumptions C207_listed_refuted.
(** If all photons are valid, the order of the list does not matter: the rows are those of the list in another order. *)
Theorem C207_listed_partial : forall c out, c2table c = Ok out -> cl_num_sorted c = length (cl_attr c) ->
  Permutation (cl_index c) (seq 0 (length (cl_attr c))) ->
  Permutation (map (fun o => Some (o_tag o)) out) (map (option_map ca_tag) (selected c)).
Proof.
  intros c out E N P. rewrite c2table_all in E by assumption. assert (out = map c2row (cl_attr c)) as -> by congruence.
  unfold selected. assert (L : length (cl_index c) = cl_num_sorted c) by (rewrite (Permutation_length P), seq_length; congruence).
  rewrite <- L, firstn_all, !map_map. symmetry. etransitivity; [apply Permutation_map, P|]. clear.
  assert (G : forall (l l0 : list cattr), map (fun x => option_map ca_tag (nth_error (l0 ++ l) x)) (seq (length l0) (length l)) = map (fun x => Some (o_tag (c2row x))) l).
  { induction l as [|a l IH]; intros l0; [reflexivity|]. cbn [length seq map]. f_equal.
    - rewrite nth_error_app2, Nat.sub_diag by lia. reflexivity.
    - specialize (IH (l0 ++ [a])). rewrite app_length, <- app_assoc in IH. cbn [length app] in IH. rewrite Nat.add_1_r in IH. exact IH. }
  pose proof (G (cl_attr c) []) as Q. cbn [length app] in Q. rewrite Q. reflexivity.
Qed.
Print Assumptions C207_listed_partial.

(** ** C208 *)
(** A function that returns the table it got is transformed back. *)
Theorem C208_same_table : forall T U (to_local to_global : T -> T) (back : U -> U) f t t',
  f (to_local t) = Ok (t', None) -> localcoords to_local to_global back f t = Ok (to_global t', None).
Proof. intros T U tl tg back f t t' H. unfold localcoords. now rewrite H. Qed.
Print Assumptions C208_same_table.
(** If it changes nothing, the table of the caller is as before. *)
Theorem C208_same_unchanged : forall m minv (f : mtable -> result (mtable * option (list orow))) t, (forall v, app4 m (app4 minv v) = v) ->
  (forall x, f x = Ok (x, None)) -> localcoords (move_rows minv) (move_rows m) (move_new m) f t = Ok (t, None).
Proof.
  intros m minv f t I H. unfold localcoords. rewrite H. cbn [bind]. f_equal. f_equal. destruct t as [rows tag]. unfold move_rows. cbn [mt_rows mt_tag]. f_equal.
  rewrite map_map. cbn [m_pos m_dir m_energy m_time m_pol]. induction rows as [|r rows IH]; [reflexivity|]. cbn [map]. rewrite IH, !I. now destruct r.
Qed.
Print Assumptions C208_same_unchanged.
(** The MARX mirror returns a new table.  The table of the caller is left in local coordinates. *)
Theorem C208_left_local : forall m minv g t, mt_rows t <> [] -> length (tags_of t) = length (mt_rows t) ->
  Forall (fun r => w4 (app4 minv (m_pos r)) = 1 /\ w4 (app4 minv (m_dir r)) = 0) (mt_rows t) ->
  exists left out, process_photons_in_c m minv (each g) t = Ok (left, Some out) /\ length (mt_rows left) = length (mt_rows t) /\
  forall i r, nth_error (mt_rows t) i = Some r -> exists l, nth_error (mt_rows left) i = Some l /\
    m_pos l = app4 minv (m_pos r) /\ m_dir l = app4 minv (m_dir r) /\ m_energy l = m_energy r /\ m_time l = m_time r /\ m_pol l = m_pol r.
Proof.
  intros m minv g t N L P. do 2 eexists. split; [apply (process_each m minv g t N L P)|]. cbn [mt_rows]. split; [apply map_length|].
  intros i r H. exists (move1 minv r). rewrite nth_error_map, H. now repeat split.
Qed.
Print Assumptions C208_left_local.
(** So "the table of the caller is not changed (but for tags)" is wrong for a mirror that is not at the origin. *)
Definition turn90 : m4 := M4 (V4 0 1 0 0) (V4 (-1) 0 0 0) (V4 0 0 1 0) (V4 0 0 0 1).
Definition turn90inv : m4 := M4 (V4 0 (-1) 0 0) (V4 1 0 0 0) (V4 0 0 1 0) (V4 0 0 0 1).
Definition ex_table : mtable := MTable [ex_row] None.
Lemma ex_result : process_photons_in_c turn90 turn90inv (each (fun a => a)) ex_table =
  Ok (MTable [MRow (app4 turn90inv (m_pos ex_row)) (app4 turn90inv (m_dir ex_row)) 2 10 (V4 0 1 0 0)] (Some [0%Z]),
      Some [ORow (m_pos ex_row) (m_dir ex_row) 2 10 0 false false 0]).
Proof.
  rewrite process_each; [|discriminate|reflexivity|].
  - cbn [ex_table mt_rows map]. unfold tags_of. cbn [mt_tag mt_rows ex_table length seq map combine fst snd]. do 3 f_equal. f_equal.
    unfold moveo, c2row, attr_of, move1, ex_row. cbn [fst snd ca_x ca_p ca_energy ca_time ca_tag ca_unreflected ca_vblocked ca_shell o_pos o_dir o_energy o_time o_tag o_unreflected o_vblocked o_shell m_pos m_dir m_energy m_time].
    f_equal; unfold turn90, turn90inv; vring.
  - constructor; [|constructor]. split; cbn; ring.
Qed.
Theorem C208_caller_refuted : exists m minv t left out, affine m /\ (forall v, app4 m (app4 minv v) = v) /\ (forall v, app4 minv (app4 m v) = v) /\
  Forall proper_row (mt_rows t) /\ process_photons_in_c m minv (each (fun a => a)) t = Ok (left, Some out) /\ mt_rows left <> mt_rows t.
Proof.
  exists turn90, turn90inv, ex_table. do 2 eexists. split; [repeat split; reflexivity|]. split; [intros v; unfold turn90, turn90inv; vring|].
  split; [intros v; unfold turn90, turn90inv; vring|]. split; [repeat constructor|]. split; [apply ex_result|]. cbn [mt_rows ex_table]. intros H.
  assert (T : forall a b : mrow, [a] = [b] -> m_dir a = m_dir b) by (intros a b E; congruence). apply T in H. cbn [m_dir ex_row] in H.
  apply (f_equal x4) in H. cbn in H. lra.
Qed.
Print Assumptions C208_caller_refuted.
(** The polarization is transported from the direction that is left in this table.  Here a photon that keeps its direction gets a polarization along its
    direction of flight; before, it was perpendicular. *)
Theorem C208_polarization_refuted : exists m minv t left out r l o, affine m /\ (forall v, app4 m (app4 minv v) = v) /\ (forall v, app4 minv (app4 m v) = v) /\
  process_photons_in_c m minv (each (fun a => a)) t = Ok (left, Some out) /\ mt_rows t = [r] /\ mt_rows left = [l] /\ out = [o] /\
  dot3 (xyz (m_pol r)) (xyz (m_dir r)) = 0 /\ o_dir o = m_dir r /\ mirror_pol l o = Some (o_dir o).
Proof.
  exists turn90, turn90inv, ex_table. do 5 eexists. split; [repeat split; reflexivity|]. split; [intros v; unfold turn90, turn90inv; vring|].
  split; [intros v; unfold turn90, turn90inv; vring|]. split; [apply ex_result|]. split; [reflexivity|]. split; [reflexivity|]. split; [reflexivity|].
  split; [change (dot3 (V3 0 1 0) (V3 (-1) 0 0) = 0); vu; ring|]. split; [reflexivity|]. unfold mirror_pol. cbn [m_dir o_dir m_pol].
  assert (D : app4 turn90inv (m_dir ex_row) = V4 0 1 0 0) by (unfold turn90inv, ex_row; cbn [m_dir]; vring). rewrite D.
  rewrite (pol_along (V4 0 1 0 0) (m_dir ex_row)); [reflexivity| | | |reflexivity].
  - apply unit3_unit. vu. ring.
  - apply unit3_unit. cbn [ex_row m_dir]. vu. ring.
  - assert (X : norm3 (cross3 (xyz (V4 0 1 0 0)) (xyz (m_dir ex_row))) = 1) by (apply norm3_1; cbn [ex_row m_dir]; vu; ring). rewrite X.
    apply not_true_iff_false. rewrite isclose_true, Rminus_0_r, Rabs_R1, Rabs_R0. lra.
Qed.
Print Assumptions C208_polarization_refuted.
(** For a mirror that is only shifted, directions in local and global coordinates agree and the polarization is that of the transport from the direction of
    the photon. *)
Theorem C208_polarization_partial : forall m minv g t r z, mt_rows t = [r] -> tags_of t = [z] -> b0 minv = V4 1 0 0 0 -> b1 minv = V4 0 1 0 0 -> b2 minv = V4 0 0 1 0 -> w4 (b3 minv) = 1 ->
  proper_row r -> exists left out l o, process_photons_in_c m minv (each g) t = Ok (left, Some out) /\ mt_rows left = [l] /\ out = [o] /\
  mirror_pol l o = parallel_transport (m_dir r) (o_dir o) (m_pol r) None None.
Proof.
  intros m minv g t r z R Z B0 B1 B2 B3 [P1 P2].
  assert (D : app4 minv (m_dir r) = m_dir r).
  { destruct minv as [c0 c1 c2 c3], (m_dir r) as [x y zz w]. cbn in *. subst. unfold app4. cbn [x4 y4 z4 w4 b0 b1 b2 b3]. unfold add4, scale4. cbn [x4 y4 z4 w4]. f_equal; ring. }
  pose proof (process_each m minv g t) as E. rewrite R, Z in E. rewrite E; [|discriminate|reflexivity|].
  - do 4 eexists. split; [reflexivity|]. split; [reflexivity|]. split; [reflexivity|]. unfold mirror_pol, move1. cbn [m_dir m_pol]. now rewrite D.
  - constructor; [|constructor]. unfold proper_row, move1. cbn [m_pos m_dir]. rewrite D. split; [|exact P2].
    destruct minv as [c0 c1 c2 c3], (m_pos r) as [x y zz w]. cbn in *. subst. cbn. rewrite B3. ring.
Qed.
Print Assumptions C208_polarization_partial.
Example C208_ex : mt_rows ex_table <> [] /\ length (tags_of ex_table) = length (mt_rows ex_table) /\
  Forall (fun r => w4 (app4 turn90inv (m_pos r)) = 1 /\ w4 (app4 turn90inv (m_dir r)) = 0) (mt_rows ex_table) /\ proper_row ex_row /\ tags_of ex_table = [0%Z].
Proof. split; [discriminate|]. split; [reflexivity|]. split; [constructor; [split; cbn; ring|constructor]|]. split; [split; reflexivity|reflexivity]. Qed.
(** The aperture part: a table without positions gets the point (0, 0, 0); positions that exist are not changed. *)
Theorem C208_positions : forall n pos, length (add_colpos n None) = n /\ Forall (fun p => p = V4 0 0 0 1) (add_colpos n None) /\ add_colpos n (Some pos) = pos.
Proof. intros n pos. split; [apply repeat_length|]. split; [|reflexivity]. apply Forall_forall. intros x X. now apply repeat_spec in X. Qed.
Print Assumptions C208_positions.
