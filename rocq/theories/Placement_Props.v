(** Properties C12-C16 and C49: placement of elements. *)
From Verif Require Import Base_Proofs Vec_Proofs Rot_Proofs Coords_Proofs Position_Proofs Placement_Model Placement_Proofs.
Open Scope R_scope.
Open Scope string_scope.

(** ** C12 *)
Theorem C12_positions_partial : forall P E args off name, no_position args -> Forall shear_free E ->
  exists es, generate_elements (new_parallel P E args off name) = Ok es /\ length es = length E /\
  forall i ep, nth_error E i = Some ep -> exists e, nth_error es i = Some e /\ e_pos e = Some (mul4 P ep) /\ e_id e = (off + Z.of_nat i)%Z.
Proof. exact new_parallel_positions. Qed.
Print Assumptions C12_positions_partial.
Theorem C12_ids_distinct : forall p es i j a b, generate_elements p = Ok es -> nth_error es i = Some a -> nth_error es j = Some b ->
  e_id a = e_id b -> i = j.
Proof. exact ids_distinct. Qed.
Print Assumptions C12_ids_distinct.
(** With uncertainties: rotations of an element are around its own center, the global uncertainty acts on everything. *)
Theorem C12_uncertainty : forall p i ep eu te re ze ts rs zs, no_position (p_args p) ->
  nth_error (p_elem_pos p) i = Some ep -> nth_error (p_elem_unc p) i = Some eu ->
  decompose44 ep = Some (te, re, ze, zero3) -> decompose44 eu = Some (ts, rs, zs, zero3) ->
  exists rest, generate_element p i = Ok (Elem (Some (mul4 (p_pos4d p) (mul4 (p_unc p)
    (compose (add3 ts te) (mul3 rs re) (mulv zs ze))))) (p_offset p + Z.of_nat i)%Z rest).
Proof. exact element_position. Qed.
Print Assumptions C12_uncertainty.
(** decompose44 itself is right: it returns a rotation and zooms, and with the shear they reproduce the matrix. *)
Theorem C12_decompose44 : forall m t r z s, decompose44 m = Some (t, r, z, s) ->
  t = tra m /\ rotation r /\ (x3 z <> 0 /\ 0 < y3 z /\ 0 < z3 z) /\ lin m = mul3 r (mul3 (diag3 z) (shear3 s)).
Proof. exact decompose44_spec. Qed.
Print Assumptions C12_decompose44.
(** Two elements in a container that is rotated by 90 degrees around z. *)
Definition rotz90 : m4 := M4 (V4 0 1 0 0) (V4 (-1) 0 0 0) (V4 0 0 1 0) (V4 0 0 0 1).
Example C12_example : exists es e, generate_elements (new_parallel rotz90 [id4; translation2aff (V3 1 0 0)] [("id_col", Obj 1)] 7 (fun i => Obj i)) = Ok es /\
  nth_error es 1 = Some e /\ e_id e = 8%Z /\ e_pos e = Some (M4 (V4 0 1 0 0) (V4 (-1) 0 0 0) (V4 0 0 1 0) (V4 0 1 0 1)).
Proof.
  destruct (C12_positions_partial rotz90 [id4; translation2aff (V3 1 0 0)] [("id_col", Obj 1)] 7 (fun i => Obj i)) as (es & G & L & H).
  - unfold no_position. auto.
  - constructor; [apply shear_free_id|]. constructor; [|constructor]. unfold translation2aff.
    assert (E : aff id3 (V3 1 0 0) = compose (V3 1 0 0) id3 ones3) by (unfold compose, diag3, ones3; vring). rewrite E.
    apply shear_free_rot. split; [unfold orthonormal; vu; repeat split; ring|vu; ring].
  - destruct (H 1%nat _ eq_refl) as (e & N & EP & EI). exists es, e. split; [exact G|]. split; [exact N|]. split; [exact EI|].
    rewrite EP. f_equal. unfold translation2aff, rotz90. vu. f_equal; f_equal; ring.
Qed.
(** An element matrix with shear is accepted and the element is put somewhere else without notice. *)
Definition sheared : m4 := M4 (V4 1 0 0 0) (V4 1 1 0 0) (V4 0 0 1 0) (V4 0 0 0 1).
Lemma decompose_sheared : decompose44 sheared = Some (zero3, id3, V3 1 1 1, V3 1 0 0).
Proof.
  assert (N : forall v, dot3 v v = 1 -> norm3 v = 1) by (intros v; apply norm3_1).
  unfold decompose44, sheared. cbv zeta. cbn [b0 b1 b2 b3].
  assert (X : xyz (V4 1 0 0 0) = V3 1 0 0 /\ xyz (V4 1 1 0 0) = V3 1 1 0 /\ xyz (V4 0 0 1 0) = V3 0 0 1 /\ xyz (V4 0 0 0 1) = zero3) by (repeat split).
  destruct X as (-> & -> & -> & ->). rewrite (N (V3 1 0 0)) by (vu; ring).
  rewrite (proj2 (Reqb_false 1 0)) by lra. rewrite Rinv_1, scale3_1.
  assert (E1 : dot3 (V3 1 0 0) (V3 1 1 0) = 1) by (vu; ring). rewrite E1.
  assert (E2 : sub3 (V3 1 1 0) (scale3 1 (V3 1 0 0)) = V3 0 1 0) by vring. rewrite E2, (N (V3 0 1 0)) by (vu; ring).
  rewrite (proj2 (Reqb_false 1 0)) by lra. rewrite Rinv_1, scale3_1.
  assert (E3 : dot3 (V3 1 0 0) (V3 0 0 1) = 0) by (vu; ring). rewrite E3.
  assert (E4 : dot3 (V3 0 1 0) (V3 0 0 1) = 0) by (vu; ring). rewrite E4.
  assert (E5 : sub3 (V3 0 0 1) (add3 (scale3 0 (V3 1 0 0)) (scale3 0 (V3 0 1 0))) = V3 0 0 1) by vring. rewrite E5, (N (V3 0 0 1)) by (vu; ring).
  rewrite (proj2 (Reqb_false 1 0)) by lra. rewrite Rinv_1, scale3_1.
  rewrite (proj2 (Rltb_false _ _)) by (vu; lra). replace (1 / 1) with 1 by field. replace (0 / 1) with 0 by field. reflexivity.
Qed.
Theorem C12_shear_refuted : exists es e, generate_elements (new_parallel id4 [sheared] [] 0 (fun i => Obj i)) = Ok es /\
  nth_error es 0 = Some e /\ det4 sheared <> 0 /\ e_pos e <> Some (mul4 id4 sheared).
Proof.
  assert (NP : no_position (specific_args (new_parallel id4 [sheared] [] 0 (fun i => Obj i)) 0)) by (apply no_position_specific; unfold no_position; auto).
  destruct (parse_none _ NP) as [rest R].
  unfold generate_elements. cbn [new_parallel p_elem_pos map length seq collect].
  unfold generate_element. rewrite R. cbn [bind]. rewrite decompose44_id, noshear0. cbn [negb nth_error new_parallel p_elem_pos p_elem_unc repeat length].
  rewrite decompose_sheared, decompose44_id, noshear0. cbn [negb bind collect]. do 2 eexists. split; [reflexivity|]. split; [reflexivity|].
  split; [unfold sheared; vu; lra|]. cbn [e_pos p_pos4d p_unc]. rewrite product_parts, !mul4_id_l. intros H.
  apply (f_equal (fun m => match m with Some m => x4 (b1 m) | None => 0 end)) in H. unfold compose, diag3, mulv, sheared in H. vu. lra.
Qed.
Print Assumptions C12_shear_refuted.

(** ** C13 *)
Theorem C13_not_cumulative : forall s ops1 ops2 s1 s2, consistent s -> tol_run s ops1 = Ok s1 -> tol_run s ops2 = Ok s2 ->
  last_global ops1 (p_unc (ps_par s)) = last_global ops2 (p_unc (ps_par s)) ->
  last_individual (length (p_elem_pos (ps_par s))) ops1 (p_elem_unc (ps_par s)) =
  last_individual (length (p_elem_pos (ps_par s))) ops2 (p_elem_unc (ps_par s)) -> ps_elems s1 = ps_elems s2.
Proof. exact tol_run_last. Qed.
Print Assumptions C13_not_cumulative.
(** The elements always correspond to the settings of the container. *)
Theorem C13_elements_follow : forall s ops s', consistent s -> tol_run s ops = Ok s' ->
  generate_elements (Par (p_pos4d (ps_par s)) (last_global ops (p_unc (ps_par s))) (p_elem_pos (ps_par s))
    (last_individual (length (p_elem_pos (ps_par s))) ops (p_elem_unc (ps_par s))) (p_args (ps_par s)) (p_offset (ps_par s)) (p_name (ps_par s)))
  = Ok (ps_elems s').
Proof.
  intros s ops s' C H. destruct (tol_run_state _ _ _ C H) as (C' & (S1 & S2 & S3 & S4 & S5) & G & I).
  rewrite S1, S3, S4, S5, <- G, <- I, S2. destruct (ps_par s') eqn:E. cbn. unfold consistent in C'. now rewrite E in C'.
Qed.
Print Assumptions C13_elements_follow.
(** Setting the moves back to zero restores the elements exactly, after any history. *)
Theorem C13_reset : forall P E args off name es ops s', let s := PState (new_parallel P E args off name) es in
  generate_elements (new_parallel P E args off name) = Ok es ->
  tol_run s (ops ++ [MoveGlobal zero3 zero3; MoveIndividual zero3 zero3])%list = Ok s' -> ps_elems s' = es.
Proof.
  intros P E args off name es ops s' s G H.
  assert (C : consistent s) by exact G. apply (tol_run_last s _ [] s' s C H eq_refl).
  - rewrite last_global_app. cbn. apply move6_0.
  - rewrite last_individual_app. cbn. now rewrite move6_0.
Qed.
Print Assumptions C13_reset.
(** A wiggle with zero width (all draws are zero) is a reset, too. *)
Theorem C13_reset_wiggle : forall P E args off name es ops s', let s := PState (new_parallel P E args off name) es in
  generate_elements (new_parallel P E args off name) = Ok es ->
  tol_run s (ops ++ [Wiggle (fun _ => (zero3, zero3)); MoveGlobal zero3 zero3])%list = Ok s' -> ps_elems s' = es.
Proof.
  intros P E args off name es ops s' s G H.
  assert (C : consistent s) by exact G. apply (tol_run_last s _ [] s' s C H eq_refl).
  - rewrite last_global_app. cbn. apply move6_0.
  - rewrite last_individual_app. cbn. rewrite move6_0. generalize (length E) 0%nat. clear.
    induction n as [|n IH]; intros k; cbn; [reflexivity|]. now rewrite IH.
Qed.
Print Assumptions C13_reset_wiggle.
(** No move raises an exception once the container could be built. *)
Theorem C13_total : forall P E args off name es ops, generate_elements (new_parallel P E args off name) = Ok es ->
  exists s', tol_run (PState (new_parallel P E args off name) es) ops = Ok s'.
Proof. intros P E args off name es ops G. apply tol_run_total; [exact G|apply new_parallel_unc_ok]. Qed.
Print Assumptions C13_total.
(** A container with one element; after two global moves it is where the second one puts it. *)
Example C13_example : exists es s', generate_elements (new_parallel id4 [id4] [] 0 (fun i => Obj i)) = Ok es /\
  tol_run (PState (new_parallel id4 [id4] [] 0 (fun i => Obj i)) es) [MoveGlobal (V3 1 0 0) zero3; MoveGlobal (V3 0 2 0) zero3] = Ok s' /\
  exists e, nth_error (ps_elems s') 0 = Some e /\ e_pos e = Some (translation2aff (V3 0 2 0)).
Proof.
  destruct (new_parallel_positions id4 [id4] [] 0 (fun i => Obj i)) as (es & G & _); [unfold no_position; auto|auto using shear_free_id|].
  destruct (C13_total id4 [id4] [] 0%Z (fun i => Obj i) es [MoveGlobal (V3 1 0 0) zero3; MoveGlobal (V3 0 2 0) zero3] G) as [s' R].
  exists es, s'. split; [exact G|]. split; [exact R|].
  pose proof (C13_elements_follow (PState (new_parallel id4 [id4] [] 0 (fun i => Obj i)) es) _ s' G R) as F. cbn in F.
  set (p := Par _ _ _ _ _ _ _) in F.
  destruct (plain_position p 0 id4) as [rest X]; [unfold no_position; auto|reflexivity|reflexivity|apply shear_free_id|].
  rewrite X in F. cbn [bind] in F. injection F as F. rewrite <- F. eexists. split; [reflexivity|]. cbn [e_pos p p_pos4d p_unc].
  rewrite mul4_id_l, mul4_id_r. unfold move6. rewrite euler_0. unfold compose, ones3, diag3, translation2aff. f_equal. vring.
Qed.

(** ** C14 *)
(** The elements stay where they are if and only if the change commutes with the position of the container. *)
Theorem C14_iff_partial : forall C Ci P E Ei, mul4 C Ci = id4 -> mul4 Ci C = id4 -> mul4 E Ei = id4 ->
  let p := new_parallel P [E] [] 0 (fun i => Obj i) in
  shear_free E -> shear_free (mul4 Ci E) ->
  exists e, generate_element p 0 = Ok e /\ exists e', generate_element (move_center C Ci p) 0 = Ok e' /\
  (e_pos e' = e_pos e <-> mul4 C P = mul4 P C).
Proof.
  intros C Ci P E Ei H1 H2 HE p S S'.
  destruct (plain_position p 0 E) as [r G]; [unfold no_position; auto|reflexivity|reflexivity|exact S|].
  destruct (plain_position (move_center C Ci p) 0 (mul4 Ci E)) as [r' G']; [unfold no_position; auto|reflexivity|reflexivity|exact S'|].
  eexists. split; [exact G|]. eexists. split; [exact G'|]. cbn [e_pos p move_center p_pos4d p_unc new_parallel]. rewrite !mul4_id_l.
  rewrite <- (move_center_iff C Ci P E Ei H1 H2 HE). split; [|now intros ->]. assert (Q : forall a b : m4, Some a = Some b -> a = b) by congruence. apply Q.
Qed.
Print Assumptions C14_iff_partial.
(** For a container without rotation and zoom, moving the center to another point is fine. *)
Theorem C14_translations_partial : forall t u p i e e', let C := translation2aff t in let Ci := translation2aff (neg3 t) in
  p_pos4d p = translation2aff u -> p_unc p = id4 -> no_position (p_args p) -> Forall shear_free (p_elem_pos p) ->
  p_elem_unc p = repeat id4 (length (p_elem_pos p)) -> generate_element p i = Ok e ->
  generate_element (move_center C Ci p) i = Ok e' -> e_pos e' = e_pos e.
Proof.
  intros t u p i e e' C Ci HP HU NP SF HUN G G'.
  destruct (nth_error (p_elem_pos p) i) as [ep|] eqn:Ei.
  - assert (S : shear_free ep) by (rewrite Forall_forall in SF; apply SF; now apply nth_error_In in Ei).
    assert (N : nth_error (p_elem_unc p) i = Some id4) by (rewrite HUN; apply nth_error_repeat; now apply nth_error_lt in Ei).
    assert (S' : shear_free (mul4 Ci ep)).
    { destruct S as (A & X). rewrite (affine_aff ep A) in X |- *. unfold Ci, translation2aff. rewrite aff_mul, mul3_id_l.
      unfold shear_free. split; [apply aff_affine|exact X]. }
    destruct (plain_position p i ep NP Ei N S) as [r Gp].
    destruct (plain_position (move_center C Ci p) i (mul4 Ci ep)) as [r' Gp']; [exact NP| |exact N|exact S'|].
    { cbn. now rewrite nth_error_map, Ei. }
    rewrite G in Gp. injection Gp as ->. rewrite G' in Gp'. injection Gp' as ->. cbn [e_pos move_center p_pos4d p_unc].
    rewrite HP, HU, !mul4_id_l. unfold C, Ci. rewrite <- mul4_assoc, trans_mul, trans_mul. do 3 f_equal. vring.
  - unfold generate_element in G, G'. cbn [move_center p_elem_pos] in G'. rewrite nth_error_map, Ei in G'. rewrite Ei in G.
    destruct (parse_none _ (no_position_specific p i NP)) as [r1 R1].
    rewrite R1 in G. cbn [bind] in G. rewrite decompose44_id, noshear0 in G. discriminate.
Qed.
Print Assumptions C14_translations_partial.
Example C14_example : exists e e', let p := new_parallel (translation2aff (V3 0 7 0)) [id4] [] 0 (fun i => Obj i) in
  generate_element p 0 = Ok e /\ generate_element (move_center (translation2aff (V3 1 2 3)) (translation2aff (neg3 (V3 1 2 3))) p) 0 = Ok e' /\ e_pos e' = e_pos e /\
  mul4 (translation2aff (V3 1 2 3)) (translation2aff (V3 0 7 0)) = mul4 (translation2aff (V3 0 7 0)) (translation2aff (V3 1 2 3)).
Proof.
  set (C := translation2aff (V3 1 2 3)). set (Ci := translation2aff (neg3 (V3 1 2 3))). set (P := translation2aff (V3 0 7 0)).
  assert (H1 : mul4 C Ci = id4) by (unfold C, Ci; rewrite trans_mul; unfold translation2aff; vring).
  assert (H2 : mul4 Ci C = id4) by (unfold C, Ci; rewrite trans_mul; unfold translation2aff; vring).
  assert (S : shear_free Ci) by (unfold Ci, translation2aff; unfold shear_free; split; [apply aff_affine|]; apply shear_free_id).
  assert (K : mul4 C P = mul4 P C) by (unfold C, P; rewrite !trans_mul; f_equal; vring).
  destruct (C14_iff_partial C Ci P id4 id4 H1 H2 (mul4_id_l _) shear_free_id) as (e & G & e' & G' & I); [rewrite mul4_id_r; exact S|].
  exists e, e'. cbv zeta. split; [exact G|]. split; [exact G'|]. split; [now apply I|exact K].
Qed.
(** In a rotated container the elements move. *)
Theorem C14_refuted : exists C Ci P E e e', mul4 C Ci = id4 /\ mul4 Ci C = id4 /\
  let p := new_parallel P [E] [] 0 (fun i => Obj i) in
  generate_element p 0 = Ok e /\ generate_element (move_center C Ci p) 0 = Ok e' /\ e_pos e' <> e_pos e.
Proof.
  pose (C := translation2aff (V3 1 0 0)). pose (Ci := translation2aff (V3 (-1) 0 0)).
  assert (H1 : mul4 C Ci = id4) by (unfold C, Ci; rewrite trans_mul; unfold translation2aff; vring).
  assert (H2 : mul4 Ci C = id4) by (unfold C, Ci; rewrite trans_mul; unfold translation2aff; vring).
  assert (S : shear_free Ci).
  { unfold Ci, translation2aff. unfold shear_free. split; [apply aff_affine|]. apply shear_free_id. }
  destruct (C14_iff_partial C Ci rotz90 id4 id4 H1 H2 (mul4_id_l _) shear_free_id) as (e & G & e' & G' & I).
  { rewrite mul4_id_r. exact S. }
  exists C, Ci, rotz90, id4, e, e'. split; [exact H1|]. split; [exact H2|]. split; [exact G|]. split; [exact G'|].
  intros X. apply I in X. apply (f_equal (fun m => x4 (b3 m))) in X. unfold C, translation2aff, rotz90 in X. vu. lra.
Qed.
Print Assumptions C14_refuted.

(** ** C15 *)
Theorem C15_distributed : forall p es i e k v, generate_elements p = Ok es -> nth_error es i = Some e ->
  k <> "pos4d" -> k <> "position" -> k <> "orientation" -> k <> "zoom" -> dget k (p_args p) = Some v ->
  dget k (e_args e) = Some (match v with
                            | Lst l => if Nat.eqb (length l) (length (p_elem_pos p)) then nth i l (Obj 0) else v
                            | _ => v
                            end).
Proof.
  intros p es i e k v G E N1 N2 N3 N4 D. destruct (generate_nth _ _ G) as [_ N]. destruct (generate_args _ _ _ (N _ _ E)) as [m PP].
  rewrite (parse_rest _ _ _ k PP N1 N2 N3 N4). destruct (String.string_dec k "name") as [->|NN].
  - now rewrite dget_name, D.
  - now rewrite dget_specific, D.
Qed.
Print Assumptions C15_distributed.
(** Elements without a name get one with their number; no other keyword is invented. *)
Theorem C15_name : forall p es i e, generate_elements p = Ok es -> nth_error es i = Some e -> dget "name" (p_args p) = None ->
  dget "name" (e_args e) = Some (p_name p i).
Proof.
  intros p es i e G E D. destruct (generate_nth _ _ G) as [_ N]. destruct (generate_args _ _ _ (N _ _ E)) as [m PP].
  rewrite (parse_rest _ _ _ "name" PP) by discriminate. now rewrite dget_name, D.
Qed.
Print Assumptions C15_name.
Theorem C15_nothing_else : forall p es i e k, generate_elements p = Ok es -> nth_error es i = Some e -> k <> "name" ->
  k <> "pos4d" -> k <> "position" -> k <> "orientation" -> k <> "zoom" -> dget k (p_args p) = None -> dget k (e_args e) = None.
Proof.
  intros p es i e k G E NN N1 N2 N3 N4 D. destruct (generate_nth _ _ G) as [_ N]. destruct (generate_args _ _ _ (N _ _ E)) as [m PP].
  rewrite (parse_rest _ _ _ k PP N1 N2 N3 N4). now rewrite dget_specific, D.
Qed.
Print Assumptions C15_nothing_else.
(** Two gratings with different periods [d] and the same order selector. *)
Example C15_example : exists es e, generate_elements (new_parallel id4 [id4; id4] [("d", Lst [Num 3; Num 5]); ("order_selector", Obj 4)] 0 (fun i => Obj i)) = Ok es /\
  nth_error es 1 = Some e /\ dget "d" (e_args e) = Some (Num 5) /\ dget "order_selector" (e_args e) = Some (Obj 4).
Proof.
  destruct (new_parallel_positions id4 [id4; id4] [("d", Lst [Num 3; Num 5]); ("order_selector", Obj 4)] 0 (fun i => Obj i)) as (es & G & L & H);
    [unfold no_position; auto|auto using shear_free_id|].
  destruct (H 1%nat id4 eq_refl) as (e & N & _). exists es, e. split; [exact G|]. split; [exact N|]. split.
  - rewrite (C15_distributed _ _ _ _ "d" (Lst [Num 3; Num 5]) G N) by (discriminate || reflexivity). reflexivity.
  - rewrite (C15_distributed _ _ _ _ "order_selector" (Obj 4) G N) by (discriminate || reflexivity). reflexivity.
Qed.

(** ** C16 *)
Theorem C16_direction : forall s l, w4 s = 0 -> get_spec s l = Ok (map (fun _ => s) l).
Proof. exact get_spec_dir. Qed.
Print Assumptions C16_direction.
(** For a point the computed vector is the one from the point to the element, the opposite of what is asked for. *)
Theorem C16_vector_partial : forall s l, w4 s = 1 -> (forall v, In v l -> w4 v = 1) ->
  get_spec s l = Ok (map (fun v => hom (neg3 (sub3 (xyz s) (xyz v))) 1) l).
Proof.
  intros s l Hs HL. rewrite get_spec_point by assumption. f_equal. apply map_ext. intros v. f_equal. vring.
Qed.
Print Assumptions C16_vector_partial.
(** Every element faces away from the point. *)
Theorem C16_facing_refuted : forall s d l es i m, w4 s = 1 -> w4 d = 0 -> (forall v, In v l -> w4 v = 1) ->
  calculate_elempos s d l = Ok es -> nth_error es i = Some (Some m) ->
  dot3 (xyz (b0 m)) (sub3 (xyz s) (tra m)) = - norm3 (sub3 (xyz s) (tra m)) /\ 0 < norm3 (sub3 (xyz s) (tra m)).
Proof.
  intros s d l es i m Hs Hd HL H N. destruct (elempos_normal s d l es i m Hs Hd HL H N) as (v & _ & B & _ & _ & U).
  unfold tra. rewrite B. now apply away_dot.
Qed.
Print Assumptions C16_facing_refuted.
(** Centers are right, the orientation is a rotation and the normal is on the line through the point. *)
Theorem C16_line_partial : forall s d l es i m, w4 s = 1 -> w4 d = 0 -> (forall v, In v l -> w4 v = 1) ->
  calculate_elempos s d l = Ok es -> nth_error es i = Some (Some m) ->
  exists v, nth_error l i = Some v /\ b3 m = v /\ xyz v <> xyz s /\ rotation (lin m) /\
    unit3 (sub3 (xyz v) (xyz s)) = Some (xyz (b0 m)).
Proof. exact elempos_normal. Qed.
Print Assumptions C16_line_partial.
Example C16_example : calculate_elempos (V4 0 0 0 1) (V4 0 1 0 0) [V4 2 0 0 1] = Ok [Some (translation2aff (V3 2 0 0))].
Proof.
  unfold calculate_elempos. rewrite get_spec_point; [|reflexivity|intros v [<-|[]]; reflexivity]. rewrite get_spec_dir by reflexivity.
  cbn [bind map combine collect fst snd]. unfold elempos1. rewrite !h2e1_w1 by reflexivity. rewrite h2e1_w0 by reflexivity. cbn [bind].
  assert (E : ex2vec_fix (xyz (hom (sub3 (xyz (V4 2 0 0 1)) (xyz (V4 0 0 0 1))) 1)) (xyz (V4 0 1 0 0)) = Ok (Some id3)).
  { rewrite xyz_hom. assert (X : sub3 (xyz (V4 2 0 0 1)) (xyz (V4 0 0 0 1)) = V3 2 0 0) by vring. rewrite X.
    change (xyz (V4 0 1 0 0)) with (V3 0 1 0). unfold ex2vec_fix. assert (N2 : norm3 (V3 2 0 0) = 2).
    { unfold norm3. replace (dot3 (V3 2 0 0) (V3 2 0 0)) with (2 * 2) by (vu; ring). apply sqrt_square. lra. }
    rewrite unit3_some by (intros Y; apply (f_equal x3) in Y; cbn in Y; lra). rewrite N2.
    assert (Y : scale3 (/ 2) (V3 2 0 0) = V3 1 0 0) by (apply v3_eq; cbn; lra). rewrite Y.
    rewrite (unit3_unit (V3 0 1 0)) by (vu; ring).
    assert (I01 : isclose 1 0 = false).
    { unfold isclose. destruct (Rle_dec _ _) as [Q|]; [|reflexivity]. rewrite Rabs_R0 in Q. replace (1 - 0) with 1 in Q by ring. rewrite Rabs_R1 in Q. lra. }
    assert (I02 : isclose 1 (-0) = false) by (rewrite Ropp_0; exact I01).
    unfold allclose3, neg3. cbn [x3 y3 z3]. rewrite I01, I02. cbn [andb orb].
    assert (D : sub3 (V3 0 1 0) (scale3 (dot3 (V3 0 1 0) (V3 1 0 0)) (V3 1 0 0)) = V3 0 1 0) by vring. rewrite D.
    rewrite (unit3_unit (V3 0 1 0)) by (vu; ring). do 3 f_equal. vring. }
  rewrite E. cbn [bind].
  assert (Q : compose (xyz (V4 2 0 0 1)) id3 ones3 = translation2aff (V3 2 0 0)) by (unfold compose, translation2aff, diag3, ones3; vring).
  rewrite ?h2e1_w1 by reflexivity. cbv beta iota delta [bind]. now rewrite Q.
Qed.

(** ** C49 *)
Theorem C49_last_move : forall g l t a, g_orig g = None ->
  g_pos4d (fold_left moveelem (l ++ [(t, a)])%list g) = mul4 (move6 t a) (g_pos4d g).
Proof. exact moveelem_history. Qed.
Print Assumptions C49_last_move.
Theorem C49_reset : forall g l, g_orig g = None -> g_pos4d (fold_left moveelem (l ++ [(zero3, zero3)])%list g) = g_pos4d g.
Proof. intros g l N. rewrite moveelem_history by exact N. rewrite move6_0. apply mul4_id_l. Qed.
Print Assumptions C49_reset.
(** The move is a rigid motion: turns around the fixed x, y and z axes (in this order) followed by a shift. *)
Theorem C49_rigid : forall t a, exists r, rotation r /\ move6 t a = aff r t /\
  forall v, app3 r v = rodrigues (V3 0 0 1) (z3 a) (rodrigues (V3 0 1 0) (y3 a) (rodrigues (V3 1 0 0) (x3 a) v)).
Proof.
  intros t a. exists (euler2mat a). split; [apply euler_rotation|]. split.
  - unfold move6, compose. f_equal. unfold diag3, ones3. generalize (euler2mat a). vring.
  - intros v. unfold euler2mat. now rewrite !app3_mul, !axangle_rodrigues.
Qed.
Print Assumptions C49_rigid.
Example C49_example : g_pos4d (fold_left moveelem [(V3 1 2 3, V3 0 1 0); (V3 5 0 0, zero3)] (Geom (translation2aff (V3 1 1 1)) None)) = translation2aff (V3 6 1 1).
Proof.
  etransitivity; [apply (C49_last_move (Geom (translation2aff (V3 1 1 1)) None) [(V3 1 2 3, V3 0 1 0)]); reflexivity|]. cbn [g_pos4d].
  unfold move6. rewrite euler_0. unfold compose, translation2aff, diag3, ones3. vu. f_equal; f_equal; ring.
Qed.
