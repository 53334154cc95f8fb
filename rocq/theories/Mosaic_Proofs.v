(** Lemmas on elements side by side *)
From Verif Require Import Base_Proofs Vec_Proofs Coords_Proofs Plane_Proofs Instrument_Proofs Instrument_Proofs2 Layers_Proofs Chain_Proofs.
From Verif Require Export Mosaic_Model.
Open Scope R_scope.
Open Scope list_scope.

(** ** one element *)
Lemma tile_draws p m ph : layer_of m p -> draws_for p ph = is_some (meets m ph).
Proof. intros [G N]. destruct p as [m0 off f refl rn|m0 f|c tr m0 g per|m0 ip pp|m0 on|m0 f|m0 minv|m0|m0|f|dist|m0 minv la lb]; cbn [geometry] in G; try discriminate; try (injection G as <-; reflexivity). now destruct (N m0). Qed.
Lemma tile_one p m dr ph : layer_of m p -> one p dr ph = match meets m ph with None => Ok ph | Some (d, q, loc) => bind (effect p dr ph d q loc) (fun o =>
    if bad_factor (snd o) then Err ValueError else Ok (LPhoton (fst (fst o)) (Some q) (snd (fst o)) (l_energy ph) (times (l_prob ph) (snd o)))) end.
Proof. intros [G N]. destruct p as [m0 off f refl rn|m0 f|c tr m0 g per|m0 ip pp|m0 on|m0 f|m0 minv|m0|m0|f|dist|m0 minv la lb]; cbn [geometry] in G; try discriminate; try (injection G as <-; reflexivity). now destruct (N m0). Qed.
Lemma tile_miss p dr ph : tile p -> draws_for p ph = false -> one p dr ph = Ok ph.
Proof. intros (m & L & _) D. rewrite (tile_draws p m ph L) in D. rewrite (tile_one p m dr ph L). destruct (meets m ph); [discriminate|reflexivity]. Qed.
Lemma tile_hit p m dr ph ph' d q loc : layer_of m p -> meets m ph = Some (d, q, loc) -> one p dr ph = Ok ph' -> l_pos ph' = Some q.
Proof.
  intros L M H. rewrite (tile_one p m dr ph L), M in H. destruct (effect p dr ph d q loc) as [o|]; [|discriminate]. cbn [bind] in H. destruct (bad_factor (snd o)); [discriminate|].
  apply (f_equal (fun r => match r with Ok a => l_pos a | Err _ => None end)) in H. cbn in H. now rewrite <- H.
Qed.
(** ** two elements *)
Lemma apart_sym m m' : apart m m' -> apart m' m.
Proof. intros [A B]. split; [intros q; now rewrite (A q)|]. intros q a b a' b' H K. exact (B q a' b' a b K H). Qed.
Lemma beside_sym p p' : beside p p' -> beside p' p.
Proof. intros H m m' G G'. apply apart_sym. exact (H m' m G' G). Qed.
Lemma one_point m q k d : dot3 d (xyz (v_x m)) <> 0 -> dot3 (sub3 q (xyz (center m))) (xyz (v_x m)) = 0 -> dot3 (sub3 (add3 q (scale3 k d)) (xyz (center m))) (xyz (v_x m)) = 0 -> k = 0.
Proof.
  intros D A B. assert (E : dot3 (sub3 (add3 q (scale3 k d)) (xyz (center m))) (xyz (v_x m)) = dot3 (sub3 q (xyz (center m))) (xyz (v_x m)) + k * dot3 d (xyz (v_x m))) by (generalize (xyz (center m)) (xyz (v_x m)); clear; vring).
  rewrite E, A, Rplus_0_l in B. apply Rmult_integral in B. tauto.
Qed.
Lemma apart_before m m' ph d q loc : perpendicular_axes m -> perpendicular_axes m' -> apart m m' -> meets m ph = Some (d, q, loc) -> meets m' ph = None.
Proof.
  intros P P' [A B] M. destruct (meets m' ph) as [[[d' q'] loc']|] eqn:M'; [exfalso|reflexivity]. apply (meets_iff m) in M; [|exact P]. apply (meets_iff m') in M'; [|exact P'].
  destruct M as (D & N & x & k & a & b & X & K & Q & I & _). destruct M' as (D' & N' & x' & k' & a' & b' & X' & K' & Q' & I' & _).
  rewrite D in D'. assert (d = d') as <- by congruence. rewrite X in X'. assert (x = x') as <- by congruence.
  assert (PL : dot3 (sub3 q (xyz (center m'))) (xyz (v_x m')) = 0) by (apply A; exact (rect_plane m a b q P I)). pose proof (rect_plane m' a' b' q' P' I') as PL'.
  assert (E : q' = add3 q (scale3 (k' - k) d)) by (rewrite Q, Q'; generalize x d; clear; vring). rewrite E in PL'. pose proof (one_point m' q (k' - k) d N' PL PL') as Z.
  apply (B q a b a' b' I). rewrite E, Z in I'. replace (add3 q (scale3 0 d)) with q in I' by (generalize q d; clear; vring). exact I'.
Qed.
Lemma apart_after m m' ph' q a b : perpendicular_axes m -> perpendicular_axes m' -> apart m m' -> in_rectangle m a b q -> l_pos ph' = Some q -> meets m' ph' = None.
Proof.
  intros P P' [A B] I X. destruct (meets m' ph') as [[[d' q'] loc']|] eqn:M'; [exfalso|reflexivity]. apply (meets_iff m') in M'; [|exact P'].
  destruct M' as (D' & N' & x' & k' & a' & b' & X' & K' & Q' & I' & _). rewrite X in X'. assert (q = x') as <- by congruence.
  assert (PL : dot3 (sub3 q (xyz (center m'))) (xyz (v_x m')) = 0) by (apply A; exact (rect_plane m a b q P I)). pose proof (rect_plane m' a' b' q' P' I') as PL'.
  rewrite Q' in PL'. pose proof (one_point m' q k' d' N' PL PL') as Z. apply (B q a b a' b' I). rewrite Q', Z in I'. replace (add3 q (scale3 0 d')) with q in I' by (generalize q d'; clear; vring). exact I'.
Qed.
Lemma beside_before p p' ph : tile p -> tile p' -> beside p p' -> draws_for p ph = true -> draws_for p' ph = false.
Proof.
  intros (m & L & P) (m' & L' & P') B D. rewrite (tile_draws p m ph L) in D. rewrite (tile_draws p' m' ph L'). destruct (meets m ph) as [[[d q] loc]|] eqn:M; [|discriminate].
  now rewrite (apart_before m m' ph d q loc P P' (B m m' (proj1 L) (proj1 L')) M).
Qed.
Lemma beside_after p p' dr ph ph' : tile p -> tile p' -> beside p p' -> draws_for p ph = true -> one p dr ph = Ok ph' -> draws_for p' ph' = false.
Proof.
  intros (m & L & P) (m' & L' & P') B D O. rewrite (tile_draws p m ph L) in D. rewrite (tile_draws p' m' ph' L'). destruct (meets m ph) as [[[d q] loc]|] eqn:M; [|discriminate].
  pose proof (tile_hit p m dr ph ph' d q loc L M O) as X. apply (meets_iff m) in M; [|exact P]. destruct M as (_ & _ & x & k & a & b & _ & _ & _ & I & _).
  now rewrite (apart_after m m' ph' q a b P P' (B m m' (proj1 L) (proj1 L')) I X).
Qed.
Lemma beside_draws p p' dr ph ph' : tile p -> tile p' -> beside p p' -> one p dr ph = Ok ph' -> draws_for p' ph' = draws_for p' ph.
Proof.
  intros T T' B O. destruct (draws_for p ph) eqn:D; [now rewrite (beside_before p p' ph T T' B D), (beside_after p p' dr ph ph' T T' B D O)|].
  rewrite (tile_miss p dr ph T D) in O. assert (ph = ph') as <- by congruence. reflexivity.
Qed.
(** ** one photon and many elements *)
Lemma mosaic_miss l : forall ph n, Forall tile (map (fun x => snd (fst x)) l) -> Forall (fun x => draws_for (snd (fst x)) ph = false) l -> mosaic l (ph, n) = Ok (ph, n).
Proof.
  induction l as [|[[i p] dr] l IH]; intros ph n T F; [reflexivity|]. cbn [map fst snd] in T. inversion T as [|? ? T1 T2]; subst. inversion F as [|? ? F1 F2]; subst. cbn [fst snd] in F1.
  cbn [mosaic fst snd]. rewrite (tile_miss p dr ph T1 F1). cbn [bind]. rewrite F1. now apply IH.
Qed.
Lemma mosaic_one l ph n : side_by_side (map (fun x => snd (fst x)) l) ->
  (Forall (fun x => draws_for (snd (fst x)) ph = false) l /\ mosaic l (ph, n) = Ok (ph, n)) \/
  (exists l1 i p dr l2, l = l1 ++ (i, p, dr) :: l2 /\ draws_for p ph = true /\ Forall (fun x => draws_for (snd (fst x)) ph = false) (l1 ++ l2) /\
     mosaic l (ph, n) = bind (one p dr ph) (fun ph' => Ok (ph', i))).
Proof.
  revert ph n. induction l as [|[[i p] dr] l IH]; intros ph n [T O]; [left; now split|]. cbn [map fst snd] in T, O. inversion T as [|? ? T1 T2]; subst. inversion O as [|? ? O1 O2]; subst.
  destruct (draws_for p ph) eqn:D.
  - right. exists [], i, p, dr, l. split; [reflexivity|]. split; [exact D|]. split.
    + cbn [app]. rewrite Forall_forall. intros x X. apply (beside_before p); [exact T1| | |exact D].
      * rewrite Forall_forall in T2. apply T2. now apply (in_map (fun x => snd (fst x))).
      * rewrite Forall_forall in O1. apply O1. now apply (in_map (fun x => snd (fst x))).
    + cbn [mosaic fst snd]. destruct (one p dr ph) as [ph'|e] eqn:E; [|reflexivity]. cbn [bind]. rewrite D. apply mosaic_miss; [exact T2|]. rewrite Forall_forall. intros x X. apply (beside_after p _ dr ph); [exact T1| | |exact D|exact E].
      * rewrite Forall_forall in T2. apply T2. now apply (in_map (fun x => snd (fst x))).
      * rewrite Forall_forall in O1. apply O1. now apply (in_map (fun x => snd (fst x))).
  - cbn [mosaic fst snd]. rewrite (tile_miss p dr ph T1 D). cbn [bind]. rewrite D. destruct (IH ph n (conj T2 O2)) as [[F E]|(l1 & j & p' & dr' & l2 & -> & D' & F & E)].
    + left. split; [now constructor|exact E].
    + right. exists ((i, p, dr) :: l1), j, p', dr', l2. split; [reflexivity|]. split; [exact D'|]. split; [cbn [app]; now constructor|exact E].
Qed.
Lemma pairs_perm {A} (R : A -> A -> Prop) l l' : (forall a b, R a b -> R b a) -> Permutation l l' -> ForallOrdPairs R l -> ForallOrdPairs R l'.
Proof.
  intros S P. induction P as [|x l l' P IH|x y l|l l' l'' P IH P' IH']; intros F; [exact F| | |auto].
  - inversion F as [|? ? F1 F2]; subst. constructor; [|now apply IH]. rewrite Forall_forall in *. intros z Z. apply F1. now apply (Permutation_in z (Permutation_sym P)).
  - inversion F as [|? ? F1 F2]; subst. inversion F2 as [|? ? F3 F4]; subst. inversion F1 as [|? ? F5 F6]; subst. constructor; [constructor; [now apply S|exact F3]|]. now constructor.
Qed.
Lemma side_by_side_perm l l' : Permutation l l' -> side_by_side l -> side_by_side l'.
Proof. intros P [T O]. split; [|now apply (pairs_perm beside l l' beside_sym P)]. rewrite Forall_forall in *. intros x X. apply T. now apply (Permutation_in x (Permutation_sym P)). Qed.
Lemma mosaic_perm l l' st : side_by_side (map (fun x => snd (fst x)) l) -> Permutation l l' -> mosaic l st = mosaic l' st.
Proof.
  intros S P. revert S st. induction P as [|x l l' P IH|x y l|l l' l'' P IH P' IH']; intros S st.
  - reflexivity.
  - destruct x as [[i p] dr]. cbn [mosaic]. destruct (one p dr (fst st)) as [ph|e]; [|reflexivity]. cbn [bind]. apply IH. destruct S as [T O]. cbn [map fst snd] in T, O. inversion T; inversion O; now split.
  - destruct st as [ph n]. assert (G : mosaic [y; x] (ph, n) = mosaic [x; y] (ph, n)).
    { assert (S2 : side_by_side (map (fun x => snd (fst x)) [y; x])).
      { destruct S as [T O]. cbn [map] in *. inversion T as [|? ? T1 T2]; subst. inversion T2 as [|? ? T3 T4]; subst. inversion O as [|? ? O1 O2]; subst. inversion O1 as [|? ? O3 O4]; subst. split; [apply Forall_cons; [exact T1|apply Forall_cons; [exact T3|apply Forall_nil]]|]. apply FOP_cons; [apply Forall_cons; [exact O3|apply Forall_nil]|]. apply FOP_cons; [apply Forall_nil|apply FOP_nil]. }
      destruct x as [[i p] dr], y as [[i' p'] dr']. destruct S2 as [T O]. cbn [map fst snd] in T, O. inversion T as [|? ? T1 T2]; subst. inversion T2 as [|? ? T3 T4]; subst. inversion O as [|? ? O1 O2]; subst. inversion O1 as [|? ? O3 O4]; subst.
      cbn [mosaic fst snd]. destruct (draws_for p' ph) eqn:D'.
      - pose proof (beside_before p' p ph T1 T3 O3 D') as D. rewrite (tile_miss p dr ph T3 D). cbn [bind]. rewrite D, D'. destruct (one p' dr' ph) as [ph'|e] eqn:E; [|reflexivity]. cbn [bind].
        pose proof (beside_after p' p dr' ph ph' T1 T3 O3 D' E) as D2. now rewrite (tile_miss p dr ph' T3 D2), D2.
      - rewrite (tile_miss p' dr' ph T1 D'). cbn [bind]. destruct (one p dr ph) as [ph'|e] eqn:E; [|reflexivity]. cbn [bind]. pose proof (beside_draws p p' dr ph ph' T3 T1 (beside_sym _ _ O3) E) as D2. rewrite D' in D2. rewrite (tile_miss p' dr' ph' T1 D2). cbn [bind]. now rewrite D2. }
    assert (H : forall a b r s, mosaic (a :: b :: r) s = bind (mosaic [a; b] s) (mosaic r)).
    { intros [[i p] dr] [[i' p'] dr'] r s. cbn [mosaic fst snd]. destruct (one p dr (fst s)) as [u|]; [|reflexivity]. cbn [bind]. destruct (one p' dr' u) as [w|]; reflexivity. }
    now rewrite H, (H x y), G.
  - rewrite (IH S). apply IH'. apply (side_by_side_perm (map (fun x => snd (fst x)) l)); [now apply Permutation_map|exact S].
Qed.
(** ** tables *)
Lemma each_one p dr ph drs drs' rows : (draws_for p ph = true -> drs = dr :: drs') -> (draws_for p ph = false -> dr = dr0 /\ drs = drs') ->
  each_row p drs (ph :: rows) = bind (one p dr ph) (fun a => bind (each_row p drs' rows) (fun r => Ok (a :: r))).
Proof. intros A B. cbn [each_row]. destruct (draws_for p ph); [now rewrite (A eq_refl)|]. destruct (B eq_refl) as [-> ->]. reflexivity. Qed.
Lemma beside_each p1 p2 : tile p1 -> tile p2 -> beside p1 p2 -> forall rows d1 d2, length d1 = hits_of p1 rows -> length d2 = hits_of p2 rows ->
  bind (each_row p1 d1 rows) (each_row p2 d2) = bind (each_row p2 d2 rows) (each_row p1 d1).
Proof.
  intros T1 T2 B. pose proof (beside_sym _ _ B) as B'. induction rows as [|ph rows IH]; intros d1 d2 L1 L2; [reflexivity|]. unfold hits_of in L1, L2. cbn [filter] in L1, L2.
  destruct (draws_for p1 ph) eqn:D1; [|destruct (draws_for p2 ph) eqn:D2].
  - pose proof (beside_before p1 p2 ph T1 T2 B D1) as D2. rewrite D2 in L2. destruct d1 as [|dr d1]; [discriminate|]. cbn [length] in L1. assert (L1' : length d1 = hits_of p1 rows) by (unfold hits_of; congruence).
    rewrite (each_one p1 dr ph (dr :: d1) d1 rows) by (intros; congruence). rewrite (each_one p2 dr0 ph d2 d2 rows) by (intros; try split; congruence). rewrite (tile_miss p2 dr0 ph T2 D2). cbn [bind].
    specialize (IH d1 d2 L1' L2). destruct (one p1 dr ph) as [a|e] eqn:O; cbn [bind].
    + pose proof (beside_after p1 p2 dr ph a T1 T2 B D1 O) as DA.
      assert (EA : forall r, each_row p2 d2 (a :: r) = bind (each_row p2 d2 r) (fun r => Ok (a :: r))) by (intros r; rewrite (each_one p2 dr0 a d2 d2 r) by (intros; try split; congruence); now rewrite (tile_miss p2 dr0 a T2 DA)).
      assert (EP : forall r, each_row p1 (dr :: d1) (ph :: r) = bind (each_row p1 d1 r) (fun r => Ok (a :: r))) by (intros r; rewrite (each_one p1 dr ph (dr :: d1) d1 r) by (intros; congruence); now rewrite O).
      destruct (each_row p1 d1 rows) as [r1|e1]; cbn [bind] in IH |- *.
      * rewrite EA, IH. destruct (each_row p2 d2 rows) as [r2|]; cbn [bind]; [now rewrite EP|reflexivity].
      * destruct (each_row p2 d2 rows) as [r2|]; cbn [bind] in IH |- *; [now rewrite EP, <- IH|exact IH].
    + apply one_err in O as EV. subst e. destruct (each_row p2 d2 rows) as [r2|e2] eqn:E2; cbn [bind]; [rewrite (each_one p1 dr ph (dr :: d1) d1 r2) by (intros; congruence); now rewrite O|]. apply each_err in E2. now rewrite E2.
  - destruct d2 as [|dr d2]; [discriminate|]. cbn [length] in L2. assert (L2' : length d2 = hits_of p2 rows) by (unfold hits_of; congruence).
    rewrite (each_one p2 dr ph (dr :: d2) d2 rows) by (intros; congruence). rewrite (each_one p1 dr0 ph d1 d1 rows) by (intros; try split; congruence). rewrite (tile_miss p1 dr0 ph T1 D1). cbn [bind].
    specialize (IH d1 d2 L1 L2'). destruct (one p2 dr ph) as [a|e] eqn:O; cbn [bind].
    + pose proof (beside_after p2 p1 dr ph a T2 T1 B' D2 O) as DA.
      assert (EA : forall r, each_row p1 d1 (a :: r) = bind (each_row p1 d1 r) (fun r => Ok (a :: r))) by (intros r; rewrite (each_one p1 dr0 a d1 d1 r) by (intros; try split; congruence); now rewrite (tile_miss p1 dr0 a T1 DA)).
      assert (EP : forall r, each_row p2 (dr :: d2) (ph :: r) = bind (each_row p2 d2 r) (fun r => Ok (a :: r))) by (intros r; rewrite (each_one p2 dr ph (dr :: d2) d2 r) by (intros; congruence); now rewrite O).
      destruct (each_row p2 d2 rows) as [r2|e2]; cbn [bind] in IH |- *.
      * rewrite EA, <- IH. destruct (each_row p1 d1 rows) as [r1|]; cbn [bind]; [now rewrite EP|reflexivity].
      * destruct (each_row p1 d1 rows) as [r1|]; cbn [bind] in IH |- *; [now rewrite EP, IH|exact IH].
    + apply one_err in O as EV. subst e. destruct (each_row p1 d1 rows) as [r1|e1] eqn:E1; cbn [bind]; [rewrite (each_one p2 dr ph (dr :: d2) d2 r1) by (intros; congruence); now rewrite O|]. apply each_err in E1. now rewrite E1.
  - rewrite (each_one p1 dr0 ph d1 d1 rows), (each_one p2 dr0 ph d2 d2 rows) by (intros; try split; congruence). rewrite (tile_miss p1 dr0 ph T1 D1), (tile_miss p2 dr0 ph T2 D2). cbn [bind]. specialize (IH d1 d2 L1 L2).
    assert (EA : forall r, each_row p1 d1 (ph :: r) = bind (each_row p1 d1 r) (fun r => Ok (ph :: r))) by (intros r; rewrite (each_one p1 dr0 ph d1 d1 r) by (intros; try split; congruence); now rewrite (tile_miss p1 dr0 ph T1 D1)).
    assert (EP : forall r, each_row p2 d2 (ph :: r) = bind (each_row p2 d2 r) (fun r => Ok (ph :: r))) by (intros r; rewrite (each_one p2 dr0 ph d2 d2 r) by (intros; try split; congruence); now rewrite (tile_miss p2 dr0 ph T2 D2)).
    destruct (each_row p1 d1 rows) as [r1|e1], (each_row p2 d2 rows) as [r2|e2]; cbn [bind] in IH |- *; rewrite ?EA, ?EP; [now rewrite IH|now rewrite IH|now rewrite <- IH|congruence].
Qed.
Lemma beside_hits p1 p2 : tile p1 -> tile p2 -> beside p1 p2 -> forall rows d1 r, each_row p1 d1 rows = Ok r -> hits_of p2 r = hits_of p2 rows.
Proof.
  intros T1 T2 B. induction rows as [|ph rows IH]; intros d1 r H; [cbn in H; now injection H as <-|]. cbn [each_row] in H.
  assert (G : forall dr d, bind (one p1 dr ph) (fun a => bind (each_row p1 d rows) (fun r => Ok (a :: r))) = Ok r -> hits_of p2 r = hits_of p2 (ph :: rows)).
  { intros dr d K. destruct (one p1 dr ph) as [a|] eqn:O; [|discriminate]. cbn [bind] in K. destruct (each_row p1 d rows) as [r'|] eqn:E; [|discriminate]. cbn [bind] in K. assert (r = a :: r') as -> by congruence.
    unfold hits_of. cbn [filter]. rewrite (beside_draws p1 p2 dr ph a T1 T2 B O). specialize (IH d r' E). unfold hits_of in IH. destruct (draws_for p2 ph); cbn [length]; congruence. }
  destruct (draws_for p1 ph); [destruct d1; [discriminate|]|]; now apply G in H.
Qed.
Definition tiles_fit (l : list (part * list draw)) (t : ctable) : Prop := Forall (fun x => length (snd x) = hits_of (fst x) (crows t)) l.
Lemma beside_process p1 p2 d1 d2 t : tile p1 -> tile p2 -> beside p1 p2 -> rectangular t -> length d1 = hits_of p1 (crows t) -> length d2 = hits_of p2 (crows t) ->
  bind (process p1 d1 t) (process p2 d2) = bind (process p2 d2 t) (process p1 d1).
Proof.
  intros T1 T2 B R L1 L2. rewrite (process_table p1 d1 t R L1), (process_table p2 d2 t R L2). pose proof (beside_each p1 p2 T1 T2 B (crows t) d1 d2 L1 L2) as S.
  destruct (each_row p1 d1 (crows t)) as [r1|e1] eqn:E1, (each_row p2 d2 (crows t)) as [r2|e2] eqn:E2; cbn [bind] in S |- *.
  - rewrite !process_each; [now rewrite S| |].
    + now rewrite (beside_hits p2 p1 T2 T1 (beside_sym _ _ B) _ _ _ E2).
    + now rewrite (beside_hits p1 p2 T1 T2 B _ _ _ E1).
  - rewrite process_each; [now rewrite S|]. now rewrite (beside_hits p1 p2 T1 T2 B _ _ _ E1).
  - rewrite process_each; [now rewrite <- S|]. now rewrite (beside_hits p2 p1 T2 T1 (beside_sym _ _ B) _ _ _ E2).
  - congruence.
Qed.
Lemma tiles_after p d l t t' : tile p -> Forall tile (map fst l) -> Forall (beside p) (map fst l) -> rectangular t -> length d = hits_of p (crows t) -> process p d t = Ok t' -> tiles_fit l t -> rectangular t' /\ tiles_fit l t'.
Proof.
  intros T F B R L H K. split; [exact (process_rect p d t t' R L H)|]. rewrite (process_table p d t R L) in H. destruct (each_row p d (crows t)) as [r|] eqn:E; [|discriminate]. cbn [bind] in H. assert (t' = of_rows r) as -> by congruence.
  unfold tiles_fit in *. rewrite Forall_forall in *. intros x X. rewrite (K x X), rows_of_rows. symmetry. apply (beside_hits p (fst x) T) with (d1 := d); [apply F| |exact E]; [|apply B]; now apply in_map.
Qed.
Lemma tiles_perm l l' t : Permutation l l' -> side_by_side (map fst l) -> rectangular t -> tiles_fit l t -> run (map fst l) (map snd l) t = run (map fst l') (map snd l') t.
Proof.
  intros P. revert t. induction P as [|[p d] l l' P IH|[p d] [p' d'] l|l l' l'' P IH P' IH']; intros t S R K.
  - reflexivity.
  - destruct S as [T O]. cbn [map fst snd] in T, O |- *. inversion T as [|? ? T1 T2]; subst. inversion O as [|? ? O1 O2]; subst. inversion K as [|? ? K1 K2]; subst. cbn [fst snd] in K1. cbn [run hd tl].
    destruct (process p d t) as [t'|e] eqn:E; [|reflexivity]. cbn [bind]. destruct (tiles_after p d l t t' T1 T2 O1 R K1 E K2) as [R' K']. apply IH; [now split|exact R'|exact K'].
  - destruct S as [T O]. cbn [map fst snd] in T, O |- *. inversion T as [|? ? T1 T2]; subst. inversion O as [|? ? O1 O2]; subst. inversion K as [|? ? K1 K2]; subst. inversion K2 as [|? ? K3 K4]; subst. inversion T2 as [|? ? T3 T4]; subst. inversion O1 as [|? ? O3 O4]; subst. cbn [fst snd] in K1, K3.
    cbn [run hd tl]. transitivity (bind (bind (process p' d' t) (process p d)) (run (map fst l) (map snd l))); [symmetry; apply bind_assoc|]. rewrite (beside_process p' p d' d t T1 T3 O3 R K1 K3). apply bind_assoc.
  - rewrite (IH t S R K). apply IH'; [apply (side_by_side_perm (map fst l)); [now apply Permutation_map|exact S]|exact R|]. unfold tiles_fit in *. rewrite Forall_forall in *. intros x X. apply K. now apply (Permutation_in x (Permutation_sym P)).
Qed.
(** ** grids *)
Lemma offset_apart m m' dy dz : perpendicular_axes m -> offset m m' dy dz -> 2 < Rabs dy \/ 2 < Rabs dz -> apart m m'.
Proof.
  intros P (EX & EY & EZ & EC) H. pose proof P as (_ & _ & NY & NZ & XY & XZ & YZ). split.
  - intros q. rewrite EX, EC. replace (dot3 (sub3 q (add3 (xyz (center m)) (add3 (scale3 dy (xyz (v_y m))) (scale3 dz (xyz (v_z m)))))) (xyz (v_x m))) with (dot3 (sub3 q (xyz (center m))) (xyz (v_x m)) - dy * dot3 (xyz (v_x m)) (xyz (v_y m)) - dz * dot3 (xyz (v_x m)) (xyz (v_z m)))
      by (generalize (xyz (center m)) (xyz (v_x m)) (xyz (v_y m)) (xyz (v_z m)); clear; vring). rewrite XY, XZ. replace (dot3 (sub3 q (xyz (center m))) (xyz (v_x m)) - dy * 0 - dz * 0) with (dot3 (sub3 q (xyz (center m))) (xyz (v_x m))) by ring. reflexivity.
  - intros q a b a' b' (A & B & Q) (A' & B' & Q'). rewrite EY, EZ, EC in Q'. rewrite Q in Q'. clear EX EY EZ EC Q.
    set (c := xyz (center m)) in *. set (y := xyz (v_y m)) in *. set (z := xyz (v_z m)) in *.
    assert (K : add3 (scale3 (a - a' - dy) y) (scale3 (b - b' - dz) z) = zero3).
    { pose proof (f_equal x3 Q') as X. pose proof (f_equal y3 Q') as Y. pose proof (f_equal z3 Q') as Z. clear - X Y Z. clearbody c y z. destruct c, y, z. vu. cbn in *. f_equal; lra. }
    assert (DY : dot3 y y <> 0) by (intros E; apply NY; now apply dot3_zero). assert (DZ : dot3 z z <> 0) by (intros E; apply NZ; now apply dot3_zero).
    assert (E1 : (a - a' - dy) * dot3 y y = 0).
    { transitivity (dot3 y (add3 (scale3 (a - a' - dy) y) (scale3 (b - b' - dz) z)) - (b - b' - dz) * dot3 y z); [generalize y z; clear; vring|]. rewrite K, YZ. generalize y; clear; vring. }
    assert (E2 : (b - b' - dz) * dot3 z z = 0).
    { transitivity (dot3 z (add3 (scale3 (a - a' - dy) y) (scale3 (b - b' - dz) z)) - (a - a' - dy) * dot3 y z); [generalize y z; clear; vring|]. rewrite K, YZ. generalize z; clear; vring. }
    apply Rmult_integral in E1, E2. destruct E1 as [E1|E1]; [|contradiction]. destruct E2 as [E2|E2]; [|contradiction]. destruct H as [H|H]; unfold Rabs in H; destruct (Rcase_abs _) in H; lra.
Qed.
Lemma numbered_ids off l i p dr : In (i, p, dr) (numbered off l) -> exists k, nth_error l k = Some (p, dr) /\ i = (off + Z.of_nat k)%Z.
Proof.
  unfold numbered. intros H. apply in_map_iff in H. destruct H as ([k [p' dr']] & E & I). cbn in E. injection E as <- <- <-. exists k. split; [|reflexivity].
  apply In_nth_error in I. destruct I as [n N]. assert (G : forall s, nth_error (combine (seq s (length l)) l) n = Some (k, (p', dr')) -> nth_error l n = Some (p', dr') /\ k = (s + n)%nat).
  { clear N. revert n. induction l as [|x l IH]; intros n s N; [destruct n; discriminate|]. destruct n as [|n]; cbn in N; [injection N as <- ->; split; [reflexivity|lia]|]. destruct (IH n (S s) N) as [A ->]. split; [exact A|lia]. }
  destruct (G 0%nat N) as [A ->]. exact A.
Qed.
Lemma numbered_parts off l : map (fun x => snd (fst x)) (numbered off l) = map fst l.
Proof.
  unfold numbered. rewrite map_map. cbn. generalize 0%nat. induction l as [|x l IH]; intros s; [reflexivity|]. cbn. f_equal. apply IH.
Qed.
Lemma numbered_in off l k p dr : nth_error l k = Some (p, dr) -> In ((off + Z.of_nat k)%Z, p, dr) (numbered off l).
Proof.
  intros N. unfold numbered. apply in_map_iff. exists (k, (p, dr)). split; [reflexivity|]. assert (G : forall s k, nth_error l k = Some (p, dr) -> In ((s + k)%nat, (p, dr)) (combine (seq s (length l)) l)).
  { clear k N. induction l as [|x l IH]; intros s k N; [destruct k; discriminate|]. destruct k as [|k]; cbn in N |- *; [left; injection N as ->; f_equal; lia|]. right. replace (s + S k)%nat with (S s + k)%nat by lia. now apply IH. }
  exact (G 0%nat k N).
Qed.
Lemma mosaic_number off l k p dr ph n : side_by_side (map fst l) -> nth_error l k = Some (p, dr) -> draws_for p ph = true ->
  mosaic (numbered off l) (ph, n) = bind (one p dr ph) (fun ph' => Ok (ph', (off + Z.of_nat k)%Z)).
Proof.
  intros S N D. pose proof (numbered_in off l k p dr N) as I. rewrite <- (numbered_parts off) in S. destruct (mosaic_one _ ph n S) as [[F _]|(l1 & i & p' & dr' & l2 & E & D' & F & M)].
  - rewrite Forall_forall in F. specialize (F _ I). cbn in F. congruence.
  - rewrite M. rewrite E in I. apply in_app_or in I. rewrite Forall_forall in F. destruct I as [I|[I|I]].
    + specialize (F _ (in_or_app _ _ _ (or_introl I))). cbn in F. congruence.
    + injection I as -> -> ->. reflexivity.
    + specialize (F _ (in_or_app _ _ _ (or_intror I))). cbn in F. congruence.
Qed.
