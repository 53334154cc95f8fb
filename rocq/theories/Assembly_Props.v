(** Properties C178 and C179: the assembled Arcus. *)
From Verif Require Export Assembly_Model.
From Verif Require Import Base_Proofs Container_Proofs Vec_Proofs Plane_Proofs Detector_Proofs Position_Proofs Telescope_Proofs Arcus_Proofs Assembly_Proofs Telescope_Model.
From Coq Require Import Permutation.
Open Scope R_scope.

(** ** C178 *)
(** The probability is multiplied by all transmissions, in any order. *)
Theorem C178_filters : forall loose e l p, Forall (fun f => ft_lo f <= e <= ft_hi f) l -> Forall (fun f => 0 <= ft_t f e <= 1) l ->
  filters loose e l (Some p) = Ok (Some (p * fold_right (fun f t => ft_t f e * t) 1 l)) /\ (0 <= p -> 0 <= p * fold_right (fun f t => ft_t f e * t) 1 l <= p) /\ forall l', Permutation l l' -> filters loose e l' (Some p) = filters loose e l (Some p).
Proof.
  intros loose e l p C P. split; [exact (filters_ok loose e l p C P)|]. split.
  - intros N. pose proof (transmission_range e l P) as T. unfold transmission in T. split; nra.
  - intros l' Q. rewrite (filters_ok loose e l p C P). rewrite filters_ok by (eapply Permutation_Forall; eassumption). now rewrite (transmission_perm e l l' Q).
Qed.
Print Assumptions C178_filters.
(** An energy that one of the tables does not have, or a transmission that is no probability, stops the simulation. *)
Theorem C178_outside : forall e l p, ~ Forall (fun f => ft_lo f <= e <= ft_hi f) l \/ ~ Forall (fun f => 0 <= ft_t f e <= 1) l -> filters false e l (Some p) = Err ValueError.
Proof. exact filters_err. Qed.
Print Assumptions C178_outside.
(** With bounds_error=False, an energy that one of the tables does not have makes the probability nan, whatever the other filters do. *)
Theorem C178_loose : forall e l p, ~ Forall (fun f => ft_lo f <= e <= ft_hi f) l -> Forall (fun f => ft_lo f <= e <= ft_hi f -> 0 <= ft_t f e <= 1) l -> filters true e l p = Ok None.
Proof.
  intros e l. assert (N : forall l, Forall (fun f => ft_lo f <= e <= ft_hi f -> 0 <= ft_t f e <= 1) l -> filters true e l None = Ok None).
  { clear. induction l as [|f l IH]; intros H; [reflexivity|]. inversion H as [|? ? A B]; subst. cbn [filters]. unfold one_filter. destruct (Rltb e (ft_lo f) || Rltb (ft_hi f) e)%bool eqn:E; cbn [bind]; [now apply IH|].
    apply Bool.orb_false_iff in E. destruct E as [E1 E2]. apply Rltb_false in E1. apply Rltb_false in E2. cbv zeta. specialize (A (conj E1 E2)). rewrite (proj2 (Rltb_false _ _)) by lra. rewrite (proj2 (Rltb_false _ _)) by lra. cbn [orb bind]. now apply IH. }
  induction l as [|f l IH]; intros p H K; [exfalso; apply H; constructor|]. inversion K as [|? ? A B]; subst. cbn [filters]. unfold one_filter. destruct (Rltb e (ft_lo f) || Rltb (ft_hi f) e)%bool eqn:E; cbn [bind]; [now apply N|].
  apply Bool.orb_false_iff in E. destruct E as [E1 E2]. apply Rltb_false in E1. apply Rltb_false in E2. cbv zeta. specialize (A (conj E1 E2)). rewrite (proj2 (Rltb_false _ _)) by lra. rewrite (proj2 (Rltb_false _ _)) by lra. cbn [orb bind].
  apply IH; [|exact B]. intros F. apply H. constructor; [now split|exact F].
Qed.
Print Assumptions C178_loose.
(** Photons go through aperture, mirrors, gratings, filters (unless left out), boom and detectors in this order. *)
Theorem C178_order : forall v, exists l, assemble v = l ++ v_boom v ++ v_detectors v ++ ["tagversion"%string] /\ map Some l = filter (fun c => match c with Some _ => true | None => false end) (v_classes v).
Proof. intros v. exists (somes (v_classes v)). split; [reflexivity|]. induction (v_classes v) as [|[c|] l IH]; [reflexivity| |exact IH]. cbn [somes map filter]. now rewrite IH. Qed.
Print Assumptions C178_order.
Theorem C178_variants : assemble perfect_arcus = ["Aperture"; "SimpleSPOs"; "CATGratings"; "FiltersAndQE"; "CircularDetector"; "ProjectOntoPlane"; "Propagator"; "DetCamera"; "ProjectOntoPlane"; "FocalPlaneDet"; "tagversion"]%string /\
  assemble arcus_for_plot = ["Aperture"; "SimpleSPOs"; "CATGratings"; "FiltersAndQE"; "FourSidedBoom"; "DetCamera"; "tagversion"]%string /\
  assemble arcus_for_sixte = ["Aperture"; "SimpleSPOs"; "CATGratings"; "FocalPlaneDet"; "tagversion"]%string.
Proof. repeat split. Qed.
Print Assumptions C178_variants.
(** The alignment of the camera has no target in the instrument for SIXTE: the row of the budget is accepted and does nothing. *)
Theorem C178_sixte_refuted : forall bases parts, (forall c n, In n (flat_map nodes (parts c)) -> forall b, mro n <> "DetCamera"%string :: b) ->
  elements_of_class (instrument bases parts arcus_for_sixte) "DetCamera" false false = [] /\ exists t, In t (elements_of_class (instrument bases parts perfect_arcus) "DetCamera" false false).
Proof.
  intros bases parts H. assert (NF : forall n, In n (nodes (instrument bases parts arcus_for_sixte)) -> Container_Model.comp false "DetCamera" n = false).
  { intros n N. destruct (Container_Model.comp false "DetCamera" n) eqn:C; [|reflexivity]. exfalso. apply comp_spec in C. destruct C as [b M]. unfold instrument in N. cbn [nodes kids] in N. destruct N as [<-|N]; [discriminate|]. apply in_flat_map in N. destruct N as (k & K & N). apply in_map_iff in K. destruct K as (c & <- & IC). cbn [nodes kids] in N. destruct N as [<-|N].
    - cbn [mro] in M. injection M as -> _. cbn in IC. repeat (destruct IC as [IC|IC]; [discriminate|]). destruct IC.
    - exact (H c n N b M). }
  split; [now apply nothing_found|].
  exists (Tree 1 ("DetCamera"%string :: bases "DetCamera"%string) (negb (Nat.eqb (List.length (parts "DetCamera"%string)) 0)) (parts "DetCamera"%string)). unfold elements_of_class, instrument. cbn [elements_of Container_Model.comp mro kids]. cbn [String.eqb Ascii.eqb Bool.eqb andb app]. apply in_flat_map. eexists. split.
  - apply in_map_iff. exists "DetCamera"%string. split; [reflexivity|]. cbn. tauto.
  - cbn [Container_Model.comp mro]. rewrite String.eqb_refl. now left.
Qed.
Print Assumptions C178_sixte_refuted.
(** The classes DetMany and Det16 can not be used: the attributes they ask for do not exist. *)
Theorem C178_detmany_refuted : det_many det_many_attrs = Err AttributeError.
Proof. reflexivity. Qed.
Print Assumptions C178_detmany_refuted.
Example C178_example : filters false 1 [FTable 0 2 (fun _ => 1 / 2); FTable 0 3 (fun e => e / 5)] (Some (1 / 2)) = Ok (Some (1 / 2 * (1 / 2 * (1 / 5 * 1)))) /\ filters false 5 [FTable 0 2 (fun _ => 1 / 2)] (Some 1) = Err ValueError.
Proof.
  split; [apply (C178_filters false 1 [FTable 0 2 (fun _ => 1 / 2); FTable 0 3 (fun e => e / 5)] (1 / 2)); repeat constructor; cbn; lra|]. apply C178_outside. left. intros F. inversion F as [|? ? A]; subst. cbn in A. lra.
Qed.

(** ** C179 *)
(** FocalPlaneDet is the plane z = 0 out to 10 m, unless a zoom, an orientation or a matrix is given: then it is this one. *)
Theorem C179_default : focalplane [] = Ok (M4 (V4 0 0 (1 / 5) 0) (V4 10000 0 0 0) (V4 0 10000 0 0) (V4 0 0 0 1), []).
Proof.
  assert (K : focalplane_kw [] = [("zoom", Arr [1 / 5; 10000; 10000]); ("orientation", Mat3 (lin xyz2zxy))]%string) by reflexivity. unfold focalplane. rewrite K. unfold parse_position.
  set (kw := [("zoom", _); ("orientation", _)]%string). assert (A1 : dget "pos4d"%string kw = None) by reflexivity. assert (A2 : dget "position"%string kw = None) by reflexivity. assert (A3 : dget "zoom"%string kw = Some (Arr [1 / 5; 10000; 10000])) by reflexivity.
  assert (A4 : dget "orientation"%string kw = Some (Mat3 (lin xyz2zxy))) by reflexivity. assert (A5 : ddel "zoom"%string (ddel "orientation"%string (ddel "position"%string kw)) = []) by reflexivity. rewrite A1, A2, A3, A4, A5. cbn [as_seq bind].
  rewrite (proj2 (Rleb_false (1 / 5) 0)), (proj2 (Rleb_false 10000 0)) by lra. cbn [orb bind]. unfold check_det.
  assert (E : compose zero3 (lin xyz2zxy) (V3 (1 / 5) 10000 10000) = M4 (V4 0 0 (1 / 5) 0) (V4 10000 0 0 0) (V4 0 10000 0 0) (V4 0 0 0 1)).
  { unfold compose, diag3, xyz2zxy. vu. cbn [x3 y3 z3]. f_equal; f_equal; ring. }
  rewrite E. assert (D : det4 (M4 (V4 0 0 (1 / 5) 0) (V4 10000 0 0 0) (V4 0 10000 0 0) (V4 0 0 0 1)) <> 0) by (vu; lra).
  destruct (Reqb _ 0) eqn:Q; [apply Reqb_true in Q; congruence|]. reflexivity.
Qed.
Print Assumptions C179_default.
Theorem C179_given : forall kw, (dget "pos4d" kw <> None -> focalplane kw = parse_position kw) /\ (dget "zoom" kw <> None -> dget "orientation" kw <> None -> focalplane kw = parse_position kw) /\
  (forall k, k <> "zoom"%string -> k <> "orientation"%string -> dget k (focalplane_kw kw) = dget k kw) /\ (forall v, dget "zoom" kw = Some v -> dget "zoom" (focalplane_kw kw) = Some v) /\ (forall v, dget "orientation" kw = Some v -> dget "orientation" (focalplane_kw kw) = Some v).
Proof.
  intros kw. assert (D : forall k (d : dict pyv), dget k d <> None -> din k d = true). { intros k d N. destruct (din k d) eqn:E; [reflexivity|]. apply din_false in E. congruence. }
  unfold focalplane, focalplane_kw. repeat split.
  - intros H. rewrite (D _ _ H), Bool.orb_true_r. rewrite (D _ _ H), Bool.orb_true_r. reflexivity.
  - intros H1 H2. rewrite (D _ _ H1). cbn [orb]. rewrite (D _ _ H2). reflexivity.
  - intros k Z O. destruct (din "zoom" kw || din "pos4d" kw)%bool; destruct (_ || _)%bool; rewrite ?dget_dset_neq by congruence; reflexivity.
  - intros v H. rewrite (D "zoom"%string kw) by congruence. cbn [orb]. destruct (_ || _)%bool; rewrite ?dget_dset_neq by discriminate; exact H.
  - intros v H. assert (O : din "orientation" kw = true) by (apply D; congruence). destruct (din "zoom" kw || din "pos4d" kw)%bool.
    + rewrite O. exact H.
    + rewrite (D "orientation"%string (dset "zoom" _ kw)) by (rewrite dget_dset_neq by discriminate; congruence). cbn [orb]. rewrite dget_dset_neq by discriminate. exact H.
Qed.
Print Assumptions C179_given.
(** There it records every photon that comes from above, with its place in the plane. *)
Theorem C179_records : forall m rest d p, focalplane [] = Ok (m, rest) -> z3 d < 0 -> 0 <= z3 p -> let X := x3 p - z3 p / z3 d * x3 d in let Y := y3 p - z3 p / z3 d * y3 d in -10000 <= X <= 10000 -> -10000 <= Y <= 10000 ->
  flat_detector m 1 (hom d 0) (hom p 1) = Some (X + 19999 / 2, Y + 19999 / 2).
Proof. intros m rest d p H. rewrite C179_default in H. injection H as <- _. exact (fp_hit d p). Qed.
Print Assumptions C179_records.
(** But no photon that is below the plane already. *)
Theorem C179_below : forall m rest d p, focalplane [] = Ok (m, rest) -> z3 d <= 0 -> z3 p < 0 -> flat_detector m 1 (hom d 0) (hom p 1) = None.
Proof. intros m rest d p H. rewrite C179_default in H. injection H as <- _. exact (fp_miss d p). Qed.
Print Assumptions C179_below.
(** False: that it catches all photons. Those on the camera between the two optical axes ([x] between [-d] and [d] on the circle of radius [r] through the axes) are below the plane. *)
Theorem C179_between_refuted : forall m rest r d a dir, focalplane [] = Ok (m, rest) -> 0 <= d -> d < r -> 0 < cos a -> Rabs (r * sin a) < d -> z3 dir <= 0 ->
  flat_detector m 1 (hom dir 0) (hom (circle_place r (sqrt (r * r - d * d)) a) 1) = None.
Proof. intros m rest r d a dir H D L C B Z. apply (C179_below m rest); [exact H|exact Z|]. now apply below. Qed.
Print Assumptions C179_between_refuted.
Example C179_between_example : exists m rest, focalplane [] = Ok (m, rest) /\ x3 (circle_place 5 (sqrt (5 * 5 - 3 * 3)) 0) = 0 /\ flat_detector m 1 (hom (V3 0 0 (-1)) 0) (hom (circle_place 5 (sqrt (5 * 5 - 3 * 3)) 0) 1) = None.
Proof.
  do 2 eexists. split; [apply C179_default|]. split; [unfold circle_place; cbn [x3]; rewrite sin_0; ring|]. eapply C179_between_refuted; [apply C179_default|lra|lra|rewrite cos_0; lra|rewrite sin_0, Rmult_0_r, Rabs_R0; lra|cbn; lra].
Qed.
(** Moving the photons back by 100 mm after the circular detector makes the camera find every chip that the ray passes up to 100 mm before or anywhere behind the circle. *)
Theorem C179_reset : forall m d p, perpendicular_axes m -> (fst (fst (plane_intersect m (hom d 0) (camera_start (hom p 1) (hom d 0)))) = true <->
  dot3 d (xyz (v_x m)) <> 0 /\ exists k a b, -100 <= k /\ in_rectangle m a b (add3 p (scale3 k d))).
Proof. exact reset_hits. Qed.
Print Assumptions C179_reset.
Example C179_reset_example : fst (fst (plane_intersect (upright 7 1 5 5) (hom (V3 (-1) 0 0) 0) (hom (V3 0 1 2) 1))) = false /\ fst (fst (plane_intersect (upright 7 1 5 5) (hom (V3 (-1) 0 0) 0) (camera_start (hom (V3 0 1 2) 1) (hom (V3 (-1) 0 0) 0)))) = true.
Proof.
  assert (P : perpendicular_axes (upright 7 1 5 5)) by (apply upright_axes; lra). split.
  - destruct (fst (fst (plane_intersect (upright 7 1 5 5) _ _))) eqn:E; [|reflexivity]. exfalso. apply plane_hit_iff in E; [|exact P]. destruct E as (_ & k & a & b & K & _ & _ & I). apply (f_equal x3) in I. unfold upright, center, v_y, v_z in I. cbn in I. lra.
  - apply C179_reset; [exact P|]. split; [unfold upright, v_x, dot3; cbn; lra|]. exists (-7), (1 / 5), (2 / 5). split; [lra|]. split; [lra|]. split; [lra|]. unfold upright, center, v_y, v_z. vu. f_equal; field.
Qed.
