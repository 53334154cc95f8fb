(** Properties C200 and C201: columns of detectors and the set-up of AXIS. *)
From Verif Require Import Base_Proofs Photons_Proofs Photons_Proofs2 Rmf_Proofs2 Ogip_Proofs.
From Verif Require Export Axis_Model Axis_Proofs.
Export Photons_Model.

(** ** C200 *)
(** A detector with different names for local coordinates and pixels records both for every photon that hits it, *)
Theorem C200_both : forall d m ipos icoos t, wf t -> In "pos"%string (colnames t) -> List.length m = nrows t -> List.length ipos = nrows t -> List.length icoos = nrows t ->
  separate (pd_loc d) (pd_pix d) = true ->
  exists t', detect d m ipos icoos t = (t', None) /\ nrows t' = nrows t /\
    forall i p x y, nth_error m i = Some true -> nth_error ipos i = Some p -> nth_error icoos i = Some (x, y) ->
      getcell t' (fst (pd_loc d)) i = Some x /\ getcell t' (snd (pd_loc d)) i = Some y /\ getcell t' "pos" i = Some p /\
      getcell t' (fst (pd_pix d)) i = Some (to_pix (pd_size d) (fst (pd_centre d)) x) /\ getcell t' (snd (pd_pix d)) i = Some (to_pix (pd_size d) (snd (pd_centre d)) y).
Proof.
  intros d m ipos icoos t W IP Lm Li Lc S. destruct d as [[l1 l2] [p1 p2] sz [c1 c2]]. cbn [pd_loc pd_pix pd_size pd_centre fst snd] in *. apply separate_neq in S.
  assert (D : (l1 <> l2 /\ l1 <> p1 /\ l1 <> p2 /\ l1 <> "pos" /\ l2 <> p1 /\ l2 <> p2 /\ l2 <> "pos" /\ p1 <> p2 /\ p1 <> "pos" /\ p2 <> "pos" /\ p1 <> "probability" /\ p2 <> "probability")%string).
  { repeat match goal with H : NoDup (_ :: _) |- _ => inversion H; clear H; subst end. cbn in *. repeat split; intros ->; tauto. }
  destruct D as (D1 & D2 & D3 & D4 & D5 & D6 & D7 & D8 & D9 & D10 & D11 & D12).
  destruct (existsb (fun b => b) m) eqn:EX.
  2:{ exists t. split; [|split; [reflexivity|]].
      - unfold detect, process_photons. rewrite Lm, Li, Lc, Nat.eqb_refl, EX. reflexivity.
      - intros i p x y H. exfalso. rewrite (hit_some m i) in EX; [discriminate|]. unfold hit. now rewrite H. }
  destruct (detect_cells (PixDet (l1, l2) (p1, p2) sz (c1, c2)) m ipos icoos t W IP Lm Li Lc D11 D12 EX) as (t' & E & N & _ & G). exists t'. split; [exact E|]. split; [exact N|].
  intros i p x y Hm Hp Hc. assert (Hi : (i < nrows t)%nat) by (rewrite <- Lm; apply nth_error_Some; congruence). assert (HH : hit m i = true) by (unfold hit; now rewrite Hm).
  assert (X : nth_error (map fst icoos) i = Some x) by now rewrite nth_error_map, Hc. assert (Y : nth_error (map snd icoos) i = Some y) by now rewrite nth_error_map, Hc.
  assert (SX : nth_error (select m (map fst icoos)) (hits_before m i) = Some x) by (rewrite picked; [exact X|now rewrite map_length, Lm, Lc|exact HH]).
  assert (SY : nth_error (select m (map snd icoos)) (hits_before m i) = Some y) by (rewrite picked; [exact Y|now rewrite map_length, Lm, Lc|exact HH]).
  assert (SP : nth_error (select m ipos) (hits_before m i) = Some p) by (rewrite picked; [exact Hp|congruence|exact HH]).
  rewrite !G by exact Hi. unfold after. cbn [pd_loc pd_pix pd_size pd_centre fst snd]. rewrite HH, !nth_error_map, SX, SY, SP. rewrite !andb_true_r.
  repeat match goal with |- context [String.eqb ?a ?b] => destruct (String.eqb_spec a b); try congruence end. repeat split.
Qed.
Print Assumptions C200_both.
(** and leaves all other photons alone. *)
Theorem C200_missed : forall d m ipos icoos t, wf t -> In "pos"%string (colnames t) -> List.length m = nrows t -> List.length ipos = nrows t -> List.length icoos = nrows t ->
  fst (pd_pix d) <> "probability"%string -> snd (pd_pix d) <> "probability"%string ->
  forall i c, (i < nrows t)%nat -> nth_error m i = Some false -> let t' := fst (detect d m ipos icoos t) in
    (In c (colnames t) -> getcell t' c i = getcell t c i) /\ (~ In c (colnames t) -> getcell t' c i = Some nan \/ getcell t' c i = None).
Proof.
  intros d m ipos icoos t W IP Lm Li Lc P1 P2 i c Hi Hm t'. unfold t'. clear t'. destruct (existsb (fun b => b) m) eqn:EX.
  - destruct (detect_cells d m ipos icoos t W IP Lm Li Lc P1 P2 EX) as (t' & E & N & _ & G). rewrite E. cbn [fst]. rewrite G by exact Hi. unfold after. assert (HH : hit m i = false) by (unfold hit; now rewrite Hm). rewrite HH, !andb_false_r. split.
    + intros I. apply inb_In in I. now rewrite I.
    + intros I. apply inb_false in I. rewrite I. match goal with |- context [if ?b then Some nan else None] => destruct b end; tauto.
  - assert (E : detect d m ipos icoos t = (t, None)) by (unfold detect, process_photons; now rewrite Lm, Li, Lc, Nat.eqb_refl, EX). rewrite E. cbn [fst]. split; [reflexivity|]. intros I. right. unfold getcell, getcol. now rewrite (proj2 (dget_none_notin c (cols t)) I).
Qed.
Print Assumptions C200_missed.
(** All detectors that come with marxs have different names, but for three. *)
Theorem C200_shipped : forall n loc pix, In (n, (loc, pix)) shipped -> (separate loc pix = true <-> ~ In n ["AXIS.imaging"; "AXISForPlot.zero"; "athecat.zero"]%string) /\ (separate loc pix = false -> loc = pix).
Proof.
  assert (B : Forall (fun d => (separate (fst (snd d)) (snd (snd d)) = true <-> ~ In (fst d) ["AXIS.imaging"; "AXISForPlot.zero"; "athecat.zero"]%string) /\ (separate (fst (snd d)) (snd (snd d)) = false -> fst (snd d) = snd (snd d))) shipped).
  { unfold shipped. repeat constructor; cbn [fst snd]; try discriminate; try (intros _; reflexivity); try (intros _ I; cbn in I; intuition discriminate); try (intros H; exfalso; apply H; cbn; tauto). }
  intros n loc pix I. exact (proj1 (Forall_forall _ _) B _ I).
Qed.
Print Assumptions C200_shipped.
(** These three lose the pixels: what they write is the local coordinates under the name of the pixels, the size of the pixels changes nothing. *)
Theorem C200_lost_refuted : forall l1 l2 sz c m ipos icoos t, wf t -> In "pos"%string (colnames t) -> List.length m = nrows t -> List.length ipos = nrows t -> List.length icoos = nrows t ->
  NoDup [l1; l2; "pos"; "probability"]%string -> let t' := fst (detect (PixDet (l1, l2) (l1, l2) sz c) m ipos icoos t) in
  snd (detect (PixDet (l1, l2) (l1, l2) sz c) m ipos icoos t) = None /\
  (forall i x y, nth_error m i = Some true -> nth_error icoos i = Some (x, y) -> getcell t' l1 i = Some x /\ getcell t' l2 i = Some y) /\
  (forall sz' c' col i, (i < nrows t)%nat -> getcell (fst (detect (PixDet (l1, l2) (l1, l2) sz' c') m ipos icoos t)) col i = getcell t' col i).
Proof.
  intros l1 l2 sz c m ipos icoos t W IP Lm Li Lc S t'. unfold t'. clear t'.
  assert (D : (l1 <> l2 /\ l1 <> "pos" /\ l2 <> "pos" /\ l1 <> "probability" /\ l2 <> "probability")%string).
  { repeat match goal with H : NoDup (_ :: _) |- _ => inversion H; clear H; subst end. cbn in *. repeat split; intros ->; tauto. }
  destruct D as (D1 & D2 & D3 & D4 & D5). destruct (existsb (fun b => b) m) eqn:EX.
  2:{ assert (E : forall d, detect d m ipos icoos t = (t, None)) by (intros d; unfold detect, process_photons; now rewrite Lm, Li, Lc, Nat.eqb_refl, EX). rewrite !E. split; [reflexivity|]. split.
      - intros i x y H. exfalso. rewrite (hit_some m i) in EX; [discriminate|]. unfold hit. now rewrite H.
      - intros sz' c' col i _. now rewrite E. }
  destruct (detect_cells (PixDet (l1, l2) (l1, l2) sz c) m ipos icoos t W IP Lm Li Lc D4 D5 EX) as (t' & E & N & _ & G). rewrite E. cbn [fst snd]. split; [reflexivity|]. split.
  - intros i x y Hm Hc. assert (Hi : (i < nrows t)%nat) by (rewrite <- Lm; apply nth_error_Some; congruence). assert (HH : hit m i = true) by (unfold hit; now rewrite Hm).
    assert (X : nth_error (map fst icoos) i = Some x) by now rewrite nth_error_map, Hc. assert (Y : nth_error (map snd icoos) i = Some y) by now rewrite nth_error_map, Hc.
    assert (SX : nth_error (select m (map fst icoos)) (hits_before m i) = Some x) by (rewrite picked; [exact X|now rewrite map_length, Lm, Lc|exact HH]).
    assert (SY : nth_error (select m (map snd icoos)) (hits_before m i) = Some y) by (rewrite picked; [exact Y|now rewrite map_length, Lm, Lc|exact HH]).
    rewrite !G by exact Hi. unfold after. cbn [pd_loc pd_pix fst snd]. rewrite HH, SX, SY, !andb_true_r.
    repeat match goal with |- context [String.eqb ?a ?b] => destruct (String.eqb_spec a b); try congruence end. split; reflexivity.
  - intros sz' c' col i Hi. destruct (detect_cells (PixDet (l1, l2) (l1, l2) sz' c') m ipos icoos t W IP Lm Li Lc D4 D5 EX) as (t2 & E2 & _ & _ & G2). rewrite E2. cbn [fst]. rewrite G, G2 by exact Hi. unfold after. cbn [pd_loc pd_pix fst snd].
    destruct (String.eqb col "pos" && hit m i); [reflexivity|]. destruct (String.eqb col l2 && hit m i); [reflexivity|]. destruct (String.eqb col l1 && hit m i); reflexivity.
Qed.
Print Assumptions C200_lost_refuted.
(** The middle of pixel [k] of [n] pixels (0 to n - 1) is pixel coordinate [k]; the edges are half a pixel outside. *)
Theorem C200_pixel : forall (n k : Z) (size : Q), ~ (size == 0)%Q ->
  exists q, to_pix size (centre_pix (inject_Z n * size / 2)%Q size) (CNum (Some ((inject_Z k + (1 # 2) - inject_Z n / 2) * size)%Q)) = CNum (Some q) /\ (q == inject_Z k)%Q.
Proof. intros n k size S. unfold to_pix, centre_pix. eexists. split; [reflexivity|]. field. exact S. Qed.
Print Assumptions C200_pixel.
Theorem C200_integer : forall size centre z, exists q, to_pix size centre (CInt z) = CNum (Some q) /\ to_pix size centre (CNum (Some (inject_Z z))) = CNum (Some q).
Proof. intros. eexists. split; reflexivity. Qed.
Print Assumptions C200_integer.
(** the detector of AXIS in the list above: 3750 pixels of 0.008 mm *)
Theorem C200_imaging_refuted : In ("AXIS.imaging"%string, (pd_loc imaging, pd_pix imaging)) shipped /\ separate (pd_loc imaging) (pd_pix imaging) = false /\ (fst (pd_centre imaging) == (3750 - 1) / 2)%Q /\ (snd (pd_centre imaging) == (3750 - 1) / 2)%Q.
Proof. split; [unfold shipped; cbn; tauto|]. split; [reflexivity|]. split; reflexivity. Qed.
Print Assumptions C200_imaging_refuted.
(** A photon in the middle of a detector of AXIS: the pixel is 1874.5, the table says 0; a detector with other names has both. *)
Example C200_example : let t := mkT 1 [("pos", [CVec []]); ("probability", [CNum (Some 1%Q)])]%string in let at0 := CNum (Some 0%Q) in
  to_pix (pd_size imaging) (fst (pd_centre imaging)) at0 <> at0 /\ getcell (fst (detect imaging [true] [CVec []] [(at0, at0)] t)) "imaging_x" 0 = Some at0 /\
  (match getcell (fst (detect (PixDet ("a", "b") ("c", "d") (8 # 1000) (pd_centre imaging)) [true] [CVec []] [(at0, at0)] t)) "c" 0 with Some (CNum (Some q)) => (q == 3749 # 2)%Q | _ => False end)%string.
Proof. split; [discriminate|]. split; reflexivity. Qed.

(** ** C201 *)
Open Scope string_scope.
Open Scope list_scope.
(** Photons meet the aperture, the mirror, the gratings (if there are any), the filters and then detectors. The file header is tagged last. *)
Theorem C201_order : forall g p, exists before behind, axis_elements g p = axis_mirror ++ before ++ "FiltersAndQE" :: behind ++ ["tagversion"] /\
  before = (if g then ["LynxGAS"; "catsupportbars"] else []) /\ (exists more, behind = "RowlandDetArray" :: "imaging" :: more /\ (p = true -> more = []) /\ (p = false -> last more "" = "flatdet")) /\
  (In "LynxGAS" (axis_elements g p) <-> g = true).
Proof.
  intros g p. exists (if g then axis_gas else []), (axis_detectors p). split; [destruct g, p; reflexivity|]. split; [reflexivity|]. split.
  - destruct p; eexists; (split; [reflexivity|split; [|]]); try discriminate; reflexivity.
  - destruct g, p; cbn; intuition discriminate.
Qed.
Print Assumptions C201_order.
(** These are all the elements, *)
Theorem C201_exact : forall g p, axis_elements g p = ["MetaShellAperture"; "PerfectLensSegment"; "MirrorGeometricScaling"; "RadialMirrorScatter"] ++ (if g then ["LynxGAS"; "catsupportbars"] else []) ++
  ["FiltersAndQE"; "RowlandDetArray"; "imaging"] ++ (if p then [] else ["ProjectOntoPlane"; "Propagator"; "detcirc"; "ProjectOntoPlane"; "Propagator"; "flatdet"]) ++ ["tagversion"].
Proof. intros [] []; reflexivity. Qed.
Print Assumptions C201_exact.
(** Objects of the module are parts of every instrument with gratings that is not made for a plot, and of no use for the others: the same object is in all of them. *)
Theorem C201_shared : forall x, (In x axis_shared -> In x (axis_elements true false)) /\ (forall p, In "imaging" (axis_elements true p) /\ In "imaging" (axis_elements false p) /\ In "tagversion" (axis_elements true p) /\ In "tagversion" (axis_elements false p)) /\
  (In x axis_shared <-> In x ["catsupportbars"; "imaging"; "detcirc"; "flatdet"; "tagversion"]) /\ ~ In "LynxGAS" axis_shared /\ ~ In "RowlandDetArray" axis_shared.
Proof.
  intros x. split; [|split; [|split; [reflexivity|split; cbn; intuition discriminate]]].
  - cbn. intros [<-|[<-|[<-|[<-|[<-|[]]]]]]; tauto.
  - intros [|]; cbn; tauto.
Qed.
Print Assumptions C201_shared.
(** and the instrument can be set up if and only if the configuration has these entries. *)
Theorem C201_needs : forall c (g p : bool), let needs := ["metashellgeometry"; "focallength"; "mirrorcoating"; "mirrorgeometricscaling"; "inplanescatter"; "perpplanescatter"; "rowland"; "det_kwargs"] ++
    (if g then ["gas_kwargs"; "grating_size"; "grating_frame"; "blazemat"] else []) in
  ((forall k, In k needs -> dget k c <> None) -> perfect_axis_elements c g p = Ok (axis_elements g p)) /\ ((exists k, In k needs /\ dget k c = None) -> perfect_axis_elements c g p = Err KeyError).
Proof.
  intros c g p needs. unfold perfect_axis_elements. split.
  - intros H. replace (forallb (fun k => din k c) (axis_needs g)) with true; [reflexivity|]. symmetry. apply forallb_forall. intros k I. apply din_dget. destruct (dget k c) as [v|] eqn:E; [eauto|]. exfalso. apply (H k); [|exact E].
    unfold needs. destruct g; cbn in I |- *; tauto.
  - intros (k & J & E). replace (forallb (fun k => din k c) (axis_needs g)) with false; [reflexivity|]. symmetry. apply not_true_is_false. intros T. rewrite forallb_forall in T. assert (I' : In k (axis_needs g)) by (unfold needs in J; destruct g; cbn in J |- *; tauto).
    specialize (T k I'). apply din_dget in T. destruct T as [v T]. congruence.
Qed.
Print Assumptions C201_needs.
(** The perfect instrument can be set up with the three configurations of the file; only the last one has chirped gratings. *)
Theorem C201_perfect : forall torus turn g p, exists c1 c2 c3, axis_conf torus turn = Ok c1 /\ axis_6060 torus turn = Ok c2 /\ axis_chirp torus turn = Ok c3 /\
  Forall (fun c => perfect_axis_elements c g p = Ok (axis_elements g p)) [c1; c2; c3] /\ map chirped [c1; c2; c3] = [false; false; true].
Proof.
  intros torus turn g p. assert (H : exists c, axis_conf torus turn = Ok c).
  { unfold axis_conf. destruct (rowland_conf torus turn axis_base (22 / 10) (44 / 10) (16 / 10 * PI / 180) 8600 eq_refl eq_refl eq_refl eq_refl) as (c & E & _). eauto. }
  destruct H as [c E]. pose proof (axis_keys torus turn c E) as K. unfold axis_6060, axis_chirp. rewrite E. cbn [bind]. exists c. eexists. eexists. split; [reflexivity|]. split; [reflexivity|]. split; [reflexivity|].
  assert (F : forall c', (forall k, din k c = true -> din k c' = true) -> perfect_axis_elements c' g p = Ok (axis_elements g p)).
  { intros c' S. unfold perfect_axis_elements. replace (forallb (fun k => din k c') (axis_needs g)) with true; [reflexivity|]. symmetry. apply forallb_forall. intros k I. apply S. rewrite K.
    destruct g; cbn in I; repeat (destruct I as [<-|I]; [reflexivity|]); destruct I. }
  assert (M : forall k x (v : cval) d, din k d = true -> din k (dset x v d) = true).
  { intros k x v d H. apply din_dget in H. apply din_dget. destruct (string_dec k x) as [->|N]; [rewrite dget_dset_eq; eauto|now rewrite dget_dset_neq]. }
  split.
  - constructor; [apply F; tauto|]. constructor; [apply F; intros k; apply M|]. constructor; [|constructor]. apply F. intros k H. now do 3 apply M.
  - cbn [map]. unfold chirped. rewrite (K "chirp_energy"). assert (N : din "chirp_energy" (dset "grating_size" CObj c) = false).
    { apply din_false. rewrite dget_dset_neq by discriminate. apply din_false. now rewrite K. }
    rewrite N. cbn [andb inb]. f_equal. f_equal.
    assert (A : din "chirp_energy" (dset "chirp_order" (CR (- (54 / 10))) (dset "chirp_energy" (CR (6 / 10)) (dset "grating_size" CObj c))) = true) by (apply M; apply din_dget; rewrite dget_dset_eq; eauto).
    assert (B : din "chirp_order" (dset "chirp_order" (CR (- (54 / 10))) (dset "chirp_energy" (CR (6 / 10)) (dset "grating_size" CObj c))) = true) by (apply din_dget; rewrite dget_dset_eq; eauto).
    now rewrite A, B.
Qed.
Print Assumptions C201_perfect.
(** The class AXIS can not be used with any of them: there is no alignment budget. *)
Theorem C201_budget_refuted : forall torus turn g c, In (Ok c) [axis_conf torus turn; axis_6060 torus turn; axis_chirp torus turn] -> axis_aligned c g = Err KeyError.
Proof.
  intros torus turn g c I. assert (N : dget "alignmentbudget" c = None).
  { destruct (axis_conf torus turn) as [b|] eqn:E; unfold axis_6060, axis_chirp in I; rewrite E in I; cbn [bind In] in I.
    - pose proof (axis_keys torus turn b E "alignmentbudget") as K. cbn in K. apply din_false in K. destruct I as [I|[I|[I|[]]]]; injection I as <-; repeat rewrite dget_dset_neq by discriminate; exact K.
    - destruct I as [I|[I|[I|[]]]]; discriminate. }
  unfold axis_aligned. unfold perfect_axis_elements. destruct (forallb _ _); cbn [bind]; [now rewrite N|reflexivity].
Qed.
Print Assumptions C201_budget_refuted.
(** With a budget added it can: every row moves one class of elements, unknown kinds of rows are an error. *)
Theorem C201_budget : forall c g l, perfect_axis_elements c g false = Ok (axis_elements g false) -> let c' := dset "alignmentbudget" (CRows l) c in
  (Forall (fun r => snd r <> Lynx_Model.Other) l -> axis_aligned c' g = Ok (axis_elements g false, l)) /\ (~ Forall (fun r => snd r <> Lynx_Model.Other) l -> axis_aligned c' g = Err NotImplementedError).
Proof.
  intros c g l P c'. assert (P' : perfect_axis_elements c' g false = Ok (axis_elements g false)).
  { unfold perfect_axis_elements in *. destruct (forallb (fun k => din k c) (axis_needs g)) eqn:F; [|discriminate]. rewrite forallb_forall in F. replace (forallb _ _) with true; [reflexivity|]. symmetry. apply forallb_forall. intros k I. specialize (F k I). apply din_dget in F. apply din_dget. unfold c'.
    destruct (string_dec k "alignmentbudget") as [->|N]; [rewrite dget_dset_eq; eauto|now rewrite dget_dset_neq]. }
  unfold axis_aligned. rewrite P'. cbn [bind]. unfold c'. rewrite dget_dset_eq. split.
  - intros F. assert (S : sequence (map budget_row l) = Ok l).
    { clear - F. induction F as [|[n k] l N F IH]; [reflexivity|]. cbn [map sequence]. cbn [snd] in N. unfold budget_row at 1. cbn [snd]. destruct k; [| |now destruct N]; cbn [bind]; now rewrite IH. }
    now rewrite S.
  - intros F. assert (S : sequence (map budget_row l) = Err NotImplementedError).
    { clear - F. induction l as [|[n k] l IH]; [now destruct F|]. cbn [map sequence]. unfold budget_row at 1. cbn [snd]. destruct k; cbn [bind]; [| |reflexivity]; rewrite IH; try reflexivity; intros G; apply F; constructor; try assumption; discriminate. }
    now rewrite S.
Qed.
Print Assumptions C201_budget.
(** The factor for the geometry of the mirror multiplies all probabilities and changes nothing else. It keeps them in the range of probabilities if it is in this range; *)
Theorem C201_scale : forall s t, wf t -> In "probability" (colnames t) -> (forall i, (i < nrows t)%nat -> exists q, probability t i = Some q) ->
  exists t', mirror_scale s t = (t', None) /\ nrows t' = nrows t /\ colnames t' = colnames t /\ (forall i q, probability t i = Some q -> probability t' i = Some (s * q)%Q) /\
    (forall c i, c <> "probability" -> getcell t' c i = getcell t c i) /\ ((0 <= s <= 1)%Q -> prob01 t -> prob01 t').
Proof.
  intros s t W I P. destruct (scale_spec s t W I P) as (t' & E & N & C & Q & G). exists t'. split; [exact E|]. split; [exact N|]. split; [exact C|]. split; [exact Q|]. split; [exact G|].
  intros [S0 S1] PR i Hi. rewrite N in Hi. destruct (PR i Hi) as (q & Eq & Lo & Hi'). exists (s * q)%Q. split; [now apply Q|]. split.
  - now apply Qmult_le_0_compat.
  - apply Qle_trans with (1 * q)%Q; [now apply Qmult_le_compat_r|]. now rewrite Qmult_1_l.
Qed.
Print Assumptions C201_scale.
(** Without probabilities there is an error and the table stays as it is. *)
Theorem C201_scale_missing : forall s t, ~ In "probability"%string (colnames t) -> mirror_scale s t = (t, Some KeyError).
Proof. intros s t N. unfold mirror_scale. destruct (getcol t "probability") eqn:E; [|reflexivity]. exfalso. apply N. exact (getcol_In t _ _ E). Qed.
Print Assumptions C201_scale_missing.
(** other than for the probabilities of optical elements there is no check of the range. *)
Theorem C201_scale_unchecked_refuted : exists s t, wf t /\ prob01 t /\ snd (mirror_scale s t) = None /\ ~ prob01 (fst (mirror_scale s t)).
Proof.
  exists 2%Q, (mkT 1 [("probability", [CNum (Some 1%Q)])]). split; [|split; [|split; [reflexivity|]]].
  - split; [repeat constructor; intros []|]. intros c l H. cbn in H. destruct (String.eqb c "probability"); [|discriminate]. now injection H as <-.
  - intros [|i] H; [|cbn in H; lia]. exists 1%Q. split; [reflexivity|]. split; discriminate.
  - intros H. destruct (H 0%nat) as (q & E & _ & U); [cbn; lia|]. cbn in E. injection E as <-. exact (U eq_refl).
Qed.
Print Assumptions C201_scale_unchecked_refuted.
Open Scope R_scope.
(** The Rowland torus of a configuration: angles are multiples of the blaze angle, the gratings are turned by the blaze angle. *)
Theorem C201_rowland : forall torus turn c af bf bl f, dget "alphafac" c = Some (CR af) -> dget "betafac" c = Some (CR bf) -> dget "blazeang" c = Some (CR bl) -> dget "design_tilted_torus" c = Some (CR f) ->
  exists c', add_rowland_to_conf torus turn c = Ok c' /\ dget "alpha" c' = Some (CR (af * bl)) /\ dget "beta" c' = Some (CR (bf * bl)) /\
    dget "rowland" c' = Some (let '(a, b, p) := torus f (af * bl) (bf * bl) in CTorus a b p) /\ dget "blazemat" c' = Some (CMat (turn (- bl))) /\
    forall k, ~ In k ["alpha"; "beta"; "rowland"; "blazemat"] -> dget k c' = dget k c.
Proof. exact rowland_conf. Qed.
Print Assumptions C201_rowland.
(** A copy with another blaze angle keeps the old torus until the function is called again. *)
Theorem C201_stale_refuted : forall torus turn c af bf bl bl' f, dget "alphafac" c = Some (CR af) -> dget "betafac" c = Some (CR bf) -> dget "blazeang" c = Some (CR bl) -> dget "design_tilted_torus" c = Some (CR f) ->
  af <> 0 -> bl' <> bl -> exists c' c2, add_rowland_to_conf torus turn c = Ok c' /\ let copy := dset "blazeang" (CR bl') c' in
    dget "rowland" copy = dget "rowland" c' /\ dget "alpha" copy <> Some (CR (af * bl')) /\ add_rowland_to_conf torus turn copy = Ok c2 /\ dget "alpha" c2 = Some (CR (af * bl')).
Proof.
  intros torus turn c af bf bl bl' f A B L F Na Nb. destruct (rowland_conf torus turn c af bf bl f A B L F) as (c' & E & A1 & A2 & A3 & A4 & A5).
  destruct (rowland_conf torus turn (dset "blazeang" (CR bl') c') af bf bl' f) as (c2 & E2 & B1 & _); try (rewrite dget_dset_neq by discriminate; rewrite A5; [assumption|cbn; intuition discriminate]); [apply dget_dset_eq|].
  exists c', c2. split; [exact E|]. split; [now rewrite dget_dset_neq|]. split; [|split; assumption]. rewrite dget_dset_neq by discriminate. rewrite A1. intros X. apply Nb. assert (X' : af * bl = af * bl') by congruence. symmetry. now apply Rmult_eq_reg_l with af.
Qed.
Print Assumptions C201_stale_refuted.
Example C201_example : forall torus turn, exists c, axis_conf torus turn = Ok c /\ perfect_axis_elements c true true = Ok ["MetaShellAperture"; "PerfectLensSegment"; "MirrorGeometricScaling"; "RadialMirrorScatter"; "LynxGAS"; "catsupportbars"; "FiltersAndQE"; "RowlandDetArray"; "imaging"; "tagversion"] /\
  axis_aligned c true = Err KeyError /\ axis_aligned (dset "alignmentbudget" (CRows [("RowlandDetArray", Lynx_Model.Global)]) c) true = Ok (axis_elements true false, [("RowlandDetArray", Lynx_Model.Global)]).
Proof.
  intros torus turn. destruct (C201_perfect torus turn true true) as (c & k2 & k3 & E & _ & _ & F & _). exists c. split; [exact E|]. inversion F; subst. split; [assumption|]. split.
  - apply (C201_budget_refuted torus turn). left. exact E.
  - destruct (C201_perfect torus turn true false) as (c' & k2' & k3' & E' & _ & _ & F' & _). rewrite E in E'. injection E' as <-. inversion F'; subst. apply C201_budget; [assumption|]. repeat constructor. discriminate.
Qed.
