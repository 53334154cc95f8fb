(** C226: elements side by side, each photon interacts with one of them.  C227: their order does not matter. *)
From Verif Require Import Mosaic_Model.
From Verif Require Import Base_Proofs Vec_Proofs Coords_Proofs Plane_Proofs Grating_Proofs Instrument_Proofs Instrument_Proofs2 Layers_Proofs Mosaic_Proofs Instrument_Props.
From Verif Require Import Mosaic_Model.
Open Scope R_scope.
Open Scope list_scope.

(** ** C226 *)
(** Elements in one plane without a common point: a photon misses all and nothing changes, or it hits exactly one, whose effect and number it gets. *)
Theorem C226_one_partial : forall l ph n, side_by_side (map (fun x => snd (fst x)) l) ->
  (Forall (fun x => draws_for (snd (fst x)) ph = false) l /\ mosaic l (ph, n) = Ok (ph, n)) \/
  (exists l1 i p dr l2, l = l1 ++ (i, p, dr) :: l2 /\ draws_for p ph = true /\ Forall (fun x => draws_for (snd (fst x)) ph = false) (l1 ++ l2) /\
     mosaic l (ph, n) = bind (one p dr ph) (fun ph' => Ok (ph', i))).
Proof. exact mosaic_one. Qed.
Print Assumptions C226_one_partial.
(** The numbers count from the offset. *)
Theorem C226_number_partial : forall off l k p dr ph n, side_by_side (map fst l) -> nth_error l k = Some (p, dr) -> draws_for p ph = true ->
  mosaic (numbered off l) (ph, n) = bind (one p dr ph) (fun ph' => Ok (ph', (off + Z.of_nat k)%Z)).
Proof. exact mosaic_number. Qed.
Print Assumptions C226_number_partial.
(** Elements with the same axes are side by side if their centers are more than one element apart along one of the sides. *)
Theorem C226_grid : forall m m' dy dz, perpendicular_axes m -> offset m m' dy dz -> 2 < Rabs dy \/ 2 < Rabs dz -> apart m m'.
Proof. exact offset_apart. Qed.
Print Assumptions C226_grid.

(** the four CCDs of the docstring of Parallel *)
Definition ccd (y z : R) : m4 := M4 (V4 5 0 0 0) (V4 0 5 0 0) (V4 0 0 5 0) (V4 0 y z 1).
Lemma ccd_axes y z : perpendicular_axes (ccd y z).
Proof. unfold perpendicular_axes, ccd, affine. cbn. repeat split; try (intros K; injection K; lra); vu; ring. Qed.
Lemma ccd_apart y z y' z' : 10 < Rabs (y' - y) \/ 10 < Rabs (z' - z) -> apart (ccd y z) (ccd y' z').
Proof.
  intros H. apply (C226_grid _ _ ((y' - y) / 5) ((z' - z) / 5)); [apply ccd_axes| |].
  - unfold offset, ccd. cbn. repeat split. vu. cbn. f_equal; field.
  - unfold Rdiv. rewrite !Rabs_mult, (Rabs_pos_eq (/ 5)) by lra. destruct H; [left|right]; lra.
Qed.
Lemma ccd_tile y z : tile (PDetector (ccd y z)).
Proof. exists (ccd y z). split; [|apply ccd_axes]. split; [reflexivity|]. intros m'. discriminate. Qed.
Lemma ccd_beside y z y' z' : 10 < Rabs (y' - y) \/ 10 < Rabs (z' - z) -> beside (PDetector (ccd y z)) (PDetector (ccd y' z')).
Proof. intros H m m' G G'. cbn in G, G'. assert (m = ccd y z) as -> by congruence. assert (m' = ccd y' z') as -> by congruence. now apply ccd_apart. Qed.
Definition four_ccds : list part := map (fun yz => PDetector (ccd (fst yz) (snd yz))) [(- (101 / 10), - (101 / 10)); (1 / 10, - (101 / 10)); (- (101 / 10), 1 / 10); (1 / 10, 1 / 10)].
Example C226_ex_docstring : side_by_side four_ccds.
Proof.
  unfold four_ccds. cbn [map fst snd]. split; [repeat (apply Forall_cons; [apply ccd_tile|]); apply Forall_nil|].
  repeat (apply FOP_cons; [repeat (apply Forall_cons; [apply ccd_beside; try (left; unfold Rabs; destruct (Rcase_abs _); lra); try (right; unfold Rabs; destruct (Rcase_abs _); lra)|]); apply Forall_nil|]). apply FOP_nil.
Qed.
Lemma ccd_meets y z a b pol e f : -5 <= a - y <= 5 -> -5 <= b - z <= 5 -> meets (ccd y z) (ex_photon a b pol e f) = Some (V3 (-1) 0 0, V3 0 a b, (a - y, b - z)).
Proof.
  intros A B. apply meets_iff; [apply ccd_axes|]. split; [reflexivity|]. split; [intros K; vu; cbn in K; lra|]. exists (V3 2 a b), 2, ((a - y) / 5), ((b - z) / 5). split; [reflexivity|]. split; [lra|].
  split; [vu; cbn; f_equal; ring|]. split.
  - unfold in_rectangle, ccd. repeat split; try lra. vu. cbn. f_equal; field.
  - assert (N : forall v, dot3 v v = 5 * 5 -> norm3 v = 5) by (intros v H; unfold norm3; rewrite H; apply sqrt_square; lra). cbn. rewrite !N by (vu; ring). f_equal; field.
Qed.
(** a photon towards the second of them gets number 1 and the position on it *)
Example C226_ex_second : mosaic (numbered 0 (map (fun p => (p, dr0)) four_ccds)) (ex_photon 2 (-7) (V3 0 1 0) 1 1, (-1)%Z) =
  Ok (LPhoton (Some (V3 (-1) 0 0)) (Some (V3 0 2 (-7))) (Some (V3 0 1 0)) 1 (Some 1), 1%Z).
Proof.
  assert (M : meets (ccd (1 / 10) (- (101 / 10))) (ex_photon 2 (-7) (V3 0 1 0) 1 1) = Some (V3 (-1) 0 0, V3 0 2 (-7), (2 - 1 / 10, -7 - - (101 / 10)))) by (apply ccd_meets; lra).
  rewrite (C226_number_partial 0 _ 1 (PDetector (ccd (1 / 10) (- (101 / 10)))) dr0).
  - rewrite (proj2 (proj2 (C210_straight _ (fun _ => 1) dr0 _ _ _ _ 1 M eq_refl))). reflexivity.
  - rewrite map_map. cbn. exact C226_ex_docstring.
  - reflexivity.
  - unfold draws_for, surface. now rewrite M.
Qed.
(** False in general: of two elements one behind the other a photon interacts with both ... *)
Definition behind (x : R) : m4 := M4 (V4 1 0 0 0) (V4 0 1 0 0) (V4 0 0 1 0) (V4 x 0 0 1).
Lemma behind_axes x : perpendicular_axes (behind x).
Proof. unfold perpendicular_axes, behind, affine. cbn. repeat split; try (intros K; injection K; lra); vu; ring. Qed.
Definition at_x (x y : R) (f : R) : lphoton := LPhoton (Some (V3 (-1) 0 0)) (Some (V3 x y 0)) (Some (V3 0 1 0)) 1 (Some f).
Lemma behind_meets x x' y f : x <= x' -> -1 <= y <= 1 -> meets (behind x) (at_x x' y f) = Some (V3 (-1) 0 0, V3 x y 0, (y, 0)).
Proof.
  intros X Y. apply meets_iff; [apply behind_axes|]. split; [reflexivity|]. split; [intros K; vu; cbn in K; lra|]. exists (V3 x' y 0), (x' - x), y, 0. split; [reflexivity|]. split; [lra|].
  split; [vu; cbn; f_equal; ring|]. split.
  - unfold in_rectangle, behind. repeat split; try lra. vu. cbn. f_equal; ring.
  - assert (N : forall v, dot3 v v = 1 -> norm3 v = 1) by (intros v H; now apply norm3_1). cbn. rewrite !N by (vu; ring). f_equal; ring.
Qed.
Lemma behind_no x x' y f : x' < x -> meets (behind x) (at_x x' y f) = None.
Proof.
  intros X. destruct (meets _ _) as [[[d q] loc]|] eqn:M; [|reflexivity]. apply meets_iff in M; [|apply behind_axes]. destruct M as (D & _ & p & k & a & b & P & K & -> & (_ & _ & Q) & _). exfalso.
  cbn in D, P. assert (d = V3 (-1) 0 0) as -> by congruence. assert (p = V3 x' y 0) as -> by congruence. apply (f_equal x3) in Q. vu. cbn in Q. lra.
Qed.
Lemma half_filter m ph d q loc f : meets m ph = Some (d, q, loc) -> l_prob ph = Some f -> one (PFilter m (fun _ => 1 / 2)) dr0 ph = Ok (LPhoton (l_dir ph) (Some q) (l_pol ph) (l_energy ph) (Some (f * (1 / 2)))).
Proof. intros M F. apply (proj1 (C210_straight m (fun _ => 1 / 2) dr0 ph d q loc f M F)). lra. Qed.
Theorem C226_behind_refuted : exists p p' ph, tile p /\ tile p' /\ draws_for p ph = true /\ draws_for p' ph = true /\
  exists ph', mosaic (numbered 0 [(p, dr0); (p', dr0)]) (ph, (-1)%Z) = Ok (ph', 1%Z) /\ l_prob ph = Some 1 /\ l_prob ph' = Some (1 / 4).
Proof.
  exists (PFilter (behind 0) (fun _ => 1 / 2)), (PFilter (behind (-1)) (fun _ => 1 / 2)), (at_x 2 0 1).
  assert (T : forall x, tile (PFilter (behind x) (fun _ => 1 / 2))) by (intros x; exists (behind x); split; [split; [reflexivity|discriminate]|apply behind_axes]).
  assert (M : meets (behind 0) (at_x 2 0 1) = Some (V3 (-1) 0 0, V3 0 0 0, (0, 0))) by (apply behind_meets; lra). assert (M' : meets (behind (-1)) (at_x 2 0 1) = Some (V3 (-1) 0 0, V3 (-1) 0 0, (0, 0))) by (apply behind_meets; lra).
  split; [apply T|]. split; [apply T|]. unfold draws_for, surface. rewrite M, M'. split; [reflexivity|]. split; [reflexivity|].
  assert (M2 : meets (behind (-1)) (at_x 0 0 (1 * (1 / 2))) = Some (V3 (-1) 0 0, V3 (-1) 0 0, (0, 0))) by (apply behind_meets; lra).
  eexists. cbn [numbered combine length seq map fst snd mosaic]. rewrite (half_filter _ _ _ _ _ 1 M eq_refl). cbn [bind]. change (LPhoton (l_dir (at_x 2 0 1)) _ _ _ _) with (at_x 0 0 (1 * (1 / 2))).
  rewrite (half_filter _ _ _ _ _ _ M2 eq_refl). cbn [bind]. unfold draws_for, surface. rewrite M2. cbn. split; [reflexivity|]. split; [reflexivity|]. apply (f_equal Some). field.
Qed.
Print Assumptions C226_behind_refuted.
(** ... and elements without a gap share an edge: photons that hit the edge interact with both. *)
Definition next_to (y : R) : m4 := M4 (V4 1 0 0 0) (V4 0 1 0 0) (V4 0 0 1 0) (V4 0 y 0 1).
Lemma next_axes y : perpendicular_axes (next_to y).
Proof. unfold perpendicular_axes, next_to, affine. cbn. repeat split; try (intros K; injection K; lra); vu; ring. Qed.
Lemma next_meets y0 x y f : 0 <= x -> -1 <= y - y0 <= 1 -> meets (next_to y0) (at_x x y f) = Some (V3 (-1) 0 0, V3 0 y 0, (y - y0, 0)).
Proof.
  intros X Y. apply meets_iff; [apply next_axes|]. split; [reflexivity|]. split; [intros K; vu; cbn in K; lra|]. exists (V3 x y 0), x, (y - y0), 0. split; [reflexivity|]. split; [lra|].
  split; [vu; cbn; f_equal; ring|]. split.
  - unfold in_rectangle, next_to. repeat split; try lra. vu. cbn. f_equal; ring.
  - assert (N : forall v, dot3 v v = 1 -> norm3 v = 1) by (intros v H; now apply norm3_1). cbn. rewrite !N by (vu; ring). f_equal; ring.
Qed.
Theorem C226_edge_refuted : exists p p' ph, tile p /\ tile p' /\ draws_for p ph = true /\ draws_for p' ph = true /\ (exists m m', geometry p = Some m /\ geometry p' = Some m' /\ offset m m' 2 0) /\
  exists ph', mosaic (numbered 0 [(p, dr0); (p', dr0)]) (ph, (-1)%Z) = Ok (ph', 1%Z) /\ l_prob ph = Some 1 /\ l_prob ph' = Some (1 / 4).
Proof.
  exists (PFilter (next_to 0) (fun _ => 1 / 2)), (PFilter (next_to 2) (fun _ => 1 / 2)), (at_x 2 1 1).
  assert (T : forall x, tile (PFilter (next_to x) (fun _ => 1 / 2))) by (intros x; exists (next_to x); split; [split; [reflexivity|discriminate]|apply next_axes]).
  assert (M : meets (next_to 0) (at_x 2 1 1) = Some (V3 (-1) 0 0, V3 0 1 0, (1 - 0, 0))) by (apply next_meets; lra). assert (M' : meets (next_to 2) (at_x 2 1 1) = Some (V3 (-1) 0 0, V3 0 1 0, (1 - 2, 0))) by (apply next_meets; lra).
  split; [apply T|]. split; [apply T|]. unfold draws_for, surface. rewrite M, M'. split; [reflexivity|]. split; [reflexivity|].
  split. { exists (next_to 0), (next_to 2). split; [reflexivity|]. split; [reflexivity|]. unfold offset, next_to. cbn. repeat split. vu. cbn. f_equal; ring. }
  assert (M2 : meets (next_to 2) (at_x 0 1 (1 * (1 / 2))) = Some (V3 (-1) 0 0, V3 0 1 0, (1 - 2, 0))) by (apply next_meets; lra).
  eexists. cbn [numbered combine length seq map fst snd mosaic]. rewrite (half_filter _ _ _ _ _ 1 M eq_refl). cbn [bind]. change (LPhoton (l_dir (at_x 2 1 1)) _ _ _ _) with (at_x 0 1 (1 * (1 / 2))).
  rewrite (half_filter _ _ _ _ _ _ M2 eq_refl). cbn [bind]. unfold draws_for, surface. rewrite M2. cbn. split; [reflexivity|]. split; [reflexivity|]. apply (f_equal Some). field.
Qed.
Print Assumptions C226_edge_refuted.

(** ** C227 *)
(** For a photon the order of elements side by side does not matter ... *)
Theorem C227_photon_partial : forall l l' st, side_by_side (map (fun x => snd (fst x)) l) -> Permutation l l' -> mosaic l st = mosaic l' st.
Proof. exact mosaic_perm. Qed.
Print Assumptions C227_photon_partial.
(** ... nor for a table of photons; each element has the draws for the photons that hit it. *)
Theorem C227_table_partial : forall l l' t, Permutation l l' -> side_by_side (map fst l) -> rectangular t -> Forall (fun x => length (snd x) = hits_of (fst x) (crows t)) l ->
  run (map fst l) (map snd l) t = run (map fst l') (map snd l') t.
Proof. exact tiles_perm. Qed.
Print Assumptions C227_table_partial.
Example C227_ex : exists (l : list (part * list draw)) t, side_by_side (map fst l) /\ rectangular t /\ Forall (fun x => length (snd x) = hits_of (fst x) (crows t)) l /\ length l = 2%nat /\ length (crows t) = 2%nat /\ map (fun x => length (snd x)) l = [1%nat; 1%nat].
Proof.
  pose (a := ex_photon 2 2 (V3 0 1 0) 1 1). pose (b := ex_photon 2 (-7) (V3 0 1 0) 1 1).
  pose (p := PDetector (ccd (1 / 10) (1 / 10))). pose (p' := PDetector (ccd (1 / 10) (- (101 / 10)))).
  assert (B : beside p p') by (apply ccd_beside; right; unfold Rabs; destruct (Rcase_abs _); lra).
  exists [(p, [dr0]); (p', [dr0])], (of_rows [a; b]). cbn [map fst snd]. split.
  { split; [apply Forall_cons; [apply ccd_tile|]; apply Forall_cons; [apply ccd_tile|]; apply Forall_nil|]. apply FOP_cons; [apply Forall_cons; [exact B|apply Forall_nil]|]. apply FOP_cons; [apply Forall_nil|apply FOP_nil]. }
  split; [apply of_rows_rect|]. rewrite rows_of_rows. split; [|repeat split].
  assert (Da : draws_for p a = true) by (unfold draws_for, p, surface; unfold a; now rewrite ccd_meets by lra). assert (Db : draws_for p' b = true) by (unfold draws_for, p', surface; unfold b; now rewrite ccd_meets by lra).
  assert (Da' : draws_for p' a = false) by (apply (beside_before p); [apply ccd_tile|apply ccd_tile|exact B|exact Da]). assert (Db' : draws_for p b = false) by (apply (beside_before p'); [apply ccd_tile|apply ccd_tile|now apply beside_sym|exact Db]).
  apply Forall_cons; [|apply Forall_cons; [|apply Forall_nil]]; unfold hits_of; cbn [fst snd filter length]; rewrite ?Da, ?Db, ?Da', ?Db'; reflexivity.
Qed.
(** False in general: for elements one behind the other the order decides. *)
Theorem C227_order_refuted : exists p p' ph a b, tile p /\ tile p' /\ mosaic [(0%Z, p, dr0); (1%Z, p', dr0)] (ph, (-1)%Z) = Ok (a, 1%Z) /\ mosaic [(1%Z, p', dr0); (0%Z, p, dr0)] (ph, (-1)%Z) = Ok (b, 1%Z) /\
  l_prob a = Some (1 / 4) /\ l_prob b = Some (1 / 2).
Proof.
  assert (T : forall x, tile (PFilter (behind x) (fun _ => 1 / 2))) by (intros x; exists (behind x); split; [split; [reflexivity|discriminate]|apply behind_axes]).
  assert (M : meets (behind 0) (at_x 2 0 1) = Some (V3 (-1) 0 0, V3 0 0 0, (0, 0))) by (apply behind_meets; lra). assert (M' : meets (behind (-1)) (at_x 2 0 1) = Some (V3 (-1) 0 0, V3 (-1) 0 0, (0, 0))) by (apply behind_meets; lra).
  assert (M2 : meets (behind (-1)) (at_x 0 0 (1 * (1 / 2))) = Some (V3 (-1) 0 0, V3 (-1) 0 0, (0, 0))) by (apply behind_meets; lra). assert (M3 : meets (behind 0) (at_x (-1) 0 (1 * (1 / 2))) = None) by (apply behind_no; lra).
  exists (PFilter (behind 0) (fun _ => 1 / 2)), (PFilter (behind (-1)) (fun _ => 1 / 2)), (at_x 2 0 1). eexists. eexists. split; [apply T|]. split; [apply T|]. split; [|split].
  - cbn [mosaic fst snd]. rewrite (half_filter _ _ _ _ _ 1 M eq_refl). cbn [bind]. change (LPhoton (l_dir (at_x 2 0 1)) _ _ _ _) with (at_x 0 0 (1 * (1 / 2))).
    rewrite (half_filter _ _ _ _ _ _ M2 eq_refl). cbn [bind]. unfold draws_for, surface. rewrite M2. cbn. reflexivity.
  - cbn [mosaic fst snd]. rewrite (half_filter _ _ _ _ _ 1 M' eq_refl). cbn [bind]. change (LPhoton (l_dir (at_x 2 0 1)) _ _ _ _) with (at_x (-1) 0 (1 * (1 / 2))).
    rewrite (tile_miss _ dr0 _ (T 0)) by (unfold draws_for, surface; now rewrite M3). cbn [bind]. unfold draws_for, surface. rewrite M3, M'. cbn. reflexivity.
  - cbn. split; apply (f_equal Some); field.
Qed.
Print Assumptions C227_order_refuted.
