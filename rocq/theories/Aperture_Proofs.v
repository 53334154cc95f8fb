(** Lemmas about [Aperture_Model]. *)
From Verif Require Import Vec_Proofs Coords_Proofs Plane_Proofs Rot_Proofs Sampling_Proofs.
From Verif Require Export Aperture_Model.
Open Scope R_scope.

Lemma place_hom m xy : affine m -> place m xy = hom (add3 (xyz (center m)) (add3 (scale3 (fst xy) (xyz (v_y m))) (scale3 (snd xy) (xyz (v_z m))))) 1.
Proof.
  intros (W0 & W1 & W2 & W3). unfold place, center, v_y, v_z. destruct m as [[? ? ? n0] [? ? ? n1] [? ? ? n2] [? ? ? n3]]. cbn in *. subst.
  apply v4_eq; cbn; ring.
Qed.
Lemma rect_inside m u1 u2 : affine m -> 0 <= u1 < 1 -> 0 <= u2 < 1 ->
  exists a b q, in_rectangle m a b q /\ place m (rect_xy u1 u2) = hom q 1.
Proof.
  intros A U1 U2. rewrite place_hom by exact A. exists (u1 * 2 - 1), (u2 * 2 - 1). eexists. split; [|reflexivity].
  unfold in_rectangle. cbn [rect_xy fst snd]. split; [lra|]. split; [lra|reflexivity].
Qed.
Lemma uniform_between a b u : a <= b -> 0 <= u < 1 -> a <= uniform a b u <= b.
Proof. intros H U. unfold uniform. nra. Qed.
Section Circle.
Variables (m : m4) (phi0 phi1 r_inner u1 u2 : R).
Hypothesis Perp : perpendicular_axes m.
Let r := norm3 (xyz (v_y m)).
Hypothesis Round : norm3 (xyz (v_z m)) = r.
Hypothesis Ri : 0 <= r_inner <= r.
Hypothesis Phi : phi0 <= phi1.
Hypothesis U1 : 0 <= u1 < 1.
Hypothesis U2 : 0 <= u2 < 1.
Lemma norm4_vy : norm4 (v_y m) = r.
Proof. destruct Perp as ((_ & W & _) & _). unfold r, v_y in *. rewrite (hom0 (b1 m) W) at 1. apply norm4_hom0. Qed.
Lemma r_pos : 0 < r.
Proof. destruct Perp as (_ & _ & N & _). now apply norm3_pos. Qed.
Lemma rho_sq : uniform (r_inner / r * (r_inner / r)) 1 u2 * (r * r) = r_inner * r_inner + (r * r - r_inner * r_inner) * u2.
Proof. pose proof r_pos. unfold uniform. field. lra. Qed.
(** radius of the photon in mm *)
Definition rho : R := r * sqrt (uniform (r_inner / r * (r_inner / r)) 1 u2).
Lemma ratio_le : 0 <= r_inner / r * (r_inner / r) <= 1.
Proof.
  pose proof r_pos as P. assert (Q : 0 <= r_inner / r <= 1); [|nra]. assert (0 < / r) by (now apply Rinv_0_lt_compat).
  unfold Rdiv. split; [apply Rmult_le_pos; lra|]. apply (Rmult_le_reg_r r); [exact P|]. rewrite Rmult_assoc, Rinv_l by lra. lra.
Qed.
Lemma rho_rho : rho * rho = r_inner * r_inner + (r * r - r_inner * r_inner) * u2.
Proof.
  pose proof ratio_le. rewrite <- rho_sq. unfold rho. set (q := uniform _ _ _).
  assert (0 <= q) by (pose proof (uniform_between _ 1 u2 (proj2 H) U2) as B; fold q in B; lra).
  transitivity ((sqrt q * sqrt q) * (r * r)); [ring|]. now rewrite sqrt_sqrt.
Qed.
Lemma rho_nonneg : 0 <= rho.
Proof. pose proof r_pos. unfold rho. apply Rmult_le_pos; [lra|apply sqrt_pos]. Qed.
Lemma rho_range : r_inner <= rho <= r.
Proof.
  pose proof rho_rho as E. pose proof rho_nonneg as N. assert (r_inner * r_inner <= r * r) by nra.
  split; [destruct (Rle_lt_dec r_inner rho) as [L|L]; [exact L|exfalso; nra]|destruct (Rle_lt_dec rho r) as [L|L]; [exact L|exfalso; nra]].
Qed.
Lemma circ_place : place m (circ_xy m phi0 phi1 r_inner u1 u2) =
  hom (add3 (xyz (center m)) (scale3 rho (add3 (scale3 (cos (uniform phi0 phi1 u1)) (scale3 (/ r) (xyz (v_y m))))
                                              (scale3 (sin (uniform phi0 phi1 u1)) (scale3 (/ r) (xyz (v_z m))))))) 1.
Proof.
  rewrite place_hom by (apply Perp). unfold circ_xy. cbn [fst snd]. rewrite norm4_vy. f_equal. f_equal. pose proof r_pos.
  unfold rho. generalize (sqrt (uniform (r_inner / r * (r_inner / r)) 1 u2)). intros s.
  generalize (cos (uniform phi0 phi1 u1)) (sin (uniform phi0 phi1 u1)). intros c n.
  assert (G : forall a b, add3 (scale3 (s * c) a) (scale3 (s * n) b) = scale3 (r * s) (add3 (scale3 c (scale3 (/ r) a)) (scale3 n (scale3 (/ r) b)))).
  { intros a b. apply v3_eq; cbn; field; lra. }
  apply G.
Qed.
Lemma circ_unit phi : norm3 (add3 (scale3 (cos phi) (scale3 (/ r) (xyz (v_y m)))) (scale3 (sin phi) (scale3 (/ r) (xyz (v_z m))))) = 1.
Proof.
  apply norm3_1. destruct Perp as (_ & _ & _ & _ & _ & _ & H12). pose proof r_pos.
  rewrite dot3_add_l, !dot3_add_r, !dot3_scale_l, !dot3_scale_r. rewrite (dot3_comm (xyz (v_z m)) (xyz (v_y m))), H12.
  rewrite <- !norm3_sqr, Round. fold r. transitivity (sin phi * sin phi + cos phi * cos phi); [field; lra|apply sc1].
Qed.
End Circle.
Lemma circ_inside m phi0 phi1 r_inner u1 u2 : perpendicular_axes m -> norm3 (xyz (v_z m)) = norm3 (xyz (v_y m)) ->
  0 <= r_inner <= norm3 (xyz (v_y m)) -> phi0 <= phi1 -> 0 <= u1 < 1 -> 0 <= u2 < 1 ->
  exists phi rad d, phi0 <= phi <= phi1 /\ r_inner <= rad <= norm3 (xyz (v_y m)) /\ norm3 d = 1 /\
    scale3 (norm3 (xyz (v_y m))) d = add3 (scale3 (cos phi) (xyz (v_y m))) (scale3 (sin phi) (xyz (v_z m))) /\
    place m (circ_xy m phi0 phi1 r_inner u1 u2) = hom (add3 (xyz (center m)) (scale3 rad d)) 1.
Proof.
  intros P Ro Ri Ph U1 U2. rewrite (circ_place m phi0 phi1 r_inner u1 u2 P). pose proof (r_pos m P) as RP.
  exists (uniform phi0 phi1 u1), (rho m r_inner u2). eexists. split; [now apply uniform_between|]. split; [now apply rho_range|].
  rewrite <- !and_assoc. split; [|reflexivity]. split; [now apply circ_unit|].
  set (r := norm3 (xyz (v_y m))) in *. set (a := xyz (v_y m)). set (b := xyz (v_z m)).
  generalize (cos (uniform phi0 phi1 u1)) (sin (uniform phi0 phi1 u1)). intros c n. clearbody r a b. clear - RP. apply v3_eq; cbn; field; lra.
Qed.
(** the share of the draws that end inside of radius [s] is the share of the area *)
Lemma circ_uniform m r_inner u2 s : perpendicular_axes m -> 0 <= r_inner < norm3 (xyz (v_y m)) -> 0 <= u2 < 1 -> 0 <= s ->
  (rho m r_inner u2 <= s <->
   u2 <= (s * s - r_inner * r_inner) / (norm3 (xyz (v_y m)) * norm3 (xyz (v_y m)) - r_inner * r_inner)).
Proof.
  intros P Ri U2 S. pose proof (r_pos m P) as RP. assert (Ri' : 0 <= r_inner <= norm3 (xyz (v_y m))) by lra.
  pose proof (rho_rho m r_inner u2 P Ri' U2) as E. pose proof (rho_nonneg m r_inner u2 P) as N.
  set (r := norm3 (xyz (v_y m))) in *. set (q := rho m r_inner u2) in *. assert (D : 0 < r * r - r_inner * r_inner) by nra.
  assert (G : u2 <= (s * s - r_inner * r_inner) / (r * r - r_inner * r_inner) <-> (r * r - r_inner * r_inner) * u2 <= s * s - r_inner * r_inner).
  { split; intros H.
    - apply (Rmult_le_compat_l (r * r - r_inner * r_inner)) in H; [|lra].
      replace ((r * r - r_inner * r_inner) * ((s * s - r_inner * r_inner) / (r * r - r_inner * r_inner))) with (s * s - r_inner * r_inner) in H by (field; lra). exact H.
    - apply (Rmult_le_reg_l (r * r - r_inner * r_inner)); [exact D|].
      replace ((r * r - r_inner * r_inner) * ((s * s - r_inner * r_inner) / (r * r - r_inner * r_inner))) with (s * s - r_inner * r_inner) by (field; lra). exact H. }
  rewrite G. split; intros H; [nra|]. destruct (Rle_lt_dec q s) as [L|L]; [exact L|exfalso; nra].
Qed.
Lemma circ_even m phi0 phi1 r_inner u1 u2 s : perpendicular_axes m -> norm3 (xyz (v_z m)) = norm3 (xyz (v_y m)) ->
  0 <= r_inner < norm3 (xyz (v_y m)) -> phi0 <= phi1 -> 0 <= u1 < 1 -> 0 <= u2 < 1 -> 0 <= s ->
  exists q, place m (circ_xy m phi0 phi1 r_inner u1 u2) = hom q 1 /\
  (norm3 (sub3 q (xyz (center m))) <= s <->
   u2 <= (s * s - r_inner * r_inner) / (norm3 (xyz (v_y m)) * norm3 (xyz (v_y m)) - r_inner * r_inner)).
Proof.
  intros P Ro Ri Ph U1 U2 S. rewrite (circ_place m phi0 phi1 r_inner u1 u2 P). eexists. split; [reflexivity|].
  rewrite <- (circ_uniform m r_inner u2 s P Ri U2 S).
  assert (G : forall a b, sub3 (add3 a b) a = b) by (clear; vring). rewrite G, norm3_scale, (circ_unit m P Ro), Rmult_1_r.
  rewrite Rabs_pos_eq by (now apply rho_nonneg). reflexivity.
Qed.
Lemma clip_range x a b : a <= b -> a <= clip x a b <= b.
Proof. intros H. unfold clip, Rmin, Rmax. destruct (Rle_dec x a); destruct (Rle_dec _ b); lra. Qed.
Lemma clip_inside x a b : a <= x <= b -> clip x a b = x.
Proof. intros H. unfold clip, Rmin, Rmax. destruct (Rle_dec x a); destruct (Rle_dec _ b); lra. Qed.
Lemma projected_spec m d : perpendicular_axes m -> exists p, projected m (hom d 0) = Some p /\ 0 <= p <= 1 /\
  (norm3 d = 1 -> dot3 d (xyz (v_x m)) <= 0 -> p * norm3 (xyz (v_x m)) = - dot3 d (xyz (v_x m))) /\
  (0 <= dot3 d (xyz (v_x m)) -> p = 0).
Proof.
  intros ((W & _) & N & _). unfold projected. unfold v_x in *. rewrite (unit4_hom0 (b0 m) W N). eexists. split; [reflexivity|].
  pose proof (norm3_pos _ N) as P. split; [apply clip_range; lra|]. set (n := norm3 (xyz (b0 m))) in *. set (v := xyz (b0 m)) in *.
  assert (E : dot4 (hom d 0) (scale4 (-1) (hom (scale3 (/ n) v) 0)) = - (dot3 d v / n)) by (clearbody n v; clear; destruct d, v; cbv; ring || (cbn; field)).
  rewrite E. assert (I : 0 < / n) by (now apply Rinv_0_lt_compat). split.
  - intros U L. rewrite clip_inside; [field; lra|]. split.
    + unfold Rdiv. nra.
    + pose proof (cauchy d v) as C. rewrite <- (norm3_sqr d), U in C. rewrite <- (norm3_sqr v) in C. fold n in C.
      assert (- dot3 d v <= n) by nra. apply (Rmult_le_reg_r n); [exact P|]. unfold Rdiv. replace (- (dot3 d v * / n) * n) with (- dot3 d v) by (field; lra). lra.
  - intros L. unfold clip. rewrite Rmax_right; [apply Rmin_left; lra|]. unfold Rdiv. nra.
Qed.
Lemma rect_area_cross m : perpendicular_axes m -> rect_area m = norm3 (cross3 (scale3 2 (xyz (v_y m))) (scale3 2 (xyz (v_z m)))).
Proof.
  intros ((W0 & W1 & W2 & W3) & _ & N1 & N2 & _ & _ & H). unfold rect_area, v_y, v_z in *. rewrite (hom0 (b1 m) W1) at 1. rewrite (hom0 (b2 m) W2) at 1.
  rewrite !norm4_hom0. set (p := xyz (b1 m)) in *. set (q := xyz (b2 m)) in *.
  assert (E : dot3 (cross3 (scale3 2 p) (scale3 2 q)) (cross3 (scale3 2 p) (scale3 2 q)) = (4 * norm3 p * norm3 q) * (4 * norm3 p * norm3 q)).
  { rewrite lagrange, !dot3_scale_l, !dot3_scale_r, H. transitivity (16 * (norm3 p * norm3 p) * (norm3 q * norm3 q)); [|ring]. rewrite !norm3_sqr. ring. }
  unfold norm3 at 3. rewrite E. rewrite sqrt_square; [reflexivity|]. pose proof (norm3_nonneg p). pose proof (norm3_nonneg q). apply Rmult_le_pos; [nra|assumption].
Qed.

(** ** MultiAperture *)
Lemma multi_id_iff areas u j : nonneg areas -> 0 < Rsum areas -> 0 <= u < 1 ->
  (multi_id areas u = j <-> (j < length areas)%nat /\
     psum areas j / Rsum areas <= u < psum areas j / Rsum areas + nth j areas 0 / Rsum areas).
Proof. intros. unfold multi_id, multi_area. now apply normalized_iff. Qed.
Section MultiP.
Context {P : Type}.
Lemma multi_loop_length offset pre post elems : forall i ids (ph : list P), (forall s, In s (pre ++ post) -> forall l, length (s l) = length l) ->
  length ids = length ph -> length (multi_loop offset pre post i elems ids ph) = length ph.
Proof.
  intros i ids ph H. revert i ph.
  assert (A : forall steps, (forall s, In s steps -> forall l : list P, length (s l) = length l) -> forall ph, length (apply_steps steps ph) = length ph).
  { induction steps as [|s steps IH]; intros G ph; [reflexivity|]. cbn. unfold apply_steps in IH. rewrite IH; [apply G; now left|]. intros t T. apply G. now right. }
  induction elems as [|e rest IH]; intros i ph L; [reflexivity|]. cbn [multi_loop].
  assert (L1 : length (apply_steps pre ph) = length ph) by (apply A; intros s S; apply H; apply in_or_app; now left).
  assert (L2 : length (process_selected (e (offset + Z.of_nat i)%Z) i ids (apply_steps pre ph)) = length ph).
  { unfold process_selected. rewrite map_length, combine_length. lia. }
  assert (L3 : length (apply_steps post (process_selected (e (offset + Z.of_nat i)%Z) i ids (apply_steps pre ph))) = length ph).
  { rewrite A; [exact L2|]. intros s S. apply H. apply in_or_app. now right. }
  rewrite IH by lia. exact L3.
Qed.
(** without steps every photon is treated by its own aperture, once *)
Lemma multi_loop_nosteps offset elems : forall i ids (ph : list P) k p id, length ids = length ph ->
  nth_error ph k = Some p -> nth_error ids k = Some id ->
  nth_error (multi_loop offset [] [] i elems ids ph) k =
    Some (if Nat.leb i id then match nth_error elems (id - i) with Some e => e (offset + Z.of_nat id)%Z p | None => p end else p).
Proof.
  induction elems as [|e rest IH]; intros i ids ph k p id L Pk Ik.
  - cbn [multi_loop]. rewrite Pk. destruct (Nat.leb i id); [|reflexivity]. now destruct (id - i)%nat.
  - cbn [multi_loop apply_steps fold_left].
    assert (PS : nth_error (process_selected (e (offset + Z.of_nat i)%Z) i ids ph) k = Some (if Nat.eqb id i then e (offset + Z.of_nat i)%Z p else p)).
    { unfold process_selected. rewrite nth_error_map.
      assert (C : nth_error (combine ids ph) k = Some (id, p)).
      { clear - Pk Ik. revert ids ph Pk Ik. induction k as [|k IH]; intros [|a ids] [|b ph]; cbn; try discriminate; [congruence|]. apply IH. }
      rewrite C. reflexivity. }
    rewrite (IH (S i) ids _ k _ id) with (2 := PS) (3 := Ik).
    2:{ unfold process_selected. rewrite map_length, combine_length. lia. }
    destruct (Nat.eqb id i) eqn:E.
    + apply Nat.eqb_eq in E. subst id. rewrite (proj2 (Nat.leb_gt (S i) i)) by lia. rewrite Nat.leb_refl, Nat.sub_diag. reflexivity.
    + apply Nat.eqb_neq in E. destruct (Nat.leb i id) eqn:B.
      * apply Nat.leb_le in B. rewrite (proj2 (Nat.leb_le (S i) id)) by lia. replace (id - i)%nat with (S (id - S i)) by lia. reflexivity.
      * apply Nat.leb_gt in B. rewrite (proj2 (Nat.leb_gt (S i) id)) by lia. reflexivity.
Qed.
Lemma nth_error_selected (e : P -> P) i ids (ph : list P) k p id : nth_error ph k = Some p -> nth_error ids k = Some id ->
  nth_error (process_selected e i ids ph) k = Some (if Nat.eqb id i then e p else p).
Proof.
  intros Pk Ik. unfold process_selected. rewrite nth_error_map.
  assert (C : nth_error (combine ids ph) k = Some (id, p)).
  { revert ids ph Pk Ik. induction k as [|k IH]; intros [|a ids] [|b ph]; cbn; try discriminate; [congruence|]. apply IH. }
  rewrite C. reflexivity.
Qed.
Lemma iter_comm (h : P -> P) n p : Nat.iter n h (h p) = h (Nat.iter n h p).
Proof. induction n as [|n IH]; [reflexivity|]. apply (f_equal h) in IH. exact IH. Qed.
Lemma multi_loop_after offset (f g : P -> P) elems : forall i ids (ph : list P) k p id, length ids = length ph ->
  nth_error ph k = Some p -> nth_error ids k = Some id -> (id < i)%nat ->
  nth_error (multi_loop offset [map f] [map g] i elems ids ph) k = Some (Nat.iter (length elems) (fun q => g (f q)) p).
Proof.
  induction elems as [|e rest IH]; intros i ids ph k p id L Pk Ik B; [exact Pk|]. cbn [multi_loop apply_steps fold_left length].
  rewrite (IH (S i) ids _ k (g (f p)) id); [f_equal; apply (iter_comm (fun q => g (f q)))| | |exact Ik|lia].
  - unfold process_selected. rewrite map_length, map_length, combine_length, map_length. lia.
  - rewrite nth_error_map, (nth_error_selected _ i ids _ k (f p) id); [|rewrite nth_error_map, Pk; reflexivity|exact Ik].
    rewrite (proj2 (Nat.eqb_neq id i)) by lia. reflexivity.
Qed.
Lemma multi_loop_before offset (f g : P -> P) elems : forall i ids (ph : list P) k p id e, length ids = length ph ->
  nth_error ph k = Some p -> nth_error ids k = Some id -> (i <= id)%nat -> nth_error elems (id - i) = Some e ->
  nth_error (multi_loop offset [map f] [map g] i elems ids ph) k =
  Some (Nat.iter (length elems - S (id - i)) (fun q => g (f q)) (g (e (offset + Z.of_nat id)%Z (f (Nat.iter (id - i) (fun q => g (f q)) p))))).
Proof.
  induction elems as [|e' rest IH]; intros i ids ph k p id e L Pk Ik B E; [now destruct (id - i)%nat|]. cbn [multi_loop apply_steps fold_left].
  assert (L' : forall h, length ids = length (map g (process_selected h i ids (map f ph)))).
  { intros h. unfold process_selected. rewrite map_length, map_length, combine_length, map_length. lia. }
  destruct (Nat.eq_dec id i) as [->|N].
  - rewrite Nat.sub_diag in *. cbn [nth_error] in E. injection E as ->.
    rewrite (multi_loop_after offset f g rest (S i) ids _ k (g (e (offset + Z.of_nat i)%Z (f p))) i); [|apply L'| |exact Ik|lia].
    + cbn [length Nat.iter]. now replace (S (length rest) - 1)%nat with (length rest) by lia.
    + rewrite nth_error_map, (nth_error_selected _ i ids _ k (f p) i); [|rewrite nth_error_map, Pk; reflexivity|exact Ik]. now rewrite Nat.eqb_refl.
  - assert (D : (id - i = S (id - S i))%nat) by lia. rewrite D in E |- *. cbn [nth_error] in E.
    rewrite (IH (S i) ids _ k (g (f p)) id e); [|apply L'| |exact Ik|lia|exact E].
    + cbn [length Nat.sub]. do 4 f_equal. f_equal. apply (iter_comm (fun q => g (f q))).
    + rewrite nth_error_map, (nth_error_selected _ i ids _ k (f p) id); [|rewrite nth_error_map, Pk; reflexivity|exact Ik].
      rewrite (proj2 (Nat.eqb_neq id i)) by lia. reflexivity.
Qed.
Lemma multi_loop_steps offset (f g : P -> P) elems ids ph k p id e : length ids = length ph ->
  nth_error ph k = Some p -> nth_error ids k = Some id -> nth_error elems id = Some e ->
  nth_error (multi_call offset [map f] [map g] elems ids ph) k =
  Some (Nat.iter (length elems - S id) (fun q => g (f q)) (g (e (offset + Z.of_nat id)%Z (f (Nat.iter id (fun q => g (f q)) p))))).
Proof.
  intros L Pk Ik E. unfold multi_call. rewrite (multi_loop_before offset f g elems 0 ids ph k p id e L Pk Ik); [now rewrite Nat.sub_0_r|lia|now rewrite Nat.sub_0_r].
Qed.
End MultiP.
