(** Properties C33, C34 and C77: apertures. *)
From Verif Require Import Vec_Proofs Plane_Proofs Sampling_Proofs Aperture_Model Aperture_Proofs.
Open Scope R_scope.

(** ** C33: a draw selects exactly one aperture; the draws for one aperture form an interval of the length area / total area *)
Theorem C33_share : forall areas u j, nonneg areas -> 0 < Rsum areas -> 0 <= u < 1 ->
  (multi_id areas u = j <-> (j < length areas)%nat /\
     psum areas j / Rsum areas <= u < psum areas j / Rsum areas + nth j areas 0 / Rsum areas).
Proof. exact multi_id_iff. Qed.
Print Assumptions C33_share.
(** After any shuffle photon [k] has the number that belongs to one of the draws. *)
Theorem C33_shuffled : forall areas us perm k d, nonneg areas -> 0 < Rsum areas -> (forall u, In u us -> 0 <= u < 1) ->
  nth_error perm k = Some d -> (d < length us)%nat ->
  exists id, nth_error (multi_ids areas us perm) k = Some id /\ (id < length areas)%nat /\ 0 < nth id areas 0 /\
    psum areas id / Rsum areas <= nth d us 0 < psum areas id / Rsum areas + nth id areas 0 / Rsum areas.
Proof.
  intros areas us perm k d N S U K D. exists (multi_id areas (nth d us 0)).
  assert (V : 0 <= nth d us 0 < 1) by (apply U; now apply nth_In).
  destruct (proj1 (multi_id_iff areas _ _ N S V) eq_refl) as [L I].
  split; [unfold multi_ids; rewrite nth_error_map, K; cbn; f_equal; rewrite (nth_map_lt _ _ d 0) by exact D; reflexivity|].
  split; [exact L|]. split; [|exact I]. set (a := nth _ areas 0) in *.
  assert (Q : 0 < a / Rsum areas) by lra. apply (Rmult_lt_compat_r (Rsum areas)) in Q; [|exact S].
  unfold Rdiv in Q. rewrite Rmult_assoc, Rinv_l, Rmult_1_r, Rmult_0_l in Q; lra.
Qed.
Print Assumptions C33_shuffled.
(** Each photon is handled by the aperture with its number, by no other one, and that aperture writes its own number. *)
Theorem C33_one_aperture : forall (P : Type) offset elems ids (ph : list P) k p id e, length ids = length ph ->
  nth_error ph k = Some p -> nth_error ids k = Some id -> nth_error elems id = Some e ->
  nth_error (multi_call offset [] [] elems ids ph) k = Some (e (offset + Z.of_nat id)%Z p).
Proof.
  intros P offset elems ids ph k p id e L Pk Ik E. unfold multi_call. rewrite (multi_loop_nosteps offset elems 0 ids ph k p id L Pk Ik).
  cbn [Nat.leb]. rewrite Nat.sub_0_r, E. reflexivity.
Qed.
Print Assumptions C33_one_aperture.
Theorem C33_number_of_photons : forall (P : Type) offset pre post elems ids (ph : list P),
  (forall s, In s (pre ++ post) -> forall l, length (s l) = length l) -> length ids = length ph ->
  length (multi_call offset pre post elems ids ph) = length ph.
Proof. intros P offset pre post elems ids ph H L. now apply multi_loop_length. Qed.
Print Assumptions C33_number_of_photons.
Theorem C33_area : forall areas, multi_area areas = psum areas (length areas).
Proof. intros areas. symmetry. apply psum_all. Qed.
Print Assumptions C33_area.
(** Two apertures of 1 and 3 square mm: a draw of 0.5 goes to the second. *)
Example C33_example : multi_id [1; 3] (1 / 2) = 1%nat /\
  multi_call 10 [] [] [(fun i p => (i, snd p)); (fun i p => (i, snd p))] [1; 0]%nat [(0%Z, true); (0%Z, false)] = [(11%Z, true); (10%Z, false)].
Proof.
  split; [|reflexivity]. apply C33_share; [intros v [<-|[<-|[]]]; lra|cbn; lra|lra|]. split; [cbn; lia|]. unfold psum. cbn. lra.
Qed.

(** ** C77: the steps around each aperture should only see the photons of this aperture, but they are run on all photons: with two
    apertures a step that counts how often a photon was seen counts 2 for every photon instead of 1. *)
Theorem C77_steps_refuted : let step := map S in
  multi_call 0 [step] [] [(fun _ p => p); (fun _ p => p)] [0; 1]%nat [0; 0]%nat = [2; 2]%nat /\ [2; 2]%nat <> [1; 1]%nat.
Proof. split; [reflexivity|discriminate]. Qed.
Print Assumptions C77_steps_refuted.
(** What does hold: with steps that treat each photon on its own, every photon goes through all steps once per aperture, around the one
    pass through its own aperture. *)
Theorem C77_steps_partial : forall (P : Type) offset (f g : P -> P) elems ids ph k p id e, length ids = length ph ->
  nth_error ph k = Some p -> nth_error ids k = Some id -> nth_error elems id = Some e ->
  nth_error (multi_call offset [map f] [map g] elems ids ph) k =
  Some (Nat.iter (length elems - S id) (fun q => g (f q)) (g (e (offset + Z.of_nat id)%Z (f (Nat.iter id (fun q => g (f q)) p))))).
Proof. exact @multi_loop_steps. Qed.
Print Assumptions C77_steps_partial.
Example C77_example : multi_call 0 [map S] [] [(fun _ x => x + 10); (fun _ x => x + 20)]%nat [1]%nat [0]%nat = [22]%nat.
Proof. reflexivity. Qed.

(** ** C34: rectangles *)
Theorem C34_rectangle : forall m u1 u2, affine m -> 0 <= u1 < 1 -> 0 <= u2 < 1 ->
  exists a b q, in_rectangle m a b q /\ place m (rect_xy u1 u2) = hom q 1.
Proof. exact rect_inside. Qed.
Print Assumptions C34_rectangle.
Theorem C34_rectangle_area : forall m, perpendicular_axes m -> rect_area m = norm3 (cross3 (scale3 2 (xyz (v_y m))) (scale3 2 (xyz (v_z m)))).
Proof. exact rect_area_cross. Qed.
Print Assumptions C34_rectangle_area.
(** Circles, rings and segments: the photon is at a distance between inner and outer radius from the center, in a direction of the plane
    whose azimuth is in the range. *)
Theorem C34_circle : forall m phi0 phi1 r_inner u1 u2, perpendicular_axes m -> norm3 (xyz (v_z m)) = norm3 (xyz (v_y m)) ->
  0 <= r_inner <= norm3 (xyz (v_y m)) -> phi0 <= phi1 -> 0 <= u1 < 1 -> 0 <= u2 < 1 ->
  exists phi rad d, phi0 <= phi <= phi1 /\ r_inner <= rad <= norm3 (xyz (v_y m)) /\ norm3 d = 1 /\
    scale3 (norm3 (xyz (v_y m))) d = add3 (scale3 (cos phi) (xyz (v_y m))) (scale3 (sin phi) (xyz (v_z m))) /\
    place m (circ_xy m phi0 phi1 r_inner u1 u2) = hom (add3 (xyz (center m)) (scale3 rad d)) 1.
Proof. exact circ_inside. Qed.
Print Assumptions C34_circle.
(** The photons are spread evenly: the share of the draws that end within radius [s] is the share of the ring's area within [s]. *)
Theorem C34_circle_even : forall m phi0 phi1 r_inner u1 u2 s, perpendicular_axes m -> norm3 (xyz (v_z m)) = norm3 (xyz (v_y m)) ->
  0 <= r_inner < norm3 (xyz (v_y m)) -> phi0 <= phi1 -> 0 <= u1 < 1 -> 0 <= u2 < 1 -> 0 <= s ->
  exists q, place m (circ_xy m phi0 phi1 r_inner u1 u2) = hom q 1 /\
  (norm3 (sub3 q (xyz (center m))) <= s <->
   u2 <= (s * s - r_inner * r_inner) / (norm3 (xyz (v_y m)) * norm3 (xyz (v_y m)) - r_inner * r_inner)).
Proof. exact circ_even. Qed.
Print Assumptions C34_circle_even.
(** What the constructor checks *)
Theorem C34_circle_checked : forall m phi0 phi1 r_inner, circ_init m phi0 phi1 r_inner = Ok tt ->
  phi0 <= phi1 <= phi0 + 2 * PI + / 1000000 /\ r_inner <= norm4 (v_y m) /\ isclose (norm4 (v_y m)) (norm4 (v_z m)) = true.
Proof.
  intros m phi0 phi1 r_inner. unfold circ_init. destruct (Rltb 10 _); [discriminate|]. destruct (Rltb phi1 phi0) eqn:A; [discriminate|].
  destruct (Rltb _ (phi1 - phi0)) eqn:B; [discriminate|]. destruct (Rltb (norm4 (v_y m)) r_inner) eqn:C; [discriminate|].
  destruct (isclose _ _) eqn:D; [|discriminate]. intros _. apply Rltb_false in A. apply Rltb_false in B. apply Rltb_false in C. repeat split; lra.
Qed.
Print Assumptions C34_circle_checked.
(** The probability is reduced by the projection factor, which is between 0 and 1, for a photon from the front it is the cosine of the
    angle, for a photon from behind 0. *)
Theorem C34_projection : forall m d, perpendicular_axes m -> exists p, projected m (hom d 0) = Some p /\ 0 <= p <= 1 /\
  (norm3 d = 1 -> dot3 d (xyz (v_x m)) <= 0 -> p * norm3 (xyz (v_x m)) = - dot3 d (xyz (v_x m))) /\
  (0 <= dot3 d (xyz (v_x m)) -> p = 0).
Proof. exact projected_spec. Qed.
Print Assumptions C34_projection.
(** A ring with outer radius 5 (built from the vectors 3, 4 and -4, 3), all hypotheses hold. *)
Definition ring0 : m4 := M4 (V4 0 0 1 0) (V4 3 4 0 0) (V4 (-4) 3 0 0) (V4 7 8 9 1).
Example C34_example : perpendicular_axes ring0 /\ norm3 (xyz (v_z ring0)) = norm3 (xyz (v_y ring0)) /\ norm3 (xyz (v_y ring0)) = 5.
Proof.
  assert (E : norm3 (xyz (v_y ring0)) = 5) by (unfold norm3; vu; cbn; replace (3 * 3 + 4 * 4 + 0 * 0) with (5 * 5) by ring; apply sqrt_square; lra).
  split; [|split; [|exact E]].
  - unfold perpendicular_axes, affine. cbn. repeat split; try (intros H; apply (f_equal (fun v => x3 v + y3 v + z3 v)) in H; cbn in H; lra); vu; ring.
  - rewrite E. unfold norm3. vu. cbn. replace (-4 * -4 + 3 * 3 + 0 * 0) with (5 * 5) by ring. apply sqrt_square; lra.
Qed.
(** The area of a segment of a ring is its angle times the integral of the radius: the whole disk has pi r^2, a hole is taken out, and segments add up. *)
Theorem C34_circle_area : forall m phi0 phi1 phi2 r_inner, perpendicular_axes m -> let r := norm3 (xyz (v_y m)) in
  circ_area m 0 (2 * PI) 0 = PI * r ^ 2 /\
  circ_area m 0 (2 * PI) r_inner = PI * r ^ 2 - PI * r_inner ^ 2 /\
  circ_area m phi0 phi1 r_inner + circ_area m phi1 phi2 r_inner = circ_area m phi0 phi2 r_inner /\
  circ_area m phi0 phi1 r_inner = (phi1 - phi0) * (r ^ 2 - r_inner ^ 2) / 2.
Proof.
  intros m phi0 phi1 phi2 ri (A & _) r. assert (E : norm4 (v_y m) = r).
  { unfold r. unfold affine in A. unfold norm4, norm3, v_y. f_equal. destruct m as [? [? ? ? w] ? ?]. cbn in A |- *. destruct A as (? & ? & ?).
    vu. cbn. nra. }
  unfold circ_area. rewrite E. pose proof PI_RGT_0. repeat split; field; lra.
Qed.
Print Assumptions C34_circle_area.
