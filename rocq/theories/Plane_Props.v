(** Property C21: intersection of rays with flat elements. *)
From Verif Require Import Vec_Proofs Coords_Proofs Plane_Model Plane_Proofs.
Open Scope R_scope.

(** A hit is reported exactly if the ray, going forward, reaches a point of the rectangle. *)
Theorem C21_hit_iff : forall m d p, perpendicular_axes m ->
  (fst (fst (plane_intersect m (hom d 0) (hom p 1))) = true <->
   dot3 d (xyz (v_x m)) <> 0 /\ exists k a b, 0 <= k /\ in_rectangle m a b (add3 p (scale3 k d))).
Proof. exact plane_hit_iff. Qed.
Print Assumptions C21_hit_iff.
(** The reported position is that point, the local coordinates are its coordinates in mm along the two axes; for a miss
    nan is reported. *)
Theorem C21_values : forall m d p h ip il, perpendicular_axes m -> plane_intersect m (hom d 0) (hom p 1) = (h, ip, il) ->
  (h = false -> ip = None /\ il = None) /\
  (h = true -> exists k a b q, 0 <= k /\ in_rectangle m a b q /\ q = add3 p (scale3 k d) /\ ip = Some (hom q 1) /\
     il = Some (a * norm3 (xyz (v_y m)), b * norm3 (xyz (v_z m)))).
Proof. exact plane_hit_values. Qed.
Print Assumptions C21_values.
(** The local bases are orthonormal and along the axes of the element. *)
Theorem C21_bases : forall m, perpendicular_axes m -> exists ey ez ex, plane_bases m = Some (ey, ez, ex) /\
  orthonormal (M3 (xyz ex) (xyz ey) (xyz ez)) /\ w4 ex = 0 /\ w4 ey = 0 /\ w4 ez = 0 /\
  xyz (v_x m) = scale3 (norm3 (xyz (v_x m))) (xyz ex) /\ xyz (v_y m) = scale3 (norm3 (xyz (v_y m))) (xyz ey) /\
  xyz (v_z m) = scale3 (norm3 (xyz (v_z m))) (xyz ez).
Proof. exact plane_bases_spec. Qed.
Print Assumptions C21_bases.
(** A rectangle of 2 x 2 cells centered at (5, 0, 0), tilted; a ray through its center hits. *)
Definition plane0 : m4 := M4 (V4 1 1 0 0) (V4 (-3) 3 0 0) (V4 0 0 4 0) (V4 5 0 0 1).
Example C21_example : perpendicular_axes plane0 /\ fst (fst (plane_intersect plane0 (hom (V3 1 0 0) 0) (hom (V3 0 1 2) 1))) = true.
Proof.
  assert (P : perpendicular_axes plane0).
  { unfold perpendicular_axes, affine. cbn. repeat split; try (intros H; apply (f_equal y3) in H; cbn in H; lra);
    try (intros H; apply (f_equal z3) in H; cbn in H; lra); vu; ring. }
  split; [exact P|]. apply C21_hit_iff; [exact P|]. split; [vu; cbn; lra|].
  exists 4, (1 / 3), (1 / 2). split; [lra|]. unfold in_rectangle. split; [lra|]. split; [lra|].
  apply v3_eq; cbn; lra.
Qed.
