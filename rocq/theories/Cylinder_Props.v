(** Property C22: intersection of rays with tubes. *)
From Verif Require Import Vec_Proofs Coords_Proofs Plane_Proofs Angles_Proofs Cylinder_Model Cylinder_Proofs.
Open Scope R_scope.

(** A hit is reported exactly if the ray is not parallel to the axis and, going forward, reaches a point of the tube with an
    allowed height and azimuth. [minv] is the inverse of the position matrix [m]. *)
Theorem C22_hit_iff : forall m minv lim0 lim1 dir pos, mul4 m minv = id4 -> mul4 minv m = id4 -> affine m -> affine minv ->
  exists h ip il, cylinder_intersect m minv lim0 lim1 true (hom dir 0) (hom pos 1) = Ok (h, ip, il) /\
  (h = true <-> (~ exists s, dir = scale3 s (xyz (b2 m))) /\
     exists k u, 0 <= k /\ on_tube lim0 lim1 u /\ app4 m (hom u 1) = hom (add3 pos (scale3 k dir)) 1).
Proof. exact cylinder_hit_iff. Qed.
Print Assumptions C22_hit_iff.
(** The reported position is the first such point; the local coordinates are its azimuth and its height in mm; for a miss nan is
    reported. *)
Theorem C22_values : forall m minv lim0 lim1 dir pos h ip il, mul4 m minv = id4 -> mul4 minv m = id4 -> affine m -> affine minv ->
  cylinder_intersect m minv lim0 lim1 true (hom dir 0) (hom pos 1) = Ok (h, ip, il) ->
  (h = false -> ip = None /\ il = None) /\
  (h = true -> exists k u, 0 <= k /\ on_tube lim0 lim1 u /\ app4 m (hom u 1) = hom (add3 pos (scale3 k dir)) 1 /\
     ip = Some (hom (add3 pos (scale3 k dir)) 1) /\
     (forall l u', 0 <= l -> on_tube lim0 lim1 u' -> app4 m (hom u' 1) = hom (add3 pos (scale3 l dir)) 1 -> k <= l) /\
     (perpendicular_axes m -> exists phi, - PI < phi <= PI /\ x3 u = cos phi /\ y3 u = sin phi /\
        il = Some (phi, z3 u * norm3 (xyz (b2 m))))).
Proof. exact cylinder_values. Qed.
Print Assumptions C22_values.
(** Something that is not a direction is refused. *)
Theorem C22_direction : forall m minv lim0 lim1 t dir pos, w4 dir <> 0 -> cylinder_intersect m minv lim0 lim1 t dir pos = Err ValueError.
Proof. intros m minv lim0 lim1 t dir pos H. unfold cylinder_intersect. now rewrite (proj2 (Reqb_false _ _) H). Qed.
Print Assumptions C22_direction.
(** For a circular cross section the local bases are orthonormal, along the tangent, the axis and the radius. *)
Theorem C22_bases : forall m phi, perpendicular_axes m -> norm3 (xyz (v_x m)) = norm3 (xyz (v_y m)) ->
  exists ep ez en, cylinder_bases m phi = Some (hom ep 0, hom ez 0, hom en 0) /\ orthonormal (M3 ep ez en) /\
    app4 m (V4 (cos phi) (sin phi) 0 0) = hom (scale3 (norm3 (xyz (v_x m))) en) 0 /\
    app4 m (V4 (- sin phi) (cos phi) 0 0) = hom (scale3 (norm3 (xyz (v_x m))) ep) 0 /\
    xyz (v_z m) = scale3 (norm3 (xyz (v_z m))) ez.
Proof. exact cylinder_bases_spec. Qed.
Print Assumptions C22_bases.
(** The drawn surface passes through the point at azimuth phi and height z (in mm) above the center. *)
Theorem C22_surface : forall m phi z, perpendicular_axes m -> exists ez,
  xyz (v_z m) = scale3 (norm3 (xyz (v_z m))) ez /\ dot3 ez ez = 1 /\
  cylinder_surface m phi z = Some (add4 (add4 (add4 (center m) (scale4 (cos phi) (v_x m))) (scale4 (sin phi) (v_y m))) (hom (scale3 z ez) 0)).
Proof. exact cylinder_surface_spec. Qed.
Print Assumptions C22_surface.
(** A tube of radius 2 and height 6: a ray from outside stops at the near wall. *)
Definition tube0 : m4 := M4 (V4 2 0 0 0) (V4 0 2 0 0) (V4 0 0 3 0) (V4 0 0 0 1).
Definition tube0i : m4 := M4 (V4 (/2) 0 0 0) (V4 0 (/2) 0 0) (V4 0 0 (/3) 0) (V4 0 0 0 1).
Lemma tube0_ok : mul4 tube0 tube0i = id4 /\ mul4 tube0i tube0 = id4 /\ affine tube0 /\ affine tube0i /\ perpendicular_axes tube0.
Proof.
  assert (A : affine tube0) by (unfold affine; cbn; auto). repeat split; auto; try (unfold tube0, tube0i, id4; vu; cbn; f_equal; f_equal; field).
  all: cbn; intros H; apply (f_equal (fun v => x3 v + y3 v + z3 v)) in H; cbn in H; lra.
Qed.
Example C22_example : exists ip il, cylinder_intersect tube0 tube0i (- PI) PI true (hom (V3 (-1) 0 0) 0) (hom (V3 10 0 1) 1) = Ok (true, ip, il).
Proof.
  destruct tube0_ok as (I & I' & A & Ai & P).
  destruct (C22_hit_iff tube0 tube0i (- PI) PI (V3 (-1) 0 0) (V3 10 0 1) I I' A Ai) as (h & ip & il & E & H). exists ip, il. rewrite E.
  destruct H as [_ H]. rewrite H; [reflexivity|]. split.
  - intros [s S]. apply (f_equal x3) in S. cbn in S. lra.
  - exists 8, (V3 1 0 (/ 3)). split; [lra|]. split.
    + split; [cbn; ring|]. split; [cbn; lra|]. exists 0. cbn. rewrite cos_0, sin_0. repeat split.
      apply angle_between_full. exists 1%Z. unfold twopi. cbn. ring.
    + apply v4_eq; cbn; lra.
Qed.
