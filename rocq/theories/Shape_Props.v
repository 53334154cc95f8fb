(** Properties C170 and C171: drawing of apertures, attributes of geometries. *)
From Verif Require Import Shape_Proofs Base_Proofs Vec_Proofs Angles_Proofs Plane_Proofs Placement_Proofs Viz_Proofs Aperture_Proofs.
Open Scope R_scope.

(** ** C170: outlines *)
Theorem C170_square : forall m f, affine m -> let y := xyz (v_y m) in let z := xyz (v_z m) in
  xyz_square m f = Ok [add3 (tra m) (scale3 f (add3 y z)); add3 (tra m) (scale3 f (sub3 z y)); sub3 (tra m) (scale3 f (add3 y z)); add3 (tra m) (scale3 f (sub3 y z))].
Proof. exact square_spec. Qed.
Print Assumptions C170_square.
(** The vertices start at the angle pi / 2 and go once around; those in the wedge are on the rim, all others at the center. *)
Theorem C170_circle : forall m f phi0 phi1 n, affine m -> phi0 <= phi1 <= phi0 + twopi -> exists l, xyz_circle m f phi0 phi1 n = Ok l /\ List.length l = n /\
  forall k, (k < n)%nat -> let phi := PI / 2 + INR k * (twopi / INR n) in
    (in_wedge phi0 phi1 phi -> nth_error l k = Some (rim m f phi)) /\ (~ in_wedge phi0 phi1 phi -> nth_error l k = Some (tra m)).
Proof. exact circle_spec. Qed.
Print Assumptions C170_circle.
(** For a round hole the outer outline has the radius of the element, the inner one [r_inner]. *)
Theorem C170_ring : forall m phi0 phi1 r_inner n, perpendicular_axes m -> norm3 (xyz (v_z m)) = norm3 (xyz (v_y m)) -> 0 <= r_inner -> phi0 <= phi1 <= phi0 + twopi ->
  exists lo li, outer_shape (Circ phi0 phi1) m n = Ok lo /\ inner_shape (Circ phi0 phi1) m r_inner n = Ok li /\
  forall k, (k < n)%nat -> in_wedge phi0 phi1 (PI / 2 + INR k * (twopi / INR n)) -> exists po pi,
    nth_error lo k = Some po /\ nth_error li k = Some pi /\ norm3 (sub3 po (tra m)) = norm3 (xyz (v_y m)) /\ norm3 (sub3 pi (tra m)) = r_inner.
Proof. exact ring_shapes. Qed.
Print Assumptions C170_ring.
Theorem C170_displays : forall m phi0 phi1 r_inner fo fi n, perpendicular_axes m -> norm3 (xyz (v_z m)) = norm3 (xyz (v_y m)) -> 0 <= r_inner -> 0 <= fo -> 0 <= fi -> phi0 <= phi1 <= phi0 + twopi ->
  exists lo li, outer_display (Circ phi0 phi1) m fo n = Ok lo /\ inner_display (Circ phi0 phi1) m r_inner fi n = Ok li /\
  forall k, (k < n)%nat -> (exists po, nth_error lo k = Some po /\ norm3 (sub3 po (tra m)) = fo * norm3 (xyz (v_y m))) /\
    (in_wedge phi0 phi1 (PI / 2 + INR k * (twopi / INR n)) -> exists pi, nth_error li k = Some pi /\ norm3 (sub3 pi (tra m)) = fi * r_inner).
Proof. exact ring_displays. Qed.
Print Assumptions C170_displays.
(** A photon of the aperture starts between the two outlines, in the direction of a point of the wedge: it is on the rim for a factor between inner and outer radius. *)
Theorem C170_photons : forall m phi0 phi1 r_inner u1 u2, perpendicular_axes m -> 0 <= r_inner <= norm3 (xyz (v_y m)) -> phi0 < phi1 -> 0 <= u1 < 1 -> 0 <= u2 < 1 ->
  exists f phi, xyz (place m (circ_xy m phi0 phi1 r_inner u1 u2)) = rim m f phi /\ phi0 <= phi < phi1 /\ r_inner / norm3 (xyz (v_y m)) <= f <= 1.
Proof. exact photon_rim. Qed.
Print Assumptions C170_photons.
(** Triangles: one ring without an inner radius, for all holes; two separate rings for a round hole with an inner radius. *)
Theorem C170_triangles : forall ge h m ri fo fi n, good_ge ge -> affine m -> (0 < n)%nat -> ri <= 0 -> exists od os tris, outer_display h m fo n = Ok od /\ outer_shape h m n = Ok os /\
  triangulate ge h m ri fo fi n = Ok (od ++ os, tris) /\ List.length tris = (2 * points_of h n)%nat /\ Forall (tri_ok (List.length (od ++ os))) tris.
Proof. exact triangulate_plain. Qed.
Print Assumptions C170_triangles.
Theorem C170_two_rings : forall ge p0 p1 m ri fo fi n, good_ge ge -> affine m -> (0 < n)%nat -> 0 < ri -> let h := Circ p0 p1 in exists od os ish idp t1 t2 tris,
  outer_display h m fo n = Ok od /\ outer_shape h m n = Ok os /\ inner_shape h m ri n = Ok ish /\ inner_display h m ri fi n = Ok idp /\
  plane_with_hole (ge n n) od os = (od ++ os, t1) /\ plane_with_hole (ge n n) ish idp = (ish ++ idp, t2) /\
  triangulate ge h m ri fo fi n = Ok (od ++ os ++ ish ++ idp, tris) /\ map (corners (od ++ os ++ ish ++ idp)) tris = map (corners (od ++ os)) t1 ++ map (corners (ish ++ idp)) t2.
Proof. exact triangulate_ring. Qed.
Print Assumptions C170_two_rings.
(** False: a rectangle with an inner radius cannot be drawn. *)
Theorem C170_rectangle_refuted : forall ge m ri fo fi n, affine m -> 0 < ri -> triangulate ge Rect m ri fo fi n = Err NotImplementedError.
Proof. exact rectangle_fails. Qed.
Print Assumptions C170_rectangle_refuted.
(** False: a range that is larger than 2 pi by less than 1e-6 is accepted, but drawn almost closed. *)
Theorem C170_range_refuted : ~ forall m phi0 phi1 n l k, perpendicular_axes m -> circ_init m phi0 phi1 0 = Ok tt -> outer_shape (Circ phi0 phi1) m n = Ok l -> (k < n)%nat ->
  in_wedge phi0 phi1 (PI / 2 + INR k * (twopi / INR n)) -> nth_error l k = Some (rim m 1 (PI / 2 + INR k * (twopi / INR n))).
Proof. exact range_closed. Qed.
Print Assumptions C170_range_refuted.
(** False: a wedge between two vertices is drawn closed although photons start there. *)
Theorem C170_narrow_refuted : ~ forall m phi0 phi1 n l, perpendicular_axes m -> circ_init m phi0 phi1 0 = Ok tt -> phi0 < phi1 -> (2 < n)%nat -> outer_shape (Circ phi0 phi1) m n = Ok l -> exists p, In p l /\ p <> tra m.
Proof. exact narrow_closed. Qed.
Print Assumptions C170_narrow_refuted.
Example C170_example : perpendicular_axes id4 /\ norm3 (xyz (v_z id4)) = norm3 (xyz (v_y id4)) /\ good_ge ge_exact /\ circ_init id4 0 PI (1 / 2) = Ok tt /\
  in_wedge 0 PI (PI / 2 + INR 0 * (twopi / INR 4)) /\ ~ in_wedge 0 PI (PI / 2 + INR 2 * (twopi / INR 4)).
Proof. exact shape_example. Qed.

(** ** C171: attributes *)
Theorem C171_own : forall ops cls i op, nth_error ops i = Some op -> exists inst, nth_error (make_all cls ops) i = Some inst /\
  match op with MkHole r => attribute inst "r_inner" = Ok (or0 r) | MkGrating g => attribute inst "groove_angle" = Ok (or0 g) | MkPlain => True end.
Proof. exact make_all_own. Qed.
Print Assumptions C171_own.
Theorem C171_groove_angle : forall ops cls i op inst, dget "groove_angle" cls = None -> nth_error ops i = Some op -> nth_error (make_all cls ops) i = Some inst ->
  (forall g, op <> MkGrating g) -> attribute inst "groove_angle" = Err KeyError.
Proof. exact make_groove. Qed.
Print Assumptions C171_groove_angle.
(** The other geometries have the inner radius of the hole made last before them. *)
Theorem C171_leak_partial : forall ops cls i inst, nth_error ops i = Some MkPlain -> nth_error (make_all cls ops) i = Some inst ->
  dget "r_inner" inst = fold_left (fun acc op => match op with MkHole r => Some (or0 r) | _ => acc end) (firstn i ops) (dget "r_inner" cls).
Proof. exact make_plain. Qed.
Print Assumptions C171_leak_partial.
Theorem C171_order_refuted : ~ forall before inst inst', nth_error (make_all [] (before ++ [MkPlain])) (List.length before) = Some inst -> nth_error (make_all [] [MkPlain]) 0 = Some inst' -> attribute inst "r_inner" = attribute inst' "r_inner".
Proof. exact order_matters. Qed.
Print Assumptions C171_order_refuted.
Example C171_example : exists a b c, make_all [] [MkHole (Some 3); MkGrating None; MkHole None] = [a; b; c] /\ attribute a "r_inner" = Ok 3 /\ attribute b "groove_angle" = Ok 0 /\ attribute c "r_inner" = Ok 0 /\ attribute b "r_inner" = Ok 3.
Proof. do 3 eexists. split; [reflexivity|]. repeat split. Qed.
(** C170: the opening of a rectangular aperture has the four corners of its plane *)
Theorem C170_rectangle : forall m n, affine m -> let y := xyz (v_y m) in let z := xyz (v_z m) in let c := tra m in
  outer_shape Rect m n = Ok [add3 c (add3 y z); add3 c (sub3 z y); sub3 c (add3 y z); add3 c (sub3 y z)].
Proof.
  intros m n A y z c. unfold outer_shape. rewrite (square_spec m 1 A). fold y z c. generalize y z c. clear. intros y z c. apply (f_equal Ok). destruct y, z, c. unfold add3, sub3, scale3. cbn. repeat (f_equal; try ring).
Qed.
Print Assumptions C170_rectangle.
