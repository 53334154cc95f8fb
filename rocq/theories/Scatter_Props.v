(** Property C40. *)
From Verif Require Import Vec_Proofs Lens_Proofs Scatter_Proofs.
Open Scope R_scope.

(** RadialMirrorScatter keeps the length of the direction vector. *)
Theorem C40_radial_norm : forall c pos dir ip pp out, radial_scatter c pos dir ip pp = Some out -> norm3 out = norm3 dir.
Proof. exact radial_norm. Qed.
Print Assumptions C40_radial_norm.
(** In-plane scatter turns by the drawn angle, in the plane of the ray and the radial direction. *)
Theorem C40_radial_inplane : forall c pos dir a out, radial_scatter c pos dir (Some a) None = Some out ->
  dot3 out dir = cos a * dot3 dir dir /\ dot3 out (cross3 dir (sub3 pos c)) = 0.
Proof. exact radial_inplane. Qed.
Print Assumptions C40_radial_inplane.
Theorem C40_radial_total : forall c pos dir ip pp, cross3 dir (sub3 pos c) <> zero3 -> exists out, radial_scatter c pos dir ip pp = Some out.
Proof. exact radial_total. Qed.
Print Assumptions C40_radial_total.
Theorem C40_zero : forall c pos dir, radial_scatter c pos dir None None = Some dir /\ random_scatter dir None = Some dir.
Proof. split; reflexivity. Qed.
Print Assumptions C40_zero.
(** RandomGaussianScatter: for every direction, angle and draw the result is a unit vector at the drawn angle from the old direction. *)
Theorem C40_random : forall dir a u p, unit3 dir = Some p ->
  exists out, random_scatter dir (Some (a, u)) = Some out /\ norm3 out = 1 /\ dot3 out p = cos a.
Proof. exact random_spec. Qed.
Print Assumptions C40_random.
(** All azimuths are reached: for every unit vector [w] perpendicular to the ray some draw in [0, 1) scatters towards [w]. *)
Theorem C40_random_azimuth : forall dir a p w, unit3 dir = Some p -> dot3 w w = 1 -> dot3 p w = 0 ->
  exists u, 0 <= u < 1 /\ random_scatter dir (Some (a, u)) = Some (add3 (scale3 (cos a) p) (scale3 (sin a) w)).
Proof. exact random_onto. Qed.
Print Assumptions C40_random_azimuth.
Example C40_example : (exists u, 0 <= u < 1 /\ random_scatter (V3 1 0 0) (Some (PI / 2, u)) = Some (V3 0 0 1)) /\
  exists out, radial_scatter zero3 (V3 0 2 0) (V3 1 0 0) (Some (PI / 2)) None = Some out /\ dot3 out (V3 1 0 0) = 0.
Proof.
  split.
  - destruct (C40_random_azimuth (V3 1 0 0) (PI / 2) (V3 1 0 0) (V3 0 0 1)) as (u & B & E).
    + apply unit3_of_unit. vu. ring.
    + vu. ring.
    + vu. ring.
    + exists u. split; [exact B|]. rewrite E, cos_PI2, sin_PI2. f_equal. vu. f_equal; ring.
  - destruct (C40_radial_total zero3 (V3 0 2 0) (V3 1 0 0) (Some (PI / 2)) None) as (out & E).
    + intros H. apply (f_equal z3) in H. vu. lra.
    + exists out. split; [exact E|]. apply C40_radial_inplane in E. destruct E as [E _]. rewrite E, cos_PI2. ring.
Qed.
