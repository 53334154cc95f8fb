(** Properties C150 to C152: bent and chirped gratings *)
From Verif Require Import Base_Proofs Vec_Proofs Coords_Proofs Plane_Proofs Position_Proofs Detector_Proofs Angles_Proofs Cylinder_Proofs Rmf_Proofs.
From Verif Require Export Bend_Proofs.
Open Scope R_scope.

(** ** C150: bending *)
(** a grating without shear and not mirrored becomes a piece of a tube around an axis one radius away from its center, along its own z axis *)
Theorem C150_surface m l radius b phi zeta : perpendicular_axes m -> 0 < det3 (lin m) -> bend (Grat m (Some l)) radius = Ok b ->
  exists ex ey ez, plane_bases m = Some (hom ey 0, hom ez 0, hom ex 0) /\
  tube_point (be_tube b) phi zeta =
    add3 (sub3 (xyz (center m)) (scale3 radius ex)) (add3 (scale3 radius (add3 (scale3 (cos phi) ex) (scale3 (sin phi) ey))) (scale3 zeta (xyz (v_z m)))).
Proof.
  intros P D E. assert (Rp : 0 < radius).
  { destruct (Rlt_or_le 0 radius) as [|X]; [assumption|]. exfalso. destruct (frame_of m P D) as (r & Er & _). unfold bend, new_tube in E. cbn [gr_pos] in E. rewrite Er in E.
    destruct (ex3 m); [|discriminate]. cbn [bind] in E. assert (Y : Rleb radius 0 = true) by now apply Rleb_true. rewrite Y in E. discriminate. }
  rewrite bend_ok in E by assumption. assert (Eb : Bent (tube_of m radius) (map (fun _ => tube_of m radius) l) = b) by congruence. rewrite <- Eb. cbn [be_tube].
  exists (nrm (xyz (v_x m))), (nrm (xyz (v_y m))), (nrm (xyz (v_z m))). split; [now apply plane_bases_val|].
  rewrite tube_of_point. generalize (xyz (center m)) (nrm (xyz (v_x m))) (nrm (xyz (v_y m))) (xyz (v_z m)). intros [] [] [] []. vu. f_equal; ring.
Qed.
Print Assumptions C150_surface.
(** the center stays where it is and the tube touches the flat grating there: same tangents, same normal *)
Theorem C150_tangent m l radius b : perpendicular_axes m -> 0 < det3 (lin m) -> 0 < radius -> bend (Grat m (Some l)) radius = Ok b ->
  tube_point (be_tube b) 0 0 = xyz (center m) /\ cylinder_bases (tu_pos (be_tube b)) 0 = plane_bases m /\
  norm3 (xyz (v_x (tu_pos (be_tube b)))) = radius /\ norm3 (xyz (v_y (tu_pos (be_tube b)))) = radius /\ perpendicular_axes (tu_pos (be_tube b)).
Proof.
  intros P D Rp E. rewrite bend_ok in E by assumption. assert (Eb : Bent (tube_of m radius) (map (fun _ => tube_of m radius) l) = b) by congruence. rewrite <- Eb. cbn [be_tube].
  split; [|split; [now apply cylinder_bases_flat|destruct (tube_of_axes m radius P Rp) as (Q & X & Y); repeat split; assumption || apply Q]].
  rewrite tube_of_point, cos_0, sin_0. generalize (xyz (center m)) (nrm (xyz (v_x m))) (nrm (xyz (v_y m))) (xyz (v_z m)). intros [] [] [] []. vu. f_equal; ring.
Qed.
Print Assumptions C150_tangent.
(** a ray that starts on the axis of the tube goes through the bent grating if and only if it went through the flat one *)
Theorem C150_same_rays m l radius b phi zeta axis q : perpendicular_axes m -> 0 < det3 (lin m) -> 0 < radius -> bend (Grat m (Some l)) radius = Ok b -> - PI / 2 < phi < PI / 2 ->
  axis = sub3 (tube_point (be_tube b) 0 zeta) (scale3 radius (nrm (xyz (v_x m)))) ->
  q = add3 axis (scale3 (/ cos phi) (sub3 (tube_point (be_tube b) phi zeta) axis)) ->
  ((angle_between phi (fst (tu_lim (be_tube b))) (snd (tu_lim (be_tube b))) = true /\ -1 <= zeta <= 1) <-> exists u v, in_rectangle m u v q).
Proof.
  intros P D Rp E Hp Ea Eq. rewrite bend_ok in E by assumption. assert (Eb : Bent (tube_of m radius) (map (fun _ => tube_of m radius) l) = b) by congruence. rewrite <- Eb in *. cbn [be_tube tu_lim tube_of fst snd] in *.
  assert (C : 0 < cos phi) by (apply cos_gt_0; lra). pose proof P as (_ & Nx & Ny & Nz & _). pose proof (norm3_pos _ Ny) as Ly.
  rewrite angle_lim by assumption.
  assert (Q : q = point_on m (radius * tan phi / norm3 (xyz (v_y m))) zeta).
  { assert (PO : forall x, point_on m x zeta = add3 (xyz (center m)) (add3 (scale3 (x * norm3 (xyz (v_y m))) (nrm (xyz (v_y m)))) (scale3 zeta (xyz (v_z m))))).
    { intros x. unfold point_on. rewrite <- scale3_scale3, nrm_scale by exact Ny. reflexivity. }
    rewrite PO, Eq, Ea, !tube_of_point. unfold tan. rewrite cos_0, sin_0. clear - C Ly. revert Ly.
    generalize (norm3 (xyz (v_y m))). intros n Ln.
    generalize (xyz (center m)) (nrm (xyz (v_x m))) (nrm (xyz (v_y m))) (xyz (v_z m)). intros [] [] [] []. vu. f_equal; field; lra. }
  assert (K : Rabs (radius * tan phi) <= norm3 (xyz (v_y m)) <-> -1 <= radius * tan phi / norm3 (xyz (v_y m)) <= 1).
  { assert (X : radius * tan phi = (radius * tan phi / norm3 (xyz (v_y m))) * norm3 (xyz (v_y m))) by (field; lra). rewrite X at 1. generalize (radius * tan phi / norm3 (xyz (v_y m))). intros w.
    rewrite Rabs_mult, (Rabs_pos_eq (norm3 _)) by lra. split.
    - intros H. assert (Rabs w <= 1) by nra. pose proof (Rle_abs w). pose proof (Rle_abs (- w)) as L'. rewrite Rabs_Ropp in L'. lra.
    - intros H. assert (Rabs w <= 1) by (apply Rabs_le; lra). nra. }
  rewrite K. split.
  - intros [A B]. exists (radius * tan phi / norm3 (xyz (v_y m))), zeta. split; [exact A|]. split; [exact B|exact Q].
  - intros (u & v & U & V & X). rewrite Q in X. unfold point_on in X. apply rect_unique in X as [A B]; [|exact P]. subst u v. tauto.
Qed.
Print Assumptions C150_same_rays.
(** ... so the grating gets shorter along its arc *)
Theorem C150_shorter m l radius b : perpendicular_axes m -> 0 < det3 (lin m) -> 0 < radius -> bend (Grat m (Some l)) radius = Ok b ->
  fst (tu_lim (be_tube b)) = - snd (tu_lim (be_tube b)) /\ tan (snd (tu_lim (be_tube b))) = norm3 (xyz (v_y m)) / radius /\ 0 < snd (tu_lim (be_tube b)) < PI / 2 /\
  radius * (snd (tu_lim (be_tube b)) - fst (tu_lim (be_tube b))) < 2 * norm3 (xyz (v_y m)).
Proof.
  intros P D Rp E. rewrite bend_ok in E by assumption. assert (Eb : Bent (tube_of m radius) (map (fun _ => tube_of m radius) l) = b) by congruence. rewrite <- Eb. cbn [be_tube tu_lim tube_of fst snd].
  pose proof P as (_ & Nx & Ny & Nz & _). pose proof (norm3_pos _ Ny) as Ly. assert (K : 0 < norm3 (xyz (v_y m)) / radius) by (apply Rdiv_lt_0_compat; assumption).
  split; [reflexivity|]. split; [apply tan_atan|]. split; [split; [rewrite <- atan_0; now apply atan_increasing|apply atan_bound]|].
  pose proof (atan_lt _ K) as A. assert (X : norm3 (xyz (v_y m)) = radius * (norm3 (xyz (v_y m)) / radius)) by (field; lra). rewrite X at 3. nra.
Qed.
Print Assumptions C150_shorter.
(** all elements of a stack end up on the same tube, wherever they were before *)
Theorem C150_elements m l radius b : perpendicular_axes m -> 0 < det3 (lin m) -> 0 < radius -> bend (Grat m (Some l)) radius = Ok b ->
  List.length (be_elems b) = List.length l /\ forall t, In t (be_elems b) -> t = be_tube b.
Proof.
  intros P D Rp E. rewrite bend_ok in E by assumption. assert (Eb : Bent (tube_of m radius) (map (fun _ => tube_of m radius) l) = b) by congruence. rewrite <- Eb. cbn [be_tube be_elems].
  split; [apply map_length|]. intros t T. apply in_map_iff in T as (x & <- & _). reflexivity.
Qed.
Print Assumptions C150_elements.
(** bending works for any stack without shear, mirrored or not, if the radius is positive, and only then *)
Theorem C150_total m l radius : perpendicular_axes m -> (0 < radius <-> exists b, bend (Grat m (Some l)) radius = Ok b) /\
  (radius <= 0 -> bend (Grat m (Some l)) radius = Err ValueError).
Proof.
  intros P. assert (Ex : exists e, ex3 m = Ok e).
  { pose proof P as (W & Nx & _). unfold ex3, e_x. rewrite unit4_hom0; [eexists; reflexivity|apply W|exact Nx]. }
  destruct Ex as (e & Ex). destruct (decompose44_zooms m P) as (r & zx & E).
  assert (N : radius <= 0 -> bend (Grat m (Some l)) radius = Err ValueError).
  { intros X. unfold bend, new_tube. cbn [gr_pos]. rewrite E, Ex. cbn [bind]. assert (Y : Rleb radius 0 = true) by now apply Rleb_true. now rewrite Y. }
  split; [|exact N]. split.
  - intros Rp. pose proof (decompose44_spec _ _ _ _ _ E) as (_ & [O _] & _). destruct (bend_any m l radius r zx e E Ex O Rp) as (b & B & _). now exists b.
  - intros (b & B). destruct (Rlt_or_le 0 radius) as [|X]; [assumption|]. rewrite (N X) in B. discriminate.
Qed.
Print Assumptions C150_total.
Definition plain_at (x : R) : m4 := M4 (V4 1 0 0 0) (V4 0 1 0 0) (V4 0 0 1 0) (V4 x 0 0 1).
Lemma plain_axes x : perpendicular_axes (plain_at x) /\ 0 < det3 (lin (plain_at x)).
Proof.
  unfold perpendicular_axes, affine, plain_at, v_x, v_y, v_z, lin, zero3, xyz; cbn. vu. split; [|unfold det3; vu; cbn; lra].
  repeat split; try reflexivity; try ring; intros E; injection E; lra.
Qed.
(** a stack of two gratings at x = 5, bent to a radius of 2 *)
Example C150_example : exists b, bend (Grat (plain_at 5) (Some [plain_at 5; plain_at 6])) 2 = Ok b /\ tube_point (be_tube b) 0 0 = V3 5 0 0 /\
  tube_point (be_tube b) (PI / 2) 0 = V3 3 2 0 /\ be_elems b = [be_tube b; be_tube b].
Proof.
  destruct (plain_axes 5) as [P D]. rewrite bend_ok by (assumption || lra). eexists. split; [reflexivity|]. cbn [be_tube be_elems map]. rewrite !tube_of_point, cos_0, sin_0, cos_PI2, sin_PI2.
  unfold nrm, plain_at, v_x, v_y, v_z, center, xyz; cbn [b0 b1 b2 b3 x4 y4 z4].
  assert (N1 : norm3 (V3 1 0 0) = 1) by (apply norm3_1; vu; ring). assert (N2 : norm3 (V3 0 1 0) = 1) by (apply norm3_1; vu; ring). rewrite N1, N2, Rinv_1.
  repeat split; vu; f_equal; ring.
Qed.
(** Mirrored gratings: the stack itself is put on a tube that is two radii away from its center; the elements of the stack are put on a tube through the center *)
Theorem C150_mirrored m l radius b : perpendicular_axes m -> det3 (lin m) < 0 -> 0 < radius -> bend (Grat m (Some l)) radius = Ok b ->
  tube_point (be_tube b) 0 0 = sub3 (xyz (center m)) (scale3 (2 * radius) (nrm (xyz (v_x m)))) /\
  List.length (be_elems b) = List.length l /\ forall t, In t (be_elems b) -> tube_point t 0 0 = xyz (center m).
Proof. exact (bend_mirrored m l radius b). Qed.
Print Assumptions C150_mirrored.
(** False without the sign condition: a mirrored grating is moved away from its own tube *)
Theorem C150_mirrored_refuted : ~ forall m l radius b, perpendicular_axes m -> 0 < radius -> bend (Grat m (Some l)) radius = Ok b -> tube_point (be_tube b) 0 0 = xyz (center m).
Proof.
  intros H. set (m := M4 (V4 (-1) 0 0 0) (V4 0 1 0 0) (V4 0 0 1 0) (V4 0 0 0 1)).
  assert (P : perpendicular_axes m).
  { unfold perpendicular_axes, affine, m, v_x, v_y, v_z, zero3, xyz; cbn. vu. repeat split; try reflexivity; try ring; intros E; injection E; lra. }
  destruct (decompose44_zooms m P) as (r & zx & E). pose proof (decompose44_spec _ _ _ _ _ E) as (_ & [O Dr] & (X & _) & L). rewrite shear3_0, mul3_id_r in L. cbn [x3] in X.
  assert (Ny : norm3 (xyz (v_y m)) = 1) by (apply norm3_1; unfold m, v_y, xyz; cbn; vu; ring). assert (Nz : norm3 (xyz (v_z m)) = 1) by (apply norm3_1; unfold m, v_z, xyz; cbn; vu; ring).
  rewrite Ny, Nz in *.
  assert (Er : r = id3 /\ zx = -1).
  { destruct r as [[r1 r2 r3] [s1 s2 s3] [t1 t2 t3]]. unfold lin, m, xyz, mul3, diag3, app3 in L. revert L Dr. unfold det3, id3; vu; cbn. intros L Dr. injection L as L1 L2 L3 L4 L5 L6 L7 L8 L9.
    assert (r1 * zx = -1) by lra. assert (R2 : r2 = 0) by nra. assert (R3 : r3 = 0) by nra. assert (S1 : s1 = 0) by lra. assert (S2 : s2 = 1) by lra. assert (S3 : s3 = 0) by lra.
    assert (T1 : t1 = 0) by lra. assert (T2 : t2 = 0) by lra. assert (T3 : t3 = 1) by lra. subst r2 r3 s1 s2 s3 t1 t2 t3. assert (R1 : r1 = 1) by lra. subst r1. split; [reflexivity|lra]. }
  destruct Er as [-> ->].
  assert (Ex : ex3 m = Ok (V3 (-1) 0 0)).
  { unfold ex3, e_x. rewrite unit4_hom0; [|reflexivity|apply P]. rewrite xyz_hom. assert (N : norm3 (xyz (v_x m)) = 1) by (apply norm3_1; unfold m, v_x, xyz; cbn; vu; ring). rewrite N, Rinv_1, scale3_1. reflexivity. }
  assert (B : exists c, bend (Grat m (Some [])) 1 = Ok (Bent (Tube (compose (sub3 (tra m) (scale3 1 (V3 (-1) 0 0))) id3 (V3 1 1 1)) c) [])).
  { unfold bend. cbn [gr_pos gr_elems]. rewrite E, Ex. cbn [bind]. rewrite new_tube_ok by lra. cbn. eexists. reflexivity. }
  destruct B as (c & B). pose proof (H m [] 1 _ P Rlt_0_1 B) as K. unfold tube_point in K. cbn [be_tube tu_pos] in K. rewrite compose_cols, cos_0, sin_0 in K.
  apply (f_equal x3) in K. revert K. unfold tra, m, center, xyz, hom, app4, id3; vu; cbn. intros K. lra.
Qed.
Print Assumptions C150_mirrored_refuted.
(** ... and a grating that is not a stack cannot be bent at all *)
Theorem C150_single_refuted : ~ forall m radius, perpendicular_axes m -> 0 < det3 (lin m) -> 0 < radius -> exists b, bend (Grat m None) radius = Ok b.
Proof.
  intros H. destruct (plain_axes 5) as [P D]. destruct (H (plain_at 5) 1 P D Rlt_0_1) as (b & E). unfold bend in E. cbn [gr_pos gr_elems] in E. destruct (frame_of _ P D) as (r & Er & _). rewrite Er in E.
  destruct (ex3 (plain_at 5)); [|discriminate]. cbn [bind] in E. rewrite new_tube_ok in E by lra. discriminate.
Qed.
Print Assumptions C150_single_refuted.
(** a list of gratings is bent one by one; if one of them fails there is no result, but the gratings before it in the list are changed all the same *)
Theorem C150_list : forall l radius, (forall bs, bend_gratings l radius = Ok bs <-> Forall2 (fun g b => bend g radius = Ok b) l bs) /\
  (forall e, bend_gratings l radius = Err e -> exists before g after, l = (before ++ g :: after)%list /\ bend g radius = Err e /\ forall g', In g' before -> exists b, bend g' radius = Ok b).
Proof.
  intros l radius. unfold bend_gratings. induction l as [|g l [IH1 IH2]].
  - split; [|discriminate]. intros bs. cbn. split; [intros H; injection H as <-; constructor|intros H; inversion H; reflexivity].
  - cbn [map sequence]. destruct (bend g radius) as [b|e0] eqn:B; cbn [bind].
    + destruct (sequence (map (fun g0 => bend g0 radius) l)) as [bs0|e1] eqn:S; cbn [bind]; split.
      * intros bs. split; [intros H; injection H as <-; constructor; [exact B|now apply IH1]|]. intros H. inversion H as [|? b' ? l' B' F]; subst. apply IH1 in F. congruence.
      * discriminate.
      * intros bs. split; [discriminate|]. intros H. inversion H as [|? b' ? l' B' F]; subst. apply IH1 in F. discriminate.
      * intros e H. destruct (IH2 e) as (before & g' & after & -> & X & Y); [congruence|]. exists (g :: before)%list, g', after. split; [reflexivity|]. split; [exact X|]. intros g0 [<-|I]; [now exists b|now apply Y].
    + split; [intros bs; split; [discriminate|]; intros H; inversion H; congruence|]. intros e H. exists [], g, l. split; [reflexivity|]. split; [congruence|intros g' []].
Qed.
Print Assumptions C150_list.
Example C150_ex_list : exists b b', bend_gratings [Grat (plain_at 5) (Some [plain_at 5]); Grat (plain_at 6) (Some [plain_at 6])] 2 = Ok [b; b'] /\ bend (Grat (plain_at 5) (Some [plain_at 5])) 2 = Ok b /\ bend (Grat (plain_at 6) (Some [plain_at 6])) 2 = Ok b'.
Proof.
  destruct (plain_axes 5) as [P D]. destruct (plain_axes 6) as [P' D']. eexists _, _. split; [|split; apply bend_ok; assumption || lra].
  apply C150_list. constructor; [apply bend_ok; assumption || lra|]. constructor; [apply bend_ok; assumption || lra|constructor].
Qed.

(** ** C151: the search for the grating constant *)
(** the test photon goes towards the origin and through the point asked for *)
Theorem C151_ray m u v pos : perpendicular_axes m -> -1 <= u <= 1 -> -1 <= v <= 1 -> dot3 (xyz (center m)) (xyz (v_x m)) <> 0 -> posongrat m u v = Ok pos ->
  pos = point_on m u v /\
  exists d k, init_photon pos = (hom (scale3 (11 / 10) pos) 1, Some (hom d 0)) /\ norm3 d = 1 /\ 0 < k /\ add3 (scale3 (11 / 10) pos) (scale3 k d) = zero3 /\
    plane_intersect m (hom d 0) (hom (scale3 (11 / 10) pos) 1) = (true, Some (hom pos 1), Some (u * norm3 (xyz (v_y m)), v * norm3 (xyz (v_z m)))).
Proof. intros P U V N E. split; [rewrite posongrat_ok in E by apply P; unfold point_on; congruence|]. exact (test_ray m u v pos P U V N E). Qed.
Print Assumptions C151_ray.
(** each entry of the table is what the optimizer finds for the distance between the test ray and the ray through the center; if that distance is 0, the test ray hits the goal *)
Theorem C151_table minimize trace order energy d m us vs corr i j u v : affine m -> correction minimize trace (new_finder order energy d) m us vs = Ok corr ->
  nth_error us i = Some u -> nth_error vs j = Some v ->
  let ray u v x := let (p, dir) := init_photon (point_on m u v) in trace 1 order (x * d) p dir in
  exists row c, nth_error corr i = Some row /\ nth_error row j = Some c /\ List.length corr = List.length us /\ List.length row = List.length vs /\
    c = minimize (fun x => num_sub_abs (ray u v x) (let (p, dir) := init_photon (point_on m 0 0) in trace 1 order d p dir)) /\
    (num_sub_abs (ray u v c) (let (p, dir) := init_photon (point_on m 0 0) in trace 1 order d p dir) = Some 0 ->
     ray u v c = let (p, dir) := init_photon (point_on m 0 0) in trace 1 order d p dir).
Proof.
  intros A E U V ray. rewrite correction_ok in E by exact A. assert (Ec : forall a b : list (list R), Ok a = Ok b -> a = b) by congruence. apply Ec in E. rewrite <- E.
  do 2 eexists. split; [rewrite nth_error_map, U; reflexivity|]. split; [rewrite nth_error_map, V; reflexivity|]. split; [apply map_length|]. split; [apply map_length|]. split; [reflexivity|].
  intros Z. apply num_sub_abs_0 in Z as (x & X1 & X2). rewrite X1, X2. reflexivity.
Qed.
Print Assumptions C151_table.
(** the center of the grating needs no correction *)
Theorem C151_center trace order energy d m goal : affine m -> calc_goal trace (new_finder order energy d) m = Ok (Some goal) ->
  forall pos, posongrat m 0 0 = Ok pos -> optimize_func trace (new_finder order energy d) (Some goal) pos 1 = Some 0.
Proof.
  intros A G pos E. unfold calc_goal in G. rewrite E in G. cbn [bind] in G. unfold optimize_func. rewrite Rmult_1_l.
  assert (X : run_photon trace (new_finder order energy d) (fi_d (new_finder order energy d)) pos = Some goal) by congruence. rewrite X. apply num_sub_abs_refl.
Qed.
Print Assumptions C151_center.
(** False: the result does not depend on the energy the finder was made for: the test photon always has 1 keV *)
Theorem C151_energy_ignored minimize trace order e1 e2 d m us vs : correction minimize trace (new_finder order e1 d) m us vs = correction minimize trace (new_finder order e2 d) m us vs.
Proof. reflexivity. Qed.
Print Assumptions C151_energy_ignored.
Theorem C151_energy_refuted minimize : ~ forall (trace : tracer) order energy d m u v c, perpendicular_axes m ->
  (forall e, 0 < e -> exists x, (let (p, dir) := init_photon (point_on m u v) in trace e order (x * d) p dir) = (let (p, dir) := init_photon (point_on m 0 0) in trace e order d p dir)) ->
  0 < energy -> correction minimize trace (new_finder order energy d) m [u] [v] = Ok [[c]] ->
  (let (p, dir) := init_photon (point_on m u v) in trace energy order (c * d) p dir) = (let (p, dir) := init_photon (point_on m 0 0) in trace energy order d p dir).
Proof.
  intros H. set (trace := (fun e _ d p _ => Some (d * e + y4 p)) : tracer). destruct (plain_axes 5) as [P _].
  assert (Y : forall u, y4 (fst (init_photon (point_on (plain_at 5) u 0))) = 11 / 10 * u).
  { intros u. unfold init_photon. cbn [fst]. unfold point_on, plain_at, center, v_y, v_z, xyz, hom; vu; cbn. ring. }
  assert (C : forall e x u, (let (p, dir) := init_photon (point_on (plain_at 5) u 0) in trace e 1 (x * 1) p dir) = Some (x * e + 11 / 10 * u)).
  { intros e x u. specialize (Y u). destruct (init_photon _) as [p dir]. cbn [fst] in Y. unfold trace. rewrite Y. f_equal. ring. }
  assert (C0 : forall e, (let (p, dir) := init_photon (point_on (plain_at 5) 0 0) in trace e 1 1 p dir) = Some e).
  { intros e. specialize (Y 0). destruct (init_photon _) as [p dir]. cbn [fst] in Y. unfold trace. rewrite Y. f_equal. ring. }
  assert (K : exists c, forall e, correction minimize trace (new_finder 1 e 1) (plain_at 5) [1] [0] = Ok [[c]]).
  { eexists. intros e. rewrite (C151_energy_ignored minimize trace 1 e 1 1). rewrite correction_ok by apply P. cbn [map]. reflexivity. }
  destruct K as (c & K).
  assert (Q : forall e, 0 < e -> c * e + 11 / 10 * 1 = e).
  { intros e L. pose proof (H trace 1 e 1 (plain_at 5) 1 0 c P) as X. rewrite C, C0 in X. assert (Z : Some (c * e + 11 / 10 * 1) = Some e); [|congruence]. apply X; [|exact L|apply K].
    intros e' L'. exists (1 - 11 / 10 / e'). rewrite C, C0. f_equal. field. lra. }
  pose proof (Q 1 ltac:(lra)). pose proof (Q 2 ltac:(lra)). lra.
Qed.
Print Assumptions C151_energy_refuted.
(** False: the finder for bent gratings stops at its first ray: there is no attribute [phi_limits] *)
Theorem C151_bent_refuted : ~ exists t u v pos, bent_posongrat t u v = Ok pos.
Proof. intros (t & u & v & pos & E). unfold bent_posongrat in E. destruct (decompose44 _) as [[[[? ?] ?] ?]|]; discriminate. Qed.
Print Assumptions C151_bent_refuted.
(** a grating at x = 5 and a detector that measures y: the ray through u = 1 needs twice the grating constant *)
Example C151_example : let trace := (fun e o d p _ => Some (y4 p * (5 / 11) - o * e * (2 * d - 2))) : tracer in
  correction (fun _ => 5 / 4) trace (new_finder 1 3 1) (plain_at 5) [0; 1] [0] = Ok [[5 / 4]; [5 / 4]] /\
  optimize_func trace (new_finder 1 3 1) (Some 0) (point_on (plain_at 5) 1 0) (5 / 4) = Some 0.
Proof.
  cbv zeta. destruct (plain_axes 5) as [P _]. split; [rewrite correction_ok by apply P; reflexivity|].
  unfold optimize_func, run_photon, init_photon, new_finder, fi_photon_energy, fi_order, fi_d. apply num_sub_abs_0. exists 0. split; [|reflexivity]. f_equal.
  unfold point_on, plain_at, center, v_y, v_z, xyz, hom; vu; cbn. lra.
Qed.

(** ** C152: chirped gratings *)
(** at the test points, and at any height, the new grating constant is the corrected one *)
Theorem C152_nodes minimize trace s f d us vs g g' corr i k u w row c : affine (gs_pos g) -> rectspline_ok s -> chirp minimize trace s f d us vs g = Ok g' ->
  correction minimize (trace (gs_pos g)) f (gs_pos g) us vs = Ok corr -> nth_error us i = Some u -> nth_error us k = Some w -> nth_error corr i = Some row -> nth_error row 0 = Some c ->
  period_at (gs_d g') (u * norm4 (v_y (gs_pos g)), w * norm4 (v_z (gs_pos g))) = d * c.
Proof.
  intros A S E K U W Rw C. destruct (chirp_inv _ _ _ _ _ _ _ _ _ A E) as (v & vs' & -> & L & I1 & I2 & ->). cbn [gs_d period_at fst snd].
  rewrite correction_ok in K by exact A. assert (Ec : forall a b : list (list R), Ok a = Ok b -> a = b) by congruence. apply Ec in K. rewrite <- K in Rw. rewrite nth_error_map, U in Rw. cbn [option_map map] in Rw.
  assert (Er : forall a b : list R, Some a = Some b -> a = b) by congruence. apply Er in Rw. rewrite <- Rw in C. cbn [nth_error] in C. assert (Ev : forall a b : R, Some a = Some b -> a = b) by congruence. apply Ev in C. rewrite <- C.
  eapply (S _ _ _ i k); [exact I1|exact I2|rewrite nth_error_map, U; cbn; f_equal; ring|rewrite nth_error_map, W; cbn; f_equal; ring|rewrite nth_error_map, U; reflexivity|].
  assert (Lk : (k < 3)%nat) by (rewrite <- L; apply nth_error_Some; congruence). destruct k as [|[|[|k]]]; [reflexivity|reflexivity|reflexivity|lia].
Qed.
Print Assumptions C152_nodes.
(** three increasing test points are needed and enough; nothing else about the grating changes *)
Theorem C152_points minimize trace s f d us vs g : perpendicular_axes (gs_pos g) ->
  ((exists g', chirp minimize trace s f d us vs g = Ok g') <-> (List.length us = 3%nat /\ increasing us = true /\ vs <> [])) /\
  forall g', chirp minimize trace s f d us vs g = Ok g' -> gs_pos g' = gs_pos g /\ (gs_orig g = None -> gs_sel g' = gs_sel g /\ gs_orig g' = Some (gs_sel g)).
Proof.
  intros P. split.
  - split.
    + intros (g' & E). destruct (chirp_inv _ _ _ _ _ _ _ _ _ (proj1 P) E) as (v & vs' & -> & L & I1 & _). split; [exact L|]. split; [|discriminate].
      pose proof P as ((W0 & W1 & W2 & W3) & Nx & Ny & Nz & _). rewrite increasing_scale in I1; [exact I1|]. rewrite (hom0 (v_y (gs_pos g)) W1), norm4_hom0. now apply norm3_pos.
    + intros (L & I & V). destruct vs as [|v vs]; [now destruct V|]. apply chirp_ok; assumption.
  - intros g' E. destruct (chirp_inv _ _ _ _ _ _ _ _ _ (proj1 P) E) as (v & vs' & _ & _ & _ & _ & ->). cbn. split; [reflexivity|]. intros ->. now split.
Qed.
Print Assumptions C152_points.
(** all gratings in the list are treated one by one *)
Theorem C152_list minimize trace s f d us vs l l' : chirp_gratings minimize trace s f d us vs l = Ok l' <-> Forall2 (fun g g' => chirp minimize trace s f d us vs g = Ok g') l l'.
Proof.
  unfold chirp_gratings. split.
  - revert l'. induction l as [|g l IH]; intros l' H; cbn in H; [assert (l' = []) by congruence; subst; constructor|].
    destruct (chirp _ _ _ _ _ _ _ g) as [g'|] eqn:E; [|discriminate]. cbn [bind] in H. destruct (sequence _) as [r|] eqn:F; [|discriminate]. cbn [bind] in H.
    assert (l' = g' :: r) by congruence. subst. constructor; auto.
  - induction 1 as [|g g' l l' E F IH]; [reflexivity|]. cbn. now rewrite E, IH.
Qed.
Print Assumptions C152_list.
Definition default_u : list R := [- (999 / 1000); 0; 999 / 1000].
Lemma default_u_ok : increasing default_u = true.
Proof. unfold default_u. cbn [increasing]. rewrite !andb_true_r. apply andb_true_intro. split; apply Rltb_true; lra. Qed.
Definition grating_0 : gstate := GS (plain_at 5) (Const 1) (Other 0) None.
(** the grating at x = 5 with the default test points *)
Example C152_example : exists g', chirp (fun _ => 3 / 2) (fun _ _ _ _ _ _ => None) tab_spline (new_finder 1 1 1) 2 default_u [0] grating_0 = Ok g' /\ gs_sel g' = Other 0 /\
  period_at (gs_d g') (999 / 1000 * norm4 (v_y (plain_at 5)), 0 * norm4 (v_z (plain_at 5))) = 3.
Proof.
  destruct (plain_axes 5) as [P _].
  destruct (chirp_ok (fun _ => 3 / 2) (fun _ _ _ _ _ _ => None) tab_spline (new_finder 1 1 1) 2 default_u 0 [] grating_0 P eq_refl default_u_ok) as (g' & E).
  exists g'. split; [exact E|]. split.
  - exact (proj1 (proj2 (proj2 (C152_points _ _ _ _ _ _ _ grating_0 P) g' E) eq_refl)).
  - replace 3 with (2 * (3 / 2)) by lra.
    apply (C152_nodes _ _ _ _ _ _ _ grating_0 _ [[3 / 2]; [3 / 2]; [3 / 2]] 2%nat 1%nat (999 / 1000) 0 [3 / 2] (3 / 2) (proj1 P) tab_spline_ok E); try reflexivity.
    rewrite correction_ok by apply P. reflexivity.
Qed.
(** False: chirping again brings back the order selector from before the first time, not the current one *)
Theorem C152_selector_refuted : ~ forall minimize trace s f d us vs g g', perpendicular_axes (gs_pos g) -> chirp minimize trace s f d us vs g = Ok g' -> gs_sel g' = gs_sel g.
Proof.
  intros H. destruct (plain_axes 5) as [P _]. set (g := GS (plain_at 5) (Const 1) (Other 1) (Some (Other 0))).
  destruct (chirp_ok (fun _ => 1) (fun _ _ _ _ _ _ => None) tab_spline (new_finder 1 1 1) 1 default_u 0 [] g P eq_refl default_u_ok) as (g' & E).
  pose proof (H _ _ _ _ _ _ _ g g' P E) as X. destruct (chirp_inv _ _ _ _ _ _ _ g _ (proj1 P) E) as (v & vs' & _ & _ & _ & _ & Eg). rewrite Eg in X. discriminate.
Qed.
Print Assumptions C152_selector_refuted.
(** False: on a bent grating the first coordinate is an angle, but the test points are laid out in units of the radius *)
Theorem C152_bent_refuted : ~ forall minimize trace s f d us vs m l radius b o g' corr i u row c, perpendicular_axes m -> 0 < det3 (lin m) -> 0 < radius -> bend (Grat m (Some l)) radius = Ok b ->
  rectspline_ok s -> chirp minimize trace s f d us vs (GS (tu_pos (be_tube b)) (Const d) o None) = Ok g' -> correction minimize (trace (tu_pos (be_tube b))) f (tu_pos (be_tube b)) us vs = Ok corr ->
  nth_error us i = Some u -> nth_error corr i = Some row -> nth_error row 0 = Some c -> period_at (gs_d g') (u * snd (tu_lim (be_tube b)), 0) = d * c.
Proof.
  intros H. destruct (plain_axes 5) as [P D]. destruct (tube_of_axes (plain_at 5) 1 P Rlt_0_1) as (Q & _ & NY). set (g := GS (tu_pos (tube_of (plain_at 5) 1)) (Const 1) (Other 0) None).
  destruct (chirp_ok (fun _ => 1) (fun _ _ _ _ _ _ => None) tab_spline (new_finder 1 1 1) 1 default_u 0 [] g Q eq_refl default_u_ok) as (g' & E).
  pose proof (H (fun _ => 1) (fun _ _ _ _ _ _ => None) tab_spline (new_finder 1 1 1) 1 default_u [0] (plain_at 5) [] 1 _ (Other 0) g' [[1]; [1]; [1]] 2%nat (999 / 1000) [1] 1 P D Rlt_0_1 (bend_ok _ [] 1 P D Rlt_0_1) tab_spline_ok E) as X.
  cbn [be_tube] in X. rewrite correction_ok in X by apply Q. specialize (X eq_refl eq_refl eq_refl eq_refl).
  destruct (chirp_inv _ _ _ _ _ _ _ g _ (proj1 Q) E) as (v & vs' & _ & _ & _ & _ & Eg). rewrite Eg in X. cbn [gs_d period_at fst snd] in X.
  assert (N4 : norm4 (v_y (gs_pos g)) = 1).
  { rewrite (hom0 (v_y (gs_pos g)) (proj1 (proj2 (proj1 Q)))), norm4_hom0. exact NY. }
  rewrite N4 in X. rewrite tab_spline_off in X; [lra| |rewrite !map_length; reflexivity].
  assert (T : tu_lim (tube_of (plain_at 5) 1) = (- atan 1, atan 1)).
  { unfold tube_of. cbn [tu_lim]. assert (N2 : norm3 (xyz (v_y (plain_at 5))) = 1) by (apply norm3_1; unfold plain_at, v_y, xyz; cbn; vu; ring). rewrite N2. replace (1 / 1) with 1 by field. reflexivity. }
  rewrite T. cbn [snd]. pose proof (atan_lt 1 Rlt_0_1). assert (0 < atan 1) by (rewrite <- atan_0; apply atan_increasing; lra).
  unfold default_u. cbn [map In]. intros [I|[I|[I|[]]]]; lra.
Qed.
Print Assumptions C152_bent_refuted.
