(** Property C246: baffles in a row and in the beam of a lens. *)
From Verif Require Import Base_Proofs Vec_Proofs Coords_Proofs Plane_Proofs Grating_Proofs Instrument_Proofs Instrument_Proofs2 Layers_Proofs.
From Verif Require Import Instrument_Props.
From Verif Require Export Stop_Model Stop_Proofs.
Open Scope R_scope.
Open Scope list_scope.

(** ** C246 *)
(** A photon keeps its probability in a row of baffles if and only if its ray crosses all openings one after the other; otherwise it has probability 0.  Nothing else but the position changes. *)
Theorem C246_row : forall ms drs ph x d p, Forall perpendicular_axes ms -> l_dir ph = Some d -> l_pos ph = Some x -> l_prob ph = Some p ->
  exists ph', through (map PBaffle ms) drs ph = Ok ph' /\ l_dir ph' = l_dir ph /\ l_pol ph' = l_pol ph /\ l_energy ph' = l_energy ph /\
    (in_turn ms x d 0 -> l_prob ph' = Some p) /\ (~ in_turn ms x d 0 -> l_prob ph' = Some 0).
Proof.
  intros ms drs ph x d p P D X PR. apply row; try assumption. rewrite X. f_equal. clear. destruct x as [a b c], d as [u v w]. unfold add3, scale3. cbn. f_equal; ring.
Qed.
Print Assumptions C246_row.
(** So the order in the list matters: a photon that has passed one opening is absorbed by each baffle that comes later in the list but lies before this opening. *)
Theorem C246_wrong_order : forall m1 m2 ms drs ph x d p k1 k2, Forall perpendicular_axes (m2 :: m1 :: ms) -> l_dir ph = Some d -> l_pos ph = Some x -> l_prob ph = Some p ->
  crosses m1 x d k1 -> crosses m2 x d k2 -> 0 <= k1 < k2 ->
  (exists ph', through (map PBaffle [m1; m2]) drs ph = Ok ph' /\ l_prob ph' = Some p) /\ (exists ph', through (map PBaffle (m2 :: m1 :: ms)) drs ph = Ok ph' /\ l_prob ph' = Some 0).
Proof.
  intros m1 m2 ms drs ph x d p k1 k2 P D X PR C1 C2 K. inversion P as [|? ? P2 Q]; subst. inversion Q as [|? ? P1 _]; subst. split.
  - destruct (C246_row [m1; m2] drs ph x d p) as (ph' & H & _ & _ & _ & Y & _); try assumption; [constructor; [exact P1|constructor; [exact P2|constructor]]|]. exists ph'. split; [exact H|]. apply Y. exists k1. split; [lra|]. split; [exact C1|]. exists k2. split; [lra|]. now split.
  - destruct (C246_row (m2 :: m1 :: ms) drs ph x d p P D X PR) as (ph' & H & _ & _ & _ & _ & N). exists ph'. split; [exact H|]. apply N. intros (k & _ & C2' & k' & K' & C1' & _).
    rewrite (crosses_once m2 x d k k2 P2 C2' C2) in K'. rewrite (crosses_once m1 x d k' k1 P1 C1' C1) in K'. lra.
Qed.
Print Assumptions C246_wrong_order.
(** A smaller opening in the same place lets no photon pass that the larger one absorbs. *)
Theorem C246_smaller : forall m m' c n e f h w h' w' x d k, frame n e f -> plate m c n e f h w -> plate m' c n e f h' w' -> h' <= h -> w' <= w -> crosses m' x d k -> crosses m x d k.
Proof.
  intros m m' c n e f h w h' w' x d k F (_ & C & X & Y & Z & H & W) (_ & C' & X' & Y' & Z' & H' & W') LH LW (N & a & b & Ra & Rb & R). split; [congruence|].
  exists (a * h' / h), (b * w' / w). assert (G : forall t u u', 0 < u -> 0 < u' -> u' <= u -> -1 <= t <= 1 -> -1 <= t * u' / u <= 1).
  { intros t u u' U U' L T. assert (S : t * u' / u * u = t * u') by (field; lra). set (r := t * u' / u) in *. clearbody r. split; nra. }
  split; [now apply G|]. split; [now apply G|]. rewrite R, C, C', Y, Z, Y', Z'. assert (S1 : a * h' = a * h' / h * h) by (field; lra). assert (S2 : b * w' = b * w' / w * w) by (field; lra).
  transitivity (add3 c (add3 (scale3 (a * h') e) (scale3 (b * w') f))); [clear; vring|]. set (r := a * h' / h) in *. set (t := b * w' / w) in *. rewrite S1, S2. clearbody r t. clear. vring.
Qed.
Print Assumptions C246_smaller.
(** Two parallel openings are a collimator: there are photons of direction [d] that pass both if and only if the direction is not too far from the common normal in either direction. *)
Theorem C246_collimator : forall m1 m2 c n e f h1 w1 h2 w2 L d, frame n e f -> plate m1 c n e f h1 w1 -> plate m2 (add3 c (scale3 L n)) n e f h2 w2 -> 0 < L -> 0 < dot3 d n ->
  (exists x, in_turn [m1; m2] x d 0) <-> L * Rabs (dot3 d e) <= (h1 + h2) * dot3 d n /\ L * Rabs (dot3 d f) <= (w1 + w2) * dot3 d n.
Proof. exact collimator. Qed.
Print Assumptions C246_collimator.
(** A baffle at the distance [s] behind a lens, centered on the ray through the center of the lens, is a stop that is larger by the factor f / (f - s) in the plane of the lens: with the coordinates
    [loc] on the lens, a photon keeps its probability if it is in this larger opening and is absorbed otherwise.  The size of the opening is irrelevant in the focus. *)
Theorem C246_stop : forall m md f s refl rn dr dr' ph ph1 d q loc, perpendicular_axes m -> perpendicular_axes md -> parallel_to m md -> dot3 d d = 1 -> 0 < f -> 0 <= s -> xyz (center md) = add3 (xyz (center m)) (scale3 s d) ->
  Instrument_Model.meets m ph = Some (d, q, loc) -> one (PLens m 0 f refl rn) dr ph = Ok ph1 ->
  exists ph2, one (PBaffle md) dr' ph1 = Ok ph2 /\ l_dir ph2 = l_dir ph1 /\
    (Rabs ((1 - s / f) * fst loc) <= norm3 (xyz (v_y md)) /\ Rabs ((1 - s / f) * snd loc) <= norm3 (xyz (v_z md)) -> l_prob ph2 = l_prob ph1) /\
    (~ (Rabs ((1 - s / f) * fst loc) <= norm3 (xyz (v_y md)) /\ Rabs ((1 - s / f) * snd loc) <= norm3 (xyz (v_z md))) -> l_prob ph2 = Some 0).
Proof.
  intros m md f s refl rn dr dr' ph ph1 d q loc P PD PA U HF HS C M H. pose proof (stopped m md f s refl rn dr ph ph1 d q loc P PD PA U HF HS C M H) as I. cbn [one].
  destruct (Instrument_Model.meets md ph1) as [[[d2 q2] loc2]|].
  - eexists. split; [reflexivity|]. split; [reflexivity|]. split; [reflexivity|]. intros N. exfalso. apply N, I. now exists (d2, q2, loc2).
  - eexists. split; [reflexivity|]. split; [reflexivity|]. split; [|reflexivity]. intros Y. apply I in Y. destruct Y as [r R]. discriminate.
Qed.
Print Assumptions C246_stop.
Theorem C246_focus : forall m md f refl rn dr dr' ph ph1 d q loc, perpendicular_axes m -> perpendicular_axes md -> parallel_to m md -> dot3 d d = 1 -> 0 < f -> xyz (center md) = add3 (xyz (center m)) (scale3 f d) ->
  Instrument_Model.meets m ph = Some (d, q, loc) -> one (PLens m 0 f refl rn) dr ph = Ok ph1 -> exists ph2, one (PBaffle md) dr' ph1 = Ok ph2 /\ l_prob ph2 = l_prob ph1.
Proof.
  intros m md f refl rn dr dr' ph ph1 d q loc P PD PA U HF C M H. destruct (C246_stop m md f f refl rn dr dr' ph ph1 d q loc P PD PA U HF (Rlt_le _ _ HF) C M H) as (ph2 & O & _ & Y & _). exists ph2. split; [exact O|]. apply Y.
  replace (1 - f / f) with 0 by (field; lra). rewrite !Rmult_0_l, Rabs_R0. split; apply sqrt_pos.
Qed.
Print Assumptions C246_focus.
(** Example: two openings of half side 1 at the distance 4 *)
Definition plate_at (x h : R) : m4 := M4 (V4 1 0 0 0) (V4 0 h 0 0) (V4 0 0 h 0) (V4 x 0 0 1).
Example C246_example : frame (V3 1 0 0) (V3 0 1 0) (V3 0 0 1) /\ plate (plate_at 0 1) zero3 (V3 1 0 0) (V3 0 1 0) (V3 0 0 1) 1 1 /\
  plate (plate_at 4 1) (add3 zero3 (scale3 4 (V3 1 0 0))) (V3 1 0 0) (V3 0 1 0) (V3 0 0 1) 1 1 /\
  (exists x, in_turn [plate_at 0 1; plate_at 4 1] x (V3 1 (1 / 2) 0) 0) /\ ~ (exists x, in_turn [plate_at 0 1; plate_at 4 1] x (V3 1 1 0) 0).
Proof.
  assert (F : frame (V3 1 0 0) (V3 0 1 0) (V3 0 0 1)) by (unfold frame, dot3; cbn; repeat split; ring).
  assert (P : forall x, plate (plate_at x 1) (V3 x 0 0) (V3 1 0 0) (V3 0 1 0) (V3 0 0 1) 1 1).
  { intros x. unfold plate, plate_at, center, v_x, v_y, v_z, scale3, xyz. cbn [b0 b1 b2 b3 x4 y4 z4 x3 y3 z3]. split; [repeat split|]. split; [reflexivity|]. split; [reflexivity|]. split; [f_equal; ring|]. split; [f_equal; ring|]. split; lra. }
  assert (P4 : plate (plate_at 4 1) (add3 zero3 (scale3 4 (V3 1 0 0))) (V3 1 0 0) (V3 0 1 0) (V3 0 0 1) 1 1).
  { replace (add3 zero3 (scale3 4 (V3 1 0 0))) with (V3 4 0 0) by (unfold add3, scale3, zero3; cbn; f_equal; ring). apply P. }
  split; [exact F|]. split; [apply P|]. split; [exact P4|].
  assert (D : forall y, dot3 (V3 1 y 0) (V3 1 0 0) = 1 /\ dot3 (V3 1 y 0) (V3 0 1 0) = y /\ dot3 (V3 1 y 0) (V3 0 0 1) = 0) by (intros y; unfold dot3; cbn; repeat split; ring).
  split.
  - apply (C246_collimator (plate_at 0 1) (plate_at 4 1) zero3 (V3 1 0 0) (V3 0 1 0) (V3 0 0 1) 1 1 1 1 4 _ F (P 0) P4); destruct (D (1 / 2)) as (D1 & D2 & D3); rewrite ?D1, ?D2, ?D3; [lra|lra|]. rewrite Rabs_R0, Rabs_right by lra. split; lra.
  - intros E. apply (C246_collimator (plate_at 0 1) (plate_at 4 1) zero3 (V3 1 0 0) (V3 0 1 0) (V3 0 0 1) 1 1 1 1 4 _ F (P 0) P4) in E; destruct (D 1) as (D1 & D2 & D3); rewrite ?D1, ?D2, ?D3 in *; try lra.
    rewrite Rabs_right in E by lra. lra.
Qed.
(** Example: half way to the focus of a lens with focal length 1 the photon that enters at y = 1/2 is absorbed by an opening of half side 1/8, but passes one of half side 1 *)
Definition narrow (h : R) : m4 := M4 (V4 1 0 0 0) (V4 0 h 0 0) (V4 0 0 h 0) (V4 (- (1 / 2)) 0 0 1).
Example C246_stop_example : exists ph ph1 ph2 ph3, Instrument_Model.meets id4 ph = Some (V3 (-1) 0 0, V3 0 (1 / 2) 0, (1 / 2, 0)) /\ one (PLens id4 0 1 (fun _ _ => 1) (fun _ => None)) dr0 ph = Ok ph1 /\ l_prob ph1 = Some 1 /\
  one (PBaffle (narrow (1 / 8))) dr0 ph1 = Ok ph2 /\ l_prob ph2 = Some 0 /\ one (PBaffle (narrow 1)) dr0 ph1 = Ok ph3 /\ l_prob ph3 = Some 1.
Proof.
  destruct (ex_lens_one dr0 (1 / 2)) as (n & v & N & O & _); [lra|]. set (ph1 := LPhoton (Some (scale3 (/ n) (V3 (-1) (- (1 / 2)) 0))) (Some (V3 0 (1 / 2) 0)) v 1 (Some (1 * (1 * 1)))) in O.
  assert (M : Instrument_Model.meets id4 (ex_photon (1 / 2) 0 (V3 0 1 0) 1 1) = Some (V3 (-1) 0 0, V3 0 (1 / 2) 0, (1 / 2, 0))) by (apply ex_meets; lra).
  assert (A : forall h, 0 < h -> perpendicular_axes (narrow h)).
  { intros h H. unfold perpendicular_axes, narrow. split; [repeat split|]. cbn [v_x v_y v_z b0 b1 b2 xyz x4 y4 z4].
    repeat split; try (intros K; pose proof (f_equal x3 K); pose proof (f_equal y3 K); pose proof (f_equal z3 K); cbn in *; lra); vu; ring. }
  assert (PA : forall h, 0 < h -> parallel_to id4 (narrow h)) by (intros h H; exists 1, h, h; repeat split; try lra; unfold narrow; vu; cbn; f_equal; ring).
  assert (C : forall h, xyz (center (narrow h)) = add3 (xyz (center id4)) (scale3 (1 / 2) (V3 (-1) 0 0))) by (intros h; unfold narrow, id4, center, xyz, add3, scale3; cbn [b3 x4 y4 z4 x3 y3 z3]; f_equal; lra).
  assert (NN : forall h, 0 < h -> norm3 (xyz (v_y (narrow h))) = h /\ norm3 (xyz (v_z (narrow h))) = h).
  { intros h H. unfold norm3, narrow, v_y, v_z, xyz, dot3. cbn [b1 b2 x4 y4 z4 x3 y3 z3]. split; [replace (0 * 0 + h * h + 0 * 0) with (h * h) by ring|replace (0 * 0 + 0 * 0 + h * h) with (h * h) by ring]; apply sqrt_square; lra. }
  assert (U : dot3 (V3 (-1) 0 0) (V3 (-1) 0 0) = 1) by (unfold dot3; cbn; ring).
  assert (H8 : 0 < 1 / 8) by lra. assert (H1 : 0 < 1) by lra. assert (HS : 0 <= 1 / 2) by lra.
  destruct (C246_stop id4 (narrow (1 / 8)) 1 (1 / 2) (fun _ _ => 1) (fun _ => None) dr0 dr0 _ ph1 (V3 (-1) 0 0) (V3 0 (1 / 2) 0) (1 / 2, 0) id4_axes (A _ H8) (PA _ H8) U H1 HS (C _) M O) as (ph2 & O2 & _ & _ & N2).
  destruct (C246_stop id4 (narrow 1) 1 (1 / 2) (fun _ _ => 1) (fun _ => None) dr0 dr0 _ ph1 (V3 (-1) 0 0) (V3 0 (1 / 2) 0) (1 / 2, 0) id4_axes (A _ H1) (PA _ H1) U H1 HS (C _) M O) as (ph3 & O3 & _ & Y3 & _).
  destruct (NN _ H8) as [NY NZ]. destruct (NN _ H1) as [NY' NZ']. rewrite NY, NZ in N2. rewrite NY', NZ' in Y3. cbn [fst snd] in N2, Y3. assert (E1 : l_prob ph1 = Some 1) by (unfold ph1; cbn [l_prob]; f_equal; ring).
  exists (ex_photon (1 / 2) 0 (V3 0 1 0) 1 1), ph1, ph2, ph3. split; [exact M|]. split; [exact O|]. split; [exact E1|]. split; [exact O2|]. split.
  - apply N2. intros [B _]. rewrite Rabs_right in B by lra. lra.
  - split; [exact O3|]. rewrite <- E1. apply Y3. split; [rewrite Rabs_right by lra; lra|]. rewrite Rmult_0_r, Rabs_R0. lra.
Qed.
