(** Properties C172 to C174: the complete CAT grating with its support, and the order selectors for tilted bars. *)
From Verif Require Import Base_Proofs Vec_Proofs Plane_Proofs Position_Proofs Grating_Proofs Scatter_Proofs Sampling_Proofs Lens_Proofs Mission_Proofs Lynx_Proofs.
From Verif Require Export CatStack_Proofs.
Open Scope R_scope.

(** C172: a photon that passes between the L1 bars obeys the grating equation of the bars in the dispersion direction and the equation of L1 along the bars;
    the direction has unit length and stays on the same side of the grating. *)
Theorem C172_dispersion : forall hc trans k q p p1 p2 ey ez en u,
  perpendicular_axes (k_pos k) -> s_dir p <> zero3 -> plane_bases (k_pos k) = Some (ey, ez, en) -> u = scale3 (/ norm3 (s_dir p)) (s_dir p) -> dot3 u (xyz en) <> 0 ->
  layer_cat hc k q p = Some p1 -> dot3 (s_dir p1) (xyz en) <> 0 -> q_u1 q <= l1_open (di_width (k_l1 k)) (di_period (k_l1 k)) -> layer_L1 hc trans k q (layer_quality k p1) = Ok (Some p2) ->
  let disp := e_perp_groove (xyz ey) (xyz ez) (k_groove k) in let bars := e_groove (xyz ey) (xyz ez) (k_groove k) in
  norm3 (s_dir p2) = 1 /\
  dot3 (s_dir p2) disp = dot3 u disp + (if Rleb (dot3 u disp) 0 then -1 else 1) * (IZR (q_m q) * (hc / s_energy p) / k_d k) /\
  dot3 (s_dir p2) bars = dot3 u bars + (if Rleb (dot3 u bars) 0 then -1 else 1) * (IZR (q_m1 q) * (hc / s_energy p) / di_period (k_l1 k)) /\
  0 <= dot3 (s_dir p2) (xyz en) * dot3 u (xyz en) /\ s_order p2 = q_m q /\ s_order_L1 p2 = q_m1 q.
Proof. exact cat_dispersion. Qed.
Print Assumptions C172_dispersion.
(** If there is room for the components along both directions, and the wavelength is not larger than the hole of L2, the photon leaves the stack *)
Theorem C172_passes : forall hc trans k q p ey ez en u,
  perpendicular_axes (k_pos k) -> s_dir p <> zero3 -> plane_bases (k_pos k) = Some (ey, ez, en) -> u = scale3 (/ norm3 (s_dir p)) (s_dir p) -> dot3 u (xyz en) <> 0 ->
  q_u1 q <= l1_open (di_width (k_l1 k)) (di_period (k_l1 k)) -> 0 < hc / s_energy p <= di_period (k_l2 k) - di_width (k_l2 k) ->
  let disp := e_perp_groove (xyz ey) (xyz ez) (k_groove k) in let bars := e_groove (xyz ey) (xyz ez) (k_groove k) in
  let a := dot3 u disp + (if Rleb (dot3 u disp) 0 then -1 else 1) * (IZR (q_m q) * (hc / s_energy p) / k_d k) in
  let b := dot3 u bars + (if Rleb (dot3 u bars) 0 then -1 else 1) * (IZR (q_m1 q) * (hc / s_energy p) / di_period (k_l1 k)) in
  a * a + dot3 u bars * dot3 u bars < 1 -> a * a + b * b <= 1 -> exists r, cat_photon hc trans k q p = Ok (Some r).
Proof. exact cat_exists. Qed.
Print Assumptions C172_passes.
(** A photon behind an L1 bar keeps the direction that the grating bars gave it *)
Theorem C172_blocked : forall hc trans k q p1 t, 1 - di_width (k_l1 k) / di_period (k_l1 k) < q_u1 q -> trans (s_energy p1) = Ok t ->
  exists p2, layer_L1 hc trans k q p1 = Ok (Some p2) /\ s_dir p2 = s_dir p1 /\ s_order_L1 p2 = 0%Z /\ s_order p2 = s_order p1 /\ s_prob p2 = s_prob p1 * t.
Proof. exact cat_blocked. Qed.
Print Assumptions C172_blocked.
(** The probability is the product of the factors of the layers *)
Theorem C172_probability : forall hc trans k q p r, cat_photon hc trans k q p = Ok (Some r) -> exists f1 c,
  s_prob r = s_prob p * q_p q * exp (- (2 * PI * k_sigma k / k_qd k) ^ 2) ^ (Z.to_nat (q_m q * q_m q)) * f1 * l2_probability (di_depth (k_l2 k)) (di_period (k_l2 k)) (di_width (k_l2 k)) c /\
  ((1 - di_width (k_l1 k) / di_period (k_l1 k) < q_u1 q /\ trans (s_energy p) = Ok f1 /\ s_order_L1 r = 0%Z) \/
   (q_u1 q <= 1 - di_width (k_l1 k) / di_period (k_l1 k) /\ f1 = q_p1 q /\ s_order_L1 r = q_m1 q)) /\ s_order r = q_m q.
Proof. exact cat_prob. Qed.
Print Assumptions C172_probability.
(** With the default L2 support the probability never grows and is never negative *)
Theorem C172_bound : forall hc trans k q p r, perpendicular_axes (k_pos k) -> cat_photon hc trans k q p = Ok (Some r) -> 0 <= s_prob p -> 0 <= q_p q <= 1 -> 0 <= q_p1 q <= 1 ->
  (forall e t, trans e = Ok t -> 0 <= t <= 1) -> k_l2 k = Dims (1 / 2) (9622504 / 10000000) (962250 / 10000000) -> 0 <= s_prob r <= s_prob p.
Proof. exact cat_prob_bound. Qed.
Print Assumptions C172_bound.
(** The last layer turns the ray by the drawn number times 0.488 times the angle whose sine is the wavelength over the width of the hole *)
Theorem C172_scatter : forall hc trans k q p r, cat_photon hc trans k q p = Ok (Some r) -> exists p1 p2 sigma u, layer_cat hc k q p = Some p1 /\ layer_L1 hc trans k q (layer_quality k p1) = Ok (Some p2) /\
  airy_sigma (k_l2 k) (hc / s_energy p) = Some sigma /\ unit3 (s_dir p2) = Some u /\ norm3 (s_dir r) = 1 /\ dot3 (s_dir r) u = cos (q_normal q * sigma).
Proof. exact cat_angle. Qed.
Print Assumptions C172_scatter.
Theorem C172_airy : forall l2 w, 0 < w -> di_width l2 < di_period l2 ->
  (w <= di_period l2 - di_width l2 -> exists s, airy_sigma l2 w = Some s /\ 0 < s /\ sin (s / (488 / 1000)) = w / (di_period l2 - di_width l2)) /\
  (di_period l2 - di_width l2 < w -> airy_sigma l2 w = None) /\
  (forall w' s s', w < w' -> airy_sigma l2 w = Some s -> airy_sigma l2 w' = Some s' -> s < s').
Proof. intros l2 w W D. destruct (airy_spec l2 w W D) as [A B]. split; [exact A|]. split; [exact B|]. intros w' s s' L. now apply airy_mono. Qed.
Print Assumptions C172_airy.
(** Orders 0 and no scattering: nothing but the probability changes *)
Theorem C172_straight : forall hc trans k q p r ey ez en u, perpendicular_axes (k_pos k) -> s_dir p <> zero3 -> plane_bases (k_pos k) = Some (ey, ez, en) -> u = scale3 (/ norm3 (s_dir p)) (s_dir p) -> dot3 u (xyz en) <> 0 ->
  q_m q = 0%Z -> q_m1 q = 0%Z -> q_normal q = 0 -> cat_photon hc trans k q p = Ok (Some r) -> s_dir r = u.
Proof. exact cat_straight. Qed.
Print Assumptions C172_straight.
(** Order 1 with wavelength 3/5 of the period, L1 order 1 with 12/25: the photon leaves in the direction that both equations give. *)
Definition st1 : stack := Stack id4 1 0 (175 / 100) 200 (Dims 1 (5 / 4) (1 / 4)) (Dims (1 / 2) 2 (1 / 10)).
Definition qq1 : sdraw := SD 1 (1 / 2) 1 (3 / 100) (1 / 2) 0 0.
Definition ph1 : sphot := CatStack_Model.SP (V3 1 0 0) 1 1 0 0.
Lemma e1_ne : V3 1 0 0 <> zero3. Proof. intros H. apply (f_equal x3) in H. cbn in H. lra. Qed.
Lemma e1_unit : V3 1 0 0 = scale3 (/ norm3 (V3 1 0 0)) (V3 1 0 0).
Proof. assert (E : norm3 (V3 1 0 0) = 1) by (apply norm3_1; vu; ring). rewrite E, Rinv_1. clear. vring. Qed.
Example C172_example : exists r, cat_photon (3 / 5) (fun _ => Ok 0) st1 qq1 ph1 = Ok (Some r).
Proof.
  apply (C172_passes (3 / 5) (fun _ => Ok 0) st1 qq1 ph1 _ _ _ _ id4_axes e1_ne id4_bases e1_unit); cbn [k_pos k_l1 k_l2 k_d k_groove st1 di_width di_period qq1 q_u1 q_m q_m1 ph1 s_energy s_dir].
  - vu. lra.
  - unfold l1_open. lra.
  - lra.
  - unfold e_groove, e_perp_groove. rewrite Ropp_0, sin_0, cos_0. vu. destruct (Rleb _ 0); lra.
  - unfold e_groove, e_perp_groove. rewrite Ropp_0, sin_0, cos_0. vu. destruct (Rleb _ 0); destruct (Rleb _ 0); lra.
Qed.

(** C173: the stack consists of five layers; the keywords go to the layers as given or with their default, the lines of L1 are at a right angle to the bars, and every
    other keyword has to be one of a flat element. *)
Theorem C173_layers : forall kw m l, cat_stack kw = Ok (m, l) ->
  exists sel g rest, dget "order_selector" kw = Some sel /\ match dget "groove_angle" kw with Some v => v | None => Num 0 end = Num g /\ parse_position (drop layer_keys kw) = Ok (m, rest) /\
  map fst l = ["NonParallelCATGrating"; "QualityFactor"; "L1"; "L2Abs"; "L2Diffraction"] /\
  nth_error (map snd l) 0 = Some [("order_selector", sel); ("d", match dget "d" kw with Some v => v | None => Num (2 / 10000) end); ("groove_angle", Num g)] /\
  nth_error (map snd l) 1 = Some [("qualityfactor", match dget "qualityfactor" kw with Some v => v | None => Obj 4 end)] /\
  nth_error (map snd l) 2 = Some [("l1_dims", match dget "l1_dims" kw with Some v => v | None => Obj 1 end); ("order_selector", match dget "l1_order_selector" kw with Some v => v | None => Obj 3 end); ("groove_angle", Num (PI / 2 + g))] /\
  (forall i, i = 3%nat \/ i = 4%nat -> nth_error (map snd l) i = Some [("l2_dims", match dget "l2_dims" kw with Some v => v | None => Obj 2 end)]).
Proof.
  intros kw m l H. destruct (stack_ok kw m l H) as (_ & sel & g & rest & S & G & P & ->). exists sel, g, rest. split; [exact S|]. split; [exact G|]. split; [exact P|]. split; [reflexivity|]. split; [reflexivity|]. split; [reflexivity|]. split; [reflexivity|].
  intros i [->| ->]; reflexivity.
Qed.
Print Assumptions C173_layers.
(** A stack is made exactly if there is an order selector and no unknown keyword (and the position can be read) *)
Theorem C173_accepts : forall kw g, match dget "groove_angle" kw with Some v => v | None => Num 0 end = Num g ->
  (dget "order_selector" kw = None -> cat_stack kw = Err KeyError) /\
  (forall sel m rest, dget "order_selector" kw = Some sel -> parse_position (drop layer_keys kw) = Ok (m, rest) ->
    ((exists l, cat_stack kw = Ok (m, l)) <-> forall k, In k (dkeys kw) ->
       In k ["l1_dims"; "l2_dims"; "l1_order_selector"; "qualityfactor"; "groove_angle"; "order_selector"; "d"; "elements"; "keywords";
             "pos4d"; "position"; "orientation"; "zoom"; "preprocess_steps"; "postprocess_steps"; "id_col"; "id_num"; "name"])).
Proof.
  intros kw g G. split; [intros N; rewrite stack_unfold, N; reflexivity|]. intros sel m rest S P. split.
  - intros (l & L). destruct (stack_ok kw m l L) as [K _]. intros k I. specialize (K k I). unfold cat_keys, layer_keys, flat_keys, pos_keys in K. cbn [app] in K. cbn [In] in *. tauto.
  - intros K. apply (stack_accepts kw sel g m rest S G P). intros k I. specialize (K k I). unfold cat_keys, layer_keys, flat_keys, pos_keys. cbn [app]. cbn [In] in *. tauto.
Qed.
Print Assumptions C173_accepts.
(** The keywords elements and keywords of FlatStack are accepted and replaced *)
Theorem C173_ignored : forall kw a v, a = "elements" \/ a = "keywords" -> cat_stack (dset a v kw) = cat_stack kw.
Proof. exact stack_ignores. Qed.
Print Assumptions C173_ignored.
(** False: that the tilt of the bars, which the first layer understands, can be set in the stack. *)
Theorem C173_tilt_refuted : forall kw k m l, k = "d_blaze_mm" \/ k = "blaze_center" -> In k (dkeys kw) -> cat_stack kw <> Ok (m, l).
Proof.
  intros kw k m l K I H. destruct (stack_ok kw m l H) as [A _]. specialize (A k I). destruct K as [->| ->]; vm_compute in A; repeat (destruct A as [A|A]; [discriminate A|]); destruct A.
Qed.
Print Assumptions C173_tilt_refuted.
Example C173_example : exists l, cat_stack [("order_selector", Obj 9); ("groove_angle", Num 1); ("name", Obj 5)] = Ok (id4, l) /\ nth_error (map snd l) 2 = Some [("l1_dims", Obj 1); ("order_selector", Obj 3); ("groove_angle", Num (PI / 2 + 1))].
Proof.
  rewrite stack_unfold. change (drop layer_keys [("order_selector", Obj 9); ("groove_angle", Num 1); ("name", Obj 5)]) with [("name", Obj 5)]. cbn [dget String.eqb Ascii.eqb Bool.eqb or_default].
  unfold flat_rest. rewrite parse_none by (intros k K L; cbn in K, L; destruct L as [<-|[]]; repeat (destruct K as [K|K]; [discriminate|]); destruct K). eexists. split; reflexivity.
Qed.

(** C174: the order selectors with tilted bars look up the probabilities at a blaze angle that is changed by a random number. *)
Theorem C174_angle : forall w v b, 0 < w -> 0 <= v < 1 -> b - w / 2 <= tophat_angle w v b < b + w / 2.
Proof. exact tophat_range. Qed.
Print Assumptions C174_angle.
Theorem C174_onto : forall w b a, 0 < w -> b - w / 2 <= a < b + w / 2 -> exists v, 0 <= v < 1 /\ tophat_angle w v b = a /\ forall v', tophat_angle w v' b = a -> v' = v.
Proof. exact tophat_onto. Qed.
Print Assumptions C174_onto.
(** No tilt: same as the plain table *)
Theorem C174_zero : forall table orders e b u n v, wavy_select table orders 0 n e b u = plain_select table orders e b u /\ tophat_select table orders 0 v e b u = plain_select table orders e b u.
Proof. exact tilt_zero. Qed.
Print Assumptions C174_zero.
(** The order has a probability larger than 0 at the changed angle, and the total probability is the one of that angle *)
Theorem C174_order : forall (table : R -> R -> list R) orders s n w v e b u m prob, 0 <= u < 1 ->
  (List.length orders = List.length (table e (b + s * n)) -> Sampling_Model.nonneg (table e (b + s * n)) -> 0 < Rsum (table e (b + s * n)) -> wavy_select table orders s n e b u = Ok (m, prob) ->
    prob = Rsum (table e (b + s * n)) /\ exists j, nth_error orders j = Some m /\ 0 < nth j (table e (b + s * n)) 0) /\
  (let b' := b + w * (v - 1 / 2) in List.length orders = List.length (table e b') -> Sampling_Model.nonneg (table e b') -> 0 < Rsum (table e b') -> tophat_select table orders w v e b u = Ok (m, prob) ->
    prob = Rsum (table e b') /\ exists j, nth_error orders j = Some m /\ 0 < nth j (table e b') 0).
Proof. intros table orders s n w v e b u m prob U. split; [|cbv zeta]; intros L NN P E; exact (tilt_order _ orders u m prob L NN U P E). Qed.
Print Assumptions C174_order.
(** False: that the angle stays in the range from 0 to pi/2 that a blaze angle has (C79). *)
Theorem C174_range_refuted : exists w v b, 0 < w < 1 / 100 /\ 0 <= v < 1 /\ 0 <= b <= PI / 2 /\ tophat_angle w v b < 0.
Proof. exists (1 / 200), 0, 0. pose proof PI_RGT_0. unfold tophat_angle. repeat split; lra. Qed.
Print Assumptions C174_range_refuted.
(** The table gives order -1 the probability [b], order 0 the rest of 0.8: tilted by 0.2 to 0.5, order -1 is drawn with a number that gives order 0 without tilt. *)
Lemma two_orders x : 0 < x -> 0 < 8 / 10 - x -> exists a, interp_call [-1; 0]%Z [x; 8 / 10 - x] (1 / 2) = Ok (a, 8 / 10) /\ (a = (-1)%Z <-> 4 / 10 < x) /\ (a = 0%Z <-> x <= 4 / 10).
Proof.
  intros X Y. assert (NN : Sampling_Model.nonneg [x; 8 / 10 - x]) by (intros v [<-|[<-|[]]]; lra). assert (S : Rsum [x; 8 / 10 - x] = 8 / 10) by (cbn; lra).
  rewrite interp_ok by (try assumption; try reflexivity; try discriminate; try (cbn; lra); rewrite ?S; lra).
  destruct (pick_index [x; 8 / 10 - x] (1 / 2) NN ltac:(rewrite S; lra) ltac:(lra)) as (j & J & Lj & Pj). pose proof (proj1 (normalized_iff [x; 8 / 10 - x] (1 / 2) j NN ltac:(rewrite S; lra) ltac:(lra)) J) as B. rewrite J, S in *. unfold psum in B.
  destruct j as [|[|j]]; cbn [firstn nth nth_error Rsum fold_right] in *; [| |cbn in Lj; lia]; eexists; (split; [reflexivity|]); cbn in B; (split; split; [try discriminate; lra|try reflexivity; lra|try discriminate; lra|try reflexivity; lra]).
Qed.
Example C174_example : wavy_select (fun _ b => [b; 8 / 10 - b]) [-1; 0]%Z (1 / 10) 2 1 (3 / 10) (1 / 2) = Ok ((-1)%Z, 8 / 10) /\
  plain_select (fun _ b => [b; 8 / 10 - b]) [-1; 0]%Z 1 (3 / 10) (1 / 2) = Ok (0%Z, 8 / 10).
Proof.
  unfold wavy_select, plain_select, wavy_angle. destruct (two_orders (3 / 10 + 1 / 10 * 2) ltac:(lra) ltac:(lra)) as (a & -> & A & _). destruct (two_orders (3 / 10) ltac:(lra) ltac:(lra)) as (b & -> & _ & B).
  rewrite (proj2 A) by lra. rewrite (proj2 B) by lra. auto.
Qed.
