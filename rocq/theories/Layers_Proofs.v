(** Lemmas for stacks, scatter and the start of a simulation. *)
From Verif Require Import Layers_Model.
From Verif Require Import Base_Proofs Vec_Proofs Coords_Proofs Aperture_Proofs Rot_Proofs Plane_Proofs Lens_Proofs Grating_Proofs Scatter_Proofs Brewster_Proofs Instrument_Proofs Instrument_Proofs2.
Open Scope R_scope.
Open Scope list_scope.

(** ** when and where a photon meets a plane *)
Lemma rect_unique m a b a' b' q : perpendicular_axes m -> in_rectangle m a b q -> in_rectangle m a' b' q -> a = a' /\ b = b'.
Proof.
  intros (_ & _ & NY & NZ & _ & _ & YZ) (_ & _ & E) (_ & _ & E'). rewrite E in E'. clear E.
  set (c := xyz (center m)) in *. set (y := xyz (v_y m)) in *. set (z := xyz (v_z m)) in *.
  assert (K : add3 (scale3 (a - a') y) (scale3 (b - b') z) = zero3).
  { pose proof (f_equal x3 E') as X. pose proof (f_equal y3 E') as Y. pose proof (f_equal z3 E') as Z. clear E'. vu. f_equal; lra. }
  assert (DY : dot3 y y <> 0) by (intros H; apply NY; now apply dot3_zero). assert (DZ : dot3 z z <> 0) by (intros H; apply NZ; now apply dot3_zero).
  assert (A : (a - a') * dot3 y y = 0). { transitivity (dot3 (add3 (scale3 (a - a') y) (scale3 (b - b') z)) y + - (b - b') * dot3 y z); [generalize y z; clear; vring|]. rewrite K, YZ. generalize y. clear. vring. }
  assert (B : (b - b') * dot3 z z = 0). { transitivity (dot3 (add3 (scale3 (a - a') y) (scale3 (b - b') z)) z + - (a - a') * dot3 y z); [generalize y z; clear; vring|]. rewrite K, YZ. generalize z. clear. vring. }
  split; nra.
Qed.
Lemma rect_plane m a b q : perpendicular_axes m -> in_rectangle m a b q -> dot3 (sub3 q (xyz (center m))) (xyz (v_x m)) = 0.
Proof.
  intros (_ & _ & _ & _ & XY & XZ & _) (_ & _ & ->). 
  transitivity (a * dot3 (xyz (v_x m)) (xyz (v_y m)) + b * dot3 (xyz (v_x m)) (xyz (v_z m))); [generalize (xyz (center m)) (xyz (v_x m)) (xyz (v_y m)) (xyz (v_z m)); clear; vring|]. rewrite XY, XZ. ring.
Qed.
Lemma meets_iff m ph d q loc : perpendicular_axes m ->
  (meets m ph = Some (d, q, loc) <-> l_dir ph = Some d /\ dot3 d (xyz (v_x m)) <> 0 /\ exists x k a b, l_pos ph = Some x /\ 0 <= k /\ q = add3 x (scale3 k d) /\ in_rectangle m a b q /\
     loc = (a * norm3 (xyz (v_y m)), b * norm3 (xyz (v_z m)))).
Proof.
  intros P. assert (SI : forall x y : v4, Some x = Some y -> x = y) by congruence. assert (SJ : forall x y : R * R, Some x = Some y -> x = y) by congruence. split.
  - intros H. unfold meets in H. destruct (l_dir ph) as [d'|] eqn:D; [|discriminate]. destruct (l_pos ph) as [x|]; [|discriminate].
    destruct (plane_intersect m (hom d' 0) (hom x 1)) as [[h ip] il] eqn:E. destruct h; [|discriminate]. destruct ip as [q'|]; [|discriminate]. destruct il as [l|]; [|discriminate].
    assert (d' = d) as -> by congruence. assert (Q : xyz q' = q) by congruence. assert (l = loc) as -> by congruence. split; [reflexivity|].
    pose proof (plane_hit_iff m d x P) as I. rewrite E in I. cbn [fst] in I. destruct (proj1 I eq_refl) as (N & _). split; [exact N|].
    destruct (plane_hit_values m d x _ _ _ P E) as [_ V]. destruct (V eq_refl) as (k & a & b & q2 & K & R & Q2 & IP & IL). apply SI in IP. apply SJ in IL. subst q'. rewrite xyz_hom in Q. subst q2.
    exists x, k, a, b. split; [reflexivity|]. split; [exact K|]. split; [exact Q2|]. split; [exact R|exact IL].
  - intros (D & N & x & k & a & b & X & K & Q & R & L). unfold meets. rewrite D, X. destruct (plane_intersect m (hom d 0) (hom x 1)) as [[h ip] il] eqn:E.
    assert (H : h = true). { pose proof (plane_hit_iff m d x P) as I. rewrite E in I. cbn [fst] in I. apply I. split; [exact N|]. exists k, a, b. split; [exact K|]. now rewrite <- Q. }
    subst h. destruct (plane_hit_values m d x _ _ _ P E) as [_ V]. destruct (V eq_refl) as (k' & a' & b' & q' & _ & R' & Q' & -> & ->). rewrite xyz_hom.
    assert (KK : k = k').
    { pose proof (rect_plane m a b q P R) as A. pose proof (rect_plane m a' b' q' P R') as B. rewrite Q in A. rewrite Q' in B. 
      assert (C : (k - k') * dot3 d (xyz (v_x m)) = 0). { transitivity (dot3 (sub3 (add3 x (scale3 k d)) (xyz (center m))) (xyz (v_x m)) - dot3 (sub3 (add3 x (scale3 k' d)) (xyz (center m))) (xyz (v_x m))); [generalize (xyz (center m)) (xyz (v_x m)) d x; clear; vring|]. rewrite A, B. ring. }
      apply Rmult_integral in C. destruct C as [C|C]; [lra|contradiction]. }
    assert (QQ : q' = q) by congruence. rewrite QQ in *. destruct (rect_unique m a b a' b' q P R R') as [-> ->]. now rewrite L.
Qed.
(** a photon in the plane meets it where it is *)
Lemma meets_here m ph d q loc dr' : perpendicular_axes m -> meets m ph = Some (d, q, loc) -> l_pos dr' = Some q -> forall d', l_dir dr' = Some d' -> dot3 d' (xyz (v_x m)) <> 0 -> meets m dr' = Some (d', q, loc).
Proof.
  intros P H X d' D N. apply meets_iff in H; [|exact P]. destruct H as (_ & _ & x & k & a & b & _ & _ & _ & R & L). apply meets_iff; [exact P|]. split; [exact D|]. split; [exact N|].
  exists q, 0, a, b. split; [exact X|]. split; [lra|]. split; [generalize q d'; clear; vring|]. now split.
Qed.

(** ** stacks *)
Lemma one_layer m p dr ph : layer_of m p -> one p dr ph = match meets m ph with None => Ok ph | Some (d, q, loc) => bind (effect p dr ph d q loc) (fun o =>
  if bad_factor (snd o) then Err ValueError else Ok (LPhoton (fst (fst o)) (Some q) (snd (fst o)) (l_energy ph) (times (l_prob ph) (snd o)))) end.
Proof. intros [G B]. destruct p; cbn [one surface geometry] in *; try discriminate; try (now destruct (B m0)); (assert (m0 = m) as -> by congruence); reflexivity. Qed.
Lemma layer_one m p dr q loc ph d : layer_of m p -> perpendicular_axes m -> meets m ph = Some (d, q, loc) -> layer p dr q loc ph = one p dr ph.
Proof.
  intros LO P M. rewrite (one_layer m p dr ph LO), M. unfold layer, layer_values. destruct (proj1 (meets_iff m ph d q loc P) M) as (D & _). rewrite D.
  destruct LO as [G B]. destruct p; cbn [surface geometry] in *; try reflexivity. assert (m0 = m) as -> by congruence. now rewrite M.
Qed.
Lemma layer_pos p dr q loc ph ph' : layer p dr q loc ph = Ok ph' -> l_pos ph' = Some q.
Proof.
  unfold layer. destruct (layer_values p dr q loc ph) as [o|]; [|discriminate]. cbn [bind]. destruct (bad_factor (snd o)); [discriminate|]. intros H. 
  apply (f_equal (fun r => match r with Ok a => l_pos a | Err _ => None end)) in H. cbn in H. congruence.
Qed.
Lemma layers_through m q loc : perpendicular_axes m -> (exists ph0 d0, meets m ph0 = Some (d0, q, loc)) ->
  forall ps drs ph, Forall (layer_of m) ps -> l_pos ph = Some q ->
  (forall k ph', (k < length ps)%nat -> layers (firstn k ps) drs q loc ph = Ok ph' -> leaves m ph') -> layers ps drs q loc ph = through ps drs ph.
Proof.
  intros P (ph0 & d0 & M0). induction ps as [|p ps IH]; intros drs ph F X L; [reflexivity|]. inversion F as [|? ? LO F']; subst. cbn [layers through].
  destruct (L 0%nat ph ltac:(cbn; lia) eq_refl) as (d & D & N). rewrite (layer_one m p _ q loc ph d LO P (meets_here m ph0 d0 q loc ph P M0 X d D N)).
  destruct (one p _ ph) as [ph1|e] eqn:O; cbn [bind]; [|reflexivity].
  assert (O' : layer p (hd (Draw 0 0 0 0 0 0 0) drs) q loc ph = Ok ph1) by (rewrite (layer_one m p _ q loc ph d LO P (meets_here m ph0 d0 q loc ph P M0 X d D N)); exact O).
  apply IH; [exact F'|exact (layer_pos _ _ _ _ _ _ O')|]. intros k ph' K H. apply (L (S k) ph'); [cbn; lia|]. cbn [firstn layers]. rewrite O'. exact H.
Qed.
Lemma times_1 p : times p (Some 1) = p.
Proof. destruct p; cbn; [|reflexivity]. f_equal. ring. Qed.
Lemma touch m ph : one (PDetector m) dr0 ph = match meets m ph with None => Ok ph | Some (d, q, loc) => Ok (LPhoton (Some d) (Some q) (l_pol ph) (l_energy ph) (l_prob ph)) end.
Proof.
  cbn [one surface geometry]. destruct (meets m ph) as [[[d q] loc]|]; [|reflexivity]. cbn [effect bind snd bad_factor fst].
  assert (B : Rltb 1 0 || Rltb 1 1 = false) by (apply orb_false_iff; split; apply Rltb_false; lra). rewrite B. now rewrite times_1.
Qed.
Lemma missed_through m ph : meets m ph = None -> forall ps drs, Forall (layer_of m) ps -> through ps drs ph = Ok ph.
Proof. intros M. induction ps as [|p ps IH]; intros drs F; [reflexivity|]. inversion F as [|? ? LO F']; subst. cbn [through]. rewrite (one_layer m p _ ph LO), M. cbn [bind]. now apply IH. Qed.
Lemma stack_sequence m ps drs ph : perpendicular_axes m -> Forall (layer_of m) ps ->
  (forall k ph', (k < length ps)%nat -> meets m ph <> None -> stack_photon m (firstn k ps) drs ph = Ok ph' -> leaves m ph') ->
  stack_photon m ps drs ph = through (PDetector m :: ps) (dr0 :: drs) ph.
Proof.
  intros P F L. cbn [through hd tl]. rewrite touch. unfold stack_photon in *. destruct (meets m ph) as [[[d q] loc]|] eqn:M; cbn [bind]; [|now rewrite (missed_through m ph M ps drs F)].
  destruct (proj1 (meets_iff m ph d q loc P) M) as (D & _). rewrite D in *. apply (layers_through m q loc P (ex_intro _ ph (ex_intro _ d M))); [exact F|reflexivity|].
  intros k ph' K H. apply (L k ph' K); [discriminate|exact H].
Qed.
(** the layers behind an order that does not exist *)
Lemma nan_layers q loc m f dr ph : l_dir ph = None -> l_pos ph = Some q -> 0 <= f (l_energy ph) <= 1 ->
  layer (PFilter m f) dr q loc ph = Ok (LPhoton None (Some q) (l_pol ph) (l_energy ph) (times (l_prob ph) (Some (f (l_energy ph))))) /\ one (PFilter m f) dr ph = Ok ph.
Proof.
  intros D X F. unfold layer, layer_values. rewrite D. cbn [effect_nan]. assert (B : Rltb (f (l_energy ph)) 0 || Rltb 1 (f (l_energy ph)) = false) by (apply orb_false_iff; split; apply Rltb_false; lra).
  rewrite B. cbn [bind snd bad_factor fst]. rewrite B. split; [reflexivity|]. apply nan_one; [exact D|discriminate|discriminate].
Qed.

(** ** propagation before an element *)
Definition moved (s : R) (ph : lphoton) : lphoton := LPhoton (l_dir ph) (match l_pos ph, l_dir ph with Some x, Some v => Some (add3 x (scale3 s v)) | _, _ => None end) (l_pol ph) (l_energy ph) (l_prob ph).
Lemma moved_one s dr ph : one (PPropagate s) dr ph = Ok (moved s ph).
Proof. reflexivity. Qed.
Lemma moved_meets m ph x d q loc k s : perpendicular_axes m -> meets m ph = Some (d, q, loc) -> l_pos ph = Some x -> q = add3 x (scale3 k d) ->
  meets m (moved s ph) = if Rleb s k then Some (d, q, loc) else None.
Proof.
  intros P M X Q. destruct (proj1 (meets_iff m ph d q loc P) M) as (D & N & x' & k' & a & b & X' & K & Q' & R & L). assert (x' = x) as -> by congruence.
  assert (d <> zero3) by (intros ->; apply N; generalize (xyz (v_x m)); clear; vring).
  assert (PX : l_pos (moved s ph) = Some (add3 x (scale3 s d))) by (unfold moved; cbn; now rewrite X, D).
  destruct (Rleb s k) eqn:E.
  - apply Rleb_true in E. apply meets_iff; [exact P|]. split; [exact D|]. split; [exact N|]. exists (add3 x (scale3 s d)), (k - s), a, b. split; [exact PX|]. split; [lra|].
    split; [rewrite Q; generalize x d; clear; vring|]. now split.
  - apply Rleb_false in E. destruct (meets m (moved s ph)) as [[[d' q'] loc']|] eqn:M'; [|reflexivity]. exfalso.
    destruct (proj1 (meets_iff m (moved s ph) d' q' loc' P) M') as (D' & _ & y & k2 & a2 & b2 & Y & K2 & Q2 & R2 & _). assert (d' = d) as -> by (unfold moved in D'; cbn in D'; congruence).
    rewrite PX in Y. assert (y = add3 x (scale3 s d)) as -> by congruence. pose proof (rect_plane m a b q P R) as A. pose proof (rect_plane m a2 b2 q' P R2) as B. rewrite Q in A. rewrite Q2 in B.
    assert (C : (k - (s + k2)) * dot3 d (xyz (v_x m)) = 0). { transitivity (dot3 (sub3 (add3 x (scale3 k d)) (xyz (center m))) (xyz (v_x m)) - dot3 (sub3 (add3 (add3 x (scale3 s d)) (scale3 k2 d)) (xyz (center m))) (xyz (v_x m))); [generalize (xyz (center m)) (xyz (v_x m)) d x; clear; vring|]. rewrite A, B. ring. }
    apply Rmult_integral in C. destruct C as [C|C]; [lra|contradiction].
Qed.
Lemma moved_same m p dr ph x d q loc k s : layer_of m p -> (forall m' a, p <> PRadial m' a true) -> perpendicular_axes m -> meets m ph = Some (d, q, loc) -> l_pos ph = Some x -> q = add3 x (scale3 k d) -> s <= k ->
  one p dr (moved s ph) = one p dr ph.
Proof.
  intros LO NR P M X Q S. rewrite !(one_layer m p dr _ LO), M, (moved_meets m ph x d q loc k s P M X Q). rewrite (proj2 (Rleb_true s k) S).
  replace (effect p dr (moved s ph) d q loc) with (effect p dr ph d q loc); [reflexivity|]. destruct LO as [G B]. destruct p; try reflexivity. destruct perp; [now destruct (NR m0 inplane)|].
  destruct (proj1 (meets_iff m ph d q loc P) M) as (D & _). unfold moved. rewrite D, X. cbn [effect l_pos l_pol]. rewrite X. unfold radial_scatter. cbv zeta.
  replace (cross3 d (sub3 (add3 x (scale3 s d)) (xyz (center m0)))) with (cross3 d (sub3 x (xyz (center m0)))); [reflexivity|]. generalize (xyz (center m0)). clear. intros c. vring.
Qed.
Lemma moved_beyond m p dr ph x d q loc k s : layer_of m p -> perpendicular_axes m -> meets m ph = Some (d, q, loc) -> l_pos ph = Some x -> q = add3 x (scale3 k d) -> k < s ->
  one p dr (moved s ph) = Ok (moved s ph).
Proof.
  intros LO P M X Q S. rewrite (one_layer m p dr _ LO), (moved_meets m ph x d q loc k s P M X Q). now rewrite (proj2 (Rleb_false s k) S).
Qed.

(** ** scatter *)
Definition scatterer (p : part) : Prop := (exists m a b, p = PRadial m a b) \/ exists m on, p = PRandom m on.
Lemma scatter_position p m dr ph ph' : scatterer p -> geometry p = Some m -> one p dr ph = Ok ph' ->
  (meets m ph = None -> ph' = ph) /\ (forall d q loc, meets m ph = Some (d, q, loc) -> l_pos ph' = Some q).
Proof.
  intros S G O. assert (LO : layer_of m p) by (split; [exact G|]; destruct S as [(m1 & a & b & ->)|(m1 & on & ->)]; discriminate). rewrite (one_layer m p dr ph LO) in O. split.
  - intros M. rewrite M in O. congruence.
  - intros d q loc M. rewrite M in O. destruct (effect p dr ph d q loc) as [o|]; [|discriminate]. cbn [bind] in O. destruct (bad_factor (snd o)); [discriminate|].
    apply (f_equal (fun r => match r with Ok a => l_pos a | Err _ => None end)) in O. cbn in O. congruence.
Qed.
Lemma in_plane_position m ph x d a b q loc : perpendicular_axes m -> l_dir ph = Some d -> l_pos ph = Some x -> in_rectangle m a b x -> meets m ph = Some (d, q, loc) -> q = x.
Proof.
  intros P D X R M. destruct (proj1 (meets_iff m ph d q loc P) M) as (_ & N & x' & k & a' & b' & X' & K & Q & R' & _). assert (x' = x) as -> by congruence.
  pose proof (rect_plane m a b x P R) as A. pose proof (rect_plane m a' b' q P R') as B. rewrite Q in B.
  assert (C : k * dot3 d (xyz (v_x m)) = 0). { transitivity (dot3 (sub3 (add3 x (scale3 k d)) (xyz (center m))) (xyz (v_x m)) - dot3 (sub3 x (xyz (center m))) (xyz (v_x m))); [generalize (xyz (center m)) (xyz (v_x m)) d x; clear; vring|]. rewrite A, B. ring. }
  apply Rmult_integral in C. destruct C as [C|C]; [|contradiction]. rewrite Q, C. generalize x d. clear. vring.
Qed.

(** ** layers of a stack and photons without direction *)
Lemma lost_in_layer q loc dr ph pr : l_dir ph = None -> l_prob ph = Some pr ->
  let out := fun pol f => LPhoton None (Some q) pol (l_energy ph) f in
  (forall m off f refl rn r, rn (l_energy ph) = Some r -> 0 <= r <= 1 -> layer (PLens m off f refl rn) dr q loc ph = Ok (out None (Some (pr * r)))) /\
  (forall m f, layer (PThin m f) dr q loc ph = Ok (out None (Some pr))) /\
  (forall c tr m g per, 0 <= dr_p dr <= 1 -> layer (PGrating c tr m g per) dr q loc ph = Ok (out None (Some (pr * dr_p dr)))) /\
  (forall m a b, layer (PRadial m a b) dr q loc ph = Ok (out None (Some pr))) /\
  (forall m, layer (PRandom m true) dr q loc ph = Ok (out None (Some pr)) /\ layer (PRandom m false) dr q loc ph = Ok (out (l_pol ph) (Some pr))) /\
  (forall m f, 0 <= f (l_energy ph) <= 1 -> layer (PFilter m f) dr q loc ph = Ok (out (l_pol ph) (Some (pr * f (l_energy ph))))) /\
  (forall m f, ~ 0 <= f (l_energy ph) <= 1 -> layer (PFilter m f) dr q loc ph = Err ValueError) /\
  (forall m minv, layer (PBrewster m minv) dr q loc ph = Ok (out None None)) /\
  (forall m, layer (PDetector m) dr q loc ph = Ok (out (l_pol ph) (Some pr))).
Proof.
  intros D P. cbv zeta. unfold layer, layer_values. rewrite D. cbn [effect_nan].
  assert (B : forall r, 0 <= r <= 1 -> bad_factor (Some r) = false) by (intros r [H K]; cbn; rewrite (proj2 (Rltb_false r 0)), (proj2 (Rltb_false 1 r)) by lra; reflexivity).
  assert (T : times (l_prob ph) (Some 1) = Some pr) by (rewrite P; cbn; now rewrite Rmult_1_r).
  assert (B1 : bad_factor (Some 1) = false) by (apply B; lra).
  repeat split.
  - intros m off f refl rn r R H. rewrite R. cbn [bind snd]. rewrite (B r H). cbn [fst]. now rewrite P.
  - intros m f. cbn [bind snd]. rewrite B1. cbn [fst]. now rewrite T.
  - intros c tr m g per H. cbn [bind snd]. rewrite (B _ H). cbn [fst]. now rewrite P.
  - intros m a b. cbn [bind snd]. rewrite B1. cbn [fst]. now rewrite T.
  - cbn [bind snd]. rewrite B1. cbn [fst]. now rewrite T.
  - cbn [bind snd]. rewrite B1. cbn [fst]. now rewrite T.
  - intros m f H. rewrite (proj2 (Rltb_false (f (l_energy ph)) 0)), (proj2 (Rltb_false 1 (f (l_energy ph)))) by lra. cbn [orb bind snd]. rewrite (B _ H). cbn [fst]. now rewrite P.
  - intros m f H. destruct (Rltb (f (l_energy ph)) 0) eqn:E; [reflexivity|]. destruct (Rltb 1 (f (l_energy ph))) eqn:E'; [reflexivity|]. apply Rltb_false in E, E'. lra.
  - intros m minv. cbn. now rewrite P.
  - intros m. cbn [bind snd]. rewrite B1. cbn [fst]. now rewrite T.
Qed.
Lemma thin_layer_along q loc dr ph pr d m f : l_dir ph = Some d -> l_prob ph = Some pr -> meets m ph = None -> layer (PThin m f) dr q loc ph = Ok (LPhoton None (Some q) None (l_energy ph) (Some pr)).
Proof.
  intros D P M. unfold layer, layer_values. rewrite D, M. cbn [bind snd bad_factor]. rewrite (proj2 (Rltb_false 1 0)), (proj2 (Rltb_false 1 1)) by lra. cbn [orb fst]. rewrite P. cbn. now rewrite Rmult_1_r.
Qed.
