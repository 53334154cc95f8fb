(** Lemmas on several elements in a row *)
From Verif Require Import Base_Proofs Vec_Proofs Coords_Proofs Rot_Proofs Plane_Proofs Bend_Proofs Lens_Proofs Grating_Proofs Brewster_Proofs Instrument_Proofs Instrument_Proofs2 Layers_Proofs Whole_Proofs2.
From Verif Require Export Chain_Model.
Open Scope R_scope.
Open Scope list_scope.

(** ** mirrors *)
Lemma cross_scale_r k u v : cross3 u (scale3 k v) = scale3 k (cross3 u v). Proof. vring. Qed.
Lemma incidence_unit m d : perpendicular_axes m -> unit3 (cross3 d (nrm (xyz (v_x m)))) = unit3 (cross3 d (xyz (v_x m))).
Proof.
  intros (_ & N & _). unfold nrm. rewrite cross_scale_r, unit3_scale; [reflexivity|]. now apply Rinv_0_lt_compat, norm3_pos.
Qed.
Definition mirrored (m : m4) (d : v3) : v3 := let e := nrm (xyz (v_x m)) in sub3 d (scale3 (2 * dot3 d e) e).
Lemma pol_alg_s i v w : add3 (scale3 (- i) v) (scale3 0 w) = scale3 i (neg3 v). Proof. vring. Qed.
Lemma zero_alg v w : add3 (scale3 (- (1 * (0 * 0))) v) (scale3 0 w) = zero3. Proof. vring. Qed.
Lemma bessel1 v n : dot3 n n = 1 -> dot3 v n * dot3 v n <= dot3 v v.
Proof.
  intros N. pose proof (dot3_nonneg (sub3 v (scale3 (dot3 v n) n))) as H. replace (dot3 _ _) with (dot3 v v - 2 * dot3 v n * dot3 v n + dot3 v n * dot3 v n * dot3 n n) in H by (revert N; clear; vring). rewrite N in H. lra.
Qed.
Lemma mirror_one m minv dr ph d q loc v f n : well_made (PBrewster m minv) -> polarizer dr -> meets m ph = Some (d, q, loc) -> dot3 d d = 1 -> incidence m d n ->
  l_pol ph = Some v -> dot3 v v <= 1 -> l_prob ph = Some f ->
  one (PBrewster m minv) dr ph = Ok (LPhoton (Some (mirrored m d)) (Some q) (if Reqb (dot3 v n) 0 then None else Some (neg3 n)) (l_energy ph) (Some (f * (dot3 v n * dot3 v n)))).
Proof.
  intros (W & I & _) [Rs Rp] M U N V L F. specialize (W m eq_refl). specialize (I m minv eq_refl). assert (D : d <> zero3) by (intros ->; revert U; vu; lra).
  cbn [one surface geometry]. rewrite M. cbn [effect]. rewrite V, Rs, Rp, (brewster_unfold m minv 1 0 d (hom v 0) W I D). cbv zeta. rewrite (nrm_one d U), (incidence_unit m d W), N, !Coords_Proofs.xyz_hom.
  destruct (unit3_spec _ _ N) as (_ & NE & NN & _). pose proof (bessel1 v n NN) as B.
  assert (P : 1 * (dot3 v n * dot3 v n) + 0 * (dot3 v (cross3 d n) * dot3 v (cross3 d n)) = dot3 v n * dot3 v n) by ring. rewrite P.
  assert (R : 0 <= dot3 v n * dot3 v n <= 1) by (split; [apply Rle_0_sqr|lra]).
  rewrite (proj2 (Rltb_false _ _)) by lra. rewrite (clip_id _ R). cbn [bind fst snd option_map]. rewrite Coords_Proofs.xyz_hom. unfold bad_factor. rewrite (proj2 (Rltb_false (dot3 v n * dot3 v n) 0)) by lra. rewrite (proj2 (Rltb_false 1 (dot3 v n * dot3 v n))) by lra. cbn [orb times].
  rewrite F. cbn [times]. f_equal. f_equal. rewrite Rmult_0_l. destruct (Reqb (dot3 v n) 0) eqn:Z.
  - apply Reqb_true in Z. rewrite Z, zero_alg. apply unit3_zero.
  - apply Reqb_false in Z. rewrite (pol_alg_s (1 * (dot3 v n * dot3 v n)) n). rewrite unit3_scale; [|pose proof (Rsqr_pos_lt _ Z); unfold Rsqr in *; lra]. now rewrite unit3_neg, (unit3_of_unit n NN).
Qed.
Lemma mirror_nan m minv dr ph d q loc : well_made (PBrewster m minv) -> meets m ph = Some (d, q, loc) -> dot3 d d = 1 -> l_pol ph = None ->
  one (PBrewster m minv) dr ph = Ok (LPhoton (Some (mirrored m d)) (Some q) None (l_energy ph) None).
Proof.
  intros (W & I & _) M U V. specialize (W m eq_refl). specialize (I m minv eq_refl). assert (D : d <> zero3) by (intros ->; revert U; vu; lra).
  cbn [one surface geometry]. rewrite M. cbn [effect]. rewrite V. pose proof (reflect_spec m minv d W I D) as S. cbv zeta in S. rewrite (nrm_one d U) in S. rewrite S. cbn [bind fst snd option_map bad_factor]. rewrite Coords_Proofs.xyz_hom.
  destruct (l_prob ph); reflexivity.
Qed.
Lemma mirrored_unit m d : perpendicular_axes m -> dot3 (mirrored m d) (mirrored m d) = dot3 d d.
Proof. intros (_ & N & _). unfold mirrored. apply mirror_norm. now apply nrm_unit. Qed.
Lemma twice_alg e d : dot3 e e = 1 -> let r := sub3 d (scale3 (2 * dot3 d e) e) in sub3 r (scale3 (2 * dot3 r e) e) = d.
Proof.
  intros E r. assert (K : dot3 r e = - dot3 d e) by (unfold r; now apply mirror_flip). rewrite K. unfold r. generalize (dot3 d e). clear. vring.
Qed.
Lemma nrm_sign k v : k <> 0 -> v <> zero3 -> nrm (scale3 k v) = nrm v \/ nrm (scale3 k v) = neg3 (nrm v).
Proof.
  intros K V. apply norm3_pos in V. unfold nrm. rewrite norm3_scale, !scale_scale3. destruct (Rtotal_order k 0) as [H|[H|H]]; [right|contradiction|left].
  - rewrite Rabs_left by exact H. replace (/ (- k * norm3 v) * k) with (- / norm3 v) by (field; lra). generalize (/ norm3 v). revert v V. clear. vring.
  - rewrite Rabs_pos_eq by lra. f_equal. field. lra.
Qed.
Lemma mirrored_neg d e : sub3 d (scale3 (2 * dot3 d (neg3 e)) (neg3 e)) = sub3 d (scale3 (2 * dot3 d e) e). Proof. vring. Qed.
Lemma mirrored_parallel m m' k d : perpendicular_axes m -> k <> 0 -> xyz (v_x m') = scale3 k (xyz (v_x m)) -> mirrored m' (mirrored m d) = d.
Proof.
  intros (_ & N & _) K E. unfold mirrored. cbv zeta. rewrite E. assert (U : dot3 (nrm (xyz (v_x m))) (nrm (xyz (v_x m))) = 1) by now apply nrm_unit.
  pose proof (twice_alg (nrm (xyz (v_x m))) d U) as T. cbv zeta in T. destruct (nrm_sign k (xyz (v_x m)) K N) as [-> | ->]; [exact T|]. now rewrite mirrored_neg.
Qed.
(** ** gratings *)
Lemma nrm_same k v : 0 < k -> v <> zero3 -> nrm (scale3 k v) = nrm v.
Proof.
  intros K V. apply norm3_pos in V. unfold nrm. rewrite norm3_scale, !scale_scale3. rewrite Rabs_pos_eq by lra. f_equal. field. lra.
Qed.
Lemma bases_same m m' : perpendicular_axes m -> perpendicular_axes m' -> same_bases m m' -> plane_bases m' = plane_bases m.
Proof.
  intros P P' (a & b & c & A & B & C & X & Y & Z). rewrite (plane_bases_val m P), (plane_bases_val m' P'), X, Y, Z. destruct P as (_ & Nx & Ny & Nz & _). now rewrite !nrm_same.
Qed.
Lemma sign_prod x : x <> 0 -> Rsign x * Rsign x = 1.
Proof. intros X. unfold Rsign. destruct (Rltb 0 x) eqn:A; [ring|]. apply Rltb_false in A. destruct (Rltb x 0) eqn:B; [ring|]. apply Rltb_false in B. lra. Qed.
Lemma sign_scaled s x : (s = 1 \/ s = -1) -> Rsign (s * x) = s * Rsign x.
Proof.
  intros S. destruct S as [-> | ->].
  - now rewrite !Rmult_1_l.
  - unfold Rsign. destruct (Rltb 0 x) eqn:A; [apply Rltb_true in A|apply Rltb_false in A; destruct (Rltb x 0) eqn:B; [apply Rltb_true in B|apply Rltb_false in B]].
    + rewrite (proj2 (Rltb_false 0 (-1 * x))), (proj2 (Rltb_true (-1 * x) 0)) by lra. ring.
    + rewrite (proj2 (Rltb_true 0 (-1 * x))) by lra. ring.
    + rewrite (proj2 (Rltb_false 0 (-1 * x))), (proj2 (Rltb_false (-1 * x) 0)) by lra. ring.
Qed.
Lemma sign_pos x : 0 < x -> Rsign x = 1. Proof. intros H. unfold Rsign. now rewrite (proj2 (Rltb_true 0 x)). Qed.
Lemma sign_prop x : x <> 0 -> Rsign x = 1 \/ Rsign x = -1.
Proof. intros X. unfold Rsign. destruct (Rltb 0 x) eqn:A; [tauto|]. apply Rltb_false in A. destruct (Rltb x 0) eqn:B; [tauto|]. apply Rltb_false in B. lra. Qed.
Lemma neg_dot v w : dot3 (neg3 v) w = - dot3 v w. Proof. vring. Qed.
Lemma neg_comb a b c x y z : add3 (add3 (scale3 (- a) x) (scale3 (- b) y)) (scale3 (- c) z) = neg3 (add3 (add3 (scale3 a x) (scale3 b y)) (scale3 c z)). Proof. vring. Qed.
Section Two.
Variables d l n p : v3.
Hypothesis F : orthonormal (M3 d l n).
Hypothesis P : dot3 p p = 1.
Lemma order_sign_side c : order_sign c p d = match c with FlatSign => -1 | CATSign => IZR (side d p) end.
Proof.
  destruct c; [reflexivity|]. unfold order_sign, side, Rsign. cbv zeta. destruct (Rltb 0 (dot3 p d)) eqn:A.
  - apply Rltb_true in A. rewrite (proj2 (Reqb_false 1 0)) by lra. now rewrite (proj2 (Rltb_false (dot3 p d) 0)) by lra.
  - destruct (Rltb (dot3 p d) 0) eqn:B; [now rewrite (proj2 (Reqb_false (-1) 0)) by lra|]. now rewrite (proj2 (Reqb_true 0 0)) by reflexivity.
Qed.
Lemma dln_two c tr1 tr2 m1 m2 wave per o1 : dot3 p n <> 0 -> diffract_dln c tr1 d l n p m1 wave per = Some o1 -> dot3 o1 n <> 0 ->
  diffract_dln c tr2 d l n o1 m2 wave per = diffract_dln c (Bool.eqb tr1 tr2) d l n p (m1 + (match c with FlatSign => m2 | CATSign => side d p * side d o1 * m2 end))%Z wave per.
Proof.
  intros N D1 N1. destruct (diffract_components d l n p F c tr1 m1 wave per o1 D1 N) as (L & D & U & X).
  unfold diffract_dln. cbv zeta. rewrite L, D.
  assert (S : dot3 p d + order_sign c p d * IZR m1 * wave / per + order_sign c o1 d * IZR m2 * wave / per = dot3 p d + order_sign c p d * IZR (m1 + match c with FlatSign => m2 | CATSign => side d p * side d o1 * m2 end) * wave / per).
  { rewrite plus_IZR. destruct c; [cbn [order_sign]; unfold Rdiv; ring|]. rewrite !mult_IZR. pose proof (order_sign_side CATSign) as E. cbn iota in E. rewrite E.
    assert (E1 : order_sign CATSign o1 d = IZR (side d o1)). { unfold order_sign, side, Rsign. cbv zeta. destruct (Rltb 0 (dot3 o1 d)) eqn:A.
      - apply Rltb_true in A. rewrite (proj2 (Reqb_false 1 0)) by lra. now rewrite (proj2 (Rltb_false (dot3 o1 d) 0)) by lra.
      - destruct (Rltb (dot3 o1 d) 0) eqn:B; [now rewrite (proj2 (Reqb_false (-1) 0)) by lra|]. now rewrite (proj2 (Reqb_true 0 0)) by reflexivity. }
    rewrite E1. assert (SQ : IZR (side d p) * IZR (side d p) = 1) by (unfold side; destruct (Rltb _ _); ring).
    unfold Rdiv. transitivity (dot3 p d + IZR (side d p) * IZR m1 * wave * / per + (IZR (side d p) * IZR (side d p)) * IZR (side d o1) * IZR m2 * wave * / per); [rewrite SQ; ring|ring]. }
  rewrite S. set (T := dot3 p d + order_sign c p d * IZR _ * wave / per). destruct (Rltb _ 0) eqn:Q; [reflexivity|]. f_equal. f_equal. f_equal.
  assert (SG : Rsign (dot3 o1 n) = (if tr1 then 1 else -1) * Rsign (dot3 p n)).
  { rewrite X. set (s := sqrt _) in *. assert (S0 : 0 <= s) by apply sqrt_pos. assert (S1 : 0 < s) by (destruct S0 as [H|H]; [exact H|]; exfalso; apply N1; rewrite X, <- H; ring).
    destruct (sign_prop _ N) as [-> | ->]; destruct tr1; rewrite sign_scaled by lra; rewrite (sign_pos s S1); ring. }
  rewrite SG. destruct tr1, tr2; cbn [Bool.eqb]; ring.
Qed.
Lemma dln_back tr m wave per o : dot3 p n <> 0 -> diffract_dln FlatSign tr d l n p m wave per = Some o -> dot3 o n <> 0 -> diffract_dln FlatSign tr d l n (neg3 o) m wave per = Some (neg3 p).
Proof.
  intros N D1 N1. destruct (diffract_components d l n p F FlatSign tr m wave per o D1 N) as (L & D & U & X). cbn [order_sign] in D.
  assert (F2 : dot3 p d * dot3 p d + dot3 p l * dot3 p l + dot3 p n * dot3 p n = 1) by exact (frame_norm d l n p F P).
  unfold diffract_dln. cbv zeta. cbn [order_sign]. rewrite !neg_dot, L, D.
  assert (E : - (dot3 p d + -1 * IZR m * wave / per) + -1 * IZR m * wave / per = - dot3 p d) by (unfold Rdiv; ring). rewrite E.
  assert (Q : 1 - - dot3 p d * - dot3 p d - - dot3 p l * - dot3 p l = dot3 p n * dot3 p n) by lra. rewrite Q, (proj2 (Rltb_false _ 0)) by nra. f_equal.
  assert (SG : Rsign (- dot3 o n) = - ((if tr then 1 else -1) * Rsign (dot3 p n))).
  { replace (- dot3 o n) with (-1 * dot3 o n) by ring. rewrite sign_scaled by lra. rewrite X. set (s := sqrt _) in *. assert (S0 : 0 <= s) by apply sqrt_pos. assert (S1 : 0 < s) by (destruct S0 as [H|H]; [exact H|]; exfalso; apply N1; rewrite X, <- H; ring).
    destruct (sign_prop _ N) as [-> | ->]; destruct tr; rewrite sign_scaled by lra; rewrite (sign_pos s S1); ring. }
  rewrite SG. replace (sqrt (dot3 p n * dot3 p n)) with (Rabs (dot3 p n)) by (symmetry; apply sqrt_Rsqr_abs).
  assert (C : - ((if tr then 1 else -1) * Rsign (dot3 p n)) * (if tr then 1 else -1) * Rabs (dot3 p n) = - dot3 p n).
  { transitivity (- (Rsign (dot3 p n) * Rabs (dot3 p n))); [destruct tr; ring|]. now rewrite Rsign_abs. }
  rewrite C, neg_comb. f_equal. symmetry. exact (frame_expand d l n p F).
Qed.
End Two.
Lemma perp_across ex ey g : e_perp_groove ex ey g = add3 (scale3 (cos g) ex) (scale3 (sin g) ey).
Proof. unfold e_perp_groove. rewrite cos_neg, sin_neg. generalize (cos g) (sin g). revert ex ey. clear. vring. Qed.
Definition across (m : m4) (g : R) : v3 := add3 (scale3 (cos g) (nrm (xyz (v_y m)))) (scale3 (sin g) (nrm (xyz (v_z m)))).
Lemma dot_neg_r v w : dot3 v (neg3 w) = - dot3 v w. Proof. vring. Qed.
Lemma side_across v w : side (neg3 w) v = if Rltb 0 (dot3 v w) then (-1)%Z else 1%Z.
Proof.
  unfold side. rewrite dot_neg_r. destruct (Rltb 0 (dot3 v w)) eqn:A; [apply Rltb_true in A|apply Rltb_false in A]; [now rewrite (proj2 (Rltb_true _ _)) by lra|now rewrite (proj2 (Rltb_false _ _)) by lra].
Qed.
Lemma unit_scaled p : dot3 p p = 1 -> p = scale3 (/ norm3 p) p.
Proof. intros U. rewrite (proj2 (norm3_1 p) U), Rinv_1. symmetry. apply scale3_1. Qed.
Lemma dot_nrm v w : w <> zero3 -> (dot3 v (nrm w) <> 0 <-> dot3 v w <> 0).
Proof.
  intros W. apply norm3_pos in W. unfold nrm. rewrite dot3_scale_r. split; intros H K; apply H.
  - rewrite K. ring.
  - apply Rmult_integral in K as [K|K]; [|exact K]. pose proof (Rinv_neq_0_compat (norm3 w)). lra.
Qed.
Lemma grating_dln c tr m g p k w per : perpendicular_axes m -> dot3 p p = 1 ->
  let n := nrm (xyz (v_x m)) in let l := e_groove (nrm (xyz (v_y m))) (nrm (xyz (v_z m))) g in
  orthonormal (M3 (neg3 (across m g)) l n) /\ option_map fst (grating c tr m g p k w per) = diffract_dln c tr (neg3 (across m g)) l n p k w per.
Proof.
  intros P U n l. assert (D : p <> zero3) by (intros ->; revert U; vu; lra).
  destruct (full_facts c tr m g p k w per _ _ _ p P D (plane_bases_val m P) (unit_scaled p U)) as (_ & _ & O & G). rewrite !Coords_Proofs.xyz_hom in *. rewrite perp_across in *. fold (across m g) in O, G. fold l n in O, G. split; [exact O|].
  rewrite G. now destruct (diffract_dln c tr (neg3 (across m g)) l n p k w per).
Qed.
Lemma grating_two c tr1 tr2 m m' g p k1 k2 w per o1 : perpendicular_axes m -> perpendicular_axes m' -> same_bases m m' -> dot3 p p = 1 -> dot3 p (xyz (v_x m)) <> 0 ->
  option_map fst (grating c tr1 m g p k1 w per) = Some o1 -> dot3 o1 (xyz (v_x m)) <> 0 ->
  let s v := if Rltb 0 (dot3 v (across m g)) then (-1)%Z else 1%Z in
  option_map fst (grating c tr2 m' g o1 k2 w per) = option_map fst (grating c (Bool.eqb tr1 tr2) m g p (k1 + (match c with FlatSign => k2 | CATSign => s p * s o1 * k2 end))%Z w per).
Proof.
  intros P P' S U N G1 N1 s. assert (Nx : xyz (v_x m) <> zero3) by apply P.
  assert (B : grating c tr2 m' g o1 k2 w per = grating c tr2 m g o1 k2 w per) by (unfold grating; now rewrite (bases_same m m' P P' S)). rewrite B.
  destruct (grating_dln c tr1 m g p k1 w per P U) as [O E1]. rewrite E1 in G1.
  apply (dot_nrm p _ Nx) in N. apply (dot_nrm o1 _ Nx) in N1.
  destruct (diffract_components _ _ _ p O c tr1 k1 w per o1 G1 N) as (_ & _ & U1 & _).
  rewrite (proj2 (grating_dln c tr2 m g o1 k2 w per P U1)), (proj2 (grating_dln c (Bool.eqb tr1 tr2) m g p _ w per P U)).
  rewrite (dln_two _ _ _ p O c tr1 tr2 k1 k2 w per o1 N G1 N1). unfold s. now rewrite !side_across.
Qed.
Lemma grating_back tr m m' g p k w per o : perpendicular_axes m -> perpendicular_axes m' -> same_bases m m' -> dot3 p p = 1 -> dot3 p (xyz (v_x m)) <> 0 ->
  option_map fst (grating FlatSign tr m g p k w per) = Some o -> dot3 o (xyz (v_x m)) <> 0 -> option_map fst (grating FlatSign tr m' g (neg3 o) k w per) = Some (neg3 p).
Proof.
  intros P P' S U N G1 N1. assert (Nx : xyz (v_x m) <> zero3) by apply P.
  assert (B : grating FlatSign tr m' g (neg3 o) k w per = grating FlatSign tr m g (neg3 o) k w per) by (unfold grating; now rewrite (bases_same m m' P P' S)). rewrite B.
  destruct (grating_dln FlatSign tr m g p k w per P U) as [O E1]. rewrite E1 in G1.
  apply (dot_nrm p _ Nx) in N. apply (dot_nrm o _ Nx) in N1.
  destruct (diffract_components _ _ _ p O FlatSign tr k w per o G1 N) as (_ & _ & U1 & _).
  assert (U2 : dot3 (neg3 o) (neg3 o) = 1) by (rewrite neg_dot, dot_neg_r; lra).
  rewrite (proj2 (grating_dln FlatSign tr m g (neg3 o) k w per P U2)). now apply dln_back.
Qed.
(** ** filters *)
Definition out_of_range (x : R) : bool := Rltb x 0 || Rltb 1 x.
Lemma times_swap a b c : times (times a b) c = times (times a c) b.
Proof. destruct a, b, c; cbn; try reflexivity. f_equal. ring. Qed.
Definition dimmed (f : R -> R) (ph : lphoton) : lphoton := LPhoton (l_dir ph) (l_pos ph) (l_pol ph) (l_energy ph) (times (l_prob ph) (Some (f (l_energy ph)))).
Lemma effect_dimmed f p dr ph d q loc : effect p dr (dimmed f ph) d q loc = effect p dr ph d q loc.
Proof. destruct p; reflexivity. Qed.
Lemma meets_dimmed f m ph : meets m (dimmed f ph) = meets m ph. Proof. reflexivity. Qed.
Lemma global_swap f p dr dr' ph : bind (one (PGlobal f) dr ph) (one p dr') = bind (one p dr' ph) (one (PGlobal f) dr).
Proof.
  assert (K : forall x, one (PGlobal f) dr x = if out_of_range (f (l_energy x)) then Err ValueError else Ok (dimmed f x)) by reflexivity.
  assert (EN : forall x, one p dr' ph = Ok x -> l_energy x = l_energy ph).
  { intros x H. destruct p; cbn [one surface geometry] in H; repeat match type of H with
      | context [match meets ?a ?b with _ => _ end] => destruct (meets a b) as [[[? ?] ?]|]
      | context [match meets_tube ?a ?b ?c ?d ?e with _ => _ end] => destruct (meets_tube a b c d e) as [[[? ?] ?]|]
      | context [bind ?e _] => destruct e; cbn [bind] in H
      | context [if ?b then _ else _] => destruct b
      end; try discriminate; apply (f_equal (fun r => match r with Ok a => l_energy a | Err _ => 0 end)) in H; cbn [l_energy] in H; congruence. }
  rewrite K. destruct (out_of_range (f (l_energy ph))) eqn:B; cbn [bind].
  - destruct (one p dr' ph) as [x|e] eqn:E; cbn [bind]; [|f_equal; symmetry; exact (one_err _ _ _ _ E)]. rewrite K, (EN x eq_refl), B. reflexivity.
  - assert (EQ : one p dr' (dimmed f ph) = match one p dr' ph with Ok x => Ok (dimmed f x) | Err e => Err e end).
    { assert (V : forall hit : lphoton -> option (v3 * v3 * (R * R)), hit (dimmed f ph) = hit ph -> match hit (dimmed f ph) with
                     | None => Ok (dimmed f ph)
                     | Some (d, q, loc) => bind (effect p dr' (dimmed f ph) d q loc) (fun o =>
                         if bad_factor (snd o) then Err ValueError else Ok (LPhoton (fst (fst o)) (Some q) (snd (fst o)) (l_energy (dimmed f ph)) (times (l_prob (dimmed f ph)) (snd o)))) end =
                  match match hit ph with
                     | None => Ok ph
                     | Some (d, q, loc) => bind (effect p dr' ph d q loc) (fun o =>
                         if bad_factor (snd o) then Err ValueError else Ok (LPhoton (fst (fst o)) (Some q) (snd (fst o)) (l_energy ph) (times (l_prob ph) (snd o)))) end with Ok x => Ok (dimmed f x) | Err e => Err e end).
      { intros hit ->. destruct (hit ph) as [[[d q] loc]|]; [|reflexivity]. rewrite effect_dimmed. destruct (effect p dr' ph d q loc) as [o|]; [|reflexivity]. cbn [bind]. destruct (bad_factor (snd o)); [reflexivity|].
        unfold dimmed. cbn [l_dir l_pos l_pol l_energy l_prob]. now rewrite times_swap. }
      destruct p; try exact (V (meets m) eq_refl); try exact (V (meets_tube m minv lim0 lim1) eq_refl).
      - cbn [one]. rewrite meets_dimmed. destruct (meets m ph) as [[[d q] loc]|]; unfold dimmed; cbn [l_dir l_pos l_pol l_energy l_prob times]; [reflexivity|]. now rewrite Rmult_0_l.
      - cbn [one]. unfold dimmed at 1 2 3 4 5 6 7 8 9. cbn [l_energy]. destruct (Rltb (f0 (l_energy ph)) 0 || Rltb 1 (f0 (l_energy ph))); [reflexivity|]. unfold dimmed. cbn [l_dir l_pos l_pol l_energy l_prob]. now rewrite times_swap.
      - reflexivity. }
    rewrite EQ. destruct (one p dr' ph) as [x|e] eqn:E; cbn [bind]; [|reflexivity]. rewrite K, (EN x eq_refl), B. reflexivity.
Qed.
Lemma global_draws f dr ph g p : one (PGlobal f) dr ph = Ok g -> draws_for p g = draws_for p ph.
Proof. cbn [one]. destruct (_ || _); [discriminate|]. intros H. assert (SI : forall x y : lphoton, Ok x = Ok y -> x = y) by congruence. apply SI in H. subst g. destruct p; reflexivity. Qed.
Lemma each_swap f p : forall rows drs, length drs = hits_of p rows -> bind (each_row (PGlobal f) [] rows) (each_row p drs) = bind (each_row p drs rows) (each_row (PGlobal f) []).
Proof.
  induction rows as [|ph rows IH]; intros drs L; [reflexivity|].
  assert (GE : forall a l, each_row (PGlobal f) [] (a :: l) = bind (one (PGlobal f) dr0 a) (fun a => bind (each_row (PGlobal f) [] l) (fun r => Ok (a :: r)))) by reflexivity.
  assert (C : exists dr drs', length drs' = hits_of p rows /\ forall a l, draws_for p a = draws_for p ph -> each_row p drs (a :: l) = bind (one p dr a) (fun a => bind (each_row p drs' l) (fun r => Ok (a :: r)))).
  { unfold hits_of in L. cbn [filter] in L. destruct (draws_for p ph) eqn:D.
    - destruct drs as [|dr drs']; [discriminate|]. exists dr, drs'. split; [cbn [length] in L; unfold hits_of; congruence|]. intros a l E. cbn [each_row]. now rewrite E.
    - exists dr0, drs. split; [exact L|]. intros a l E. cbn [each_row]. now rewrite E. }
  destruct C as (dr & drs' & L' & C). specialize (IH drs' L'). rewrite GE, (C ph rows eq_refl). pose proof (global_swap f p dr0 dr ph) as S.
  destruct (one (PGlobal f) dr0 ph) as [g|e] eqn:EG; cbn [bind] in S |- *.
  - pose proof (global_draws f dr0 ph g p EG) as DG. destruct (each_row (PGlobal f) [] rows) as [gr|e] eqn:ER; cbn [bind] in IH |- *.
    + rewrite (C g gr DG), S, IH. destruct (one p dr ph) as [x|e]; cbn [bind]; [|reflexivity]. destruct (each_row p drs' rows) as [xs|e] eqn:EX; cbn [bind].
      * rewrite GE. reflexivity.
      * destruct (one (PGlobal f) dr0 x) as [y|e'] eqn:EY; cbn [bind]; [reflexivity|]. f_equal. rewrite (one_err _ _ _ _ EY), (each_err _ _ _ _ EX). reflexivity.
    + pose proof (each_err _ _ _ _ ER) as ->. destruct (one p dr ph) as [x|e'] eqn:EO; cbn [bind]; [|now rewrite (one_err _ _ _ _ EO)]. destruct (each_row p drs' rows) as [xs|e'] eqn:EX; cbn [bind] in IH |- *; [|now rewrite (each_err _ _ _ _ EX)].
      rewrite GE, <- IH. destruct (one (PGlobal f) dr0 x) as [y|e'] eqn:EY; cbn [bind]; [reflexivity|]. now rewrite (one_err _ _ _ _ EY).
  - pose proof (one_err _ _ _ _ EG) as ->. destruct (one p dr ph) as [x|e'] eqn:EO; cbn [bind] in S |- *; [|now rewrite (one_err _ _ _ _ EO)]. destruct (each_row p drs' rows) as [xs|e'] eqn:EX; cbn [bind]; [|now rewrite (each_err _ _ _ _ EX)].
    rewrite GE, <- S. reflexivity.
Qed.
Lemma global_hits f p : forall rows g, each_row (PGlobal f) [] rows = Ok g -> hits_of p g = hits_of p rows.
Proof.
  induction rows as [|ph rows IH]; intros g H; [now injection H as <-|]. cbn [each_row draws_for surface geometry] in H. destruct (one (PGlobal f) dr0 ph) as [a|] eqn:E; [|discriminate]. cbn [bind] in H. destruct (each_row (PGlobal f) [] rows) as [r|]; [|discriminate]. cbn [bind] in H.
  assert (SI : forall x y : list lphoton, Ok x = Ok y -> x = y) by congruence. apply SI in H. subst g. unfold hits_of in *. cbn [filter]. rewrite (global_draws f dr0 ph a p E). destruct (draws_for p ph); cbn [length]; now rewrite (IH r eq_refl).
Qed.
Lemma no_hits f rows : hits_of (PGlobal f) rows = 0%nat.
Proof. unfold hits_of. induction rows as [|a rows IH]; [reflexivity|exact IH]. Qed.
Lemma process_swap f p drs t : rectangular t -> length drs = hits_of p (crows t) -> bind (process (PGlobal f) [] t) (process p drs) = bind (process p drs t) (process (PGlobal f) []).
Proof.
  intros R L. rewrite (process_table p drs t R L), (process_table (PGlobal f) [] t R) by (now rewrite no_hits). pose proof (each_swap f p (crows t) drs L) as S.
  destruct (each_row (PGlobal f) [] (crows t)) as [g|e] eqn:EG; cbn [bind] in S |- *.
  - rewrite (process_table p drs (of_rows g) (of_rows_rect g)) by (rewrite rows_of_rows; now rewrite (global_hits f p _ _ EG)). rewrite rows_of_rows, S.
    destruct (each_row p drs (crows t)) as [x|e]; cbn [bind]; [|reflexivity]. rewrite (process_table (PGlobal f) [] (of_rows x) (of_rows_rect x)) by (now rewrite no_hits). now rewrite rows_of_rows.
  - destruct (each_row p drs (crows t)) as [x|e'] eqn:EX; cbn [bind] in S |- *; [|now injection S as <-]. rewrite (process_table (PGlobal f) [] (of_rows x) (of_rows_rect x)) by (now rewrite no_hits). rewrite rows_of_rows, <- S. reflexivity.
Qed.
Lemma process_rect p drs t t' : rectangular t -> length drs = hits_of p (crows t) -> process p drs t = Ok t' -> rectangular t'.
Proof.
  intros R L H. rewrite (process_table p drs t R L) in H. destruct (each_row p drs (crows t)) as [x|]; [|discriminate]. cbn [bind] in H. assert (SI : forall x y : ctable, Ok x = Ok y -> x = y) by congruence. apply SI in H. subst t'. apply of_rows_rect.
Qed.
Lemma bind_assoc {A B C} (r : result A) (f : A -> result B) (g : B -> result C) : bind (bind r f) g = bind r (fun a => bind (f a) g).
Proof. now destruct r. Qed.
Lemma run_swap f ps2 drs2 : forall ps1 drs1 t, rectangular t -> length drs1 = length ps1 -> fits ps1 drs1 t ->
  run (ps1 ++ PGlobal f :: ps2) (drs1 ++ [] :: drs2) t = run (PGlobal f :: ps1 ++ ps2) ([] :: drs1 ++ drs2) t.
Proof.
  induction ps1 as [|p ps1 IH]; intros [|dr drs1] t R L F; try discriminate; [reflexivity|]. cbn [fits hd tl] in F. destruct F as [F1 F2]. cbn [app run hd tl].
  transitivity (bind (process p dr t) (fun t' => bind (process (PGlobal f) [] t') (run (ps1 ++ ps2) (drs1 ++ drs2)))).
  - destruct (process p dr t) as [t'|e] eqn:E; [|reflexivity]. cbn [bind]. rewrite IH; [reflexivity|exact (process_rect p dr t t' R F1 E)|now injection L|now apply F2].
  - rewrite <- bind_assoc, <- (process_swap f p dr t R F1), bind_assoc. reflexivity.
Qed.
