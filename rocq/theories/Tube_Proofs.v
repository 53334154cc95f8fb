(** Lemmas on circular detectors in instruments *)
From Verif Require Import Base_Proofs Vec_Proofs Coords_Proofs Plane_Proofs Cylinder_Proofs Instrument_Proofs Instrument_Proofs2 Layers_Proofs Whole_Proofs.
From Verif Require Export Whole_Model Spectro_Model.
From Verif Require Import Grating_Proofs Lens_Proofs Spectro_Proofs.
Open Scope R_scope.
Open Scope list_scope.

Lemma prob_one f : times f (Some 1) = f. Proof. destruct f as [x|]; [|reflexivity]. cbn. now rewrite Rmult_1_r. Qed.
Lemma one_fine : bad_factor (Some 1) = false.
Proof. cbn. rewrite (proj2 (Rltb_false 1 0)) by lra. rewrite (proj2 (Rltb_false 1 1)) by lra. reflexivity. Qed.
Lemma tube_one m minv a b dr ph : one (PTube m minv a b) dr ph = Ok match meets_tube m minv a b ph with None => ph | Some (d, q, _) => LPhoton (Some d) (Some q) (l_pol ph) (l_energy ph) (l_prob ph) end.
Proof. cbn [one surface]. destruct (meets_tube m minv a b ph) as [[[d q] loc]|]; [|reflexivity]. cbn [effect bind snd fst]. now rewrite one_fine, prob_one. Qed.

(** points of the tube on the ray *)
Definition tube_point (m : m4) (a b : R) (x d : v3) (k : R) : Prop := exists u, on_tube a b u /\ app4 m (hom u 1) = hom (add3 x (scale3 k d)) 1.
Lemma tube_detected m minv a b dr ph d x : well_made (PTube m minv a b) -> l_dir ph = Some d -> l_pos ph = Some x -> (forall s, d <> scale3 s (xyz (v_z m))) ->
  (forall k, 0 <= k -> tube_point m a b x d k -> (forall l, 0 <= l < k -> ~ tube_point m a b x d l) ->
     one (PTube m minv a b) dr ph = Ok (LPhoton (Some d) (Some (add3 x (scale3 k d))) (l_pol ph) (l_energy ph) (l_prob ph))) /\
  ((exists l, 0 <= l /\ tube_point m a b x d l) -> exists k, 0 <= k /\ tube_point m a b x d k /\ forall l, 0 <= l < k -> ~ tube_point m a b x d l) /\
  ((forall k, 0 <= k -> ~ tube_point m a b x d k) -> one (PTube m minv a b) dr ph = Ok ph).
Proof.
  intros (_ & _ & W) D X NP. destruct (W _ _ _ _ eq_refl) as (I' & I & A & P). pose proof (proj1 P) as Am.
  destruct (cylinder_hit_iff m minv a b d x I I' Am A) as (h & ip & il & E & H). pose proof (cylinder_values m minv a b d x h ip il I I' Am A E) as [_ V].
  assert (NP' : ~ exists s, d = scale3 s (xyz (b2 m))) by (intros [s S]; exact (NP s S)).
  assert (T : (exists k, 0 <= k /\ tube_point m a b x d k) -> exists k, 0 <= k /\ tube_point m a b x d k /\ (forall l, 0 <= l < k -> ~ tube_point m a b x d l) /\
    one (PTube m minv a b) dr ph = Ok (LPhoton (Some d) (Some (add3 x (scale3 k d))) (l_pol ph) (l_energy ph) (l_prob ph))).
  { intros (k & K & u & U & Q). assert (HT : h = true) by (apply H; split; [exact NP'|exists k, u; auto]). destruct (V HT) as (k0 & u0 & K0 & U0 & Q0 & IP & MIN & LOC). destruct (LOC P) as (phi & _ & _ & _ & IL).
    exists k0. split; [exact K0|]. split; [now exists u0|]. split; [intros l L (u' & U' & Q'); specialize (MIN l u' (proj1 L) U' Q'); lra|].
    rewrite tube_one. unfold meets_tube. rewrite D, X, E, HT, IP, IL, Coords_Proofs.xyz_hom. reflexivity. }
  split; [|split].
  - intros k K TP F. destruct (T (ex_intro _ k (conj K TP))) as (k0 & K0 & TP0 & F0 & O). assert (k0 = k) as <-; [|exact O].
    destruct (Rtotal_order k k0) as [L|[L|L]]; [destruct (F0 k); [lra|exact TP]|now symmetry|destruct (F k0); [lra|exact TP0]].
  - intros Ex. destruct (T Ex) as (k & K & TP & F & _). exists k. auto.
  - intros N. rewrite tube_one. unfold meets_tube. rewrite D, X, E. destruct h; [|reflexivity]. exfalso. destruct (proj1 H eq_refl) as (_ & k & u & K & U & Q). apply (N k K). now exists u.
Qed.
Lemma tube_along m minv a b dr ph d s : well_made (PTube m minv a b) -> l_dir ph = Some d -> d = scale3 s (xyz (v_z m)) -> one (PTube m minv a b) dr ph = Ok ph.
Proof.
  intros (_ & _ & W) D S. destruct (W _ _ _ _ eq_refl) as (I' & I & A & P). rewrite tube_one. unfold meets_tube. rewrite D. destruct (l_pos ph) as [x|]; [|reflexivity].
  destruct (cylinder_hit_iff m minv a b d x I I' (proj1 P) A) as (h & ip & il & E & H). rewrite E. destruct h; [|reflexivity]. exfalso. destruct (proj1 H eq_refl) as [N _]. apply N. now exists s.
Qed.
Lemma ray_zero x d : add3 x (scale3 0 d) = x. Proof. vring. Qed.
Lemma ray_more x d k l : add3 (add3 x (scale3 k d)) (scale3 l d) = add3 x (scale3 (k + l) d). Proof. vring. Qed.
Lemma tube_twice m minv a b dr dr' ph ph' : well_made (PTube m minv a b) -> one (PTube m minv a b) dr ph = Ok ph' -> one (PTube m minv a b) dr' ph' = Ok ph'.
Proof.
  intros W H. destruct (l_dir ph) as [d|] eqn:D.
  2:{ rewrite tube_one in H. unfold meets_tube in H. rewrite D in H. assert (ph' = ph) as -> by congruence. rewrite tube_one. unfold meets_tube. now rewrite D. }
  destruct (l_pos ph) as [x|] eqn:X.
  2:{ rewrite tube_one in H. unfold meets_tube in H. rewrite D, X in H. assert (ph' = ph) as -> by congruence. rewrite tube_one. unfold meets_tube. now rewrite D, X. }
  destruct (meets_tube m minv a b ph) as [[[d0 q] loc]|] eqn:M.
  - pose proof M as M0. rewrite tube_one, M in H. destruct W as (W1 & W2 & W3). destruct (W3 _ _ _ _ eq_refl) as (I' & I & A & P).
    unfold meets_tube in M. rewrite D, X in M. destruct (cylinder_hit_iff m minv a b d x I I' (proj1 P) A) as (h & ip & il & E & HI). pose proof (cylinder_values m minv a b d x h ip il I I' (proj1 P) A E) as [_ V]. rewrite E in M.
    destruct h; [|discriminate]. destruct (V eq_refl) as (k & u & K & U & Q & IP & _). rewrite IP in M. destruct il as [l|]; [|discriminate]. rewrite Coords_Proofs.xyz_hom in M.
    destruct (proj1 HI eq_refl) as [NP _].
    assert (d0 = d) as -> by congruence. assert (q = add3 x (scale3 k d)) as -> by congruence. assert (SI : forall x y : lphoton, Ok x = Ok y -> x = y) by congruence. apply SI in H. subst ph'.
    destruct (tube_detected m minv a b dr' (LPhoton (Some d) (Some (add3 x (scale3 k d))) (l_pol ph) (l_energy ph) (l_prob ph)) d (add3 x (scale3 k d))) as (T & _); [exact (conj W1 (conj W2 W3))|reflexivity|reflexivity|intros s S; apply NP; now exists s|].
    specialize (T 0 (Rle_refl 0)). rewrite ray_zero in T. apply T; [|intros l0 L; lra]. exists u. split; [exact U|]. now rewrite ray_zero.
  - rewrite tube_one, M in H. assert (ph' = ph) as -> by congruence. now rewrite tube_one, M.
Qed.

(** ** spectrographs *)
Lemma unit3_longer s d : 0 < s -> unit3 (scale3 s d) = unit3 d.
Proof.
  intros S. unfold unit3. rewrite norm3_scale, (Rabs_right s) by lra. destruct (Req_EM_T (s * norm3 d) 0) as [E|E], (Req_EM_T (norm3 d) 0) as [F|F]; try reflexivity.
  - apply Rmult_integral in E. destruct E; [lra|contradiction].
  - destruct E. rewrite F. ring.
  - f_equal. generalize (norm3 d) F. clear - S. intros n F. destruct d as [x y z]. vu. f_equal; field; lra.
Qed.
Lemma grating_longer c tr mat g s d o w per : 0 < s -> grating c tr mat g (scale3 s d) o w per = grating c tr mat g d o w per.
Proof. intros S. unfold grating, diffract. now rewrite unit3_longer by exact S. Qed.
Lemma spectro_chain c mat g per det detinv lim0 lim1 drs ph d q loc s out bl qq ll :
  meets mat ph = Some (d, q, loc) -> 0 < s -> 0 <= dr_p (hd dr0 drs) <= 1 ->
  grating c true mat g (scale3 s d) (dr_order (hd dr0 drs)) (energy2wave / l_energy ph) (per loc) = Some (out, bl) ->
  grating_then_tube c mat g (dr_order (hd dr0 drs)) (energy2wave / l_energy ph) (per loc) det detinv lim0 lim1 (scale3 s d) q = Ok (true, Some qq, Some ll) ->
  exists ph', through [PGrating c true mat g per; PTube det detinv lim0 lim1] drs ph = Ok ph' /\ l_dir ph' = Some out /\ l_pos ph' = Some (xyz qq) /\ l_energy ph' = l_energy ph /\
    l_prob ph' = times (l_prob ph) (Some (dr_p (hd dr0 drs))).
Proof.
  intros M S P G T. unfold grating_then_tube in T. rewrite G in T. rewrite (grating_longer c true mat g s d _ _ _ S) in G.
  assert (B : bad_factor (Some (dr_p (hd dr0 drs))) = false) by (cbn; now rewrite (proj2 (Rltb_false _ 0)), (proj2 (Rltb_false 1 _)) by lra).
  assert (O : one (PGrating c true mat g per) (hd dr0 drs) ph = Ok (LPhoton (Some out) (Some q) (snd (bent d (Some out) (l_pol ph))) (l_energy ph) (times (l_prob ph) (Some (dr_p (hd dr0 drs)))))).
  { cbn [one surface]. rewrite M. cbn [effect bind snd]. rewrite G. cbn [option_map fst]. now rewrite B. }
  cbn [through]. change (Draw 0 0 0 0 0 0 0) with dr0. rewrite O. cbn [bind]. rewrite tube_one. cbn [bind].
  eexists. split; [reflexivity|]. unfold meets_tube. cbn [l_dir l_pos l_pol l_energy l_prob]. rewrite T. cbn. repeat split.
Qed.
(** a photon on its way to the focus *)
Lemma spectro_detected t w rot det detinv lim0 lim1 a b i o eps mat g c per drs ph d loc s : Rowland_Model.rigid (tpos t) -> 0 < tr t -> 0 < w -> from_rowland t w rot = Some det ->
  mul4 det detinv = id4 -> mul4 detinv det = id4 -> affine detinv -> 0 < a - b < 2 * PI -> - (PI / 2) < i < PI / 2 -> - (PI / 2) <= o <= PI / 2 ->
  ruled_in_plane t 0 ((a + b) / 2 + PI / 2 - i) eps mat g ->
  sin o = sin i + eps * order_direction c (eps * sin i) * (IZR (dr_order (hd dr0 drs)) * (energy2wave / l_energy ph) / per loc) -> 0 < (a - b) / 2 + (o - i) < PI ->
  angle_between (b - rot) lim0 lim1 = false -> angle_between (a + 2 * (o - i) - rot) lim0 lim1 = true ->
  meets mat ph = Some (d, xyz (parametric t b 0), loc) -> 0 < s -> sub3 (xyz (parametric t a 0)) (xyz (parametric t b 0)) = scale3 s d -> 0 <= dr_p (hd dr0 drs) <= 1 ->
  exists ph', through [PGrating c true mat g per; PTube det detinv lim0 lim1] drs ph = Ok ph' /\ l_pos ph' = Some (xyz (parametric t (a + 2 * (o - i)) 0)) /\ l_energy ph' = l_energy ph /\
    l_prob ph' = times (l_prob ph) (Some (dr_p (hd dr0 drs))).
Proof.
  intros G Tr Wd F I1 I2 Ai AB I O Ru SO Fw B0 B1 M S E P.
  destruct (rowland_focus t 0 a b i o eps mat g c _ _ _ G Tr AB I O Ru SO) as (bl & RF). rewrite E in RF.
  destruct (detected t w rot det detinv lim0 lim1 a b i o eps mat g c _ _ _ G Tr Wd F I1 I2 Ai AB I O Ru SO Fw B0 B1) as (phi & _ & _ & T). rewrite E in T.
  destruct (spectro_chain c mat g per det detinv lim0 lim1 drs ph d _ loc s _ _ _ _ M S P RF T) as (ph' & H & _ & X & En & Pr). exists ph'. auto.
Qed.
(** behind a lens *)
Lemma line_detected t w rot det detinv lim0 lim1 a b o eps mat g c per ml off f refl rn drs ph d0 q0 loc0 ph1 d loc : Rowland_Model.rigid (tpos t) -> 0 < tr t -> 0 < w -> from_rowland t w rot = Some det ->
  mul4 det detinv = id4 -> mul4 detinv det = id4 -> affine detinv -> 0 < a - b < 2 * PI -> - (PI / 2) <= o <= PI / 2 -> ruled_in_plane t 0 ((a + b) / 2 + PI / 2) eps mat g ->
  sin o = eps * order_direction c 0 * (IZR (dr_order (hd dr0 (tl drs))) * (energy2wave / l_energy ph) / per loc) -> 0 < (a - b) / 2 + o < PI ->
  angle_between (b - rot) lim0 lim1 = false -> angle_between (a + 2 * o - rot) lim0 lim1 = true ->
  perpendicular_axes ml -> perpendicular_axes mat -> meets ml ph = Some (d0, q0, loc0) -> dot3 d0 d0 = 1 ->
  add3 (sub3 (xyz (center ml)) (scale3 (off / norm3 (xyz (v_z ml))) (xyz (v_z ml)))) (scale3 f d0) = xyz (parametric t a 0) ->
  one (PLens ml off f refl rn) (hd dr0 drs) ph = Ok ph1 -> meets mat ph1 = Some (d, xyz (parametric t b 0), loc) -> 0 < dot3 (sub3 (xyz (parametric t a 0)) (xyz (parametric t b 0))) d ->
  0 <= dr_p (hd dr0 (tl drs)) <= 1 ->
  exists ph', through [PLens ml off f refl rn; PGrating c true mat g per; PTube det detinv lim0 lim1] drs ph = Ok ph' /\ l_pos ph' = Some (xyz (parametric t (a + 2 * o) 0)) /\ l_energy ph' = l_energy ph /\
    l_prob ph' = times (l_prob ph1) (Some (dr_p (hd dr0 (tl drs)))).
Proof.
  intros G Tr Wd F I1 I2 Ai AB O Ru SO Fw B0 B1 PL PG ML U FO O1 MG FWD P.
  pose proof (lens_ray ml off f refl rn (hd dr0 drs) ph ph1 d0 q0 loc0 PL ML U O1) as LR. cbv zeta in LR. rewrite FO in LR. destruct LR as [LR LN].
  destruct (proj1 (meets_iff mat ph1 d _ loc PG) MG) as (D1 & _ & x & k & _ & _ & X & _ & Q & _).
  assert (NE : q0 <> xyz (parametric t a 0)) by (intros E; rewrite (LN E) in D1; discriminate). destruct (LR NE) as ((d' & x' & k' & D' & X' & FE) & d2 & D2 & U2).
  assert (d' = d) as -> by congruence. assert (d2 = d) as -> by congruence. assert (x' = x) as -> by congruence.
  assert (E : sub3 (xyz (parametric t a 0)) (xyz (parametric t b 0)) = scale3 (k' - k) d) by (rewrite FE, Q; generalize x d k k'; clear; intros; vring).
  assert (S : 0 < k' - k) by (rewrite E, dot3_scale_l, U2 in FWD; lra).
  assert (EN : l_energy ph1 = l_energy ph).
  { cbn [one surface] in O1. rewrite ML in O1. destruct (effect _ _ _ _ _ _) as [o1|]; cbn [bind] in O1; [|discriminate]. destruct (bad_factor (snd o1)); [discriminate|].
    apply (f_equal (fun r => match r with Ok a => l_energy a | Err _ => 0 end)) in O1. cbn in O1. congruence. }
  destruct (spectro_detected t w rot det detinv lim0 lim1 a b 0 o eps mat g c per (tl drs) ph1 d loc (k' - k)) as (ph' & H & L1 & L2 & L3); try assumption.
  - pose proof PI_RGT_0. lra.
  - now replace ((a + b) / 2 + PI / 2 - 0) with ((a + b) / 2 + PI / 2) by ring.
  - rewrite sin_0, Rmult_0_r, Rplus_0_l, EN. exact SO.
  - now rewrite Rminus_0_r.
  - now rewrite Rminus_0_r.
  - exists ph'. rewrite Rminus_0_r in L1. split; [|split; [exact L1|split; [congruence|exact L3]]].
    change (through (PLens ml off f refl rn :: [PGrating c true mat g per; PTube det detinv lim0 lim1]) drs ph) with (bind (one (PLens ml off f refl rn) (hd dr0 drs) ph) (through [PGrating c true mat g per; PTube det detinv lim0 lim1] (tl drs))).
    rewrite O1. exact H.
Qed.

(** ** many gratings *)
Lemma through_missed ph : forall ps qs drs, Forall (fun p => exists m, layer_of m p /\ meets m ph = None) ps -> through (ps ++ qs) drs ph = through qs (skipn (length ps) drs) ph.
Proof.
  induction ps as [|p ps IH]; intros qs drs H; [reflexivity|]. inversion H as [|? ? (m & L & M) H']; subst.
  pose proof (missed_through m ph M [p] drs (Forall_cons _ L (Forall_nil _))) as O. cbn [through] in O. cbn [app through].
  destruct (one p _ ph) as [x|]; cbn [bind] in *; [|discriminate]. assert (x = ph) as -> by congruence. rewrite IH by assumption. destruct drs; cbn [skipn tl length]; [|reflexivity]. now rewrite skipn_nil.
Qed.
Lemma hd_skipn {A} (d : A) : forall n l, hd d (skipn n l) = nth n l d.
Proof. induction n as [|n IH]; intros [|x l]; cbn; auto. Qed.
Lemma tl_skipn {A} : forall n (l : list A), tl (skipn n l) = skipn (S n) l.
Proof. induction n as [|n IH]; intros [|x l]; auto. apply (IH l). Qed.
Lemma array_detected t w rot det detinv lim0 lim1 a b o eps mat g c per ml off f refl rn gs1 gs2 drs ph d0 q0 loc0 ph1 ph2 d loc : Rowland_Model.rigid (tpos t) -> 0 < tr t -> 0 < w ->
  from_rowland t w rot = Some det -> mul4 det detinv = id4 -> mul4 detinv det = id4 -> affine detinv -> 0 < a - b < 2 * PI -> - (PI / 2) <= o <= PI / 2 ->
  ruled_in_plane t 0 ((a + b) / 2 + PI / 2) eps mat g ->
  let dr := nth (S (length gs1)) drs dr0 in
  sin o = eps * order_direction c 0 * (IZR (dr_order dr) * (energy2wave / l_energy ph) / per loc) -> 0 < (a - b) / 2 + o < PI ->
  angle_between (b - rot) lim0 lim1 = false -> angle_between (a + 2 * o - rot) lim0 lim1 = true ->
  perpendicular_axes ml -> perpendicular_axes mat -> meets ml ph = Some (d0, q0, loc0) -> dot3 d0 d0 = 1 ->
  add3 (sub3 (xyz (center ml)) (scale3 (off / norm3 (xyz (v_z ml))) (xyz (v_z ml)))) (scale3 f d0) = xyz (parametric t a 0) ->
  one (PLens ml off f refl rn) (hd dr0 drs) ph = Ok ph1 -> Forall (fun p => exists m, layer_of m p /\ meets m ph1 = None) gs1 ->
  meets mat ph1 = Some (d, xyz (parametric t b 0), loc) -> 0 < dot3 (sub3 (xyz (parametric t a 0)) (xyz (parametric t b 0))) d -> 0 <= dr_p dr <= 1 ->
  one (PGrating c true mat g per) dr ph1 = Ok ph2 -> Forall (fun p => exists m, layer_of m p /\ meets m ph2 = None) gs2 ->
  exists ph', through (PLens ml off f refl rn :: gs1 ++ PGrating c true mat g per :: gs2 ++ [PTube det detinv lim0 lim1]) drs ph = Ok ph' /\
    l_pos ph' = Some (xyz (parametric t (a + 2 * o) 0)) /\ l_energy ph' = l_energy ph /\ l_prob ph' = times (l_prob ph1) (Some (dr_p dr)).
Proof.
  intros G Tr Wd F I1 I2 Ai AB O Ru dr SO Fw B0 B1 PL PG ML U FO O1 M1 MG FWD P O2 M2.
  destruct (line_detected t w rot det detinv lim0 lim1 a b o eps mat g c per ml off f refl rn [hd dr0 drs; dr] ph d0 q0 loc0 ph1 d loc) as (ph' & H & R1); try assumption.
  exists ph'. split; [|exact R1]. cbn [through hd tl] in H. cbn [through].
  change (Draw 0 0 0 0 0 0 0) with dr0 in *. rewrite O1 in *. cbn [bind] in *. rewrite (through_missed ph1 gs1 _ _ M1). cbn [through]. change (Draw 0 0 0 0 0 0 0) with dr0.
  replace (hd dr0 (skipn (length gs1) (tl drs))) with dr by (rewrite hd_skipn; unfold dr; destruct drs; [now destruct (length gs1)|reflexivity]).
  rewrite O2 in *. cbn [bind] in *. rewrite (through_missed ph2 gs2 _ _ M2). cbn [through]. rewrite !tube_one in *. exact H.
Qed.
