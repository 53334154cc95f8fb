(** Lemmas on gratings with wrong period or wrong direction of the grooves *)
From Verif Require Import Vec_Proofs Plane_Proofs Grating_Proofs Tilt_Proofs Overlap_Proofs.
From Verif Require Export Ruling_Model.
Open Scope R_scope.

Lemma dln_ratio c tr d l n p m wave per m' wave' per' : IZR m * wave / per = IZR m' * wave' / per' -> diffract_dln c tr d l n p m wave per = diffract_dln c tr d l n p m' wave' per'.
Proof.
  intros H. unfold diffract_dln. cbv zeta. assert (E : order_sign c p d * IZR m * wave / per = order_sign c p d * IZR m' * wave' / per').
  { transitivity (order_sign c p d * (IZR m * wave / per)); [unfold Rdiv; ring|]. rewrite H. unfold Rdiv. ring. }
  rewrite E. reflexivity.
Qed.
Lemma grating_ratio c tr mat g dir m wave per m' wave' per' : IZR m * wave / per = IZR m' * wave' / per' -> grating c tr mat g dir m wave per = grating c tr mat g dir m' wave' per'.
Proof.
  intros H. unfold grating, diffract. destruct (plane_bases mat) as [[[ex ey] en]|]; [|reflexivity]. destruct (unit3 dir); [|reflexivity]. now rewrite (dln_ratio c tr _ _ _ _ m wave per m' wave' per' H).
Qed.
Lemma unit_not_zero dir p : p = scale3 (/ norm3 dir) dir -> dir <> zero3 -> dot3 p p = 1.
Proof. intros U D. apply norm3_1. rewrite U, norm3_scale. pose proof (norm3_pos dir D). rewrite Rabs_pos_eq by (left; now apply Rinv_0_lt_compat). field. lra. Qed.
Lemma grating_ratio_only c tr mat g dir m wave per m' wave' per' out b b' : perpendicular_axes mat -> dir <> zero3 -> dot3 dir (xyz (v_x mat)) <> 0 ->
  grating c tr mat g dir m wave per = Some (out, b) -> grating c tr mat g dir m' wave' per' = Some (out, b') -> IZR m * wave / per = IZR m' * wave' / per'.
Proof.
  intros A D N G G'. destruct (grating_unfold c tr mat g dir m wave per A D) as (ex & ey & en & p & B & U & P & Up & O & E). destruct (full_facts c tr mat g dir m' wave' per' ex ey en p A D B Up) as (_ & _ & _ & E').
  rewrite G in E. rewrite G' in E'. cbv zeta in E'. set (d := neg3 (e_perp_groove (xyz ex) (xyz ey) g)) in *. set (l := e_groove (xyz ex) (xyz ey) g) in *.
  destruct (diffract_dln c tr d l (xyz en) p m wave per) as [o|] eqn:X; [|discriminate]. destruct (diffract_dln c tr d l (xyz en) p m' wave' per') as [o'|] eqn:X'; [|discriminate]. injection E as <- _. injection E' as <- _.
  unfold diffract_dln in X, X'. cbv zeta in X, X'. destruct (Rltb _ 0) in X; [discriminate|]. destruct (Rltb _ 0) in X'; [discriminate|]. injection X as X. injection X' as X'.
  set (s := order_sign c p d) in *. assert (K : dot3 out d = dot3 p d + s * IZR m * wave / per) by (rewrite <- X; apply (comb_dots d l (xyz en) O)). assert (K' : dot3 out d = dot3 p d + s * IZR m' * wave' / per') by (rewrite <- X'; apply (comb_dots d l (xyz en) O)).
  assert (S : s * s = 1). { unfold s, order_sign. destruct c; [ring|]. cbv zeta. destruct (Reqb (Rsign (dot3 p d)) 0) eqn:Q; [ring|]. apply Reqb_false in Q. apply Rsign_sq. intros Z. rewrite Z, Rsign_0 in Q. now apply Q. }
  assert (E : s * (IZR m * wave / per) = s * (IZR m' * wave' / per')) by (unfold Rdiv in *; lra). apply (f_equal (Rmult s)) in E. rewrite <- !Rmult_assoc, S in E. lra.
Qed.
Lemma one_period c tr mat g per per' dr ph ph1 : l_energy ph <> 0 -> per <> 0 -> per' <> 0 -> one (PGrating c tr mat g (fun _ => per')) dr ph = Ok ph1 ->
  exists ph2, one (PGrating c tr mat g (fun _ => per)) dr (with_energy (l_energy ph * (per' / per)) ph) = Ok ph2 /\ ph1 = with_energy (l_energy ph) ph2.
Proof.
  intros E P P' H. unfold one in *. cbn [surface] in *. 
  assert (M : forall e, meets mat (with_energy e ph) = meets mat ph) by reflexivity. rewrite M. destruct (meets mat ph) as [[[d q] loc]|].
  - cbn [effect] in *. cbn [l_energy with_energy l_pol l_prob] in *.
    rewrite (grating_ratio c tr mat g d (dr_order dr) (energy2wave / l_energy ph) per' (dr_order dr) (energy2wave / (l_energy ph * (per' / per))) per) in H by (field; repeat split; assumption).
    cbn [bind] in *. destruct (bad_factor _); [discriminate|]. injection H as <-. eexists. split; reflexivity.
  - injection H as <-. eexists. split; [reflexivity|]. destruct ph. reflexivity.
Qed.
(** ** energies *)
Lemma wrong_energy s per per' m e so : s <> 0 -> per <> 0 -> per' <> 0 -> 0 < e -> (m <> 0)%Z -> so = s * (IZR m * (energy2wave / e) / per') -> line_energy s per so m = e * (per' / per).
Proof.
  intros S P P' E M ->. unfold line_energy. assert (IZR m <> 0) by now apply not_0_IZR. pose proof hc_pos. field. repeat split; try assumption; lra.
Qed.
Lemma scatter_energy s per per' m e so delta : s <> 0 -> 0 < per -> per' <> 0 -> 0 < e -> (m <> 0)%Z -> so = s * (IZR m * (energy2wave / e) / per') ->
  (Rabs (per' - per) <= delta * per <-> Rabs (line_energy s per so m - e) <= delta * e).
Proof.
  intros S P P' E M H. rewrite (wrong_energy s per per' m e so S ltac:(lra) P' E M H). replace (e * (per' / per) - e) with (e / per * (per' - per)) by (field; lra).
  assert (K : 0 < e / per) by (apply Rdiv_lt_0_compat; lra). rewrite Rabs_mult, (Rabs_pos_eq (e / per)) by lra. replace (delta * e) with (e / per * (delta * per)) by (field; lra). split; intros L.
  - apply Rmult_le_compat_l; lra.
  - now apply Rmult_le_reg_l with (e / per).
Qed.
(** ** direction of the grooves *)
Lemma turned_perp ex ey g a : e_perp_groove ex ey (g + a) = add3 (scale3 (cos a) (e_perp_groove ex ey g)) (scale3 (sin a) (e_groove ex ey g)).
Proof. unfold e_perp_groove, e_groove. rewrite !cos_neg, !sin_neg, cos_plus, sin_plus. generalize (cos g) (sin g) (cos a) (sin a). clear. vring. Qed.
Lemma turned_groove ex ey g a : e_groove ex ey (g + a) = sub3 (scale3 (cos a) (e_groove ex ey g)) (scale3 (sin a) (e_perp_groove ex ey g)).
Proof. unfold e_perp_groove, e_groove. rewrite !cos_neg, !sin_neg, cos_plus, sin_plus. generalize (cos g) (sin g) (cos a) (sin a). clear. vring. Qed.
Lemma dot_neg v q : dot3 v (neg3 q) = - dot3 v q. Proof. revert v q. vring. Qed.
Lemma in_plane c tr mat g dir m wave per out bl ex ey en p : perpendicular_axes mat -> dir <> zero3 -> plane_bases mat = Some (ex, ey, en) -> p = scale3 (/ norm3 dir) dir -> dot3 p (xyz en) <> 0 ->
  grating c tr mat g dir m wave per = Some (out, bl) ->
  let disp := e_perp_groove (xyz ex) (xyz ey) g in out = add3 (add3 p (scale3 (sine_step c p disp m wave per) disp)) (scale3 (dot3 (sub3 out p) (xyz en)) (xyz en)).
Proof.
  intros A D B U N G disp. destruct (grating_main c tr mat g dir m wave per out bl ex ey en p A D B U N G) as (_ & L & E & _). fold disp in E. fold (sine_step c p disp m wave per) in E.
  destruct (full_facts c tr mat g dir m wave per ex ey en p A D B U) as (_ & _ & O & _). cbv zeta in O. fold disp in O. set (l := e_groove (xyz ex) (xyz ey) g) in *.
  pose proof (frame_expand _ _ _ (sub3 out p) O) as F. rewrite !dot_neg in F. assert (X : dot3 (sub3 out p) disp = sine_step c p disp m wave per). { rewrite dot3_sub_l, E. ring. } assert (Y : dot3 (sub3 out p) l = 0). { rewrite dot3_sub_l, L. ring. }
  rewrite X, Y in F. revert F. generalize (sine_step c p disp m wave per) (dot3 (sub3 out p) (xyz en)). generalize (xyz en) disp l out p. clear. intros n D l o p S k F.
  transitivity (add3 p (sub3 o p)); [clear; revert o p; vring|]. rewrite F. clear. revert S k n D l p. vring.
Qed.
Lemma normal_incidence c tr mat g a dir m wave per out bl ex ey en p : perpendicular_axes mat -> dir <> zero3 -> plane_bases mat = Some (ex, ey, en) -> p = scale3 (/ norm3 dir) dir ->
  (p = xyz en \/ p = neg3 (xyz en)) -> grating c tr mat g dir m wave per = Some (out, bl) ->
  let l := e_groove (xyz ex) (xyz ey) g in let disp := e_perp_groove (xyz ex) (xyz ey) g in let S := sine_step c p disp m wave per in
  exists out' bl' k, grating c tr mat (g + a) dir m wave per = Some (out', bl') /\ out = add3 (scale3 S disp) (scale3 k (xyz en)) /\
    out' = add3 (add3 (scale3 (S * cos a) disp) (scale3 (S * sin a) l)) (scale3 k (xyz en)).
Proof.
  intros A D B U PN G l disp S. destruct (full_facts c tr mat g dir m wave per ex ey en p A D B U) as (_ & P & O & G0). destruct (full_facts c tr mat (g + a) dir m wave per ex ey en p A D B U) as (_ & _ & O' & G1). cbv zeta in *. fold disp l in O, G0. rewrite G in G0.
  set (disp' := e_perp_groove (xyz ex) (xyz ey) (g + a)) in *. set (l' := e_groove (xyz ex) (xyz ey) (g + a)) in *.
  assert (Z : dot3 p disp = 0 /\ dot3 p l = 0 /\ dot3 p disp' = 0 /\ dot3 p l' = 0).
  { destruct O as (_ & _ & _ & _ & Q & R). destruct O' as (_ & _ & _ & _ & Q' & R'). cbn [a0 a1 a2] in *. revert PN Q R Q' R'. generalize (xyz en) disp l disp' l' p. clear. intros n u v u' v' p PN Q R Q' R'.
    assert (T : dot3 n u = 0 /\ dot3 n v = 0 /\ dot3 n u' = 0 /\ dot3 n v' = 0). { destruct n, u, v, u', v'. vu. repeat split; lra. } destruct T as (T1 & T2 & T3 & T4).
    destruct PN as [->| ->]; [repeat split; assumption|]. destruct n, u, v, u', v'. vu. repeat split; lra. }
  destruct Z as (Z1 & Z2 & Z3 & Z4). unfold diffract_dln in G0, G1. cbv zeta in G0, G1. rewrite !dot_neg in G0. rewrite !dot_neg in G1. rewrite Z1, Z2 in G0. rewrite Z3, Z4 in G1.
  assert (OS : order_sign c p (neg3 disp) = order_sign c p (neg3 disp')) by (unfold order_sign; rewrite !dot_neg, Z1, Z3; reflexivity).
  assert (SS : order_sign c p (neg3 disp) * IZR m * wave / per = - S). { unfold S, sine_step. rewrite Z1, (proj2 (Rleb_true 0 0)) by lra. unfold order_sign. rewrite dot_neg, Z1, Ropp_0, Rsign_0, (proj2 (Reqb_true 0 0)) by reflexivity. destruct c; unfold Rdiv; ring. }
  rewrite <- OS in G1. rewrite SS in G0, G1. destruct (Rltb _ 0) in G0, G1; [discriminate|]. injection G0 as -> _.
  set (k := Rsign (dot3 p (xyz en)) * (if tr then 1 else -1) * sqrt (1 - (- 0 + - S) * (- 0 + - S) - 0 * 0)) in *. do 2 eexists. exists k. split; [exact G1|]. split.
  - generalize k (xyz en) disp l S. clear. vring.
  - unfold disp', l'. rewrite turned_perp. fold disp l. generalize (e_groove (xyz ex) (xyz ey) (g + a)) k (xyz en) disp l S (cos a) (sin a). clear. vring.
Qed.
(** on a plane parallel to the grating *)
Lemma turned_spectrum S k a l disp n q s s' out out' L : orthonormal (M3 (neg3 disp) l n) -> k <> 0 -> out = add3 (scale3 S disp) (scale3 k n) -> out' = add3 (add3 (scale3 (S * cos a) disp) (scale3 (S * sin a) l)) (scale3 k n) ->
  let y := add3 q (scale3 s out) in let y' := add3 q (scale3 s' out') in dot3 (sub3 y q) n = L -> dot3 (sub3 y' q) n = L ->
  dot3 (sub3 y q) l = 0 /\ dot3 (sub3 y' q) disp = cos a * dot3 (sub3 y q) disp /\ dot3 (sub3 y' q) l = sin a * dot3 (sub3 y q) disp /\ norm3 (sub3 y' q) = norm3 (sub3 y q).
Proof.
  intros O K -> -> y y' H H'. destruct O as (DD & LL & NN & DL & DN & LN). cbn [a0 a1 a2] in *.
  assert (D1 : dot3 disp disp = 1) by (rewrite dot_neg in DD; revert DD; generalize disp; clear; intros v; destruct v; vu; lra). assert (D2 : dot3 disp l = 0) by (revert DL; generalize disp l; clear; intros v w; destruct v, w; vu; lra). assert (D3 : dot3 disp n = 0) by (revert DN; generalize disp n; clear; intros v w; destruct v, w; vu; lra).
  assert (Y : sub3 y q = scale3 s (add3 (scale3 S disp) (scale3 k n))) by (unfold y; clear; revert s S k q disp n; vring).
  assert (Y' : sub3 y' q = scale3 s' (add3 (add3 (scale3 (S * cos a) disp) (scale3 (S * sin a) l)) (scale3 k n))) by (unfold y'; generalize (cos a) (sin a); clear; revert s' S k q disp l n; vring).
  rewrite Y in *. rewrite Y' in *. clear Y Y' y y'. rewrite !dot3_scale_l, !dot3_add_l, !dot3_scale_l in *. rewrite ?D3, ?NN, ?LN in *. 
  assert (E : s = s'). { apply Rmult_eq_reg_r with k; [|exact K]. lra. } subst s'. rewrite ?D1, ?D2, (dot3_comm n l), (dot3_comm n disp), ?(dot3_comm l disp), ?LN, ?D3, ?D2, ?LL. repeat split; try ring.
  unfold norm3. f_equal. rewrite !dot3_scale_l, !dot3_scale_r, !dot3_add_l, !dot3_add_r, !dot3_scale_l, !dot3_scale_r. rewrite ?(dot3_comm n l), ?(dot3_comm n disp), ?(dot3_comm l disp), D1, D2, D3, LL, LN, NN.
  pose proof (sin2_cos2 a) as T. unfold Rsqr in T. transitivity (s * (s * (S * S * (sin a * sin a + cos a * cos a) + k * k))); [ring|]. rewrite T. ring.
Qed.
