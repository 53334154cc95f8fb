(** Lemmas about [Position_Model]. *)
From Verif Require Import Base_Proofs Vec_Proofs.
From Verif Require Export Position_Model.
Open Scope R_scope.

Lemma compose_product t r z : compose t r z = mul4 (translation2aff t) (mul4 (mat2aff r) (zoom2aff z)).
Proof. unfold compose, translation2aff, mat2aff, zoom2aff, diag3. vring. Qed.
Lemma det_compose t r z : det4 (compose t r z) = det3 r * (x3 z * y3 z * z3 z).
Proof. unfold compose, diag3. vring. Qed.

(** *** decompose44 *)
Lemma det3_neg0 a b c : det3 (M3 (neg3 a) b c) = - det3 (M3 a b c). Proof. vring. Qed.
Lemma det_pm m : orthonormal m -> det3 m = 1 \/ det3 m = -1.
Proof.
  intros H. apply orthonormal_det in H. assert (X : (det3 m - 1) * (det3 m + 1) = 0) by lra.
  apply Rmult_integral in X. lra.
Qed.
Lemma mul3_diag m z : mul3 m (diag3 z) = M3 (scale3 (x3 z) (a0 m)) (scale3 (y3 z) (a1 m)) (scale3 (z3 z) (a2 m)).
Proof. unfold diag3. vring. Qed.
Definition shear3 (s : v3) : m3 := M3 (V3 1 0 0) (V3 (x3 s) 1 0) (V3 (y3 s) (z3 s) 1).
Lemma scale_inv s v : s <> 0 -> scale3 s (scale3 (/ s) v) = v.
Proof. intros H. rewrite scale3_scale3, Rinv_r by exact H. apply scale3_1. Qed.
Lemma unit_inv v : norm3 v <> 0 -> dot3 (scale3 (/ norm3 v) v) (scale3 (/ norm3 v) v) = 1.
Proof. intros H. rewrite dot3_scale_l, dot3_scale_r, <- norm3_sqr. field. exact H. Qed.
Lemma neg_ortho a b c : orthonormal (M3 a b c) -> orthonormal (M3 (neg3 a) b c).
Proof.
  unfold orthonormal. cbn [a0 a1 a2]. intros (H1 & H2 & H3 & H4 & H5 & H6).
  assert (E : forall u v, dot3 (neg3 u) v = - dot3 u v) by vring.
  assert (E' : forall u v, dot3 u (neg3 v) = - dot3 u v) by vring.
  rewrite !E, !E', H4, H5. repeat split; lra.
Qed.
(** the parts reproduce the matrix: linear part = rotation . zoom . shear *)
Lemma recompose_alg p q r u v w (sx sy sz sxy sxz syz : R) :
  p = scale3 sx u -> q = add3 (scale3 sy v) (scale3 (sx * sxy) u) ->
  r = add3 (scale3 sz w) (add3 (scale3 (sx * sxz) u) (scale3 (sy * syz) v)) ->
  M3 p q r = mul3 (M3 u v w) (mul3 (diag3 (V3 sx sy sz)) (shear3 (V3 sxy sxz syz))).
Proof. intros -> -> ->. unfold diag3, shear3. vring. Qed.
Lemma decompose44_spec m t r z s : decompose44 m = Some (t, r, z, s) ->
  t = tra m /\ rotation r /\ (x3 z <> 0 /\ 0 < y3 z /\ 0 < z3 z) /\ lin m = mul3 r (mul3 (diag3 z) (shear3 s)).
Proof.
  unfold decompose44, tra, lin. set (p := xyz (b0 m)). set (q := xyz (b1 m)). set (o := xyz (b2 m)).
  set (sx := norm3 p). destruct (Reqb sx 0) eqn:Ex; [discriminate|]. apply Reqb_false in Ex.
  set (u := scale3 (/ sx) p). set (a := dot3 u q).
  set (q' := sub3 q (scale3 a u)). set (sy := norm3 q'). destruct (Reqb sy 0) eqn:Ey; [discriminate|]. apply Reqb_false in Ey.
  set (v := scale3 (/ sy) q'). set (b := dot3 u o). set (c := dot3 v o).
  set (o' := sub3 o (add3 (scale3 b u) (scale3 c v))). set (sz := norm3 o').
  destruct (Reqb sz 0) eqn:Ez; [discriminate|]. apply Reqb_false in Ez. set (w := scale3 (/ sz) o').
  assert (Pp : p = scale3 sx u) by (symmetry; now apply scale_inv).
  assert (Qq : q' = scale3 sy v) by (symmetry; now apply scale_inv).
  assert (Oo : o' = scale3 sz w) by (symmetry; now apply scale_inv).
  assert (U : dot3 u u = 1) by (now apply unit_inv).
  assert (V : dot3 v v = 1) by (now apply unit_inv).
  assert (W : dot3 w w = 1) by (now apply unit_inv).
  assert (UV : dot3 u v = 0).
  { unfold v, q'. rewrite dot3_scale_r, dot3_sub_r, dot3_scale_r, U. fold a. ring. }
  assert (UW : dot3 u w = 0).
  { unfold w, o'. rewrite dot3_scale_r, dot3_sub_r, dot3_add_r, !dot3_scale_r, U, UV. fold b. ring. }
  assert (VW : dot3 v w = 0).
  { unfold w, o'. rewrite dot3_scale_r, dot3_sub_r, dot3_add_r, !dot3_scale_r, V, (dot3_comm v u), UV. fold c. ring. }
  assert (F : orthonormal (M3 u v w)) by (unfold orthonormal; cbn; auto 10).
  assert (SY : 0 < sy) by (pose proof (norm3_nonneg q'); fold sy in H; lra).
  assert (SZ : 0 < sz) by (pose proof (norm3_nonneg o'); fold sz in H; lra).
  assert (Q : q = add3 (scale3 sy v) (scale3 (sx * (a / sx)) u)).
  { rewrite <- Qq. unfold q'. replace (sx * (a / sx)) with a by (field; exact Ex). generalize (scale3 a u). generalize q. clear. vring. }
  assert (O : o = add3 (scale3 sz w) (add3 (scale3 (sx * (b / sx)) u) (scale3 (sy * (c / sy)) v))).
  { rewrite <- Oo. unfold o'. replace (sx * (b / sx)) with b by (field; exact Ex). replace (sy * (c / sy)) with c by (field; exact Ey).
    generalize (add3 (scale3 b u) (scale3 c v)). generalize o. clear. vring. }
  destruct (Rltb (det3 (M3 u v w)) 0) eqn:D; intros H; injection H as <- <- <- <-.
  - apply Rltb_true in D. split; [reflexivity|]. split.
    + split; [now apply neg_ortho|]. rewrite det3_neg0. destruct (det_pm _ F); lra.
    + cbn [x3 y3 z3]. split; [repeat split; auto; lra|].
      rewrite (recompose_alg p q o u v w sx sy sz (a / sx) (b / sx) (c / sy) Pp Q O).
      unfold diag3, shear3. generalize u v w sx sy sz (a / sx) (b / sx) (c / sy). clear. vring.
  - apply Rltb_false in D. split; [reflexivity|]. split.
    + split; [exact F|]. destruct (det_pm _ F); lra.
    + cbn [x3 y3 z3]. split; [repeat split; auto; lra|]. now apply recompose_alg.
Qed.
(** matrices without shear: the columns are perpendicular *)
Lemma decompose44_perp m : xyz (b0 m) <> zero3 -> xyz (b1 m) <> zero3 -> xyz (b2 m) <> zero3 ->
  dot3 (xyz (b0 m)) (xyz (b1 m)) = 0 -> dot3 (xyz (b0 m)) (xyz (b2 m)) = 0 -> dot3 (xyz (b1 m)) (xyz (b2 m)) = 0 ->
  exists r z, decompose44 m = Some (tra m, r, z, zero3).
Proof.
  intros N0 N1 N2 H01 H02 H12. unfold decompose44, tra. cbv zeta.
  set (p := xyz (b0 m)) in *. set (q := xyz (b1 m)) in *. set (o := xyz (b2 m)) in *.
  pose proof (norm3_pos _ N0). pose proof (norm3_pos _ N1). pose proof (norm3_pos _ N2).
  assert (S0 : forall a b, sub3 a (scale3 0 b) = a) by (clear; vring).
  assert (S1 : forall a b c, sub3 a (add3 (scale3 0 b) (scale3 0 c)) = a) by (clear; vring).
  rewrite (proj2 (Reqb_false _ _)) by lra. rewrite !dot3_scale_l, H01, H02, !Rmult_0_r, S0.
  rewrite (proj2 (Reqb_false _ _)) by lra. rewrite ?dot3_scale_l, H12, !Rmult_0_r, S1.
  rewrite (proj2 (Reqb_false _ _)) by lra. unfold Rdiv. rewrite !Rmult_0_l.
  destruct (Rltb _ _); eauto.
Qed.
Lemma shear3_0 : shear3 zero3 = id3. Proof. reflexivity. Qed.
Lemma decompose44_noshear m t r z : decompose44 m = Some (t, r, z, zero3) -> affine m -> m = compose t r z.
Proof.
  intros H A. apply decompose44_spec in H. destruct H as (-> & _ & _ & L). rewrite shear3_0, mul3_id_r in L.
  unfold compose. rewrite <- L. now apply affine_aff.
Qed.
Lemma decompose44_id : decompose44 id4 = Some (zero3, id3, V3 1 1 1, zero3).
Proof.
  assert (N : forall v, dot3 v v = 1 -> norm3 v = 1) by (intros v; apply norm3_1).
  unfold decompose44, id4. cbv zeta. cbn [b0 b1 b2 b3].
  assert (X : xyz (V4 1 0 0 0) = V3 1 0 0 /\ xyz (V4 0 1 0 0) = V3 0 1 0 /\ xyz (V4 0 0 1 0) = V3 0 0 1 /\ xyz (V4 0 0 0 1) = zero3) by (repeat split).
  destruct X as (-> & -> & -> & ->). rewrite (N (V3 1 0 0)) by (vu; ring).
  rewrite (proj2 (Reqb_false 1 0)) by lra. rewrite Rinv_1, scale3_1.
  assert (E1 : dot3 (V3 1 0 0) (V3 0 1 0) = 0) by (vu; ring). rewrite E1.
  assert (E2 : sub3 (V3 0 1 0) (scale3 0 (V3 1 0 0)) = V3 0 1 0) by vring. rewrite E2, (N (V3 0 1 0)) by (vu; ring).
  rewrite (proj2 (Reqb_false 1 0)) by lra. rewrite Rinv_1, scale3_1.
  assert (E3 : dot3 (V3 1 0 0) (V3 0 0 1) = 0) by (vu; ring). rewrite E3.
  assert (E4 : dot3 (V3 0 1 0) (V3 0 0 1) = 0) by (vu; ring). rewrite E4.
  assert (E5 : sub3 (V3 0 0 1) (add3 (scale3 0 (V3 1 0 0)) (scale3 0 (V3 0 1 0))) = V3 0 0 1) by vring. rewrite E5, (N (V3 0 0 1)) by (vu; ring).
  rewrite (proj2 (Reqb_false 1 0)) by lra. rewrite Rinv_1, scale3_1.
  rewrite (proj2 (Rltb_false _ _)) by (vu; lra). unfold Rdiv. rewrite Rmult_0_l. reflexivity.
Qed.

(** *** parse_position *)
Lemma check_det_ok m rest : det4 m <> 0 -> check_det m rest = Ok (m, rest).
Proof. intros H. unfold check_det. now rewrite (proj2 (Reqb_false _ _) H). Qed.
Lemma check_det_err m rest : det4 m = 0 -> check_det m rest = Err ValueError.
Proof. intros H. unfold check_det. now rewrite (proj2 (Reqb_true _ _) H). Qed.
Lemma check_det_inv m rest m' rest' : check_det m rest = Ok (m', rest') -> m' = m /\ rest' = rest /\ det4 m <> 0.
Proof.
  unfold check_det. destruct (Reqb (det4 m) 0) eqn:E; [discriminate|]. intros H. injection H as <- <-. apply Reqb_false in E. auto.
Qed.

Lemma parse_ambiguous kw v : dget "pos4d"%string kw = Some (Mat4 v) ->
  (dget "position"%string kw <> None \/ dget "orientation"%string kw <> None \/ dget "zoom"%string kw <> None) ->
  parse_position kw = Err ValueError.
Proof.
  intros H G. unfold parse_position. rewrite H.
  assert (X : forall k, dget k kw <> None -> din k kw = true).
  { intros k D. destruct (din k kw) eqn:E; [reflexivity|]. apply din_false in E. contradiction. }
  destruct G as [G|[G|G]]; apply X in G; rewrite G; now rewrite ?orb_true_r.
Qed.
Lemma parse_pos4d kw v : dget "pos4d"%string kw = Some (Mat4 v) -> dget "position"%string kw = None ->
  dget "orientation"%string kw = None -> dget "zoom"%string kw = None ->
  parse_position kw = if Reqb (det4 v) 0 then Err ValueError else Ok (v, ddel "pos4d"%string kw).
Proof.
  intros H H1 H2 H3. unfold parse_position. rewrite H. apply din_false in H1, H2, H3. now rewrite H1, H2, H3.
Qed.
Lemma parse_zoom kw l : dget "pos4d"%string kw = None -> given_zoom kw l ->
  (length l <> 3%nat \/ exists z, In z l /\ z <= 0) -> parse_position kw = Err ValueError.
Proof.
  intros H G B. unfold parse_position. rewrite H.
  assert (Z : match dget "zoom"%string kw with None => Ok [1; 1; 1] | Some (Num z) => Ok [z; z; z]
              | Some v => match as_seq v with Some l => Ok l | None => Err TypeError end end = Ok l).
  { unfold given_zoom in G. destruct (dget "zoom"%string kw) as [[z|l'|m|m|n|l']|]; try (now rewrite G); try (now rewrite <- G). }
  rewrite Z. cbn [bind]. destruct l as [|zx [|zy [|zz [|]]]]; try reflexivity.
  destruct B as [B|(z & I & L)]; [now destruct B|].
  assert (Rleb zx 0 || Rleb zy 0 || Rleb zz 0 = true) as ->; [|reflexivity].
  destruct I as [I|[I|[I|[]]]]; subst z; apply Rleb_true in L; rewrite L; now rewrite ?orb_true_r.
Qed.
Lemma parse_parts kw t r zx zy zz : dget "pos4d"%string kw = None -> given_zoom kw [zx; zy; zz] -> given_position kw t ->
  given_orientation kw r -> 0 < zx -> 0 < zy -> 0 < zz ->
  parse_position kw = if Reqb (det3 r) 0 then Err ValueError
    else Ok (compose t r (V3 zx zy zz), ddel "zoom"%string (ddel "orientation"%string (ddel "position"%string kw))).
Proof.
  intros H G GP GO Px Py Pz. unfold parse_position. rewrite H.
  assert (Z : match dget "zoom"%string kw with None => Ok [1; 1; 1] | Some (Num z) => Ok [z; z; z]
              | Some v => match as_seq v with Some l => Ok l | None => Err TypeError end end = Ok [zx; zy; zz]).
  { unfold given_zoom in G. destruct (dget "zoom"%string kw) as [[z|l'|m|m|n|l']|]; try (now rewrite G); try (now rewrite <- G). }
  rewrite Z. cbn [bind]. rewrite !(proj2 (Rleb_false _ _)) by assumption. cbn [orb].
  unfold given_position in GP. unfold given_orientation in GO.
  assert (P : match dget "position"%string kw with None => Ok zero3 | Some v => match as_seq v with Some [px; py; pz] => Ok (V3 px py pz)
     | Some _ => Err ValueError | None => Err TypeError end end = Ok t).
  { destruct (dget "position"%string kw) as [v|]; [rewrite GP; now destruct t|now subst t]. }
  rewrite P. cbn [bind].
  assert (O : match dget "orientation"%string kw with None => Ok id3 | Some (Mat3 r) => Ok r | Some _ => Err TypeError end = Ok r).
  { destruct (dget "orientation"%string kw) as [v|]; subst; reflexivity. }
  rewrite O. cbn [bind]. unfold check_det. rewrite det_compose. cbn [x3 y3 z3].
  assert (P3 : 0 < zx * zy * zz) by (repeat apply Rmult_lt_0_compat; assumption).
  destruct (Reqb (det3 r) 0) eqn:E.
  - apply Reqb_true in E. now rewrite (proj2 (Reqb_true _ _)) by (rewrite E; ring).
  - apply Reqb_false in E. rewrite (proj2 (Reqb_false _ _)); [reflexivity|]. intros X. apply Rmult_integral in X. lra.
Qed.
Lemma parse_invertible kw m rest : parse_position kw = Ok (m, rest) -> det4 m <> 0.
Proof.
  unfold parse_position. destruct (dget "pos4d"%string kw) as [[]|]; try discriminate.
  - destruct (_ || _ || _); [discriminate|]. intros H. apply check_det_inv in H. destruct H as (-> & _ & D). exact D.
  - destruct (match dget "zoom"%string kw with None => _ | Some _ => _ end) as [zl|]; [|discriminate]. cbn [bind].
    destruct zl as [|zx [|zy [|zz [|]]]]; try discriminate. destruct (_ || _ || _); [discriminate|].
    destruct (match dget "position"%string kw with None => _ | Some _ => _ end) as [t|]; [|discriminate]. cbn [bind].
    destruct (match dget "orientation"%string kw with None => _ | Some _ => _ end) as [r|]; [|discriminate]. cbn [bind].
    intros H. apply check_det_inv in H. destruct H as (-> & _ & D). exact D.
Qed.
(** only the position keywords are taken out *)
Lemma parse_rest kw m rest k : parse_position kw = Ok (m, rest) ->
  k <> "pos4d"%string -> k <> "position"%string -> k <> "orientation"%string -> k <> "zoom"%string -> dget k rest = dget k kw.
Proof.
  unfold parse_position. intros H N1 N2 N3 N4. destruct (dget "pos4d"%string kw) as [[]|]; try discriminate.
  - destruct (_ || _ || _); [discriminate|]. apply check_det_inv in H. destruct H as (_ & -> & _). now apply dget_ddel_neq.
  - destruct (match dget "zoom"%string kw with None => _ | Some _ => _ end) as [zl|]; [|discriminate]. cbn [bind] in H.
    destruct zl as [|zx [|zy [|zz [|]]]]; try discriminate. destruct (_ || _ || _); [discriminate|].
    destruct (match dget "position"%string kw with None => _ | Some _ => _ end) as [t|]; [|discriminate]. cbn [bind] in H.
    destruct (match dget "orientation"%string kw with None => _ | Some _ => _ end) as [r|]; [|discriminate]. cbn [bind] in H.
    apply check_det_inv in H. destruct H as (_ & -> & _). now rewrite !dget_ddel_neq.
Qed.
