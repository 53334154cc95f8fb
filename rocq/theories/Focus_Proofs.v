(** Proofs for Focus_Model. *)
From Verif Require Export Focus_Model.
From Verif Require Import RayGrid_Proofs2 Base_Proofs Vec_Proofs Plane_Proofs Position_Proofs Placement_Proofs Bend_Proofs Hetg_Proofs Osip_Proofs Analysis_Proofs Analysis_Proofs2.
Open Scope R_scope.

(** ** a detector without zoom along its axes *)
Definition inside (o : m3) (z : R) (q : v3) : Prop := Rabs (dot3 (a1 o) q) <= z /\ Rabs (dot3 (a2 o) q) <= z.
Definition at_plane (o : m3) (x z : R) : m4 := compose (app3 o (V3 x 0 0)) o (V3 z z z).
Lemma app_x o x : app3 o (V3 x 0 0) = scale3 x (a0 o).
Proof. unfold app3. cbn [x3 y3 z3]. generalize (a0 o) (a1 o) (a2 o). intros [] [] []. vring. Qed.
Lemma comb_assoc x a b z u v w : add3 (scale3 x u) (add3 (scale3 a (scale3 z v)) (scale3 b (scale3 z w))) = add3 (add3 (scale3 x u) (scale3 (a * z) v)) (scale3 (b * z) w).
Proof. vring. Qed.
Section Tile.
Variables (o : m3) (x z : R).
Hypothesis O : orthonormal o.
Hypothesis Z : 0 < z.
Lemma plane_perp : perpendicular_axes (at_plane o x z).
Proof. unfold at_plane. apply (proj1 (compose_axes _ o z z z O Z Z Z)). Qed.
Lemma axis_len : norm3 (xyz (v_y (at_plane o x z))) = z /\ norm3 (xyz (v_z (at_plane o x z))) = z.
Proof.
  unfold at_plane. rewrite compose_cols. unfold v_y, v_z. cbn [b1 b2]. rewrite !xyz_hom. destruct O as (_ & Y & W & _). rewrite !norm3_scale, (proj2 (norm3_1 (a1 o)) Y), (proj2 (norm3_1 (a2 o)) W), Rabs_right by lra. lra.
Qed.
Lemma rect_local a b q : in_rectangle (at_plane o x z) a b q <-> -1 <= a <= 1 /\ -1 <= b <= 1 /\ q = add3 (add3 (scale3 x (a0 o)) (scale3 (a * z) (a1 o))) (scale3 (b * z) (a2 o)).
Proof.
  unfold in_rectangle, at_plane. rewrite compose_cols. unfold v_y, v_z, center. cbn [b1 b2 b3]. rewrite app_x, !xyz_hom.
  assert (E : add3 (scale3 x (a0 o)) (add3 (scale3 a (scale3 z (a1 o))) (scale3 b (scale3 z (a2 o)))) = add3 (add3 (scale3 x (a0 o)) (scale3 (a * z) (a1 o))) (scale3 (b * z) (a2 o))).
  { apply comb_assoc. }
  rewrite E. tauto.
Qed.
Lemma comb_dots u v w : let q := add3 (add3 (scale3 u (a0 o)) (scale3 v (a1 o))) (scale3 w (a2 o)) in dot3 (a0 o) q = u /\ dot3 (a1 o) q = v /\ dot3 (a2 o) q = w.
Proof.
  intros q. destruct O as (X & Y & W & XY & XW & YW). unfold q. rewrite !dot3_add_r, !dot3_scale_r, X, Y, W, XY, XW, YW, (dot3_comm (a1 o) (a0 o)), (dot3_comm (a2 o) (a0 o)), (dot3_comm (a2 o) (a1 o)), XY, XW, YW. repeat split; ring.
Qed.
Lemma rect_dots a b q : in_rectangle (at_plane o x z) a b q -> dot3 (a0 o) q = x /\ dot3 (a1 o) q = a * z /\ dot3 (a2 o) q = b * z /\ inside o z q.
Proof.
  intros H. apply rect_local in H. destruct H as (A & B & ->). destruct (comb_dots x (a * z) (b * z)) as (E0 & E1 & E2). unfold inside. rewrite E0, E1, E2. repeat split; try reflexivity; apply Rabs_le; split; nra.
Qed.
Lemma dots_rect q : dot3 (a0 o) q = x -> inside o z q -> in_rectangle (at_plane o x z) (dot3 (a1 o) q / z) (dot3 (a2 o) q / z) q.
Proof.
  intros E [Y W]. apply rect_local. assert (B : forall u, Rabs u <= z -> -1 <= u / z <= 1).
  { intros u U. assert (- z <= u <= z) by (destruct (Rcase_abs u); [rewrite Rabs_left in U by assumption|rewrite Rabs_right in U by assumption]; lra).
    split; apply Rmult_le_reg_r with z; try exact Z; unfold Rdiv; rewrite Rmult_assoc, Rinv_l; lra. }
  split; [apply B, Y|]. split; [apply B, W|]. replace (dot3 (a1 o) q / z * z) with (dot3 (a1 o) q) by (field; lra). replace (dot3 (a2 o) q / z * z) with (dot3 (a2 o) q) by (field; lra). rewrite <- E.
  assert (D : orthonormal (M3 (a0 o) (a1 o) (a2 o))) by exact O. pose proof (frame_decompose _ _ _ q D) as F. rewrite (dot3_comm q (a0 o)), (dot3_comm q (a1 o)), (dot3_comm q (a2 o)) in F. exact F.
Qed.
Lemma tile_hit d p k : 0 <= k -> dot3 (a0 o) d <> 0 -> dot3 (a0 o) (add3 p (scale3 k d)) = x -> inside o z (add3 p (scale3 k d)) ->
  plane_intersect (at_plane o x z) (hom d 0) (hom p 1) = (true, Some (hom (add3 p (scale3 k d)) 1), Some (dot3 (a1 o) (add3 p (scale3 k d)), dot3 (a2 o) (add3 p (scale3 k d)))).
Proof.
  intros K N E I. pose proof (plane_hit_iff (at_plane o x z) d p plane_perp) as H. destruct (plane_intersect (at_plane o x z) (hom d 0) (hom p 1)) as [[h ip] il] eqn:EI. cbn [fst] in H.
  assert (VX : xyz (v_x (at_plane o x z)) = scale3 z (a0 o)) by (unfold at_plane; rewrite compose_cols; unfold v_x; cbn [b0]; apply xyz_hom).
  assert (HT : h = true).
  { apply H. split.
    - rewrite VX, dot3_scale_r, dot3_comm. apply Rmult_integral_contrapositive_currified; [lra|exact N].
    - exists k, (dot3 (a1 o) (add3 p (scale3 k d)) / z), (dot3 (a2 o) (add3 p (scale3 k d)) / z). split; [exact K|]. now apply dots_rect. }
  subst h. destruct (plane_hit_values _ _ _ _ _ _ plane_perp EI) as [_ V]. destruct (V eq_refl) as (k' & a & b & q & K' & R & Q & -> & ->). clear V H. destruct axis_len as [-> ->].
  destruct (rect_dots a b q R) as (D0 & D1 & D2 & _).
  assert (EK : k' = k).
  { rewrite Q in D0. rewrite dot3_add_r, dot3_scale_r in D0, E. assert (X : (k' - k) * dot3 (a0 o) d = 0) by lra. apply Rmult_integral in X. destruct X; [lra|contradiction]. }
  subst k'. rewrite <- Q, D1, D2. reflexivity.
Qed.
Lemma tile_miss d p : (forall k, 0 <= k -> dot3 (a0 o) (add3 p (scale3 k d)) = x -> ~ inside o z (add3 p (scale3 k d))) -> plane_intersect (at_plane o x z) (hom d 0) (hom p 1) = (false, None, None).
Proof.
  intros N. destruct (plane_intersect (at_plane o x z) (hom d 0) (hom p 1)) as [[h ip] il] eqn:EI. destruct (plane_hit_values _ _ _ _ _ _ plane_perp EI) as [V1 V2]. destruct h.
  - exfalso. destruct (V2 eq_refl) as (k & a & b & q & K & R & Q & _). destruct (rect_dots a b q R) as (D0 & _ & _ & I). subst q. exact (N k K D0 I).
  - destruct (V1 eq_refl) as [-> ->]. reflexivity.
Qed.
End Tile.

(** ** columns *)
Lemma new_cols_len m : forall ph old, List.length old = List.length ph -> List.length (new_cols m ph old) = List.length ph.
Proof. induction ph as [|p ph IH]; intros [|c old] L; try discriminate; [reflexivity|]. cbn [new_cols List.length]. f_equal. apply IH. cbn in L. lia. Qed.
Lemma new_cols_nth m : forall ph old i p c, nth_error ph i = Some p -> nth_error old i = Some c ->
  nth_error (new_cols m ph old) i = Some (match plane_intersect m (f_dir p) (f_ppos p) with (true, _, Some (a, b)) => (Some a, Some b) | _ => c end).
Proof.
  induction ph as [|q ph IH]; intros [|c' old] [|i] p c E1 E2; try discriminate; cbn [new_cols nth_error] in *.
  - injection E1 as <-. injection E2 as <-. reflexivity.
  - now apply IH.
Qed.
Lemma all_hit m v : forall ph old, List.length old = List.length ph -> Forall (fun p => exists q, plane_intersect m (f_dir p) (f_ppos p) = (true, q, Some v)) ph -> new_cols m ph old = repeat (Some (fst v), Some (snd v)) (List.length ph).
Proof.
  induction ph as [|p ph IH]; intros [|c old] L F; try discriminate; [reflexivity|]. inversion F as [|a b (q & E) F']; subst. cbn [new_cols List.length repeat]. rewrite E. destruct v as [v1 v2]. cbn [fst snd]. f_equal. apply IH; [cbn in L; lia|exact F'].
Qed.
Lemma exists_hit m ph v : ph <> [] -> Forall (fun p => exists q, plane_intersect m (f_dir p) (f_ppos p) = (true, q, Some v)) ph -> existsb (hits m) ph = true.
Proof. destruct ph as [|p ph]; [congruence|]. intros _ F. inversion F as [|a b (q & E) F']; subst. cbn [existsb]. unfold hits at 1. rewrite E. reflexivity. Qed.
Definition old_ok (ph : list fphot) (old : option (list (num * num))) : Prop := match old with Some l => List.length l = List.length ph | None => True end.
Lemma det_all m ph old v : old_ok ph old -> ph <> [] -> Forall (fun p => exists q, plane_intersect m (f_dir p) (f_ppos p) = (true, q, Some v)) ph ->
  det_columns m ph old = Ok (repeat (Some (fst v), Some (snd v)) (List.length ph)).
Proof.
  intros L N F. unfold det_columns. rewrite (exists_hit m ph v N F). f_equal. apply all_hit; [|exact F]. destruct old as [l|]; [exact L|apply repeat_length].
Qed.
Lemma det_none m ph : Forall (fun p => plane_intersect m (f_dir p) (f_ppos p) = (false, None, None)) ph -> det_columns m ph None = Err KeyError.
Proof.
  intros F. unfold det_columns. replace (existsb (hits m) ph) with false; [reflexivity|]. symmetry. induction F as [|p ph E F IH]; [reflexivity|]. cbn [existsb]. unfold hits at 1. rewrite E. exact IH.
Qed.
Lemma seq_const (a b : R) n : sequence (map (fun p => match p with (Some a, Some b) => Ok (a, b) | _ => Err ValueError end) (repeat (Some a, Some b) n)) = Ok (repeat (a, b) n).
Proof. induction n as [|n IH]; [reflexivity|]. cbn. now rewrite IH. Qed.
Lemma obj_const a b n : n <> 0%nat -> obj_mean (repeat (Some a, Some b) n) = Ok (Some 0).
Proof.
  intros N. unfold obj_mean. rewrite seq_const. f_equal. destruct (mean_width_2d (repeat (a, b) n)) as [w|] eqn:E.
  - destruct (width_zero _ _ E) as [_ [_ W]]. f_equal. apply W. exists (a, b). apply Forall_forall. intros p I. now apply repeat_spec in I.
  - exfalso. destruct n as [|n]; [congruence|]. discriminate.
Qed.
Lemma obj_nonneg l w : obj_mean l = Ok (Some w) -> 0 <= w.
Proof. unfold obj_mean. destruct (sequence _) as [l'|]; [|discriminate]. intros H. assert (E : mean_width_2d l' = Some w) by congruence. apply (width_zero _ _ E). Qed.
Definition big : R := 100000.
Lemma try_is o x : try_position o x = at_plane o x big.
Proof. reflexivity. Qed.
Lemma focus_hits o F ph : orthonormal o -> inside o big F -> Forall (through F) ph -> Forall (fun p => dot3 (a0 o) (xyz (f_dir p)) <> 0) ph ->
  Forall (fun p => exists q, plane_intersect (try_position o (dot3 (a0 o) F)) (f_dir p) (f_ppos p) = (true, q, Some (dot3 (a1 o) F, dot3 (a2 o) F))) ph.
Proof.
  intros O I T N. rewrite Forall_forall in *. intros p J. destruct (T p J) as (d & s & k & E1 & E2 & K & E). specialize (N p J). rewrite E1, xyz_hom in N. rewrite E1, E2, try_is.
  eexists. rewrite (tile_hit o (dot3 (a0 o) F) big O ltac:(unfold big; lra) d s k K N); rewrite ?E; try assumption; reflexivity.
Qed.
Lemma focus_zero o F ph old : orthonormal o -> inside o big F -> ph <> [] -> old_ok ph old -> Forall (through F) ph -> Forall (fun p => dot3 (a0 o) (xyz (f_dir p)) <> 0) ph ->
  width obj_mean o ph old (dot3 (a0 o) F) = Ok (Some 0).
Proof.
  intros O I NE L T N. unfold width. rewrite (det_all _ ph old (dot3 (a1 o) F, dot3 (a2 o) F) L NE (focus_hits o F ph O I T N)). cbn [bind]. apply obj_const. destruct ph; [congruence|discriminate].
Qed.
Lemma map_fst_repeat {A B} (a : A) (b : B) n : map fst (repeat (a, b) n) = repeat a n.
Proof. induction n; [reflexivity|]. cbn. now f_equal. Qed.
Lemma focus_std std o F ph old : (forall c n, n <> 0%nat -> std (repeat (Some c) n) = Some 0) -> orthonormal o -> inside o big F -> ph <> [] -> old_ok ph old -> Forall (through F) ph ->
  Forall (fun p => dot3 (a0 o) (xyz (f_dir p)) <> 0) ph -> width (obj_std std) o ph old (dot3 (a0 o) F) = Ok (Some 0).
Proof.
  intros S O I NE L T N. unfold width. rewrite (det_all _ ph old (dot3 (a1 o) F, dot3 (a2 o) F) L NE (focus_hits o F ph O I T N)). cbn [bind]. unfold obj_std. rewrite map_fst_repeat, S; [reflexivity|]. destruct ph; [congruence|discriminate].
Qed.
Lemma width_nonneg o ph old x w : width obj_mean o ph old x = Ok (Some w) -> 0 <= w.
Proof. unfold width. destruct (det_columns _ _ _) as [l|]; [|discriminate]. cbn [bind]. apply obj_nonneg. Qed.
Lemma best_focus minimize o F ph old x0 : orthonormal o -> inside o big F -> ph <> [] -> old_ok ph old -> Forall (through F) ph -> Forall (fun p => dot3 (a0 o) (xyz (f_dir p)) <> 0) ph ->
  (forall f x, minimize f = Ok x -> forall y, match f x, f y with Ok (Some a), Ok (Some b) => a <= b | Ok (Some _), _ => True | _, Ok (Some _) => False | _, _ => True end) ->
  find_best minimize obj_mean o ph old = Ok (x0, ph) -> width obj_mean o ph old x0 = Ok (Some 0).
Proof.
  intros O I NE L T N M H. unfold find_best in H. destruct (minimize _) as [x|] eqn:E; [|discriminate]. cbn [bind] in H. injection H as <-.
  specialize (M _ _ E (dot3 (a0 o) F)). rewrite (focus_zero o F ph old O I NE L T N) in M. destruct (width obj_mean o ph old x) as [[w|]|] eqn:W; try contradiction.
  apply width_nonneg in W. f_equal. f_equal. lra.
Qed.
Lemma behind o ph objective x : orthonormal o -> Forall (fun p => exists d s, f_dir p = hom d 0 /\ f_ppos p = hom s 1 /\ x < dot3 (a0 o) s /\ 0 <= dot3 (a0 o) d) ph -> width objective o ph None x = Err KeyError.
Proof.
  intros O F. unfold width. rewrite det_none; [reflexivity|]. eapply Forall_impl; [|exact F]. intros p (d & s & E1 & E2 & X & D). rewrite E1, E2, try_is. apply tile_miss; [exact O|unfold big; lra|].
  intros k K E _. rewrite dot3_add_r, dot3_scale_r in E. nra.
Qed.
Lemma columns_spec o ph old cols x i p q : orthonormal o -> det_columns (try_position o x) ph old = Ok cols -> old_ok ph old -> nth_error ph i = Some p -> meets (a0 o) x p q -> inside o big q ->
  nth_error cols i = Some (Some (dot3 (a1 o) q), Some (dot3 (a2 o) q)).
Proof.
  intros O H L E (d & s & k & E1 & E2 & K & -> & X & N) I. pose proof (tile_hit o x big O ltac:(unfold big; lra) d s k K N X I) as T.
  unfold det_columns in H. replace (existsb (hits (try_position o x)) ph) with true in H.
  - assert (HC : new_cols (try_position o x) ph (match old with Some o => o | None => repeat (None, None) (List.length ph) end) = cols) by congruence. rewrite <- HC.
    assert (LI : (i < List.length ph)%nat) by (apply nth_error_Some; congruence).
    assert (C : exists c, nth_error (match old with Some o => o | None => repeat (None, None) (List.length ph) end) i = Some c).
    { set (l := match old with Some o => o | None => repeat (None, None) (List.length ph) end). assert (LL : List.length l = List.length ph) by (unfold l; destruct old as [l0|]; [exact L|apply repeat_length]).
      destruct (nth_error l i) as [c|] eqn:Q; [eauto|]. exfalso. apply nth_error_None in Q. lia. }
    destruct C as (c & C). rewrite (new_cols_nth _ _ _ _ _ _ E C). rewrite E1, E2, try_is, T. reflexivity.
  - symmetry. apply existsb_exists. exists p. split; [eapply nth_error_In; exact E|]. unfold hits. rewrite E1, E2, try_is, T. reflexivity.
Qed.

(** ** radius of a shell *)
Lemma ortho_id : orthonormal id3.
Proof. unfold orthonormal. repeat split; vring. Qed.
Definition toward (p : fphot) (s : v3) : Prop := exists t, 0 < t /\ f_dir p = hom (scale3 (- t) s) 0 /\ f_ppos p = hom s 1.
Definition cone_radius (x : R) (p : fphot) : num := Some (x / x4 (f_ppos p) * sqrt (y4 (f_ppos p) * y4 (f_ppos p) + z4 (f_ppos p) * z4 (f_ppos p))).
Lemma cone_hit x p s : toward p s -> 0 <= x <= x3 s -> 0 < x3 s -> Rabs (y3 s) <= 100000000 -> Rabs (z3 s) <= 100000000 ->
  plane_intersect (compose (V3 x 0 0) id3 (V3 100000000 100000000 100000000)) (f_dir p) (f_ppos p) = (true, Some (hom (scale3 (x / x3 s) s) 1), Some (x / x3 s * y3 s, x / x3 s * z3 s)).
Proof.
  intros (t & T & E1 & E2) X P Y Z. set (k := (1 - x / x3 s) / t).
  assert (U : 0 <= x / x3 s <= 1) by (split; apply Rmult_le_reg_r with (x3 s); try exact P; unfold Rdiv; rewrite Rmult_assoc, Rinv_l; lra).
  assert (K : 0 <= k) by (unfold k; apply Rmult_le_pos; [lra|left; now apply Rinv_0_lt_compat]).
  assert (Q : add3 s (scale3 k (scale3 (- t) s)) = scale3 (x / x3 s) s).
  { rewrite scale3_scale3. replace (k * - t) with (x / x3 s - 1) by (unfold k; field; lra). destruct s. vring. }
  replace (compose (V3 x 0 0) id3 (V3 100000000 100000000 100000000)) with (at_plane id3 x 100000000) by (unfold at_plane; now rewrite app3_id).
  assert (D1 : forall v, dot3 (a1 id3) v = y3 v) by (intros []; vring). assert (D2 : forall v, dot3 (a2 id3) v = z3 v) by (intros []; vring). assert (D0 : forall v, dot3 (a0 id3) v = x3 v) by (intros []; vring).
  assert (B : forall u, Rabs u <= 100000000 -> Rabs (x / x3 s * u) <= 100000000).
  { intros u H. rewrite Rabs_mult, (Rabs_right (x / x3 s)) by lra. assert (0 <= Rabs u) by apply Rabs_pos. nra. }
  rewrite E1, E2, (tile_hit id3 x 100000000 ortho_id ltac:(lra) (scale3 (- t) s) s k K); rewrite ?Q, ?D0, ?D1, ?D2.
  - destruct s. reflexivity.
  - destruct s as [sx sy sz]. cbn [scale3 x3] in *. nra.
  - destruct s as [sx sy sz]. cbn [scale3 x3] in *. field. lra.
  - unfold inside. rewrite D1, D2. destruct s as [sx sy sz]. cbn [scale3 y3 z3] in *. split; now apply B.
Qed.
Lemma map_filter_combine (f : fphot -> bool) (g : num * num -> num) (h : fphot -> num) : forall ph cols, List.length cols = List.length ph ->
  (forall i p c, nth_error ph i = Some p -> nth_error cols i = Some c -> f p = true -> g c = h p) ->
  map (fun pc => g (snd pc)) (filter (fun pc => f (fst pc)) (combine ph cols)) = map h (filter f ph).
Proof.
  induction ph as [|p ph IH]; intros [|c cols] L H; try discriminate; [reflexivity|]. cbn [combine filter fst]. cbn in L.
  assert (R : map (fun pc => g (snd pc)) (filter (fun pc => f (fst pc)) (combine ph cols)) = map h (filter f ph)) by (apply IH; [lia|]; intros i; apply (H (S i))).
  destruct (f p) eqn:F; [|exact R]. cbn [map snd]. f_equal; [|exact R]. apply (H 0%nat); auto.
Qed.
Lemma sqrt_scale k a b : 0 <= k -> sqrt (k * a * (k * a) + k * b * (k * b)) = k * sqrt (a * a + b * b).
Proof.
  intros K. replace (k * a * (k * a) + k * b * (k * b)) with ((k * k) * (a * a + b * b)) by ring. rewrite sqrt_mult by nra. now rewrite sqrt_square.
Qed.
Lemma cone_radii shell x ph old : old_ok ph old -> ph <> [] -> Forall (fun p => exists s, toward p s /\ 0 <= x <= x3 s /\ 0 < x3 s /\ Rabs (y3 s) <= 100000000 /\ Rabs (z3 s) <= 100000000) ph ->
  shell_radii shell x ph old = Ok (map (cone_radius x) (filter (fun p => Rltb 0 (f_prob p) && Z.eqb (f_shell p) shell)%bool ph)).
Proof.
  intros L N F. unfold shell_radii, det_columns. set (m := compose _ _ _).
  assert (HT : existsb (hits m) ph = true).
  { destruct ph as [|p ph]; [congruence|]. inversion F as [|a b (s & T & X & P & Y & Z) F']; subst. cbn [existsb]. unfold hits at 1. unfold m. rewrite (cone_hit x p s T X P Y Z). reflexivity. }
  rewrite HT. cbn [bind]. f_equal.
  set (o := match old with Some o => o | None => repeat (None, None) (List.length ph) end). assert (LO : List.length o = List.length ph) by (unfold o; destruct old; [exact L|apply repeat_length]).
  apply (map_filter_combine (fun p => Rltb 0 (f_prob p) && Z.eqb (f_shell p) shell)%bool radius_at (cone_radius x)); [now apply new_cols_len|].
  intros i p c E1 E2 _. assert (LI : (i < List.length ph)%nat) by (apply nth_error_Some; congruence).
  destruct (nth_error o i) as [c0|] eqn:E0; [|apply nth_error_None in E0; lia]. rewrite (new_cols_nth _ _ _ _ _ _ E1 E0) in E2. injection E2 as <-.
  rewrite Forall_forall in F. destruct (F p (nth_error_In _ _ E1)) as (s & T & X & P & Y & Z). unfold m. rewrite (cone_hit x p s T X P Y Z). unfold radius_at, cone_radius.
  destruct T as (t & _ & _ & E). rewrite E. cbn [hom x4 y4 z4]. f_equal. apply sqrt_scale. apply Rmult_le_pos; [lra|left; now apply Rinv_0_lt_compat].
Qed.

(** ** resolving power per order *)
Section PerOrderP.
Variable Ph : Type.
Variable order_of : Ph -> Z.
Variable prob_of : Ph -> R.
Variable trace : list (list Z) -> list Ph -> list Ph.
Variables torus_col user_col : list Ph -> result (list num).
Variable best : list Ph -> result R.
Variable flat_col : R -> list Ph -> result (list num).
Variable stats : list num -> num * num.
Notation column := (order_column Ph order_of prob_of trace torus_col user_col best flat_col).
Notation loop := (order_loop Ph order_of prob_of trace torus_col user_col best flat_col stats).
Notation power := (resolvingpower_per_order Ph order_of prob_of trace torus_col user_col best flat_col stats).
Notation line := (line_result stats).
Notation zero_of := (zero_order Ph prob_of torus_col user_col stats).
Lemma set_twice o o' g : g_sel (set_order o (set_order o' g)) = map (fun _ => [o]) (g_sel g).
Proof. cbn [set_order g_sel]. now rewrite map_map. Qed.
Lemma loop_spec det zero photons : forall orders g res g', loop det zero photons orders g = Ok (res, g') ->
  Forall2 (fun o r => exists c, column det (map (fun _ => [o]) (g_sel g)) photons o = Ok c /\ r = line zero c) orders res /\
  g' = match rev orders with [] => g | o :: _ => set_order o g end.
Proof.
  induction orders as [|o orders IH]; intros g res g' H; cbn [order_loop] in H.
  - injection H as <- <-. split; [constructor|reflexivity].
  - destruct (order_column _ _ _ _ _ _ _ _ _ _ _ _) as [c|] eqn:C; [|discriminate]. cbn [bind] in H. destruct (order_loop _ _ _ _ _ _ _ _ _ _ _ _ _ _) as [[r g1]|] eqn:L; [|discriminate]. cbn [bind fst snd] in H. injection H as <- <-.
    destruct (IH _ _ _ L) as [F G]. split.
    + constructor; [exists c; split; [exact C|reflexivity]|]. eapply Forall2_imp; [|exact F]. intros o' r' (c' & E & ->). exists c'. split; [|reflexivity]. cbn [set_order g_sel] in E. rewrite map_map in E. exact E.
    + cbn [rev]. rewrite G. destruct (rev orders) as [|o' l]; [reflexivity|]. cbn [app]. unfold set_order. cbn [g_sel]. now rewrite map_map.
Qed.
Lemma power_spec det photons orders g res g' : power det photons orders g = Ok (res, g') ->
  exists zero, zero_of det photons = Ok zero /\
    Forall2 (fun o r => exists c, column det (map (fun _ => [o]) (g_sel g)) photons o = Ok c /\ r = line zero c) orders res /\
    g' = match rev orders with [] => g | o :: _ => set_order o g end.
Proof.
  unfold resolvingpower_per_order. destruct (zero_order _ _ _ _ _ _ _) as [zero|] eqn:Z0; [|discriminate]. cbn [bind]. intros H. exists zero. split; [reflexivity|]. now apply loop_spec.
Qed.
Lemma line_spec zero c m s : stats c = (Some m, Some s) -> 0 < s -> line (Some zero) c = (Some (Rabs (m - zero) / (23548 / 10000 * s)), Some (23548 / 10000 * s)).
Proof.
  intros E S. unfold line_result. rewrite E. cbn [fst snd num_mul num_sub_abs num_abs]. rewrite (Rabs_right (23548 / 10000 * s)) by nra. f_equal. apply num_div_some. nra.
Qed.
Lemma user_column sel photons o : column DUser sel photons o = user_col (filter (fun p => Z.eqb (order_of p) o && Rltb 0 (prob_of p))%bool (trace sel photons)).
Proof. reflexivity. Qed.
End PerOrderP.

(** ** colors *)
Lemma color_in {C} (colors : list C) n o : List.length colors = n_colors n -> (0 <= n)%Z -> (Z.abs o <= n)%Z -> exists st, order_color colors o = Ok st.
Proof.
  intros L N B. unfold order_color. destruct (Z.eqb_spec o 0) as [->|NZ]; [eexists; reflexivity|]. destruct (nth_error colors (Z.abs_nat o)) eqn:E; [eexists; reflexivity|].
  apply nth_error_None in E. rewrite L in E. unfold n_colors in E. lia.
Qed.
Lemma color_out {C} (colors : list C) n o : List.length colors = n_colors n -> (0 <= n)%Z -> (n < Z.abs o)%Z -> order_color colors o = Err IndexError.
Proof.
  intros L N B. unfold order_color. destruct (Z.eqb_spec o 0) as [->|NZ]; [cbn in B; lia|]. replace (nth_error colors (Z.abs_nat o)) with (@None C); [reflexivity|]. symmetry. apply nth_error_None. rewrite L. unfold n_colors. lia.
Qed.
Lemma color_inj {C} (colors : list C) o o' s : NoDup colors -> order_color colors o = Ok s -> order_color colors o' = Ok s -> o = o'.
Proof.
  intros N. unfold order_color. destruct (Z.eqb_spec o 0) as [->|NZ], (Z.eqb_spec o' 0) as [->|NZ']; cbn [bind]; intros H1 H2.
  - reflexivity.
  - destruct (nth_error colors (Z.abs_nat o')); [|discriminate]. exfalso. cbn [bind] in H2. assert (E : st_color s = None) by (injection H1 as <-; reflexivity). injection H2 as <-. discriminate.
  - destruct (nth_error colors (Z.abs_nat o)); [|discriminate]. exfalso. cbn [bind] in H1. assert (E : st_color s = None) by (injection H2 as <-; reflexivity). injection H1 as <-. discriminate.
  - destruct (nth_error colors (Z.abs_nat o)) as [c|] eqn:E1; [|discriminate]. destruct (nth_error colors (Z.abs_nat o')) as [c'|] eqn:E2; [|discriminate]. cbn [bind] in H1, H2.
    assert (A : st_color s = Some c /\ st_solid s = (o <=? 0)%Z) by (injection H1 as <-; auto). assert (B : st_color s = Some c' /\ st_solid s = (o' <=? 0)%Z) by (injection H2 as <-; auto).
    destruct A as [A1 A2], B as [B1 B2]. assert (c = c') by congruence. subst c'. rewrite A2 in B2. rewrite NoDup_nth_error in N. assert (I : Z.abs_nat o = Z.abs_nat o') by (apply N; [apply nth_error_Some; congruence|congruence]).
    destruct (Z.leb_spec o 0), (Z.leb_spec o' 0); try discriminate B2; lia.
Qed.
Lemma color_opposite {C} (colors : list C) o s s' : order_color colors o = Ok s -> order_color colors (- o) = Ok s' -> o <> 0%Z -> st_color s = st_color s' /\ st_solid s = negb (st_solid s') /\ st_lw s = st_lw s'.
Proof.
  intros H1 H2 N. unfold order_color in *. replace (Z.abs_nat (- o)) with (Z.abs_nat o) in H2 by lia. destruct (Z.eqb_spec o 0); [contradiction|]. destruct (Z.eqb_spec (- o) 0); [lia|].
  destruct (nth_error colors (Z.abs_nat o)) as [c|]; [|discriminate]. cbn [bind] in *. injection H1 as <-. injection H2 as <-. cbn. repeat split. destruct (Z.leb_spec o 0), (Z.leb_spec (- o) 0); try reflexivity; exfalso; lia.
Qed.
