(** Proofs for Assembly_Model. *)
From Verif Require Export Assembly_Model.
From Verif Require Import Base_Proofs Container_Proofs Vec_Proofs Plane_Proofs Detector_Proofs Telescope_Proofs Arcus_Proofs.
From Coq Require Import Permutation.
Open Scope R_scope.

(** ** Filters *)
Definition covered (e : R) (f : ftable) : Prop := ft_lo f <= e <= ft_hi f.
Definition proper (e : R) (f : ftable) : Prop := 0 <= ft_t f e <= 1.
Definition transmission (e : R) (l : list ftable) : R := fold_right (fun f t => ft_t f e * t) 1 l.
Lemma one_ok loose e f p : covered e f -> proper e f -> one_filter loose e f (Some p) = Ok (Some (p * ft_t f e)).
Proof. intros [A B] [C D]. unfold one_filter. rewrite (proj2 (Rltb_false e (ft_lo f))), (proj2 (Rltb_false (ft_hi f) e)), (proj2 (Rltb_false (ft_t f e) 0)), (proj2 (Rltb_false 1 (ft_t f e))) by lra. reflexivity. Qed.
Lemma filters_ok loose e : forall l p, Forall (covered e) l -> Forall (proper e) l -> filters loose e l (Some p) = Ok (Some (p * transmission e l)).
Proof.
  induction l as [|f l IH]; intros p C P; cbn [filters transmission fold_right]; [now rewrite Rmult_1_r|]. inversion C; inversion P; subst. rewrite one_ok by assumption. cbn [bind]. rewrite IH by assumption. unfold transmission. f_equal. f_equal. ring.
Qed.
Lemma filters_err e : forall l p, ~ Forall (covered e) l \/ ~ Forall (proper e) l -> filters false e l (Some p) = Err ValueError.
Proof.
  induction l as [|f l IH]; intros p H; [destruct H as [H|H]; exfalso; apply H; constructor|]. cbn [filters]. unfold one_filter. destruct (Rltb e (ft_lo f)) eqn:E1; [reflexivity|]. destruct (Rltb (ft_hi f) e) eqn:E2; [reflexivity|]. cbn [orb].
  destruct (Rltb (ft_t f e) 0) eqn:E3; [reflexivity|]. destruct (Rltb 1 (ft_t f e)) eqn:E4; [reflexivity|]. cbn [orb bind]. apply Rltb_false in E1, E2, E3, E4. apply IH. destruct H as [H|H]; [left|right]; intros F; apply H; constructor; auto; unfold covered, proper; lra.
Qed.
Lemma transmission_range e l : Forall (proper e) l -> 0 <= transmission e l <= 1.
Proof. induction l as [|f l IH]; intros P; cbn [transmission fold_right]; [lra|]. inversion P as [|? ? [A B] P']; subst. specialize (IH P'). unfold transmission in IH. split; nra. Qed.
Lemma transmission_perm e l l' : Permutation l l' -> transmission e l = transmission e l'.
Proof. induction 1; cbn [transmission fold_right]; try reflexivity; [unfold transmission in *; now rewrite IHPermutation|ring|congruence]. Qed.
(** ** Focal plane *)
Definition fp : m4 := M4 (V4 0 0 (1 / 5) 0) (V4 10000 0 0 0) (V4 0 10000 0 0) (V4 0 0 0 1).
Lemma fp_axes : perpendicular_axes fp.
Proof. unfold perpendicular_axes, fp, v_x, v_y, v_z, center. cbn. repeat split; try (unfold dot3; cbn; lra); intros H; apply (f_equal (fun v => x3 v + y3 v + z3 v)) in H; cbn in H; lra. Qed.
Lemma fp_norms : norm3 (xyz (v_y fp)) = 10000 /\ norm3 (xyz (v_z fp)) = 10000.
Proof. unfold fp, v_y, v_z, norm3, dot3. cbn. split; [replace (10000 * 10000 + 0 * 0 + 0 * 0) with (10000 * 10000) by ring|replace (0 * 0 + 10000 * 10000 + 0 * 0) with (10000 * 10000) by ring]; apply sqrt_square; lra. Qed.
Lemma fp_rect a b p : in_rectangle fp a b p <-> -1 <= a <= 1 /\ -1 <= b <= 1 /\ p = V3 (10000 * a) (10000 * b) 0.
Proof. unfold in_rectangle, fp, center, v_y, v_z. cbn. split; intros (A & B & ->); (split; [exact A|]); (split; [exact B|]); vu; f_equal; ring. Qed.
Lemma npix_fp : npix 10000 1 = 20000%Z. Proof. unfold npix. replace (2 * 10000 / 1) with (IZR 20000) by lra. apply Rround_IZR. Qed.
Lemma fp_hit d p : z3 d < 0 -> 0 <= z3 p -> let X := x3 p - z3 p / z3 d * x3 d in let Y := y3 p - z3 p / z3 d * y3 d in -10000 <= X <= 10000 -> -10000 <= Y <= 10000 ->
  flat_detector fp 1 (hom d 0) (hom p 1) = Some (X + 19999 / 2, Y + 19999 / 2).
Proof.
  intros D P X Y BX BY. rewrite (detect_at fp 1 d p (- (z3 p / z3 d)) (X / 10000) (Y / 10000) fp_axes).
  - destruct fp_norms as [-> ->]. unfold detpix, centerpix. rewrite npix_fp. f_equal. f_equal; field.
  - unfold fp, v_x. clear - D. destruct d as [d1 d2 d3]. unfold dot3. cbn in *. lra.
  - assert (Q : z3 p = z3 p / z3 d * z3 d) by (field; lra). set (q := z3 p / z3 d) in *. clearbody q. nra.
  - apply fp_rect. split; [lra|]. split; [lra|]. unfold X, Y. clear - D. destruct d as [d1 d2 d3], p as [p1 p2 p3]. cbn [x3 y3 z3] in *. vu. f_equal; field; lra.
Qed.
Lemma fp_miss d p : z3 d <= 0 -> z3 p < 0 -> flat_detector fp 1 (hom d 0) (hom p 1) = None.
Proof.
  intros D P. destruct (flat_detector fp 1 (hom d 0) (hom p 1)) as [[x y]|] eqn:E; [|reflexivity]. exfalso. destruct (flat_detector_spec fp 1 d p x y fp_axes E) as (k & a & b & K & I & _). apply fp_rect in I. destruct I as (_ & _ & I). apply (f_equal z3) in I. cbn [z3] in I.
  assert (Q : z3 p + k * z3 d = 0). { rewrite <- I. clear. destruct d, p. reflexivity. } nra.
Qed.
Lemma below r d a : 0 <= d -> d < r -> 0 < cos a -> Rabs (r * sin a) < d -> z3 (circle_place r (sqrt (r * r - d * d)) a) < 0.
Proof.
  intros D L C B. unfold circle_place. cbn [z3]. assert (Q : r * cos a = sqrt ((r * cos a) * (r * cos a))) by (symmetry; apply sqrt_square; nra). rewrite Q. assert (K : (r * cos a) * (r * cos a) = r * r - (r * sin a) * (r * sin a)). { pose proof (sin2_cos2 a) as T. unfold Rsqr in T. nra. }
  rewrite K. assert (S : (r * sin a) * (r * sin a) < d * d). { assert (N : 0 <= Rabs (r * sin a)) by apply Rabs_pos. replace ((r * sin a) * (r * sin a)) with (Rabs (r * sin a) * Rabs (r * sin a)) by (rewrite <- Rabs_mult; apply Rabs_pos_eq; apply Rle_0_sqr). nra. }
  assert (sqrt (r * r - d * d) < sqrt (r * r - (r * sin a) * (r * sin a))) by (apply sqrt_lt_1_alt; nra). lra.
Qed.
(** ** Moving back *)
Lemma reset_hits m d p : perpendicular_axes m -> (fst (fst (plane_intersect m (hom d 0) (camera_start (hom p 1) (hom d 0)))) = true <-> dot3 d (xyz (v_x m)) <> 0 /\ exists k a b, -100 <= k /\ in_rectangle m a b (add3 p (scale3 k d))).
Proof.
  intros P. assert (E : camera_start (hom p 1) (hom d 0) = hom (add3 p (scale3 (-100) d)) 1) by (unfold camera_start, propagate; clear; vd; vu; f_equal; ring). rewrite E, plane_hit_iff by exact P. apply and_iff_compat_l.
  assert (S : forall k, add3 (add3 p (scale3 (-100) d)) (scale3 k d) = add3 p (scale3 (k - 100) d)) by (clear; vring). split; intros (k & a & b & K & I).
  - exists (k - 100), a, b. split; [lra|]. now rewrite <- S.
  - exists (k + 100), a, b. split; [lra|]. rewrite S. replace (k + 100 - 100) with k by ring. exact I.
Qed.
(** ** Elements *)
Lemma subseq_nil {A} (l : list A) : subseq l [] -> l = []. Proof. inversion 1. reflexivity. Qed.
Lemma nothing_found t cls sub stop : (forall n, In n (nodes t) -> Container_Model.comp sub cls n = false) -> elements_of_class t cls sub stop = [].
Proof.
  intros H. apply subseq_nil. assert (N : filter (Container_Model.comp sub cls) (nodes t) = []).
  { induction (nodes t) as [|n l IH]; [reflexivity|]. cbn [filter]. rewrite (H n) by now left. apply IH. intros m M. apply H. now right. }
  rewrite <- N. apply elements_subseq.
Qed.
