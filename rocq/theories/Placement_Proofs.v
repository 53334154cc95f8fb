(** Lemmas about [Placement_Model]. *)
From Verif Require Import Base_Proofs Vec_Proofs Rot_Proofs Coords_Proofs Position_Proofs.
From Verif Require Export Placement_Model.
Open Scope R_scope.

(** *** collect *)
Lemma collect_Forall2 {A} (l : list (result A)) es : collect l = Ok es <-> Forall2 (fun r e => r = Ok e) l es.
Proof.
  split.
  - revert es. induction l as [|r l IH]; cbn; intros es H; [injection H as <-; constructor|].
    destruct r as [a|]; [|discriminate]. cbn in H. destruct (collect l) as [rest|]; [|discriminate]. cbn in H. injection H as <-.
    constructor; auto.
  - induction 1 as [|r e l es E F IH]; cbn; [reflexivity|]. subst r. cbn. now rewrite IH.
Qed.
Lemma Forall2_len {A B} (R : A -> B -> Prop) l l' : Forall2 R l l' -> length l = length l'.
Proof. induction 1; cbn; congruence. Qed.
Lemma Forall2_nth {A B} (R : A -> B -> Prop) l l' : Forall2 R l l' -> forall i b, nth_error l' i = Some b -> exists a, nth_error l i = Some a /\ R a b.
Proof. induction 1; intros [|i] b E; cbn in *; try discriminate; [injection E as <-; eauto|eauto]. Qed.
Lemma nth_error_seq n i s : (i < n)%nat -> nth_error (seq s n) i = Some (s + i)%nat.
Proof. revert i s. induction n as [|n IH]; intros [|i] s H; cbn; try lia; [f_equal; lia|]. rewrite IH by lia. f_equal. lia. Qed.
Lemma generate_nth p es : generate_elements p = Ok es -> length es = length (p_elem_pos p) /\
  (forall i e, nth_error es i = Some e -> generate_element p i = Ok e).
Proof.
  intros H. unfold generate_elements in H. apply collect_Forall2 in H. split.
  - apply Forall2_len in H. now rewrite map_length, seq_length in H.
  - intros i e E. pose proof (nth_error_lt _ _ _ E) as L. pose proof (Forall2_len _ _ _ H) as L2. rewrite map_length, seq_length in L2.
    destruct (Forall2_nth _ _ _ H i e E) as (r & N & ->). rewrite nth_error_map, nth_error_seq in N by lia. cbn in N. injection N as N. exact N.
Qed.
Lemma generate_total p : (forall i, (i < length (p_elem_pos p))%nat -> exists e, generate_element p i = Ok e) -> exists es, generate_elements p = Ok es.
Proof.
  intros H. unfold generate_elements.
  assert (X : forall l, (forall i, In i l -> exists e, generate_element p i = Ok e) -> exists es, collect (map (generate_element p) l) = Ok es).
  { induction l as [|i l IH]; intros G; cbn; [eauto|]. destruct (G i) as [e ->]; [now left|]. destruct IH as [es ->]; [intros; apply G; now right|]. cbn. eauto. }
  apply X. intros i I. apply in_seq in I. apply H. lia.
Qed.
Lemma generate_id p i e : generate_element p i = Ok e -> e_id e = (p_offset p + Z.of_nat i)%Z.
Proof.
  unfold generate_element. destruct (parse_position _) as [[m rest]|]; [|discriminate]. cbn [bind].
  destruct (decompose44 m) as [[[[ta ra] za] sa]|]; [|intros H; injection H as <-; reflexivity].
  destruct (negb _); [discriminate|]. destruct (nth_error _ _); [|discriminate]. destruct (nth_error _ _); [|discriminate].
  destruct (decompose44 m0) as [[[[tb rb] zb] sb]|]; [|intros H; injection H as <-; reflexivity].
  destruct (decompose44 m1) as [[[[tc rc] zc] sc]|]; [|intros H; injection H as <-; reflexivity].
  destruct (negb _); [discriminate|]. intros H. injection H as <-. reflexivity.
Qed.
Lemma generate_args p i e : generate_element p i = Ok e -> exists m, parse_position (specific_args p i) = Ok (m, e_args e).
Proof.
  unfold generate_element. destruct (parse_position _) as [[m rest]|]; [|discriminate]. cbn [bind]. exists m.
  destruct (decompose44 m) as [[[[ta ra] za] sa]|]; [|injection H as <-; reflexivity].
  destruct (negb _); [discriminate|]. destruct (nth_error _ _); [|discriminate]. destruct (nth_error _ _); [|discriminate].
  destruct (decompose44 m0) as [[[[tb rb] zb] sb]|]; [|injection H as <-; reflexivity].
  destruct (decompose44 m1) as [[[[tc rc] zc] sc]|]; [|injection H as <-; reflexivity].
  destruct (negb _); [discriminate|]. injection H as <-. reflexivity.
Qed.
Lemma ids_distinct p es i j a b : generate_elements p = Ok es -> nth_error es i = Some a -> nth_error es j = Some b ->
  e_id a = e_id b -> i = j.
Proof.
  intros G A B E. destruct (generate_nth _ _ G) as [_ N]. rewrite (generate_id _ _ _ (N _ _ A)), (generate_id _ _ _ (N _ _ B)) in E. lia.
Qed.

(** *** the product of the eleven matrices *)
Definition mulv (a b : v3) := V3 (x3 a * x3 b) (y3 a * y3 b) (z3 a * z3 b).
Lemma product_eq l : product l = fold_right mul4 id4 l.
Proof. unfold product. rewrite <- (fold_left_rev_right mul4 (rev l) id4). now rewrite rev_involutive. Qed.
Lemma trans_mul t u : mul4 (translation2aff t) (translation2aff u) = translation2aff (add3 t u).
Proof. unfold translation2aff. rewrite aff_mul, mul3_id_l, app3_id. f_equal. vring. Qed.
Lemma mat_mul m n : mul4 (mat2aff m) (mat2aff n) = mat2aff (mul3 m n).
Proof. unfold mat2aff. rewrite aff_mul. f_equal. vring. Qed.
Lemma zoom_mul y z : mul4 (zoom2aff y) (zoom2aff z) = zoom2aff (mulv y z).
Proof. unfold zoom2aff. rewrite aff_mul. unfold diag3, mulv. f_equal; vring. Qed.
Lemma product_parts P U ts te ta rs re ra zs ze za :
  product [P; U; translation2aff ts; translation2aff te; translation2aff ta; mat2aff rs; mat2aff re; mat2aff ra;
           zoom2aff zs; zoom2aff ze; zoom2aff za] =
  mul4 P (mul4 U (compose (add3 ts (add3 te ta)) (mul3 rs (mul3 re ra)) (mulv zs (mulv ze za)))).
Proof.
  rewrite product_eq. cbn [fold_right]. rewrite mul4_id_r. do 2 f_equal. rewrite compose_product.
  rewrite !zoom_mul. rewrite <- (mul4_assoc (mat2aff re)), mat_mul, <- (mul4_assoc (mat2aff rs)), mat_mul.
  rewrite <- (mul4_assoc (translation2aff te)), trans_mul, <- (mul4_assoc (translation2aff ts)), trans_mul. reflexivity.
Qed.
Lemma noshear0 : noshear zero3 = true.
Proof. unfold noshear, zero3. cbn. now rewrite isclose_refl. Qed.
Lemma isclose_0 s : isclose s 0 = false -> s <> 0.
Proof. intros H ->. rewrite isclose_refl in H. discriminate. Qed.

(** *** specific arguments *)
Lemma dget_map (f : pyv -> pyv) k (d : dict pyv) : dget k (map (fun kv => (fst kv, f (snd kv))) d) = option_map f (dget k d).
Proof. induction d as [|[k' v] d IH]; cbn; [reflexivity|]. destruct (String.eqb k k'); [reflexivity|exact IH]. Qed.
Lemma dget_specific p i k : k <> "name"%string -> dget k (specific_args p i) = option_map (specific_arg (length (p_elem_pos p)) i) (dget k (p_args p)).
Proof.
  intros N. unfold specific_args. cbv zeta. destruct (din "name"%string _); [apply dget_map|].
  rewrite dget_dset_neq by exact N. apply dget_map.
Qed.
Lemma dget_name p i : dget "name"%string (specific_args p i) =
  match dget "name"%string (p_args p) with Some v => Some (specific_arg (length (p_elem_pos p)) i v) | None => Some (p_name p i) end.
Proof.
  unfold specific_args. cbv zeta. destruct (din "name"%string _) eqn:E.
  - rewrite dget_map. apply din_dget in E. destruct E as [v E]. rewrite dget_map in E. destruct (dget "name"%string (p_args p)); [reflexivity|discriminate].
  - apply din_false in E. rewrite dget_map in E. destruct (dget "name"%string (p_args p)); [discriminate|]. apply dget_dset_eq.
Qed.
Lemma id3_det : det3 id3 = 1. Proof. vring. Qed.
Lemma compose_id : compose zero3 id3 (V3 1 1 1) = id4.
Proof. unfold compose, diag3. vring. Qed.
Lemma parse_none d : no_position d -> exists rest, parse_position d = Ok (id4, rest).
Proof.
  intros (H1 & H2 & H3 & H4). eexists.
  rewrite (parse_parts d zero3 id3 1 1 1); try lra; try assumption.
  - rewrite (proj2 (Reqb_false _ _)) by (rewrite id3_det; lra). rewrite compose_id. reflexivity.
  - unfold given_zoom. now rewrite H4.
  - unfold given_position. now rewrite H2.
  - unfold given_orientation. now rewrite H3.
Qed.
Lemma no_position_specific p i : no_position (p_args p) -> no_position (specific_args p i).
Proof. intros (H1 & H2 & H3 & H4). unfold no_position. rewrite !dget_specific by discriminate. rewrite H1, H2, H3, H4. cbn. auto. Qed.
Lemma shear_free_decompose m : shear_free m -> exists t r z, decompose44 m = Some (t, r, z, zero3) /\ rotation r /\ m = compose t r z.
Proof.
  intros (A & N0 & N1 & N2 & H). destruct H as (H01 & H02 & H12).
  destruct (decompose44_perp m N0 N1 N2 H01 H02 H12) as (r & z & E). exists (tra m), r, z. split; [exact E|].
  split; [apply decompose44_spec in E; apply E|]. now apply decompose44_noshear.
Qed.
Lemma shear_free_id : shear_free id4.
Proof.
  unfold shear_free. split; [exact (aff_affine id3 zero3)|]. repeat split; try (vu; ring); intros H.
  - apply (f_equal x3) in H. cbn in H. lra.
  - apply (f_equal y3) in H. cbn in H. lra.
  - apply (f_equal z3) in H. cbn in H. lra.
Qed.
Lemma shear_free_rot t r : rotation r -> shear_free (compose t r ones3).
Proof.
  intros [O _]. unfold compose. assert (E : mul3 r (diag3 ones3) = r) by (unfold diag3, ones3; vring). rewrite E.
  destruct O as (H0 & H1 & H2 & H01 & H02 & H12). unfold shear_free. split; [apply aff_affine|]. unfold aff. cbn [b0 b1 b2]. rewrite !xyz_hom.
  assert (N : forall v, dot3 v v = 1 -> v <> zero3) by (intros v Hv ->; assert (dot3 zero3 zero3 = 0) by vring; lra).
  auto 10.
Qed.

(** *** positions *)
Lemma element_position p i ep eu te re ze ts rs zs : no_position (p_args p) ->
  nth_error (p_elem_pos p) i = Some ep -> nth_error (p_elem_unc p) i = Some eu ->
  decompose44 ep = Some (te, re, ze, zero3) -> decompose44 eu = Some (ts, rs, zs, zero3) ->
  exists rest, generate_element p i = Ok (Elem (Some (mul4 (p_pos4d p) (mul4 (p_unc p)
    (compose (add3 ts te) (mul3 rs re) (mulv zs ze))))) (p_offset p + Z.of_nat i)%Z rest).
Proof.
  intros NP E1 E2 D1 D2. destruct (parse_none _ (no_position_specific p i NP)) as [rest R]. exists rest.
  unfold generate_element. rewrite R. cbn [bind]. rewrite decompose44_id, noshear0, E1, E2, D1, D2, noshear0. cbn [negb].
  rewrite product_parts, mul3_id_r. do 3 f_equal. f_equal. f_equal. f_equal; unfold zero3, mulv; vring.
Qed.
Lemma plain_position p i ep : no_position (p_args p) -> nth_error (p_elem_pos p) i = Some ep -> nth_error (p_elem_unc p) i = Some id4 ->
  shear_free ep -> exists rest, generate_element p i = Ok (Elem (Some (mul4 (p_pos4d p) (mul4 (p_unc p) ep))) (p_offset p + Z.of_nat i)%Z rest).
Proof.
  intros NP E1 E2 SF. destruct (shear_free_decompose _ SF) as (t & r & z & D & _ & C).
  destruct (element_position p i ep id4 t r z zero3 id3 (V3 1 1 1) NP E1 E2 D decompose44_id) as [rest G]. exists rest. rewrite G.
  rewrite mul3_id_l, C. do 3 f_equal. f_equal. f_equal. f_equal; unfold zero3, mulv; vring.
Qed.
Lemma new_parallel_positions P E args off name : no_position args -> Forall shear_free E ->
  exists es, generate_elements (new_parallel P E args off name) = Ok es /\ length es = length E /\
  forall i ep, nth_error E i = Some ep -> exists e, nth_error es i = Some e /\ e_pos e = Some (mul4 P ep) /\ e_id e = (off + Z.of_nat i)%Z.
Proof.
  intros NP SF. set (p := new_parallel P E args off name).
  assert (G : forall i ep, nth_error E i = Some ep -> exists rest, generate_element p i = Ok (Elem (Some (mul4 P ep)) (off + Z.of_nat i)%Z rest)).
  { intros i ep N. destruct (plain_position p i ep) as [rest X]; auto.
    - cbn. apply nth_error_repeat. now apply nth_error_lt in N.
    - rewrite Forall_forall in SF. apply SF. now apply nth_error_In in N.
    - exists rest. rewrite X. cbn. now rewrite mul4_id_l. }
  destruct (generate_total p) as [es T].
  { intros i L. cbn in L. destruct (nth_error E i) as [ep|] eqn:N; [|apply nth_error_None in N; lia]. destruct (G i ep N) as [rest X]. eauto. }
  exists es. split; [exact T|]. destruct (generate_nth _ _ T) as [L N]. split; [exact L|]. intros i ep Ei.
  destruct (nth_error es i) as [e|] eqn:Ee; [|apply nth_error_None in Ee; apply nth_error_lt in Ei; cbn in L; lia].
  exists e. split; [reflexivity|]. destruct (G i ep Ei) as [rest X]. rewrite (N i e Ee) in X. injection X as ->. cbn. auto.
Qed.

(** *** moves *)
Lemma euler_rotation a : rotation (euler2mat a).
Proof. unfold euler2mat. repeat apply rotation_mul; apply axangle_rotation; vu; ring. Qed.
Lemma euler_0 : euler2mat zero3 = id3.
Proof. unfold euler2mat, zero3. cbn [x3 y3 z3]. unfold axangle2mat_n. rewrite cos_0, sin_0. vring. Qed.
Lemma move6_0 : move6 zero3 zero3 = id4.
Proof. unfold move6. rewrite euler_0. apply compose_id. Qed.
Lemma move6_decompose t a : exists t' r' z', decompose44 (move6 t a) = Some (t', r', z', zero3).
Proof. destruct (shear_free_decompose _ (shear_free_rot t _ (euler_rotation a))) as (t' & r' & z' & D & _). eauto. Qed.

(** same container except for the uncertainties *)
Definition same_but_unc (p q : parallel) : Prop :=
  p_pos4d p = p_pos4d q /\ p_elem_pos p = p_elem_pos q /\ p_args p = p_args q /\ p_offset p = p_offset q /\ p_name p = p_name q.
Lemma same_specific p q i : same_but_unc p q -> specific_args p i = specific_args q i.
Proof. intros (_ & E & A & _ & N). unfold specific_args. now rewrite E, A, N. Qed.
Lemma generate_element_unc p q i e : same_but_unc p q -> generate_element p i = Ok e ->
  (exists eu t r z, nth_error (p_elem_unc q) i = Some eu /\ decompose44 eu = Some (t, r, z, zero3)) -> exists e', generate_element q i = Ok e'.
Proof.
  intros S G (eu & t & r & z & N & D). unfold generate_element in *. rewrite <- (same_specific p q i S).
  destruct (parse_position _) as [[m rest]|]; [|discriminate]. cbn [bind] in *.
  destruct (decompose44 m) as [[[[ta ra] za] sa]|]; [|eauto]. destruct (negb (noshear sa)); [discriminate|].
  destruct S as (_ & <- & _). destruct (nth_error (p_elem_pos p) i); [|discriminate]. rewrite N, D, noshear0. cbn [negb].
  destruct (decompose44 m0) as [[[[tb rb] zb] sb]|]; eauto.
Qed.
Definition consistent (s : pstate) : Prop := generate_elements (ps_par s) = Ok (ps_elems s).
Lemma tol_set_same s op : same_but_unc (ps_par s) (tol_set s op).
Proof. destruct op; cbn; unfold same_but_unc; cbn; auto. Qed.
(** the individual uncertainties have no shear, one per element *)
Definition unc_ok (p : parallel) : Prop := forall i, (i < length (p_elem_pos p))%nat ->
  exists eu t r z, nth_error (p_elem_unc p) i = Some eu /\ decompose44 eu = Some (t, r, z, zero3).
Lemma tol_set_unc_ok s op : consistent s -> unc_ok (ps_par s) -> unc_ok (tol_set s op).
Proof.
  intros C U i L. destruct (generate_nth _ _ C) as [LE _]. destruct op as [d|t a|t a]; cbn in *.
  - destruct (move6_decompose (fst (d i)) (snd (d i))) as (t & r & z & D). rewrite LE.
    exists (move6 (fst (d i)) (snd (d i))), t, r, z. split; [|exact D]. now rewrite nth_error_map, nth_error_seq by lia.
  - now apply U.
  - destruct (move6_decompose t a) as (t' & r & z & D). rewrite LE. exists (move6 t a), t', r, z. split; [|exact D]. now apply nth_error_repeat.
Qed.
Lemma tol_apply_total s op : consistent s -> unc_ok (ps_par s) -> exists s', tol_apply s op = Ok s' /\ consistent s' /\ unc_ok (ps_par s').
Proof.
  intros C U. unfold tol_apply. destruct (generate_total (tol_set s op)) as [es E].
  - intros i L. assert (L' : (i < length (p_elem_pos (ps_par s)))%nat) by (destruct (tol_set_same s op) as (_ & -> & _); exact L).
    destruct (generate_nth _ _ C) as [LE N]. destruct (nth_error (ps_elems s) i) as [e|] eqn:Ee; [|apply nth_error_None in Ee; lia].
    apply (generate_element_unc (ps_par s) _ i e); [apply tol_set_same|now apply N|]. now apply tol_set_unc_ok.
  - rewrite E. cbn [bind]. eexists. split; [reflexivity|]. split; [exact E|]. cbn. now apply tol_set_unc_ok.
Qed.
Lemma tol_run_total s ops : consistent s -> unc_ok (ps_par s) -> exists s', tol_run s ops = Ok s'.
Proof.
  revert s. induction ops as [|op ops IH]; intros s C U; cbn; [eauto|].
  destruct (tol_apply_total s op C U) as (s' & -> & C' & U'). cbn. now apply IH.
Qed.
Lemma tol_run_state s ops s' : consistent s -> tol_run s ops = Ok s' ->
  consistent s' /\ same_but_unc (ps_par s) (ps_par s') /\ p_unc (ps_par s') = last_global ops (p_unc (ps_par s)) /\
  p_elem_unc (ps_par s') = last_individual (length (p_elem_pos (ps_par s))) ops (p_elem_unc (ps_par s)).
Proof.
  revert s. induction ops as [|op ops IH]; intros s C H; cbn in H.
  - injection H as <-. split; [exact C|]. unfold same_but_unc. cbn. auto 10.
  - unfold tol_apply in H. destruct (generate_elements (tol_set s op)) as [es|] eqn:E; [|discriminate]. cbn [bind] in H.
    destruct (generate_nth _ _ C) as [LE _].
    specialize (IH (PState (tol_set s op) es) E H). destruct IH as (C' & S' & G & I). cbn [ps_par] in *.
    split; [exact C'|]. pose proof (tol_set_same s op) as S. split.
    + unfold same_but_unc in *. intuition congruence.
    + assert (EP : p_elem_pos (tol_set s op) = p_elem_pos (ps_par s)) by (destruct S as (_ & X & _); now symmetry).
      rewrite EP in I. rewrite G, I. destruct op; cbn; rewrite ?LE; auto.
Qed.
Lemma same_eq p q : same_but_unc p q -> p_unc p = p_unc q -> p_elem_unc p = p_elem_unc q -> p = q.
Proof. destruct p, q. unfold same_but_unc. cbn. intuition congruence. Qed.
(** two histories that end with the same settings give the same elements *)
Lemma tol_run_last s ops1 ops2 s1 s2 : consistent s -> tol_run s ops1 = Ok s1 -> tol_run s ops2 = Ok s2 ->
  last_global ops1 (p_unc (ps_par s)) = last_global ops2 (p_unc (ps_par s)) ->
  last_individual (length (p_elem_pos (ps_par s))) ops1 (p_elem_unc (ps_par s)) =
  last_individual (length (p_elem_pos (ps_par s))) ops2 (p_elem_unc (ps_par s)) -> ps_elems s1 = ps_elems s2.
Proof.
  intros C H1 H2 G I. destruct (tol_run_state _ _ _ C H1) as (C1 & S1 & G1 & I1). destruct (tol_run_state _ _ _ C H2) as (C2 & S2 & G2 & I2).
  assert (E : ps_par s1 = ps_par s2). { apply same_eq; [unfold same_but_unc in *; intuition congruence|congruence|congruence]. }
  unfold consistent in *. rewrite E in C1. congruence.
Qed.
Lemma last_global_app a b u : last_global (a ++ b) u = last_global b (last_global a u).
Proof. revert u. induction a as [|[] a IH]; intros u; cbn; auto. Qed.
Lemma last_individual_app n a b u : last_individual n (a ++ b) u = last_individual n b (last_individual n a u).
Proof. revert u. induction a as [|[] a IH]; intros u; cbn; auto. Qed.
Lemma new_parallel_unc_ok P E args off name : unc_ok (new_parallel P E args off name).
Proof. intros i L. cbn in *. exists id4, zero3, id3, (V3 1 1 1). split; [now apply nth_error_repeat|apply decompose44_id]. Qed.

(** *** moving the center *)
Lemma move_center_iff C Ci P E Ei : mul4 C Ci = id4 -> mul4 Ci C = id4 -> mul4 E Ei = id4 ->
  (mul4 (mul4 C P) (mul4 Ci E) = mul4 P E <-> mul4 C P = mul4 P C).
Proof.
  intros H1 H2 HE. split; intros H.
  - apply (f_equal (fun m => mul4 (mul4 m Ei) C)) in H. rewrite !mul4_assoc in H. rewrite <- (mul4_assoc E Ei C), HE, mul4_id_l in H.
    rewrite H2, mul4_id_r in H. exact H.
  - rewrite H, mul4_assoc, <- (mul4_assoc C Ci E), H1, mul4_id_l. reflexivity.
Qed.

(** *** moveelem *)
Lemma moveelem_history g l t a : g_orig g = None ->
  g_pos4d (fold_left moveelem (l ++ [(t, a)]) g) = mul4 (move6 t a) (g_pos4d g).
Proof.
  intros N. rewrite fold_left_app. cbn [fold_left].
  assert (X : forall l g, (match g_orig (fold_left moveelem l g) with Some o => o | None => g_pos4d (fold_left moveelem l g) end) =
                          (match g_orig g with Some o => o | None => g_pos4d g end)).
  { clear. induction l as [|x l IH]; intros g; [reflexivity|]. cbn [fold_left]. now rewrite IH. }
  unfold moveelem at 1. cbn [g_pos4d fst snd]. rewrite X, N. reflexivity.
Qed.

(** *** specifications of directions *)
Lemma h2e_w1 l : (forall v, In v l -> w4 v = 1) -> h2e l = Ok (map xyz l).
Proof.
  intros H. unfold h2e. assert (E : forallb (fun v => isclose (w4 v) 1) l = true).
  { apply forallb_forall. intros v I. rewrite (H v I). apply isclose_refl. }
  now rewrite E, orb_true_r.
Qed.
Lemma h2e1_w1 v : w4 v = 1 -> h2e1 v = Ok (xyz v).
Proof. intros H. unfold h2e1. rewrite h2e_w1; [reflexivity|]. intros u [<-|[]]. exact H. Qed.
Lemma h2e1_w0 v : w4 v = 0 -> h2e1 v = Ok (xyz v).
Proof. intros H. unfold h2e1, h2e. cbn [forallb]. rewrite H, (proj2 (Reqb_true 0 0)) by reflexivity. reflexivity. Qed.
Lemma get_spec_dir s l : w4 s = 0 -> get_spec s l = Ok (map (fun _ => s) l).
Proof. intros H. unfold get_spec. now rewrite (proj2 (Reqb_true _ _) H). Qed.
Lemma get_spec_point s l : w4 s = 1 -> (forall v, In v l -> w4 v = 1) ->
  get_spec s l = Ok (map (fun v => hom (sub3 (xyz v) (xyz s)) 1) l).
Proof.
  intros H HL. unfold get_spec. rewrite (proj2 (Reqb_false _ _)) by lra. rewrite h2e_w1 by exact HL. cbn [bind].
  rewrite h2e_w1 by (intros u [<-|[]]; exact H). cbn [bind map nth]. unfold e2h.
  rewrite (proj2 (Reqb_true 1 1)) by reflexivity. rewrite orb_true_r. cbn [negb]. now rewrite !map_map.
Qed.
Lemma combine_map2 {A B C} (f : A -> B) (g : A -> C) l : combine l (combine (map f l) (map g l)) = map (fun x => (x, (f x, g x))) l.
Proof. induction l as [|a l IH]; cbn; [reflexivity|]. now rewrite IH. Qed.
(** x axis and center of the elements for a point as specification of the normal *)
Lemma elempos_normal s d l es i m : w4 s = 1 -> w4 d = 0 -> (forall v, In v l -> w4 v = 1) ->
  calculate_elempos s d l = Ok es -> nth_error es i = Some (Some m) ->
  exists v, nth_error l i = Some v /\ b3 m = v /\ xyz v <> xyz s /\ rotation (lin m) /\
    unit3 (sub3 (xyz v) (xyz s)) = Some (xyz (b0 m)).
Proof.
  intros Hs Hd HL. unfold calculate_elempos. rewrite get_spec_point, get_spec_dir by assumption. cbn [bind].
  rewrite combine_map2, map_map. intros H N. apply collect_Forall2 in H.
  destruct (Forall2_nth _ _ _ H i _ N) as (r & X & ->). rewrite nth_error_map in X. destruct (nth_error l i) as [v|] eqn:Ev; [|discriminate].
  cbn in X. injection X as X. exists v. split; [reflexivity|]. pose proof (HL v (nth_error_In _ _ Ev)) as Wv.
  unfold elempos1 in X. rewrite h2e1_w1 in X by reflexivity. rewrite (h2e1_w0 d Hd) in X. cbn [bind] in X.
  destruct (ex2vec_fix _ _) as [[rot|]|] eqn:Ef; cbn [bind] in X; try discriminate; rewrite (h2e1_w1 v Wv) in X; cbn [bind] in X; [|discriminate].
  injection X as <-. rewrite xyz_hom in Ef.
  pose proof (ex2vec_fix_spec _ _ _ Ef) as SP.
  assert (E1 : mul3 rot (diag3 ones3) = rot) by (unfold diag3, ones3; clear; vring).
  unfold compose. rewrite E1. unfold aff. cbn [b0 b3 lin b1 b2]. rewrite !xyz_hom.
  split; [rewrite <- (hom_xyz v) at 2; now rewrite Wv|].
  unfold ex2vec_fix in Ef. destruct (unit3 (sub3 (xyz v) (xyz s))) as [a|] eqn:U; [|discriminate].
  split; [intros Y; rewrite Y in U; assert (Z : sub3 (xyz s) (xyz s) = zero3) by (clear; vring); rewrite Z, unit3_zero in U; discriminate|].
  destruct (unit3 (xyz d)) as [f|]; [|discriminate]. destruct (_ || _); [discriminate|].
  destruct (unit3 (sub3 f _)) as [b|] eqn:Ub; [|discriminate]. injection Ef as <-. split; [|reflexivity].
  destruct SP as (SP & _). unfold lin, aff. cbn [b0 b1 b2]. rewrite !xyz_hom. exact SP.
Qed.
Lemma away_dot v s u : unit3 (sub3 v s) = Some u -> dot3 u (sub3 s v) = - norm3 (sub3 s v) /\ 0 < norm3 (sub3 s v).
Proof.
  intros H. apply unit3_spec in H. destruct H as (N & -> & _ & _).
  assert (E : sub3 s v = neg3 (sub3 v s)) by (clear; vring).
  assert (F : norm3 (neg3 (sub3 v s)) = norm3 (sub3 v s)) by (unfold norm3; f_equal; generalize (sub3 v s); clear; vring).
  rewrite E, F. pose proof (norm3_pos _ N) as P. split; [|exact P].
  assert (G : forall k w, dot3 (scale3 k w) (neg3 w) = - (k * dot3 w w)) by (clear; vring).
  rewrite G, <- norm3_sqr. field. lra.
Qed.
