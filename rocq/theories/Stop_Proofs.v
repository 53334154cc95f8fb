(** Lemmas for baffles. *)
From Verif Require Import Stop_Model.
From Verif Require Import Base_Proofs Vec_Proofs Coords_Proofs Plane_Proofs Lens_Proofs Instrument_Proofs Instrument_Proofs2 Layers_Proofs Whole_Proofs Defocus_Proofs.
Open Scope R_scope.
Open Scope list_scope.

(** ** one after the other *)
Lemma crosses_once m x d k k' : perpendicular_axes m -> crosses m x d k -> crosses m x d k' -> k = k'.
Proof.
  intros P (N & a & b & R) (_ & a' & b' & R'). pose proof (rect_plane m a b _ P R) as A. pose proof (rect_plane m a' b' _ P R') as B.
  assert (C : (k - k') * dot3 d (xyz (v_x m)) = 0). { transitivity (dot3 (sub3 (add3 x (scale3 k d)) (xyz (center m))) (xyz (v_x m)) - dot3 (sub3 (add3 x (scale3 k' d)) (xyz (center m))) (xyz (v_x m))); [generalize (xyz (center m)) (xyz (v_x m)) d x; clear; vring|]. rewrite A, B. ring. }
  apply Rmult_integral in C. destruct C as [C|C]; [lra|contradiction].
Qed.
Lemma along_ray (x d : v3) k0 k : add3 (add3 x (scale3 k0 d)) (scale3 (k - k0) d) = add3 x (scale3 k d).
Proof. destruct x as [a b c], d as [u v w]. unfold add3, scale3. cbn. f_equal; ring. Qed.
Lemma meets_crosses m ph x d k0 : perpendicular_axes m -> l_dir ph = Some d -> l_pos ph = Some (add3 x (scale3 k0 d)) ->
  (forall k, k0 <= k -> crosses m x d k -> exists loc, Instrument_Model.meets m ph = Some (d, add3 x (scale3 k d), loc)) /\
  (forall d' q loc, Instrument_Model.meets m ph = Some (d', q, loc) -> exists k, k0 <= k /\ crosses m x d k /\ q = add3 x (scale3 k d)).
Proof.
  intros P D X. split.
  - intros k K (N & a & b & R). exists (a * norm3 (xyz (v_y m)), b * norm3 (xyz (v_z m))). apply (meets_iff m ph d _ _ P). split; [exact D|]. split; [exact N|].
    exists (add3 x (scale3 k0 d)), (k - k0), a, b. split; [exact X|]. split; [lra|]. split; [now rewrite along_ray|]. split; [exact R|reflexivity].
  - intros d' q loc M. destruct (proj1 (meets_iff m ph d' q loc P) M) as (D' & N & x' & k & a & b & X' & K & Q & R & _). assert (d' = d) as -> by congruence. assert (x' = add3 x (scale3 k0 d)) as -> by congruence.
    exists (k0 + k). replace (scale3 k d) with (scale3 (k0 + k - k0) d) in Q by (f_equal; ring). rewrite along_ray in Q. split; [lra|]. split; [|exact Q]. split; [exact N|]. exists a, b. now rewrite <- Q.
Qed.
Lemma blocked_stays : forall ms drs ph, l_prob ph = Some 0 -> exists ph', through (map PBaffle ms) drs ph = Ok ph' /\ l_dir ph' = l_dir ph /\ l_pol ph' = l_pol ph /\ l_energy ph' = l_energy ph /\ l_prob ph' = Some 0.
Proof.
  induction ms as [|m ms IH]; intros drs ph Z; cbn [map through]; [exists ph; repeat split; exact Z|]. cbn [one bind].
  destruct (Instrument_Model.meets m ph) as [[[d q] loc]|].
  - destruct (IH (tl drs) (LPhoton (l_dir ph) (Some q) (l_pol ph) (l_energy ph) (l_prob ph)) Z) as (ph' & H & R). exists ph'. split; [exact H|exact R].
  - destruct (IH (tl drs) (LPhoton (l_dir ph) (l_pos ph) (l_pol ph) (l_energy ph) (Some 0)) eq_refl) as (ph' & H & R). exists ph'. split; [exact H|exact R].
Qed.
Lemma row : forall ms drs ph x d p k0, Forall perpendicular_axes ms -> l_dir ph = Some d -> l_pos ph = Some (add3 x (scale3 k0 d)) -> l_prob ph = Some p ->
  exists ph', through (map PBaffle ms) drs ph = Ok ph' /\ l_dir ph' = l_dir ph /\ l_pol ph' = l_pol ph /\ l_energy ph' = l_energy ph /\
    (in_turn ms x d k0 -> l_prob ph' = Some p) /\ (~ in_turn ms x d k0 -> l_prob ph' = Some 0).
Proof.
  induction ms as [|m ms IH]; intros drs ph x d p k0 P D X PR; cbn [map through in_turn].
  - exists ph. split; [reflexivity|]. split; [reflexivity|]. split; [reflexivity|]. split; [reflexivity|]. split; [intros _; exact PR|]. intros N. elim N. exact I.
  - inversion P as [|? ? P1 P2]; subst. destruct (meets_crosses m ph x d k0 P1 D X) as [MC CM]. cbn [one bind]. destruct (Instrument_Model.meets m ph) as [[[d' q] loc]|] eqn:M.
    + destruct (CM d' q loc eq_refl) as (k & K & C & ->). destruct (IH (tl drs) (LPhoton (l_dir ph) (Some (add3 x (scale3 k d))) (l_pol ph) (l_energy ph) (l_prob ph)) x d p k P2 D eq_refl PR) as (ph' & H & A & B & E & Y & N).
      exists ph'. split; [exact H|]. split; [exact A|]. split; [exact B|]. split; [exact E|]. split.
      * intros (k' & K' & C' & T). apply Y. now rewrite (crosses_once m x d k k' P1 C C').
      * intros T. apply N. intros T'. apply T. exists k. now split.
    + destruct (blocked_stays ms (tl drs) (LPhoton (l_dir ph) (l_pos ph) (l_pol ph) (l_energy ph) (Some 0)) eq_refl) as (ph' & H & A & B & E & Z).
      exists ph'. split; [exact H|]. split; [exact A|]. split; [exact B|]. split; [exact E|]. split; [|intros _; exact Z]. intros (k & K & C & _). destruct (MC k K C) as [l L]. discriminate.
Qed.

(** ** two parallel openings *)
Lemma plate_axes m c n e f h w : frame n e f -> plate m c n e f h w -> perpendicular_axes m.
Proof.
  intros (NN & EE & FF & NE & NF & EF) (A & C & X & Y & Z & H & W). unfold perpendicular_axes. rewrite X, Y, Z. split; [exact A|].
  assert (U : forall v k, dot3 v v = 1 -> 0 < k -> scale3 k v <> zero3).
  { intros v k V K E. assert (S : dot3 (scale3 k v) (scale3 k v) = 0) by (rewrite E; vu; ring). rewrite dot3_scale_r, dot3_scale_l, V in S. nra. }
  split; [intros E; rewrite E in NN; vu; lra|]. split; [now apply U|]. split; [now apply U|]. rewrite !dot3_scale_r, dot3_scale_l. rewrite NE, NF, EF. repeat split; ring.
Qed.
Lemma decomposed n e f d : frame n e f -> add3 (scale3 (dot3 d n) n) (add3 (scale3 (dot3 d e) e) (scale3 (dot3 d f) f)) = d.
Proof.
  intros F. assert (O : orthonormal (M3 n e f)) by exact F. pose proof (orthonormal_rows _ O) as RR. assert (E : app3 (M3 n e f) (app3 (trans3 (M3 n e f)) d) = d) by (rewrite <- app3_mul, RR; apply app3_id).
  rewrite <- E at 4. clear. destruct n as [n1 n2 n3], e as [e1 e2 e3], f as [f1 f2 f3], d as [d1 d2 d3]. unfold app3, trans3, dot3, add3, scale3. cbn. f_equal; ring.
Qed.
Lemma collimator m1 m2 c n e f h1 w1 h2 w2 L d : frame n e f -> plate m1 c n e f h1 w1 -> plate m2 (add3 c (scale3 L n)) n e f h2 w2 -> 0 < L -> 0 < dot3 d n ->
  ((exists x, in_turn [m1; m2] x d 0) <-> L * Rabs (dot3 d e) <= (h1 + h2) * dot3 d n /\ L * Rabs (dot3 d f) <= (w1 + w2) * dot3 d n).
Proof.
  intros F P1 P2 HL DN. pose proof (plate_axes _ _ _ _ _ _ _ F P1) as A1. pose proof (plate_axes _ _ _ _ _ _ _ F P2) as A2.
  destruct P1 as (_ & C1 & X1 & Y1 & Z1 & H1 & W1). destruct P2 as (_ & C2 & X2 & Y2 & Z2 & H2 & W2). destruct F as (NN & EE & FF & NE & NF & EF). split.
  - intros (x & k1 & _ & (_ & a1 & b1 & R1a & R1b & R1) & k2 & K & (_ & a2 & b2 & R2a & R2b & R2) & _).
    rewrite C1, Y1, Z1 in R1. rewrite C2, Y2, Z2 in R2.
    assert (E : forall v, (k2 - k1) * dot3 d v = L * dot3 n v + (a2 * h2 - a1 * h1) * dot3 e v + (b2 * w2 - b1 * w1) * dot3 f v).
    { intros v. transitivity (dot3 (add3 x (scale3 k2 d)) v - dot3 (add3 x (scale3 k1 d)) v); [clear; vring|]. rewrite R1, R2. clear. vring. }
    pose proof (E n) as En. pose proof (E e) as Ee. pose proof (E f) as Ef.
    assert (S : forall u v : v3, dot3 u v = dot3 v u) by (intros; vu; ring). rewrite (S e n), (S f n), NN, NE, NF in En. rewrite (S f e), EE, NE, EF in Ee. rewrite FF, NF, EF in Ef. ring_simplify in En. ring_simplify in Ee. ring_simplify in Ef.
    assert (G : forall t u h h' a a', 0 < h -> 0 < h' -> -1 <= a <= 1 -> -1 <= a' <= 1 -> (k2 - k1) * t = a' * h' - a * h -> u = Rabs t -> L * u <= (h + h') * dot3 d n).
    { intros t u h h' a a' Hh Hh' Ha Ha' Q ->. assert (KP : 0 < k2 - k1) by nra. assert (B : Rabs ((k2 - k1) * t) <= h + h') by (rewrite Q; apply Rabs_le; split; nra). rewrite Rabs_mult, (Rabs_right (k2 - k1)) in B by lra.
      replace L with ((k2 - k1) * dot3 d n) by lra. nra. }
    split; [apply (G (dot3 d e) _ h1 h2 a1 a2); try assumption; try reflexivity; lra|apply (G (dot3 d f) _ w1 w2 b1 b2); try assumption; try reflexivity; lra].
  - intros [BE BF]. set (k := L / dot3 d n). assert (KP : 0 < k) by (apply Rdiv_lt_0_compat; assumption).
    assert (KD : k * dot3 d n = L) by (unfold k; field; lra).
    assert (BD : forall t h h', 0 < h -> 0 < h' -> L * Rabs t <= (h + h') * dot3 d n -> - (h + h') <= k * t <= h + h').
    { intros t h h' Hh Hh' B. assert (B' : Rabs (k * t) <= h + h'). { rewrite Rabs_mult, (Rabs_right k) by lra. apply (Rmult_le_reg_r (dot3 d n)); [exact DN|]. replace (k * Rabs t * dot3 d n) with (L * Rabs t) by (rewrite <- KD; ring). exact B. } split; [|pose proof (Rle_abs (k * t)); lra]. pose proof (Rle_abs (- (k * t))) as V. rewrite Rabs_Ropp in V. lra. }
    pose proof (BD _ _ _ H1 H2 BE) as VE. pose proof (BD _ _ _ W1 W2 BF) as VF. set (te := k * dot3 d e) in *. set (tf := k * dot3 d f) in *.
    assert (FR : forall t h h', 0 < h -> 0 < h' -> - (h + h') <= t <= h + h' -> -1 <= - t / (h + h') <= 1 /\ -1 <= t / (h + h') <= 1).
    { intros t h h' Hh Hh' V. assert (S : t / (h + h') * (h + h') = t) by (field; lra). assert (S' : - t / (h + h') = - (t / (h + h'))) by (field; lra). rewrite S'. set (r := t / (h + h')) in *. clearbody r. split; split; nra. }
    destruct (FR te h1 h2 H1 H2 VE) as [E1 E2]. destruct (FR tf w1 w2 W1 W2 VF) as [F1 F2].
    set (x := add3 c (add3 (scale3 (- te / (h1 + h2)) (scale3 h1 e)) (scale3 (- tf / (w1 + w2)) (scale3 w1 f)))).
    exists x. cbn [in_turn]. exists 0. split; [lra|]. split.
    + split; [rewrite X1; lra|]. exists (- te / (h1 + h2)), (- tf / (w1 + w2)). split; [exact E1|]. split; [exact F1|]. rewrite C1, Y1, Z1. fold x. clearbody x. clear. destruct x as [a b c']. destruct d as [u v w]. unfold add3, scale3. cbn. f_equal; ring.
    + exists k. split; [lra|]. split; [|exact I]. split; [rewrite X2; lra|]. exists (te / (h1 + h2)), (tf / (w1 + w2)). split; [exact E2|]. split; [exact F2|]. rewrite C2, Y2, Z2.
      rewrite <- (decomposed n e f d) at 1 by (repeat split; assumption). unfold x.
      replace (scale3 k (add3 (scale3 (dot3 d n) n) (add3 (scale3 (dot3 d e) e) (scale3 (dot3 d f) f)))) with (add3 (scale3 L n) (add3 (scale3 te e) (scale3 tf f))) by (unfold te, tf; rewrite <- KD; generalize (dot3 d n) (dot3 d e) (dot3 d f); clear; intros; destruct n as [n1 n2 n3], e as [e1 e2 e3], f as [f1 f2 f3]; unfold add3, scale3; cbn; f_equal; ring).
      assert (QE : te = te / (h1 + h2) * (h1 + h2)) by (field; lra). assert (QF : tf = tf / (w1 + w2) * (w1 + w2)) by (field; lra). replace (- te / (h1 + h2)) with (- (te / (h1 + h2))) by (field; lra). replace (- tf / (w1 + w2)) with (- (tf / (w1 + w2))) by (field; lra).
      set (re := te / (h1 + h2)) in *. set (rf := tf / (w1 + w2)) in *. rewrite QE, QF. generalize re rf. clear. intros re rf. destruct c as [c1 c2 c3], n as [n1 n2 n3], e as [e1 e2 e3], f as [f1 f2 f3]. unfold add3, scale3. cbn. f_equal; ring.
Qed.

(** ** in the beam of a lens *)
Lemma lens_beam m f refl rn dr ph ph1 d q loc : perpendicular_axes m -> Instrument_Model.meets m ph = Some (d, q, loc) -> dot3 d d = 1 -> one (PLens m 0 f refl rn) dr ph = Ok ph1 ->
  let F := add3 (xyz (center m)) (scale3 f d) in q <> F -> exists out, l_dir ph1 = Some out /\ l_pos ph1 = Some q /\ 0 < norm3 (sub3 F q) /\ add3 q (scale3 (norm3 (sub3 F q)) out) = F.
Proof.
  intros P M U H F NE. cbn [one surface geometry] in H. rewrite M in H. cbn [effect] in H. destruct (axis_point m 0 P) as (a & A & AE).
  assert (D0 : d <> zero3) by now apply unit_ne.
  assert (FP : focuspoint m 0 f d = Some F).
  { replace F with (add3 (sub3 (xyz (center m)) (scale3 (0 / norm3 (xyz (v_z m))) (xyz (v_z m)))) (scale3 f d)) by (unfold F, Rdiv; rewrite Rmult_0_l; generalize (xyz (center m)) (xyz (v_z m)); clear; intros; vring). rewrite <- AE. apply focus_point; [exact A|now apply unit3_of_unit]. }
  pose proof (lens_total m 0 f (refl (l_energy ph)) d q P D0) as T. destruct (perfect_lens m 0 f (refl (l_energy ph)) d q) as [[out pr]|] eqn:L.
  - destruct (lens_out _ _ _ _ _ _ _ _ L) as (F' & FP' & N & _ & E). assert (F' = F) as -> by congruence. cbn [bind snd] in H. destruct (bad_factor (Some pr)); [discriminate|]. cbn [bent fst snd] in H.
    assert (SI : forall x y : lphoton, Ok x = Ok y -> x = y) by congruence. apply SI in H. subst ph1. exists out. cbn [l_dir l_pos]. split; [reflexivity|]. split; [reflexivity|]. split; [|exact E].
    apply norm3_pos. intros Z. apply NE. clear - Z. destruct F as [a1 a2 a3], q as [q1 q2 q3]. unfold sub3, zero3 in Z. cbn in Z. injection Z as Z1 Z2 Z3. f_equal; lra.
  - exfalso. assert (X : exists out p, @None (v3 * R) = Some (out, p)) by (apply T; congruence). destruct X as (? & ? & X). discriminate.
Qed.
Lemma small a h n : 0 < n -> 0 < h -> (Rabs (a * n) <= h * n <-> -1 <= a / h <= 1).
Proof.
  intros N H. assert (S : a / h * h = a) by (field; lra). rewrite Rabs_mult, (Rabs_right n) by lra. split.
  - intros B. assert (B' : Rabs a <= h) by (apply (Rmult_le_reg_r n); assumption). pose proof (Rle_abs a). pose proof (Rle_abs (- a)) as V. rewrite Rabs_Ropp in V. set (r := a / h) in *. clearbody r. split; nra.
  - intros B. apply Rmult_le_compat_r; [lra|]. apply Rabs_le. set (r := a / h) in *. clearbody r. split; nra.
Qed.
Lemma stopped m md f s refl rn dr ph ph1 d q loc : perpendicular_axes m -> perpendicular_axes md -> parallel_to m md -> dot3 d d = 1 -> 0 < f -> 0 <= s -> xyz (center md) = add3 (xyz (center m)) (scale3 s d) ->
  Instrument_Model.meets m ph = Some (d, q, loc) -> one (PLens m 0 f refl rn) dr ph = Ok ph1 ->
  ((exists r, Instrument_Model.meets md ph1 = Some r) <-> Rabs ((1 - s / f) * fst loc) <= norm3 (xyz (v_y md)) /\ Rabs ((1 - s / f) * snd loc) <= norm3 (xyz (v_z md))).
Proof.
  intros P PD (j & ky & kz & J & KY & KZ & VX & VY & VZ) U HF HS C M H.
  destruct (proj1 (meets_iff m ph d q loc P) M) as (_ & N & _ & _ & a & b & _ & _ & _ & R & ->). pose proof (rect_plane m a b q P R) as HQ.
  set (F := add3 (xyz (center m)) (scale3 f d)).
  assert (HFQ : dot3 (sub3 F q) (xyz (v_x m)) = f * dot3 d (xyz (v_x m))).
  { transitivity (f * dot3 d (xyz (v_x m)) - dot3 (sub3 q (xyz (center m))) (xyz (v_x m))); [unfold F; generalize (xyz (center m)) (xyz (v_x m)); clear; intros; vring|]. rewrite HQ. ring. }
  assert (NE : q <> F). { intros E. assert (Z : dot3 (sub3 F q) (xyz (v_x m)) = 0) by (rewrite E; generalize (xyz (v_x m)) F; clear; intros; vring). rewrite HFQ in Z. apply Rmult_integral in Z. destruct Z; [lra|contradiction]. }
  destruct (lens_beam m f refl rn dr ph ph1 d q _ P M U H NE) as (out & D1 & X1 & NP & E). fold F in NP, E. set (nn := norm3 (sub3 F q)) in *.
  assert (OX : nn * dot3 out (xyz (v_x m)) = f * dot3 d (xyz (v_x m))). { rewrite <- HFQ. rewrite <- E at 1. generalize (xyz (v_x m)). generalize nn. clear. intros nn v. vring. }
  destruct R as (_ & _ & RQ). destruct P as (_ & X0 & Y0 & Z0 & XY & XZ & YZ). pose proof (norm3_pos _ Y0) as NY. pose proof (norm3_pos _ Z0) as NZ.
  assert (NYD : norm3 (xyz (v_y md)) = ky * norm3 (xyz (v_y m))) by (rewrite VY, norm3_scale, Rabs_right by lra; reflexivity). assert (NZD : norm3 (xyz (v_z md)) = kz * norm3 (xyz (v_z m))) by (rewrite VZ, norm3_scale, Rabs_right by lra; reflexivity).
  rewrite NYD, NZD. cbn [fst snd].
  replace ((1 - s / f) * (a * norm3 (xyz (v_y m)))) with ((1 - s / f) * a * norm3 (xyz (v_y m))) by ring. replace ((1 - s / f) * (b * norm3 (xyz (v_z m)))) with ((1 - s / f) * b * norm3 (xyz (v_z m))) by ring.
  rewrite (small ((1 - s / f) * a) ky _ NY KY), (small ((1 - s / f) * b) kz _ NZ KZ).
  assert (PT : add3 q (scale3 (s / f * nn) out) = add3 (xyz (center md)) (add3 (scale3 ((1 - s / f) * a) (xyz (v_y m))) (scale3 ((1 - s / f) * b) (xyz (v_z m))))).
  { transitivity (add3 (scale3 (s / f) (add3 q (scale3 nn out))) (scale3 (1 - s / f) q)); [generalize (s / f); clear; intros; vring|]. rewrite E, C, RQ. unfold F. assert (SF : s = s / f * f) by (field; lra). rewrite SF at 3. generalize (s / f) (xyz (center m)) (xyz (v_y m)) (xyz (v_z m)). clear. intros t c y z. vring. }
  split.
  - intros [[[d2 q2] loc2] M2]. destruct (proj1 (meets_iff md ph1 d2 q2 loc2 PD) M2) as (D2 & _ & x2 & k & a' & b' & X2 & K & Q2 & R' & _). assert (d2 = out) as -> by congruence. assert (x2 = q) as -> by congruence.
    pose proof (rect_plane md a' b' q2 PD R') as HQ2. rewrite VX, dot3_scale_r in HQ2. apply Rmult_integral in HQ2. destruct HQ2 as [HQ2|HQ2]; [contradiction|].
    assert (KK : k = s / f * nn).
    { rewrite Q2, C in HQ2. assert (Z : k * dot3 out (xyz (v_x m)) = s * dot3 d (xyz (v_x m))).
      { transitivity (dot3 (sub3 (add3 q (scale3 k out)) (add3 (xyz (center m)) (scale3 s d))) (xyz (v_x m)) - dot3 (sub3 q (xyz (center m))) (xyz (v_x m)) + s * dot3 d (xyz (v_x m))); [generalize (xyz (center m)) (xyz (v_x m)); clear; intros; vring|]. rewrite HQ2, HQ. ring. }
      assert (ON : dot3 out (xyz (v_x m)) <> 0) by (intros Z'; rewrite Z', Rmult_0_r in OX; symmetry in OX; apply Rmult_integral in OX; destruct OX; [lra|contradiction]).
      apply (Rmult_eq_reg_r (dot3 out (xyz (v_x m)))); [|exact ON]. rewrite Z. replace (s / f * nn * dot3 out (xyz (v_x m))) with (s / f * (nn * dot3 out (xyz (v_x m)))) by ring. rewrite OX. field. lra. }
    destruct R' as (Ra & Rb & RQ'). rewrite Q2, KK, PT, VY, VZ in RQ'.
    assert (G : forall v, dot3 (add3 (scale3 ((1 - s / f) * a) (xyz (v_y m))) (scale3 ((1 - s / f) * b) (xyz (v_z m)))) v = dot3 (add3 (scale3 a' (scale3 ky (xyz (v_y m)))) (scale3 b' (scale3 kz (xyz (v_z m))))) v).
    { intros v. apply (f_equal (fun p => dot3 (sub3 p (xyz (center md))) v)) in RQ'. revert RQ'. generalize ((1 - s / f) * a) ((1 - s / f) * b) (xyz (center md)) (xyz (v_y m)) (xyz (v_z m)). clear. intros p r c y z E. transitivity (dot3 (sub3 (add3 c (add3 (scale3 p y) (scale3 r z))) c) v); [vring|]. rewrite E. vring. }
    assert (YY : 0 < dot3 (xyz (v_y m)) (xyz (v_y m))). { pose proof (norm3_pos _ Y0) as V. unfold norm3 in V. destruct (Rle_lt_or_eq_dec 0 _ (dot3_nonneg (xyz (v_y m)))) as [V'|V']; [exact V'|]. rewrite <- V', sqrt_0 in V. lra. }
    assert (ZZ : 0 < dot3 (xyz (v_z m)) (xyz (v_z m))). { pose proof (norm3_pos _ Z0) as V. unfold norm3 in V. destruct (Rle_lt_or_eq_dec 0 _ (dot3_nonneg (xyz (v_z m)))) as [V'|V']; [exact V'|]. rewrite <- V', sqrt_0 in V. lra. }
    assert (GY : (1 - s / f) * a = a' * ky).
    { pose proof (G (xyz (v_y m))) as W. apply (Rmult_eq_reg_r (dot3 (xyz (v_y m)) (xyz (v_y m)))); [|lra]. revert W YZ. generalize ((1 - s / f) * a) ((1 - s / f) * b) (xyz (v_y m)) (xyz (v_z m)). clear. intros p r y z W O.
      transitivity (dot3 (add3 (scale3 p y) (scale3 r z)) y - r * dot3 y z); [vring|]. rewrite W. transitivity (a' * ky * dot3 y y + (b' * kz - r) * dot3 y z); [vring|]. rewrite O. ring. }
    assert (GZ : (1 - s / f) * b = b' * kz).
    { pose proof (G (xyz (v_z m))) as W. apply (Rmult_eq_reg_r (dot3 (xyz (v_z m)) (xyz (v_z m)))); [|lra]. revert W YZ. generalize ((1 - s / f) * a) ((1 - s / f) * b) (xyz (v_y m)) (xyz (v_z m)). clear. intros p r y z W O.
      transitivity (dot3 (add3 (scale3 p y) (scale3 r z)) z - p * dot3 y z); [vring|]. rewrite W. transitivity (b' * kz * dot3 z z + (a' * ky - p) * dot3 y z); [vring|]. rewrite O. ring. }
    rewrite GY, GZ. replace (a' * ky / ky) with a' by (field; lra). replace (b' * kz / kz) with b' by (field; lra). now split.
  - intros [BA BB]. eexists (out, add3 q (scale3 (s / f * nn) out), _). apply (meets_iff md ph1 out _ _ PD). split; [exact D1|]. split.
    { rewrite VX, dot3_scale_r. intros Z. apply Rmult_integral in Z. destruct Z as [Z|Z]; [contradiction|]. rewrite Z, Rmult_0_r in OX. symmetry in OX. apply Rmult_integral in OX. destruct OX; [lra|contradiction]. }
    exists q, (s / f * nn), ((1 - s / f) * a / ky), ((1 - s / f) * b / kz). split; [exact X1|]. split; [apply Rmult_le_pos; [apply Rle_mult_inv_pos; assumption|lra]|]. split; [reflexivity|]. split; [|reflexivity].
    split; [exact BA|]. split; [exact BB|]. rewrite PT, VY, VZ. apply (f_equal (add3 (xyz (center md)))).
    assert (S1 : (1 - s / f) * a = (1 - s / f) * a / ky * ky) by (field; lra). assert (S2 : (1 - s / f) * b = (1 - s / f) * b / kz * kz) by (field; lra). rewrite S1 at 1. rewrite S2 at 1. generalize ((1 - s / f) * a / ky) ((1 - s / f) * b / kz) (xyz (v_y m)) (xyz (v_z m)). clear. intros. vring.
Qed.
