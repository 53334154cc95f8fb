(** Proofs about Eff_Model. *)
From Verif Require Import Sampling_Props Mission_Proofs Rmf_Proofs2.
From Verif Require Analysis_Proofs2.
From Verif Require Export Analysis_Proofs Eff_Model.
Open Scope R_scope.

Lemma ascb_cons x y r : ascb (x :: y :: r) = true <-> x < y /\ ascb (y :: r) = true.
Proof. cbn [ascb]. rewrite andb_true_iff, Rltb_true. reflexivity. Qed.
Lemma ascb_head x r : ascb (x :: r) = true -> forall y, In y r -> x < y.
Proof. revert x. induction r as [|a r IH]; intros x A y I; [destruct I|]. apply ascb_cons in A. destruct A as [A B]. destruct I as [<-|I]; [exact A|]. specialize (IH a B y I). lra. Qed.
(** the value at [x] is a blend of the values at two neighbours, in the same way for all values *)
Lemma seg_blend xs : forall x0 x1 x, ascb (x0 :: x1 :: xs) = true -> x0 <= x -> exists i t, (S i < 2 + length xs)%nat /\ 0 <= t <= 1 /\
  Rmin (last (x1 :: xs) 0) x = (1 - t) * nth i (x0 :: x1 :: xs) 0 + t * nth (S i) (x0 :: x1 :: xs) 0 /\
  forall y0 ys, length ys = S (length xs) -> interp_seg x x0 y0 (combine (x1 :: xs) ys) = (1 - t) * nth i (y0 :: ys) 0 + t * nth (S i) (y0 :: ys) 0.
Proof.
  induction xs as [|x2 xs IH]; intros x0 x1 x A X; pose proof A as A0; apply ascb_cons in A; destruct A as [A B].
  - destruct (Rlt_dec x x1) as [L|L].
    + exists 0%nat, ((x - x0) / (x1 - x0)). split; [cbn; lia|]. split; [|split].
      * split; [apply Rmult_le_pos; [lra|]; apply Rlt_le, Rinv_0_lt_compat; lra|]. apply Rmult_le_reg_r with (x1 - x0); [lra|]. unfold Rdiv. rewrite Rmult_assoc, Rinv_l by lra. lra.
      * cbn [last nth]. rewrite Rmin_right by lra. field. lra.
      * intros y0 [|y1 [|? ?]] H; try discriminate. cbn. rewrite (proj2 (Rltb_true x x1)) by exact L. field. lra.
    + exists 0%nat, 1. split; [cbn; lia|]. split; [lra|]. split; [cbn [last nth]; rewrite Rmin_left by lra; lra|].
      intros y0 [|y1 [|? ?]] H; try discriminate. cbn. rewrite (proj2 (Rltb_false x x1)) by lra. lra.
  - destruct (Rlt_dec x x1) as [L|L].
    + exists 0%nat, ((x - x0) / (x1 - x0)). split; [cbn; lia|]. split; [|split].
      * split; [apply Rmult_le_pos; [lra|]; apply Rlt_le, Rinv_0_lt_compat; lra|]. apply Rmult_le_reg_r with (x1 - x0); [lra|]. unfold Rdiv. rewrite Rmult_assoc, Rinv_l by lra. lra.
      * rewrite Rmin_right; [cbn [nth]; field; lra|]. pose proof (ascb_head _ _ B (last (x1 :: x2 :: xs) 0)) as H. assert (In (last (x1 :: x2 :: xs) 0) (x2 :: xs)).
        { change (In (last (x2 :: xs) 0) (x2 :: xs)). destruct (exists_last (l := x2 :: xs) ltac:(discriminate)) as (l & a & E). rewrite E, last_last. apply in_or_app. right. now left. }
        specialize (H H0). lra.
      * intros y0 [|y1 ys] H; try discriminate. cbn [combine interp_seg nth]. rewrite (proj2 (Rltb_true x x1)) by exact L. field. lra.
    + destruct (IH x1 x2 x B ltac:(lra)) as (i & t & I & T & E & F). exists (S i), t. split; [cbn in *; lia|]. split; [exact T|]. split; [exact E|].
      intros y0 [|y1 ys] H; try discriminate. cbn [combine interp_seg]. rewrite (proj2 (Rltb_false x x1)) by lra. injection H as H. exact (F y1 ys H).
Qed.
Lemma interp_blend xs x : ascb xs = true -> (2 <= length xs)%nat -> exists i t, (S i < length xs)%nat /\ 0 <= t <= 1 /\
  clamp (hd 0 xs) (last xs 0) x = (1 - t) * nth i xs 0 + t * nth (S i) xs 0 /\
  forall ys, length ys = length xs -> interp (combine xs ys) x = Ok ((1 - t) * nth i ys 0 + t * nth (S i) ys 0).
Proof.
  destruct xs as [|x0 [|x1 xs]]; cbn [length]; try lia. intros A _.
  assert (LL : x0 < last (x0 :: x1 :: xs) 0).
  { apply (ascb_head _ _ A). change (last (x0 :: x1 :: xs) 0) with (last (x1 :: xs) 0). destruct (exists_last (l := x1 :: xs) ltac:(discriminate)) as (l & a & E). rewrite E, last_last. apply in_or_app. right. now left. }
  destruct (Rlt_dec x x0) as [L|L].
  - exists 0%nat, 0. split; [lia|]. split; [lra|]. split.
    + unfold clamp. cbn [hd nth]. rewrite Rmin_right by lra. rewrite Rmax_left by lra. lra.
    + intros [|y0 ys] H; [discriminate|]. cbn [combine interp nth]. rewrite (proj2 (Rltb_true x x0)) by exact L. f_equal. lra.
  - destruct (seg_blend xs x0 x1 x A ltac:(lra)) as (i & t & I & T & E & F). exists i, t. split; [exact I|]. split; [exact T|]. split.
    + unfold clamp. cbn [hd]. rewrite Rmax_right; [exact E|]. change (last (x0 :: x1 :: xs) 0) with (last (x1 :: xs) 0) in *. apply Rmin_glb; lra.
    + intros [|y0 ys] H; [discriminate|]. cbn [combine interp]. rewrite (proj2 (Rltb_false x x0)) by lra. f_equal. apply F. now injection H.
Qed.
(** ** both directions *)
Definition blend2 (i j : nat) (s t : R) (z : nat -> nat -> R) : R := (1 - s) * ((1 - t) * z i j + t * z i (S j)) + s * ((1 - t) * z (S i) j + t * z (S i) (S j)).
Lemma bilinear_blend xs ys x y : ascb xs = true -> ascb ys = true -> (2 <= length xs)%nat -> (2 <= length ys)%nat -> exists i j s t, (S i < length xs)%nat /\ (S j < length ys)%nat /\ 0 <= s <= 1 /\ 0 <= t <= 1 /\
  clamp (hd 0 xs) (last xs 0) x = (1 - s) * nth i xs 0 + s * nth (S i) xs 0 /\ clamp (hd 0 ys) (last ys 0) y = (1 - t) * nth j ys 0 + t * nth (S j) ys 0 /\
  forall z, length z = length xs -> (forall row, In row z -> length row = length ys) -> bilinear xs ys z x y = Ok (blend2 i j s t (fun a b => nth b (nth a z []) 0)).
Proof.
  intros A B N M. destruct (interp_blend xs x A N) as (i & s & I & Hs & Cx & Fx). destruct (interp_blend ys y B M) as (j & t & J & T & Cy & Fy).
  exists i, j, s, t. repeat (split; [assumption|]). intros z LZ LR. unfold bilinear.
  rewrite (seq_ok (fun row => interp (combine ys row) y) (fun row => (1 - t) * nth j row 0 + t * nth (S j) row 0)) by (intros row H; apply Fy, LR, H). cbn [bind].
  rewrite Fx by (rewrite map_length; exact LZ). unfold blend2. do 2 f_equal; f_equal.
  - rewrite (nth_indep _ 0 ((fun row => (1 - t) * nth j row 0 + t * nth (S j) row 0) [])) by (rewrite map_length; lia). apply (map_nth (fun row => (1 - t) * nth j row 0 + t * nth (S j) row 0)).
  - rewrite (nth_indep _ 0 ((fun row => (1 - t) * nth j row 0 + t * nth (S j) row 0) [])) by (rewrite map_length; lia). apply (map_nth (fun row => (1 - t) * nth j row 0 + t * nth (S j) row 0)).
Qed.
(** ** the table *)
Lemma eff_init_spec deg wave theta orders data f : eff_init deg wave theta orders data = Ok f -> data <> [] ->
  exists xs ys out, tablerows_to_2d wave theta data = Ok (xs, ys, out) /\ f = Eff xs (map (fun t => t * deg) ys) orders out /\ ascb xs = true /\ ascb (map (fun t => t * deg) ys) = true /\ (2 <= length xs)%nat /\ (2 <= length ys)%nat.
Proof.
  unfold eff_init. destruct (tablerows_to_2d wave theta data) as [[[xs ys] out]|e] eqn:E; cbn [bind]; [|discriminate]. intros H N. exists xs, ys, out. split; [reflexivity|].
  destruct out as [|o out].
  - exfalso. destruct (table_spec _ _ _ _ _ _ E) as (_ & _ & _ & _ & _ & D & _). destruct data as [|c data]; [congruence|]. destruct (D 0%nat c eq_refl) as (o & O & _). discriminate.
  - destruct (ascb xs && _ && _ && _)%bool eqn:B in H; [|discriminate]. rewrite !andb_true_iff, !Nat.leb_le in B. rewrite map_length in B. destruct B as [[[B1 B2] B3] B4]. injection H as <-. repeat split; assumption.
Qed.
Lemma table_shape x y data xo yo out : tablerows_to_2d x y data = Ok (xo, yo, out) -> length out = length data /\ forall z, In z out -> length z = length xo /\ forall row, In row z -> length row = length yo.
Proof.
  unfold tablerows_to_2d. destruct (negb _); [discriminate|]. destruct (Nat.eqb _ 0); [discriminate|]. destruct (forallb _ _); [|discriminate]. intros H. injection H as <- <- <-. rewrite !map_length. split; [reflexivity|].
  intros z I. apply in_map_iff in I. destruct I as (c & <- & _). rewrite !map_length. split; [reflexivity|]. intros row I. apply in_map_iff in I. destruct I as (i & <- & _). rewrite !map_length. reflexivity.
Qed.
Lemma eff_blend hc deg wave theta orders data f e blaze : eff_init deg wave theta orders data = Ok f -> data <> [] -> let ny := length (distinct theta) in
  exists i j s t, (S i < length (f_wave f))%nat /\ (S j < ny)%nat /\ 0 <= s <= 1 /\ 0 <= t <= 1 /\ length wave = (length (f_wave f) * ny)%nat /\ length (f_theta f) = ny /\
  clamp (hd 0 (f_wave f)) (last (f_wave f) 0) (hc / e) = (1 - s) * nth (i * ny) wave 0 + s * nth (S i * ny) wave 0 /\
  clamp (hd 0 (f_theta f)) (last (f_theta f) 0) blaze = (1 - t) * (nth j theta 0 * deg) + t * (nth (S j) theta 0 * deg) /\
  eff_probabilities hc f e blaze = Ok (map (fun c => blend2 i j s t (fun a b => nth (a * ny + b) c 0)) data).
Proof.
  intros H N ny. destruct (eff_init_spec _ _ _ _ _ _ H N) as (xs & ys & out & T & -> & A & B & LX & LY). cbn [f_wave f_theta f_data eff_probabilities].
  destruct (table_spec _ _ _ _ _ _ T) as (L & L1 & L2 & _ & _ & D & EX & EY). fold ny in L, L2, D, EX, EY. destruct (table_shape _ _ _ _ _ _ T) as (LO & SH).
  destruct (bilinear_blend xs (map (fun t => t * deg) ys) (hc / e) blaze A B LX ltac:(rewrite map_length; exact LY)) as (i & j & s & t & I & J & Hs & Ht & Cx & Cy & F). rewrite map_length in J, F.
  exists i, j, s, t. split; [exact I|]. split; [lia|]. split; [exact Hs|]. split; [exact Ht|]. split; [lia|]. split; [rewrite map_length; exact L2|]. split; [|split].
  - rewrite Cx. assert (NX : forall k, (k < length xs)%nat -> nth k xs 0 = nth (k * ny) wave 0).
    { intros k K. rewrite EX. rewrite (nth_indep _ 0 ((fun i => nth (i * ny) wave 0) 0%nat)) by (rewrite map_length, seq_length; lia). rewrite (map_nth (fun i => nth (i * ny) wave 0)), seq_nth by lia. reflexivity. }
    rewrite !NX by lia. reflexivity.
  - rewrite Cy. assert (NX : forall k, (k < length ys)%nat -> nth k (map (fun t => t * deg) ys) 0 = nth k theta 0 * deg).
    { intros k K. rewrite (nth_indep _ 0 ((fun t => t * deg) 0)) by (rewrite map_length; lia). rewrite (map_nth (fun t => t * deg)). f_equal. rewrite EY. rewrite (nth_indep _ 0 ((fun j => nth j theta 0) 0%nat)) by (rewrite map_length, seq_length; lia).
      rewrite (map_nth (fun j => nth j theta 0)), seq_nth by lia. reflexivity. }
    rewrite !NX by lia. reflexivity.
  - unfold eff_probabilities. cbn [f_data f_wave f_theta]. rewrite (seq_ok _ (fun z => blend2 i j s t (fun a b => nth b (nth a z []) 0))).
    + f_equal. apply nth_error_ext. intros k. rewrite !nth_error_map. destruct (nth_error data k) as [c|] eqn:K.
      * destruct (D k c K) as (o & O & V). rewrite O. cbn. f_equal. unfold blend2. rewrite !V by lia. reflexivity.
      * apply nth_error_None in K. rewrite <- LO in K. apply nth_error_None in K. rewrite K. reflexivity.
    + intros z Z. destruct (SH z Z) as (Z1 & Z2). apply F; [exact Z1|exact Z2].
Qed.
Lemma table_row_len data r : length (table_row data r) = length data. Proof. apply map_length. Qed.
Lemma blend_total i j s t ny data : Rsum (map (fun c => blend2 i j s t (fun a b => nth (a * ny + b) c 0)) data) = blend2 i j s t (fun a b => Rsum (table_row data (a * ny + b))).
Proof. unfold blend2, table_row. induction data as [|c data IH]; [cbn; lra|]. cbn [map]. rewrite !Rsum_cons, IH. lra. Qed.
Lemma blend2_bounds i j s t z lo hi : 0 <= s <= 1 -> 0 <= t <= 1 -> lo <= z i j <= hi -> lo <= z i (S j) <= hi -> lo <= z (S i) j <= hi -> lo <= z (S i) (S j) <= hi -> lo <= blend2 i j s t z <= hi.
Proof.
  intros Hs Ht A B C D. unfold blend2. assert (P : forall a b u, 0 <= u <= 1 -> lo <= a <= hi -> lo <= b <= hi -> lo <= (1 - u) * a + u * b <= hi) by (intros; nra). apply P; [exact Hs| |]; apply P; assumption.
Qed.
Lemma row_index (i j nx ny : nat) : (i < nx)%nat -> (j < ny)%nat -> (i * ny + j < nx * ny)%nat. Proof. nia. Qed.
Lemma eff_between hc deg wave theta orders data f e blaze lo hi : eff_init deg wave theta orders data = Ok f -> data <> [] ->
  (forall c r, In c data -> (r < length wave)%nat -> lo <= nth r c 0 <= hi) -> exists p, eff_probabilities hc f e blaze = Ok p /\ length p = length data /\ Forall (fun x => lo <= x <= hi) p.
Proof.
  intros H N B. destruct (eff_blend hc _ _ _ _ _ _ e blaze H N) as (i & j & s & t & I & J & Hs & Ht & L & L2 & _ & _ & P). rewrite P. eexists. split; [reflexivity|]. split; [apply map_length|].
  apply Forall_forall. intros x X. apply in_map_iff in X. destruct X as (c & <- & C). apply blend2_bounds; try assumption; apply B; try assumption; rewrite L; apply row_index; lia.
Qed.
Lemma eff_total hc deg wave theta orders data f e blaze lo hi : eff_init deg wave theta orders data = Ok f -> data <> [] ->
  (forall r, (r < length wave)%nat -> lo <= Rsum (table_row data r) <= hi) -> exists p, eff_probabilities hc f e blaze = Ok p /\ lo <= Rsum p <= hi.
Proof.
  intros H N B. destruct (eff_blend hc _ _ _ _ _ _ e blaze H N) as (i & j & s & t & I & J & Hs & Ht & L & L2 & _ & _ & P). rewrite P. eexists. split; [reflexivity|]. rewrite blend_total.
  apply blend2_bounds; try assumption; apply B; rewrite L; apply row_index; lia.
Qed.
(** ** at the values in the table *)
Lemma asc_combine xs : forall ys : list R, ascb xs = true -> ascP (combine xs ys).
Proof.
  induction xs as [|x xs IH]; intros ys A; [exact I|]. destruct ys as [|y ys]; [destruct xs; exact I|]. cbn [combine]. destruct xs as [|x1 xs]; [destruct ys; exact I|]. apply ascb_cons in A. destruct A as [A B].
  destruct ys as [|y1 ys]; [exact I|]. split; [exact A|]. exact (IH (y1 :: ys) B).
Qed.
Lemma in_combine_nth (xs ys : list R) i : length ys = length xs -> (i < length xs)%nat -> In (nth i xs 0, nth i ys 0) (combine xs ys).
Proof. intros L I. rewrite <- combine_nth by lia. apply nth_In. rewrite combine_length. lia. Qed.
Lemma bilinear_node xs ys z i j : ascb xs = true -> ascb ys = true -> length z = length xs -> (forall row, In row z -> length row = length ys) -> (i < length xs)%nat -> (j < length ys)%nat ->
  bilinear xs ys z (nth i xs 0) (nth j ys 0) = Ok (nth j (nth i z []) 0).
Proof.
  intros A B L LR I J. unfold bilinear. rewrite (seq_ok _ (fun row => nth j row 0)).
  - cbn [bind]. apply interp_node; [now apply asc_combine|].
    replace (nth j (nth i z []) 0) with (nth i (map (fun row => nth j row 0) z) 0); [apply in_combine_nth; [rewrite map_length; exact L|exact I]|].
    rewrite (nth_indep _ 0 ((fun row => nth j row 0) [])) by (rewrite map_length; lia). apply (map_nth (fun row => nth j row 0)).
  - intros row R'. apply interp_node; [now apply asc_combine|]. apply in_combine_nth; [now apply LR|exact J].
Qed.
Lemma eff_node hc deg wave theta orders data f e r : eff_init deg wave theta orders data = Ok f -> length theta = length wave ->
  (forall a b, In a wave -> In b wave -> close a b = true -> a = b) -> (forall a b, In a theta -> In b theta -> close a b = true -> a = b) ->
  (r < length wave)%nat -> hc / e = nth r wave 0 -> eff_probabilities hc f e (nth r theta 0 * deg) = Ok (table_row data r).
Proof.
  intros H LT SX SY LR E. assert (D : data = [] \/ data <> []) by (destruct data; [now left|right; discriminate]). destruct D as [->|N].
  { unfold eff_init in H. destruct (tablerows_to_2d wave theta []) as [[[xs ys] out]|er] eqn:T; [|discriminate]. destruct (table_shape _ _ _ _ _ _ T) as (LO & _). destruct out; [|discriminate]. cbn in H. injection H as <-. reflexivity. }
  destruct (eff_init_spec _ _ _ _ _ _ H N) as (xs & ys & out & T & -> & A & B & LX & LY). unfold eff_probabilities. cbn [f_wave f_theta f_data]. rewrite E.
  destruct (table_shape _ _ _ _ _ _ T) as (LO & SH).
  assert (IJ : exists i j, (i < length xs)%nat /\ (j < length ys)%nat /\ nth i xs 0 = nth r wave 0 /\ nth j ys 0 = nth r theta 0 /\ forall k c, nth_error data k = Some c -> exists o, nth_error out k = Some o /\ nth j (nth i o []) 0 = nth r c 0).
  { destruct data as [|c0 data0]; [congruence|]. destruct (table_rows _ _ _ _ _ _ T LT SX SY r 0%nat c0 LR eq_refl) as (i & j & o & I & J & O & V1 & V2 & V3). exists i, j. repeat (split; [assumption|]). intros k c K.
    destruct (table_rows _ _ _ _ _ _ T LT SX SY r k c LR K) as (i' & j' & o' & I' & J' & O' & W1 & W2 & W3). destruct (table_unique _ _ _ _ _ _ T LT SX SY) as [N1 N2].
    assert (i' = i) by (apply (proj1 (NoDup_nth xs 0) N1); [assumption|assumption|congruence]). assert (j' = j) by (apply (proj1 (NoDup_nth ys 0) N2); [assumption|assumption|congruence]). subst i' j'. exists o'. split; assumption. }
  destruct IJ as (i & j & I & J & V1 & V2 & V3). rewrite <- V1, <- V2.
  assert (TH : nth j ys 0 * deg = nth j (map (fun t => t * deg) ys) 0).
  { rewrite (nth_indep (map _ ys) 0 ((fun t => t * deg) 0)) by (rewrite map_length; exact J). now rewrite (map_nth (fun t => t * deg)). }
  rewrite TH. rewrite (seq_ok _ (fun z => nth j (nth i z []) 0)).
  - f_equal. apply nth_error_ext. intros k. unfold table_row. rewrite !nth_error_map. destruct (nth_error data k) as [c|] eqn:K.
    + destruct (V3 k c K) as (o & O & V). rewrite O. cbn. now rewrite V.
    + apply nth_error_None in K. rewrite <- LO in K. apply nth_error_None in K. rewrite K. reflexivity.
  - intros z Z. destruct (SH z Z) as [Z1 Z2]. apply bilinear_node; try assumption; [intros row R'; rewrite map_length; now apply Z2|rewrite map_length; exact J].
Qed.
(** ** outside of the table *)
Lemma clamp_idem lo hi x : lo <= hi -> clamp lo hi (clamp lo hi x) = clamp lo hi x.
Proof. intros H. unfold clamp, Rmax, Rmin. repeat destruct (Rle_dec _ _); lra. Qed.
Lemma seg_unclamp r : forall x0 y0 x, ascP ((x0, y0) :: r) -> x0 <= x -> interp_seg x x0 y0 r = interp_seg (Rmin (fst (last ((x0, y0) :: r) (0, 0))) x) x0 y0 r.
Proof.
  induction r as [|[x1 y1] r IH]; intros x0 y0 x A X; [reflexivity|]. destruct A as [A B]. cbn [fst] in A. cbn [interp_seg].
  assert (LX : x1 <= fst (last ((x1, y1) :: r) (0, 0))).
  { apply (asc_le_head r x1 y1 _ B). destruct (exists_last (l := (x1, y1) :: r) ltac:(discriminate)) as (l & a & E). rewrite E, last_last. apply in_or_app. right. now left. }
  change (last ((x0, y0) :: (x1, y1) :: r) (0, 0)) with (last ((x1, y1) :: r) (0, 0)).
  destruct (Rltb x x1) eqn:L.
  - apply Rltb_true in L. rewrite Rmin_right by lra. rewrite (proj2 (Rltb_true x x1)) by exact L. reflexivity.
  - apply Rltb_false in L. rewrite (proj2 (Rltb_false _ x1)) by (apply Rmin_glb; lra). rewrite (IH x1 y1 x B ltac:(lra)). reflexivity.
Qed.
Lemma interp_clamp xs ys x : ascb xs = true -> xs <> [] -> length ys = length xs -> interp (combine xs ys) x = interp (combine xs ys) (clamp (hd 0 xs) (last xs 0) x).
Proof.
  intros A N L. destruct xs as [|x0 xs]; [congruence|]. destruct ys as [|y0 ys]; [discriminate|]. pose proof (asc_combine _ (y0 :: ys) A) as AP. cbn [combine interp hd] in *. f_equal.
  assert (LS : fst (last ((x0, y0) :: combine xs ys) (0, 0)) = last (x0 :: xs) 0).
  { assert (G : forall a b, length b = length a -> fst (last (combine a b) (0, 0)) = last a 0).
    { clear. induction a as [|p a IH]; intros b L; [reflexivity|]. destruct b as [|q b]; [discriminate|]. injection L as L. destruct a as [|p1 a]; [destruct b; [reflexivity|discriminate]|]. destruct b as [|q1 b]; [discriminate|]. exact (IH (q1 :: b) L). }
    exact (G (x0 :: xs) (y0 :: ys) L). }
  assert (HL : x0 <= last (x0 :: xs) 0).
  { rewrite <- LS. apply (asc_le_head _ x0 y0 _ AP). destruct (exists_last (l := (x0, y0) :: combine xs ys) ltac:(discriminate)) as (l & a & E). rewrite E, last_last. apply in_or_app. right. now left. }
  unfold clamp. destruct (Rltb x x0) eqn:E.
  - apply Rltb_true in E. rewrite Rmin_right by lra. rewrite Rmax_left by lra. rewrite (proj2 (Rltb_false x0 x0)) by lra. destruct xs as [|x1 xs]; [reflexivity|]. destruct ys as [|y1 ys]; [discriminate|]. destruct AP as [AP _]. cbn in AP. cbn. rewrite (proj2 (Rltb_true x0 x1)) by exact AP. rewrite Rminus_diag_eq with (r1 := x0) (r2 := x0) by reflexivity. lra.
  - apply Rltb_false in E. rewrite Rmax_right by (apply Rmin_glb; lra). rewrite (proj2 (Rltb_false _ x0)) by (apply Rmin_glb; lra). rewrite <- LS. apply seg_unclamp; [exact AP|lra].
Qed.
Lemma eff_outside hc deg wave theta orders data f e e' blaze : eff_init deg wave theta orders data = Ok f -> data <> [] -> hc / e' = clamp (hd 0 (f_wave f)) (last (f_wave f) 0) (hc / e) ->
  eff_probabilities hc f e blaze = eff_probabilities hc f e' (clamp (hd 0 (f_theta f)) (last (f_theta f) 0) blaze).
Proof.
  intros H N E. destruct (eff_init_spec _ _ _ _ _ _ H N) as (xs & ys & out & T & -> & A & B & LX & LY). cbn [f_wave f_theta] in *. unfold eff_probabilities. cbn [f_wave f_theta f_data]. rewrite E. f_equal.
  destruct (table_shape _ _ _ _ _ _ T) as (LO & SH). apply map_ext_in. intros z Z. destruct (SH z Z) as [Z1 Z2]. unfold bilinear.
  set (yd := map (fun t => t * deg) ys) in *. assert (LYD : length yd = length ys) by apply map_length.
  assert (Q : sequence (map (fun row => interp (combine yd row) blaze) z) = sequence (map (fun row => interp (combine yd row) (clamp (hd 0 yd) (last yd 0) blaze)) z)).
  { f_equal. apply map_ext_in. intros row R'. apply interp_clamp; [exact B|intros Q0; rewrite Q0 in LYD; cbn in LYD; lia|rewrite LYD; now apply Z2]. }
  rewrite Q. clear Q. destruct (sequence _) as [v|er] eqn:Sq; [|reflexivity]. cbn [bind]. apply interp_clamp; [exact A|intros Q0; rewrite Q0 in LX; cbn in LX; lia|]. apply Analysis_Proofs2.sequence_length in Sq. rewrite Sq, map_length. exact Z1.
Qed.
(** ** tables that are refused *)
Lemma eff_unsorted deg wave theta orders data xs ys out : tablerows_to_2d wave theta data = Ok (xs, ys, out) -> data <> [] -> (exists i, (S i < length xs)%nat /\ nth (S i) xs 0 <= nth i xs 0) \/ (exists j, (S j < length ys)%nat /\ nth (S j) ys 0 * deg <= nth j ys 0 * deg) ->
  eff_init deg wave theta orders data = Err ValueError.
Proof.
  intros T N H. unfold eff_init. rewrite T. cbn [bind]. destruct (table_shape _ _ _ _ _ _ T) as (LO & _). destruct out as [|o out]; [destruct data; [congruence|discriminate]|].
  assert (G : forall l i, (S i < length l)%nat -> nth (S i) l 0 <= nth i l 0 -> ascb l = false).
  { induction l as [|a l IH]; intros i I Q; [cbn in I; lia|]. destruct l as [|b l]; [cbn in I; lia|]. change (ascb (a :: b :: l)) with (Rltb a b && ascb (b :: l))%bool. destruct i as [|i]; [cbn in Q; rewrite (proj2 (Rltb_false a b)) by lra; reflexivity|]. rewrite (IH i); [apply andb_false_r|cbn in *; lia|exact Q]. }
  destruct H as [(i & I & Q)|(j & J & Q)].
  - rewrite (G xs i I Q). reflexivity.
  - assert (E : ascb (map (fun t => t * deg) ys) = false).
    { apply (G _ j); [rewrite map_length; exact J|]. rewrite !(nth_indep (map _ ys) 0 ((fun t => t * deg) 0)) by (rewrite map_length; lia). rewrite !(map_nth (fun t => t * deg)). exact Q. }
    rewrite E, andb_false_r. reflexivity.
Qed.
(** ** an example: two wavelengths and two angles *)
Lemma reqb_refl x : Reqb x x = true. Proof. now apply Reqb_true. Qed.
Definition ex_eff : efftab := Eff [1; 2] [0; 1] [0; 1]%Z [[[1 / 10; 2 / 10]; [3 / 10; 4 / 10]]; [[5 / 10; 4 / 10]; [3 / 10; 2 / 10]]].
Lemma ex_eff_init : eff_init 1 [1; 1; 2; 2] [0; 1; 0; 1] [0; 1]%Z [[1 / 10; 2 / 10; 3 / 10; 4 / 10]; [5 / 10; 4 / 10; 3 / 10; 2 / 10]] = Ok ex_eff.
Proof.
  assert (D1 : distinct [1; 1; 2; 2] = [1; 2]).
  { cbn [distinct existsb]. rewrite !reqb_refl. cbn [orb]. rewrite (proj2 (Reqb_false 1 2)) by lra. cbn [orb]. reflexivity. }
  assert (D2 : distinct [0; 1; 0; 1] = [0; 1]).
  { cbn [distinct existsb]. rewrite !reqb_refl, (proj2 (Reqb_false 0 1)), (proj2 (Reqb_false 1 0)) by lra. cbn [orb]. reflexivity. }
  assert (C : forall a, allclose (1 / 100000) (1 / 100000000) a a = true).
  { intros a. unfold allclose. apply Rleb_true. rewrite Rminus_diag_eq by reflexivity. rewrite Rabs_R0. pose proof (Rabs_pos a). lra. }
  unfold eff_init, tablerows_to_2d. rewrite D1, D2. cbn [length Nat.eqb Nat.mul Nat.add negb seq forallb nth map]. rewrite !C. cbn [andb bind map ascb length Nat.leb].
  rewrite (proj2 (Rltb_true 1 2)), (proj2 (Rltb_true (0 * 1) (1 * 1))) by lra. cbn [andb]. unfold ex_eff. rewrite Rmult_0_l, Rmult_1_l. reflexivity.
Qed.
(** ** L1 *)
Lemma l1_sum : Rsum l1_p = 1. Proof. unfold Rsum, l1_p. cbn [fold_right]. lra. Qed.
Lemma l1_nonneg : Sampling_Model.nonneg l1_p. Proof. intros v I. cbn [l1_p In] in I. repeat (destruct I as [<-|I]; [lra|]). destruct I. Qed.
Lemma l1_init : orders_init l1_orders (Some l1_p) = Ok l1_p.
Proof.
  unfold orders_init. cbn [length Nat.eqb l1_p l1_orders negb]. fold l1_p. rewrite l1_sum, (proj2 (Rltb_false 1 1)) by lra. 
  assert (E : existsb (fun v => Rltb v 0) l1_p = false). { apply not_true_is_false. intros H. apply existsb_exists in H. destruct H as (x & I & H). apply Rltb_true in H. pose proof (l1_nonneg x I). lra. }
  rewrite E. reflexivity.
Qed.
