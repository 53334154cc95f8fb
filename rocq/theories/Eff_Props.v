(** Properties C196 and C197: tables of grating efficiencies and the first support structure. *)
From Verif Require Import Sampling_Props Mission_Proofs Eff_Proofs.
Open Scope R_scope.

(** C196: between the rows of the table probabilities are a blend of the four rows around; all orders use the same weights. [ny]: number of angles in the table. *)
Theorem C196_blend : forall hc deg wave theta orders data f e blaze, eff_init deg wave theta orders data = Ok f -> data <> [] -> let ny := length (distinct theta) in
  exists i j s t, (S i < length (f_wave f))%nat /\ (S j < ny)%nat /\ 0 <= s <= 1 /\ 0 <= t <= 1 /\ length wave = (length (f_wave f) * ny)%nat /\ length (f_theta f) = ny /\
  clamp (hd 0 (f_wave f)) (last (f_wave f) 0) (hc / e) = (1 - s) * nth (i * ny) wave 0 + s * nth (S i * ny) wave 0 /\
  clamp (hd 0 (f_theta f)) (last (f_theta f) 0) blaze = (1 - t) * (nth j theta 0 * deg) + t * (nth (S j) theta 0 * deg) /\
  eff_probabilities hc f e blaze = Ok (map (fun c => (1 - s) * ((1 - t) * nth (i * ny + j) c 0 + t * nth (i * ny + S j) c 0) + s * ((1 - t) * nth (S i * ny + j) c 0 + t * nth (S i * ny + S j) c 0)) data).
Proof. exact eff_blend. Qed.
Print Assumptions C196_blend.
(** A photon with wavelength and angle of a row in the table has the probabilities of this row. *)
Theorem C196_node : forall hc deg wave theta orders data f e r, eff_init deg wave theta orders data = Ok f -> length theta = length wave ->
  (forall a b, In a wave -> In b wave -> close a b = true -> a = b) -> (forall a b, In a theta -> In b theta -> close a b = true -> a = b) ->
  (r < length wave)%nat -> hc / e = nth r wave 0 -> eff_probabilities hc f e (nth r theta 0 * deg) = Ok (map (fun c => nth r c 0) data).
Proof. exact eff_node. Qed.
Print Assumptions C196_node.
(** No probability leaves the range of the table. *)
Theorem C196_between : forall hc deg wave theta orders data f e blaze lo hi, eff_init deg wave theta orders data = Ok f -> data <> [] ->
  (forall c r, In c data -> (r < length wave)%nat -> lo <= nth r c 0 <= hi) -> exists p, eff_probabilities hc f e blaze = Ok p /\ length p = length data /\ Forall (fun x => lo <= x <= hi) p.
Proof. exact eff_between. Qed.
Print Assumptions C196_between.
(** If orders in each row sum up to 1 at most, so do they between the rows. *)
Theorem C196_total : forall hc deg wave theta orders data f e blaze lo hi, eff_init deg wave theta orders data = Ok f -> data <> [] ->
  (forall r, (r < length wave)%nat -> lo <= Rsum (map (fun c => nth r c 0) data) <= hi) -> exists p, eff_probabilities hc f e blaze = Ok p /\ lo <= Rsum p <= hi.
Proof. exact eff_total. Qed.
Print Assumptions C196_total.
(** Outside of the table the values at the edge are used, no error and no warning. *)
Theorem C196_outside : forall hc deg wave theta orders data f e e' blaze, eff_init deg wave theta orders data = Ok f -> data <> [] -> hc / e' = clamp (hd 0 (f_wave f)) (last (f_wave f) 0) (hc / e) ->
  eff_probabilities hc f e blaze = eff_probabilities hc f e' (clamp (hd 0 (f_theta f)) (last (f_theta f) 0) blaze).
Proof. exact eff_outside. Qed.
Print Assumptions C196_outside.
(** A photon gets one of the orders and its probability is multiplied with the total. *)
Theorem C196_call : forall hc deg wave theta orders data f e blaze u, eff_init deg wave theta orders data = Ok f -> data <> [] -> length orders = length data -> 0 <= u < 1 ->
  (forall c r, In c data -> (r < length wave)%nat -> 0 <= nth r c 0) -> (forall r, (r < length wave)%nat -> Rsum (map (fun c => nth r c 0) data) <= 1) ->
  exists o total p, eff_call hc f e blaze u = Ok (o, total) /\ eff_probabilities hc f e blaze = Ok p /\ total = Rsum p /\ 0 <= total <= 1 /\ In o orders /\
  (0 < total -> exists j, nth_error orders j = Some o /\ 0 < nth j p 0 /\ psum p j <= u * total < psum p j + nth j p 0).
Proof.
  intros hc deg wave theta orders data f e blaze u H N L U P T.
  assert (OF : f_orders f = orders). { destruct (eff_init_spec _ _ _ _ _ _ H N) as (xs & ys & out & _ & -> & _). reflexivity. }
  destruct (eff_blend hc _ _ _ _ _ _ e blaze H N) as (i & j & s & t & I & J & Hs & Ht & LW & L2 & _ & _ & E).
  assert (NN : forall r, (r < length wave)%nat -> 0 <= Rsum (table_row data r)).
  { intros r R'. apply Rsum_ge0. apply Forall_forall. intros x X. apply in_map_iff in X. destruct X as (c & <- & C). now apply P. }
  destruct (eff_total hc _ _ _ _ _ _ e blaze 0 1 H N (fun r R' => conj (NN r R') (T r R'))) as (p & Ep & B).
  assert (LP : length p = length data) by (rewrite E in Ep; injection Ep as <-; apply map_length).
  assert (PP : Sampling_Model.nonneg p).
  { intros v V. rewrite E in Ep. injection Ep as <-. apply in_map_iff in V. destruct V as (c & <- & C). unfold blend2.
    assert (Q : forall a b, (a <= S i)%nat -> (b <= S j)%nat -> 0 <= nth (a * length (distinct theta) + b) c 0) by (intros; apply P; [exact C|]; rewrite LW; apply row_index; lia).
    assert (M : forall a b v, 0 <= v <= 1 -> 0 <= a -> 0 <= b -> 0 <= (1 - v) * a + v * b) by (intros; nra). apply M; [exact Hs| |]; apply M; try assumption; apply Q; lia. }
  assert (NE : orders <> []) by (destruct orders; [destruct data; [congruence|discriminate]|discriminate]).
  destruct (C32_table _ orders p u ltac:(congruence) PP U NE) as [A B0]. unfold eff_call. rewrite Ep, OF. cbn [bind].
  destruct (Rle_lt_or_eq_dec 0 (Rsum p) (proj1 B)) as [Z|Z].
  - destruct (A Z) as (o & k & C & O & Pk & Iv). exists o, (Rsum p), p. split; [exact C|]. repeat (split; [reflexivity|]). split; [exact B|]. split; [eapply nth_error_In; exact O|].
    intros _. exists k. split; [exact O|]. split; [exact Pk|]. destruct Iv as [I1 I2]. split.
    + apply Rmult_le_compat_r with (r := Rsum p) in I1; [|lra]. unfold Rdiv in I1. rewrite Rmult_assoc, Rinv_l in I1 by lra. lra.
    + rewrite <- Rdiv_plus_distr in I2. apply Rmult_lt_compat_r with (r := Rsum p) in I2; [|lra]. unfold Rdiv in I2. rewrite Rmult_assoc, Rinv_l in I2 by lra. lra.
  - destruct (B0 (eq_sym Z)) as (o & C). exists o, 0, p. split; [exact C|]. split; [reflexivity|]. split; [exact Z|]. split; [lra|]. split; [|intros; lra].
    unfold interp_call in C. destruct (nth_error orders _) eqn:O in C; [|discriminate]. injection C as -> _. eapply nth_error_In; exact O.
Qed.
Print Assumptions C196_call.
(** A table with wavelengths or angles that do not increase is refused, although the table itself is fine. *)
Theorem C196_unsorted : forall deg wave theta orders data xs ys out, tablerows_to_2d wave theta data = Ok (xs, ys, out) -> data <> [] ->
  (exists i, (S i < length xs)%nat /\ nth (S i) xs 0 <= nth i xs 0) \/ (exists j, (S j < length ys)%nat /\ nth (S j) ys 0 * deg <= nth j ys 0 * deg) -> eff_init deg wave theta orders data = Err ValueError.
Proof. exact eff_unsorted. Qed.
Print Assumptions C196_unsorted.
(** Two wavelengths, two angles, two orders: in the middle all four rows have the same weight. *)
Example C196_ex : let wave := [1; 1; 2; 2] in let theta := [0; 1; 0; 1] in let data := [[1 / 10; 2 / 10; 3 / 10; 4 / 10]; [5 / 10; 4 / 10; 3 / 10; 2 / 10]] in
  eff_init 1 wave theta [0; 1]%Z data = Ok ex_eff /\ eff_probabilities (3 / 2) ex_eff 1 (1 / 2) = Ok [25 / 100; 35 / 100] /\
  (forall c r, In c data -> (r < length wave)%nat -> 0 <= nth r c 0) /\ (forall r, (r < length wave)%nat -> Rsum (map (fun c => nth r c 0) data) <= 1).
Proof.
  cbv zeta. split; [exact ex_eff_init|]. split.
  - unfold eff_probabilities, bilinear, ex_eff. cbn [f_data f_wave f_theta map combine interp sequence bind interp_seg].
    rewrite !(proj2 (Rltb_false (1 / 2) 0)), !(proj2 (Rltb_true (1 / 2) 1)) by lra. cbn [sequence bind combine interp interp_seg].
    rewrite !(proj2 (Rltb_false (3 / 2 / 1) 1)), !(proj2 (Rltb_true (3 / 2 / 1) 2)) by lra. cbn [sequence bind]. f_equal. f_equal; [lra|]. f_equal. lra.
  - split.
    + intros c r [<-|[<-|[]]] L; cbn in L; do 4 (destruct r as [|r]; [cbn; lra|]); lia.
    + intros r L. cbn in L. do 4 (destruct r as [|r]; [cbn; lra|]). lia.
Qed.

(** C197: the selector for the first support structure is accepted, no photon is lost and both signs of an order are equally likely *)
Theorem C197_accepted : orders_init l1_orders (Some l1_p) = Ok l1_p /\ NoDup l1_orders.
Proof. split; [exact l1_init|]. unfold l1_orders. repeat constructor; cbn; intuition discriminate. Qed.
Print Assumptions C197_accepted.
Theorem C197_draw : forall u, 0 <= u < 1 -> exists o j, orders_call l1_orders l1_p u = Ok (o, 1) /\ nth_error l1_orders j = Some o /\ psum l1_p j <= u < psum l1_p j + nth j l1_p 0.
Proof.
  intros u U. destruct (C32_selector Z l1_orders l1_p u eq_refl l1_nonneg ltac:(rewrite l1_sum; lra) U) as (o & j & C & J & P & _). rewrite l1_sum in C. exists o, j. split; [exact C|]. split; [exact J|].
  assert (ND : NoDup l1_orders) by apply C197_accepted.
  pose proof (proj1 (C32_selector_interval Z l1_orders l1_p u j o eq_refl l1_nonneg ltac:(rewrite l1_sum; lra) U ND J)) as Q. rewrite l1_sum in Q. specialize (Q C). lra.
Qed.
Print Assumptions C197_draw.
Theorem C197_signs : forall i j o, nth_error l1_orders i = Some o -> nth_error l1_orders j = Some (- o)%Z -> nth i l1_p 0 = nth j l1_p 0.
Proof.
  intros i j o Hi Hj. do 9 (destruct i as [|i]; [injection Hi as <-; do 9 (destruct j as [|j]; [cbn in Hj; first [discriminate Hj|reflexivity]|]); destruct j; discriminate Hj|]). destruct i; discriminate Hi.
Qed.
Print Assumptions C197_signs.
(** Higher orders are less likely; most photons are not diffracted. *)
Theorem C197_decrease : forall i j o o', nth_error l1_orders i = Some o -> nth_error l1_orders j = Some o' -> (Z.abs o < Z.abs o')%Z -> nth j l1_p 0 < nth i l1_p 0.
Proof.
  intros i j o o' Hi Hj L. do 9 (destruct i as [|i]; [injection Hi as <-; do 9 (destruct j as [|j]; [cbn in Hj; injection Hj as <-; first [exfalso; cbn in L; lia|cbn; lra]|]); destruct j; discriminate Hj|]). destruct i; discriminate Hi.
Qed.
Print Assumptions C197_decrease.
Example C197_ex : orders_call l1_orders l1_p (1 / 2) = Ok (0%Z, 1).
Proof.
  pose proof (proj2 (C32_selector_interval Z l1_orders l1_p (1 / 2) 4 0%Z eq_refl l1_nonneg ltac:(rewrite l1_sum; lra) ltac:(lra) (proj2 C197_accepted) eq_refl)) as Q. rewrite l1_sum in Q. apply Q. cbn. lra.
Qed.
