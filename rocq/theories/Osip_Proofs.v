(** Proofs about Osip_Model. *)
From Coq Require Import Permutation DecimalString DecimalZ Ascii.
From Verif Require Export Rmf_Proofs2 Osip_Model.
Open Scope R_scope.

(** ** sums over orders *)
Lemma sign_ratio : forall m n, m <> 0%Z -> n <> 0%Z -> Z.sgn n = Z.sgn m -> 0 < IZR (Z.abs m) /\ 0 < IZR (Z.abs n) /\ IZR n / IZR m = IZR (Z.abs n) / IZR (Z.abs m).
Proof.
  intros m n M N S. split; [apply IZR_lt; lia|]. split; [apply IZR_lt; lia|].
  destruct (Z_lt_le_dec m 0) as [L|L].
  - rewrite (Z.abs_neq m), (Z.abs_neq n) by (destruct n; cbn in S; destruct m; cbn in S; lia). rewrite !opp_IZR. assert (IZR m <> 0) by (now apply not_0_IZR). field. lra.
  - rewrite (Z.abs_eq m), (Z.abs_eq n) by (destruct n; cbn in S; destruct m; cbn in S; lia). reflexivity.
Qed.
Definition window (f e0 : R) (k : Z) : R * R := (e0 * (IZR k - f / 2), e0 * (IZR k + f / 2)).
Lemma fractional_window : forall f e m n, m <> 0%Z -> same_side m n -> let e0 := e / IZR (Z.abs m) in
  base_range (fractional_tab f) (e / IZR m * IZR n) n = window f e0 (Z.abs n) /\ e / IZR m * IZR n * (IZR m / IZR n) = e.
Proof.
  intros f e m n M [N S] e0. destruct (sign_ratio m n M N S) as (PM & PN & E).
  assert (M' : IZR m <> 0) by (now apply not_0_IZR). assert (N' : IZR n <> 0) by (now apply not_0_IZR).
  assert (X : e / IZR m * IZR n = e0 * IZR (Z.abs n)).
  { replace (e / IZR m * IZR n) with (e * (IZR n / IZR m)) by (field; exact M'). rewrite E. unfold e0. field. lra. }
  split; [|field; split; assumption]. unfold base_range, fractional_tab, window. cbn [fst snd]. rewrite X. f_equal; field; lra.
Qed.
Lemma arf_factor_fractional : forall f cdf e m n, m <> 0%Z -> same_side m n -> let e0 := e / IZR (Z.abs m) in
  arf_factor (base_range (fractional_tab f)) cdf e m n = Ok (cdf (e0 * (IZR (Z.abs n) + f / 2)) e - cdf (e0 * (IZR (Z.abs n) - f / 2)) e).
Proof.
  intros f cdf e m n M SS e0. destruct (fractional_window f e m n M SS) as [W T]. destruct SS as [N S]. unfold arf_factor, osip_factor. rewrite S, Z.eqb_refl. cbn [negb].
  destruct (Z.eqb_spec n 0); [congruence|]. rewrite W, T. reflexivity.
Qed.
Definition term (cdf : R -> R) (f e0 : R) (k : Z) : R := cdf (e0 * (IZR k + f / 2)) - cdf (e0 * (IZR k - f / 2)).
(** strictly ascending integers *)
Fixpoint asc (l : list Z) : Prop := match l with x :: (y :: _) as r => (x < y)%Z /\ asc r | _ => True end.
Lemma sum_bound : forall (cdf : R -> R) f e0, (forall x y, x <= y -> cdf x <= cdf y) -> (forall x, 0 <= cdf x <= 1) -> 0 <= f <= 1 -> 0 < e0 ->
  forall l k, asc (k :: l) -> 0 <= Rsum (map (term cdf f e0) (k :: l)) <= 1 - cdf (e0 * (IZR k - f / 2)).
Proof.
  intros cdf f e0 MO BO F E. induction l as [|y l IH]; intros k A.
  - cbn. unfold term. assert (X := BO (e0 * (IZR k + f / 2))). assert (Y := BO (e0 * (IZR k - f / 2))). assert (cdf (e0 * (IZR k - f / 2)) <= cdf (e0 * (IZR k + f / 2))) by (apply MO; nra). lra.
  - destruct A as [A1 A2]. specialize (IH y A2). set (s := map (term cdf f e0) (y :: l)) in *. change (map (term cdf f e0) (k :: y :: l)) with (term cdf f e0 k :: s). cbn [Rsum fold_right].
    fold (Rsum s). unfold term at 1 2.
    assert (cdf (e0 * (IZR k - f / 2)) <= cdf (e0 * (IZR k + f / 2))) by (apply MO; nra).
    assert (cdf (e0 * (IZR k + f / 2)) <= cdf (e0 * (IZR y - f / 2))). { apply MO. apply Rmult_le_compat_l; [lra|]. assert (IZR k + 1 <= IZR y) by (rewrite <- plus_IZR; apply IZR_le; lia). lra. }
    lra.
Qed.
Fixpoint insZ (x : Z) (l : list Z) : list Z := match l with [] => [x] | y :: r => if (x <? y)%Z then x :: l else y :: insZ x r end.
Definition sortZ (l : list Z) : list Z := fold_right insZ [] l.
Lemma insZ_perm : forall x l, Permutation (insZ x l) (x :: l).
Proof. induction l as [|y l IH]; [reflexivity|]. cbn. destruct (x <? y)%Z; [reflexivity|]. rewrite IH. apply perm_swap. Qed.
Lemma sortZ_perm : forall l, Permutation (sortZ l) l.
Proof. induction l as [|x l IH]; [reflexivity|]. cbn. rewrite insZ_perm. now constructor. Qed.
Definition lt_head (x : Z) (l : list Z) : Prop := match l with [] => True | y :: _ => (x < y)%Z end.
Lemma asc_cons : forall x l, asc (x :: l) <-> lt_head x l /\ asc l.
Proof. intros x [|y l]; cbn; intuition. Qed.
Lemma insZ_asc : forall x l, asc l -> ~ In x l -> asc (insZ x l) /\ forall y, (y < x)%Z -> lt_head y l -> lt_head y (insZ x l).
Proof.
  induction l as [|z l IH]; intros A N; [cbn; auto|]. cbn [insZ]. destruct (Z.ltb_spec x z) as [E|E].
  - split; [apply asc_cons; split; [exact E|exact A]|]. intros; assumption.
  - apply asc_cons in A. destruct A as [A1 A2]. destruct (IH A2) as [B1 B2]; [intros I; apply N; now right|]. split; [|intros; assumption]. apply asc_cons. split; [|exact B1].
    apply B2; [|exact A1]. assert (x <> z) by (intros ->; apply N; now left). lia.
Qed.
Lemma sortZ_asc : forall l, NoDup l -> asc (sortZ l).
Proof.
  induction 1 as [|x l N D IH]; [exact I|]. cbn [sortZ fold_right]. apply insZ_asc; [exact IH|]. intros I. apply N. eapply Permutation_in; [apply sortZ_perm|exact I].
Qed.
Lemma Rsum_perm : forall a b, Permutation a b -> Rsum a = Rsum b.
Proof. induction 1; cbn [Rsum fold_right] in *; unfold Rsum in *; try lra. Qed.
Lemma sum_bound_nodup : forall (cdf : R -> R) f e0, (forall x y, x <= y -> cdf x <= cdf y) -> (forall x, 0 <= cdf x <= 1) -> 0 <= f <= 1 -> 0 < e0 ->
  forall l, NoDup l -> 0 <= Rsum (map (term cdf f e0) l) <= 1.
Proof.
  intros cdf f e0 MO BO F E l N. rewrite (Rsum_perm _ (map (term cdf f e0) (sortZ l))) by (apply Permutation_map, Permutation_sym, sortZ_perm).
  assert (A := sortZ_asc l N). destruct (sortZ l) as [|k r]; [cbn; lra|]. assert (X := sum_bound cdf f e0 MO BO F E r k A). assert (Y := BO (e0 * (IZR k - f / 2))). lra.
Qed.
Lemma NoDup_abs : forall m l, NoDup l -> Forall (same_side m) l -> NoDup (map Z.abs l).
Proof.
  intros m l N F. induction N as [|x l NI N IH]; cbn; [constructor|]. inversion F as [|y z F1 F2]; subst. constructor; [|now apply IH].
  intros I. apply in_map_iff in I. destruct I as (w & E & W). apply NI. replace x with w; [exact W|]. rewrite Forall_forall in F2. destruct (F2 w W) as [A B], F1 as [C D].
  destruct w, x, m; cbn in *; try lia; congruence.
Qed.
(** consecutive windows of full width *)
Lemma telescope : forall (cdf : R -> R) e0 n k, Rsum (map (fun i => term cdf 1 e0 (k + Z.of_nat i)) (seq 0 n)) = cdf (e0 * (IZR k + INR n - 1 / 2)) - cdf (e0 * (IZR k - 1 / 2)).
Proof.
  intros cdf e0. induction n as [|n IH]; intros k.
  - cbn. rewrite Rplus_0_r. lra.
  - rewrite seq_S, map_app. unfold Rsum. rewrite fold_right_app. cbn [map fold_right]. rewrite Rplus_0_r.
    assert (X : forall l a, fold_right Rplus a l = fold_right Rplus 0 l + a). { induction l as [|x l IHl]; intros a; cbn; [lra|]. rewrite IHl. lra. }
    rewrite X. fold (Rsum (map (fun i => term cdf 1 e0 (k + Z.of_nat i)) (seq 0 n))). rewrite IH. unfold term. rewrite plus_IZR. cbn [Nat.add].
    rewrite <- INR_IZR_INZ. rewrite S_INR. replace (IZR k + (INR n + 1) - 1 / 2) with (IZR k + INR n + 1 / 2) by lra. replace (IZR k + INR n - 1 / 2) with (IZR k + INR n - 1 / 2) by lra. lra.
Qed.

(** ** apply_osip *)
Lemma num_div_mul : forall x y, y <> 0 -> num_div (num_mul (Some y) x) (Some y) = x.
Proof. intros [x|] y N; cbn; [|reflexivity]. destruct (Reqb y 0) eqn:E; [apply Reqb_true in E; congruence|]. f_equal. field. exact N. Qed.
Lemma val2_arr : forall f a l, length (expand (length l) a) = length l -> val2 f a (Array l) = Array (map (fun p => f (fst p) (snd p)) (combine (expand (length l) a) l)).
Proof.
  intros f [x|la] l L; cbn in *; [|reflexivity]. f_equal. clear L. induction l as [|y l IH]; [reflexivity|]. cbn. now rewrite IH.
Qed.
Lemma combine_map_l : forall {A B C} (f : A -> B) (l : list A) (r : list C), combine (map f l) r = map (fun p => (f (fst p), snd p)) (combine l r).
Proof. induction l as [|x l IH]; intros [|y r]; cbn; [reflexivity|reflexivity|reflexivity|]. now rewrite IH. Qed.
Lemma revert : forall fac s, nonzero fac -> length (expand (length s) fac) = length s -> val2 num_div (val2 num_mul fac (Array s)) fac = Array s.
Proof.
  intros [x|l] s N L; cbn in *; f_equal.
  - destruct N as (r & -> & N). rewrite map_map. rewrite <- (map_id s) at 2. apply map_ext. intros y. now apply num_div_mul.
  - revert s L. induction l as [|x l IH]; intros [|y s] L; try discriminate; [reflexivity|]. cbn. inversion N as [|a b N1 N2]; subst. destruct N1 as (r & -> & N1). f_equal; [now apply num_div_mul|].
    apply IH; [exact N2|]. now injection L.
Qed.
Lemma ck_set_same : forall t k v, exists t', v <> Array [] -> ck_set num_eqb t k v = Ok t'.
Proof.
  intros t k [x|[|x l]]; cbn [ck_set].
  - eexists. intros _. reflexivity.
  - exists t. congruence.
  - destruct (all_first num_eqb (x :: l)); eexists; intros _; reflexivity.
Qed.
(** one application to an ARF without earlier factors *)
Lemma ck_get_set : forall t t' k v, ck_set num_eqb t k v = Ok t' -> Rmf_Model.constant num_eqb v = true -> ck_get t' k = Ok (match v with Array (x :: _) => Scalar x | _ => v end).
Proof.
  intros t t' k [x|[|x l]] H C; cbn [ck_set] in H; [|discriminate|].
  - injection H as <-. unfold ck_get. cbn. now rewrite dget_dset_eq.
  - cbn in C, H. rewrite C in H. injection H as <-. unfold ck_get. cbn. now rewrite dget_dset_eq.
Qed.
Lemma ck_get_set_var : forall t t' k v, ck_set num_eqb t k v = Ok t' -> Rmf_Model.constant num_eqb v = false -> dget k (ck_meta t) = None -> ck_get t' k = Ok v /\ dget k (ck_meta t') = None.
Proof.
  intros t t' k v H C M. destruct (ck_set_var num_eqb _ _ _ _ H C) as [M1 (l & -> & G)]. rewrite M in M1. unfold ck_get. rewrite M1, G. auto.
Qed.
Lemma ck_get_other : forall t t' k k' v, ck_set num_eqb t k' v = Ok t' -> k <> k' -> ck_get t' k = ck_get t k.
Proof. intros t t' k k' v H N. destruct (ck_set_other num_eqb t t' k k' v H N) as [A B]. unfold ck_get. now rewrite A, B. Qed.
Lemma val2_nonempty : forall f a s, s <> [] -> length (expand (length s) a) = length s -> val2 f a (Array s) <> Array [].
Proof. intros f [x|[|y l]] [|z s] N L; cbn in *; try congruence; discriminate. Qed.
(** [get]able table with array SPECRESP and no keyword *)
Definition has_area (t : @cktable num) (s : list num) : Prop := ck_get t "SPECRESP" = Ok (Array s) /\ dget "SPECRESP" (ck_meta t) = None.
Lemma apply_fresh : forall t s fac, has_area t s -> ck_get t "OSIPFAC" = Err KeyError -> s <> [] -> length (expand (length s) fac) = length s -> fac <> Array [] ->
  exists t2 t', ck_set num_eqb t "SPECRESP" (val2 num_mul fac (Array s)) = Ok t2 /\ ck_set num_eqb t2 "OSIPFAC" fac = Ok t' /\ apply_osip t fac = Ok t'.
Proof.
  intros t s fac [G M] GO NE L NF. unfold apply_osip. rewrite G. cbn [bind]. rewrite GO. cbn [bind]. rewrite G. cbn [bind].
  destruct (ck_set_same t "SPECRESP" (val2 num_mul fac (Array s))) as [t2 E]. rewrite E by (now apply val2_nonempty). cbn [bind].
  destruct (ck_set_same t2 "OSIPFAC" fac) as [t' E']. exists t2, t'. rewrite E' by exact NF. auto.
Qed.
Lemma area_after : forall n t v t2 fac t', ck_set num_eqb t "SPECRESP" v = Ok t2 -> ck_set num_eqb t2 "OSIPFAC" fac = Ok t' -> dget "SPECRESP" (ck_meta t) = None \/ Rmf_Model.constant num_eqb v = true ->
  area n t' = area n (CK [("SPECRESP", match v with Array (x :: r) => if all_first num_eqb (x :: r) then Scalar x else v | _ => v end)] []).
Proof.
  intros n t v t2 fac t' H1 H2 C. unfold area. rewrite (ck_get_other _ _ "SPECRESP" _ _ H2) by discriminate.
  assert (X : ck_get t2 "SPECRESP" = Ok (match v with Array (x :: r) => if all_first num_eqb (x :: r) then Scalar x else v | _ => v end)); [|rewrite X; reflexivity].
  destruct (Rmf_Model.constant num_eqb v) eqn:CV.
  - rewrite (ck_get_set _ _ _ _ H1 CV). destruct v as [x|[|x l]]; try reflexivity. cbn in CV. cbn. now rewrite CV.
  - destruct C as [C|C]; [|discriminate]. destruct (ck_get_set_var _ _ _ _ H1 CV C) as [-> _]. destruct v as [x|[|x l]]; try reflexivity. cbn in CV. cbn. now rewrite CV.
Qed.
Lemma reapply : forall s fac1 fac2, s <> [] -> Rmf_Model.constant num_eqb (Array s) = false -> nonzero fac1 -> fac1 <> Array [] -> fac2 <> Array [] ->
  length (expand (length s) fac1) = length s -> length (expand (length s) fac2) = length s -> Rmf_Model.constant num_eqb (val2 num_mul fac1 (Array s)) = false ->
  exists once twice direct, apply_osip (plain_arf s) fac1 = Ok once /\ apply_osip once fac2 = Ok twice /\ apply_osip (plain_arf s) fac2 = Ok direct /\
    area (length s) twice = area (length s) direct.
Proof.
  intros s fac1 fac2 NE CS NZ N1 N2 L1 L2 C1. assert (H0 : has_area (plain_arf s) s) by (split; reflexivity).
  destruct (apply_fresh _ s fac1 H0 eq_refl NE L1 N1) as (t2 & once & A1 & A2 & A3).
  destruct (apply_fresh _ s fac2 H0 eq_refl NE L2 N2) as (u2 & direct & B1 & B2 & B3).
  destruct (ck_get_set_var _ _ _ _ A1 C1 (proj2 H0)) as [G2 M2].
  assert (G1 : ck_get once "SPECRESP" = Ok (val2 num_mul fac1 (Array s))) by (rewrite (ck_get_other _ _ "SPECRESP" _ _ A2) by discriminate; exact G2).
  assert (M1 : dget "SPECRESP" (ck_meta once) = None) by (destruct (ck_set_other num_eqb _ _ "SPECRESP" _ _ A2) as [-> _]; [discriminate|exact M2]).
  (* the stored factor *)
  assert (GF : exists v, ck_get once "OSIPFAC" = Ok v /\ val2 num_div (val2 num_mul fac1 (Array s)) v = Array s).
  { destruct (Rmf_Model.constant num_eqb fac1) eqn:CF.
    - rewrite (ck_get_set _ _ _ _ A2 CF). eexists. split; [reflexivity|]. destruct fac1 as [x|[|x l]]; [now apply revert|congruence|].
      assert (EX : forall y, In y l -> y = x).
      { cbn in CF. apply andb_true_iff in CF. destruct CF as [_ CF]. rewrite forallb_forall in CF. intros y I. specialize (CF y I). destruct y, x; cbn in CF; try discriminate. apply Reqb_true in CF. now subst. }
      inversion NZ as [|a b (r & -> & NR) NZ2]; subst. clear - L1 EX NR. cbn [expand] in L1. cbn [val2]. f_equal. rewrite map_map.
      assert (XX : forall y : num, In y (@cons num (Some r) l) -> y = Some r) by (intros y [<-|I]; [reflexivity|now apply EX]). clear EX. revert s L1 XX. generalize (@cons num (Some r) l). clear l.
      induction l as [|x l IH]; intros [|y s] L EX; try discriminate; [reflexivity|]. cbn [combine map fst snd]. rewrite (EX x) by (now left). f_equal; [now apply num_div_mul|].
      apply IH; [now injection L|]. intros; apply EX; now right.
    - assert (MO : dget "OSIPFAC" (ck_meta t2) = None). { destruct (ck_set_other num_eqb _ _ "OSIPFAC" _ _ A1) as [-> _]; [discriminate|reflexivity]. }
      destruct (ck_get_set_var _ _ _ _ A2 CF MO) as [-> _]. eexists. split; [reflexivity|]. now apply revert. }
  destruct GF as (v & GF & RV).
  (* second application *)
  destruct (ck_set_same once "SPECRESP" (Array s)) as [t1 E1]. assert (E1' : ck_set num_eqb once "SPECRESP" (Array s) = Ok t1) by (apply E1; congruence).
  destruct (ck_get_set_var _ _ _ _ E1' CS M1) as [G3 M3].
  destruct (ck_set_same t1 "SPECRESP" (val2 num_mul fac2 (Array s))) as [t3 E3]. assert (E3' := E3 (val2_nonempty _ _ _ NE L2)).
  destruct (ck_set_same t3 "OSIPFAC" fac2) as [twice E4]. assert (E4' := E4 N2).
  exists once, twice, direct. split; [exact A3|]. split; [|split; [exact B3|]].
  - unfold apply_osip. rewrite G1. cbn [bind]. rewrite GF, RV. cbn [bind]. rewrite E1'. cbn [bind]. rewrite G3. cbn [bind]. rewrite E3'. cbn [bind]. exact E4'.
  - rewrite (area_after _ _ _ _ _ _ E3' E4') by (now left). rewrite (area_after _ _ _ _ _ _ B1 B2) by (now left). reflexivity.
Qed.

(** ** file names *)
Fixpoint no_char (c : ascii) (s : string) : Prop := match s with EmptyString => True | String a r => a <> c /\ no_char c r end.
Lemma split_unique : forall c a b x y, no_char c a -> no_char c b -> String.append a (String c x) = String.append b (String c y) -> a = b /\ x = y.
Proof.
  induction a as [|p a IH]; intros [|q b] x y NA NB E; cbn in *.
  - injection E as ->. auto.
  - injection E as <- E. tauto.
  - injection E as -> E. tauto.
  - injection E as -> E. destruct (IH b x y) as [-> ->]; tauto.
Qed.
Lemma uint_no_char : forall c u, c <> "0"%char -> c <> "1"%char -> c <> "2"%char -> c <> "3"%char -> c <> "4"%char -> c <> "5"%char -> c <> "6"%char -> c <> "7"%char -> c <> "8"%char -> c <> "9"%char ->
  no_char c (NilEmpty.string_of_uint u).
Proof. intros c u; intros. induction u; cbn [NilEmpty.string_of_uint no_char]; auto. Qed.
Lemma int_no_char : forall c z, c = "_"%char \/ c = "."%char -> no_char c (str_int z).
Proof.
  intros c z [->| ->]; unfold str_int, NilEmpty.string_of_int; destruct (Z.to_int z); cbn [no_char]; try split; try discriminate; apply uint_no_char; discriminate.
Qed.
Lemma str_int_inj : forall a b, str_int a = str_int b -> a = b.
Proof.
  intros a b E. unfold str_int in E. assert (X := NilEmpty.isi (Z.to_int a)). rewrite E, NilEmpty.isi in X. injection X as X. rewrite <- (DecimalZ.of_to a), <- (DecimalZ.of_to b). now rewrite X.
Qed.
Lemma append_inj_l : forall a x y, String.append a x = String.append a y -> x = y.
Proof. induction a as [|c a IH]; cbn; intros x y E; [exact E|]. injection E as E. now apply IH. Qed.
Lemma append_assoc : forall a b c, String.append (String.append a b) c = String.append a (String.append b c).
Proof. induction a as [|x a IH]; cbn; intros; [reflexivity|]. now rewrite IH. Qed.
Lemma out_name_inj : forall m o m' o' f, out_name m o = Ok f -> out_name m' o' = Ok f -> m = m' /\ o = o'.
Proof.
  intros m o m' o' f A B. unfold out_name, filename_from_meta in A, B. cbn [dget bind String.eqb Ascii.eqb Bool.eqb kw_text] in A, B. rewrite <- B in A. injection A as A. clear B.
  rewrite ?append_assoc in A. cbn [String.append] in A.
  apply (split_unique "_") in A; try (apply int_no_char; now left). destruct A as [E A]. apply str_int_inj in E. injection A as A.
  apply (split_unique ".") in A; try (apply int_no_char; now right). destruct A as [E2 _]. apply str_int_inj in E2. auto.
Qed.
Lemma signed_no_char : forall c z, c = "_"%char \/ c = "."%char -> no_char c (str_signed z).
Proof. intros c z H. unfold str_signed. destruct (z <? 0)%Z; [now apply int_no_char|]. cbn. split; [destruct H as [->| ->]; discriminate|now apply int_no_char]. Qed.
Lemma str_int_plus : forall z x, str_int z <> String "+" x.
Proof. intros z x. unfold str_int, NilEmpty.string_of_int. destruct (Z.to_int z) as [u|u]; [destruct u; discriminate|discriminate]. Qed.
Lemma str_signed_inj : forall a b, str_signed a = str_signed b -> a = b.
Proof.
  intros a b E. unfold str_signed in E. destruct (Z.ltb_spec a 0), (Z.ltb_spec b 0).
  - now apply str_int_inj.
  - exfalso. eapply str_int_plus. exact E.
  - exfalso. eapply str_int_plus. symmetry. exact E.
  - apply append_inj_l in E. now apply str_int_inj.
Qed.
Lemma in_name_inj : forall a b f, in_name a = Ok f -> in_name b = Ok f -> a = b.
Proof.
  intros a b f A B. unfold in_name, filename_from_meta in A, B. cbn [dget bind String.eqb Ascii.eqb Bool.eqb kw_text] in A, B. rewrite <- B in A. injection A as A. clear B.
  apply (split_unique ".") in A; try (apply signed_no_char; now right). now apply str_signed_inj.
Qed.
Lemma pairs_in : forall offs ex orders o m, In (o, m) (osip_pairs offs ex orders) <-> In o orders /\ In (m - o)%Z offs /\ m <> 0%Z /\ Z.sgn o = Z.sgn m /\ ex m = true.
Proof.
  intros. unfold osip_pairs. rewrite in_flat_map. split.
  - intros (o1 & I & J). apply in_flat_map in J. destruct J as (t & T & J). destruct (_ && _ && _)%bool eqn:E; [|destruct J]. destruct J as [J|[]]. injection J as <- <-.
    rewrite !andb_true_iff, negb_true_iff, Z.eqb_neq, Z.eqb_eq in E. replace (o1 + t - o1)%Z with t by lia. tauto.
  - intros (I & T & N & S & X). exists o. split; [exact I|]. apply in_flat_map. exists (m - o)%Z. split; [exact T|]. replace (o + (m - o))%Z with m by lia.
    rewrite (proj2 (Z.eqb_neq m 0) N), (proj2 (Z.eqb_eq _ _) S), X. now left.
Qed.
Lemma pairs_nodup : forall offs ex orders, NoDup offs -> NoDup orders -> NoDup (osip_pairs offs ex orders).
Proof.
  intros offs ex orders NO N. unfold osip_pairs. induction N as [|o orders NI N IH]; cbn [flat_map]; [constructor|].
  assert (X : forall l, NoDup l -> NoDup (flat_map (fun t => if (negb (Z.eqb (o + t) 0) && Z.eqb (Z.sgn o) (Z.sgn (o + t)) && ex (o + t)%Z)%bool then [(o, (o + t)%Z)] else []) l)).
  { induction 1 as [|t l TI TN TH]; cbn [flat_map]; [constructor|]. destruct (_ && _ && _)%bool; [|exact TH]. cbn [app]. constructor; [|exact TH].
    intros I. apply in_flat_map in I. destruct I as (t' & T & J). destruct (_ && _ && _)%bool in J; [|destruct J]. destruct J as [J|[]]. injection J as J. assert (t' = t) by lia. subst. contradiction. }
  specialize (X offs NO).
  assert (Y : forall p, In p (flat_map (fun t => if (negb (Z.eqb (o + t) 0) && Z.eqb (Z.sgn o) (Z.sgn (o + t)) && ex (o + t)%Z)%bool then [(o, (o + t)%Z)] else []) offs) -> fst p = o).
  { intros p I. apply in_flat_map in I. destruct I as (t' & T & J). destruct (_ && _ && _)%bool in J; [|destruct J]. destruct J as [<-|[]]. reflexivity. }
  revert X Y. generalize (flat_map (fun t => if (negb (Z.eqb (o + t) 0) && Z.eqb (Z.sgn o) (Z.sgn (o + t)) && ex (o + t)%Z)%bool then [(o, (o + t)%Z)] else []) offs) as h.
  induction h as [|p h IHh]; intros X Y; cbn [app]; [exact IH|]. inversion X as [|a b X1 X2]; subst. constructor.
  - intros I. apply in_app_or in I. destruct I as [I|I]; [contradiction|]. destruct p as [p1 p2]. assert (P1 := Y (p1, p2) (or_introl eq_refl)). cbn in P1. subst p1.
    change (In (o, p2) (osip_pairs offs ex orders)) in I. apply pairs_in in I. tauto.
  - apply IHh; [exact X2|]. intros q Q. apply Y. now right.
Qed.
Lemma out_in_differ : forall m o z f, out_name m o = Ok f -> in_name z = Ok f -> False.
Proof.
  intros m o z f A B. unfold out_name, in_name, filename_from_meta in A, B. cbn [dget bind String.eqb Ascii.eqb Bool.eqb kw_text] in A, B. rewrite <- A in B. injection B as B. clear A.
  cbn [String.append] in B. unfold str_signed in B. destruct (z <? 0)%Z; [|discriminate].
  unfold str_int, NilEmpty.string_of_int in B. destruct (Z.to_int z) as [u|u]; [destruct u|]; cbn in B; discriminate.
Qed.
Ltac reqb := repeat match goal with |- context [Reqb ?a ?b] => let E := fresh "E" in destruct (Reqb a b) eqn:E; [apply Reqb_true in E; try (exfalso; lra)|apply Reqb_false in E; try (exfalso; lra)] end.
Lemma all_first_two : forall a b, a <> b -> all_first num_eqb [Some a; Some b] = false.
Proof. intros a b N. cbn. assert (X : Reqb b a = false) by (destruct (Reqb b a) eqn:E; [apply Reqb_true in E; congruence|reflexivity]). rewrite X. now rewrite andb_false_r. Qed.
Lemma all_first_same : forall a, all_first num_eqb [Some a; Some a] = true.
Proof. intros a. cbn. assert (X : Reqb a a = true) by (destruct (Reqb a a) eqn:E; [reflexivity|apply Reqb_false in E; congruence]). now rewrite X. Qed.
Lemma ck_set_two : forall (t : @cktable num) k a b, a <> b -> ck_set num_eqb t k (Array [Some a; Some b]) = Ok (CK (ck_meta t) (dset k [Some a; Some b] (ck_cols t))).
Proof. intros. cbn [ck_set]. now rewrite all_first_two by assumption. Qed.
Lemma ck_set_nan : forall (t : @cktable num) k, ck_set num_eqb t k (Array [None; None]) = Ok (CK (ck_meta t) (dset k [None; None] (ck_cols t))).
Proof. reflexivity. Qed.
Lemma ck_set_same2 : forall (t : @cktable num) k a, ck_set num_eqb t k (Array [Some a; Some a]) = Ok (CK (dset k (Scalar (Some a)) (ck_meta t)) (ddel k (ck_cols t))).
Proof. intros. cbn [ck_set]. now rewrite all_first_same. Qed.
Lemma num_div_some : forall a b, b <> 0 -> num_div (Some a) (Some b) = Some (a / b).
Proof. intros a b N. cbn. destruct (Reqb b 0) eqn:E; [apply Reqb_true in E; congruence|reflexivity]. Qed.
Lemma num_div_zero : forall a, num_div (Some a) (Some 0) = None.
Proof. intros a. cbn. destruct (Reqb 0 0) eqn:E; [reflexivity|apply Reqb_false in E; congruence]. Qed.
(** tables with keyword and column versions of two columns; evaluation of one call *)
Ltac ck_cbn := cbn [bind ck_get ck_meta ck_cols dget dset ddel String.eqb Ascii.eqb Bool.eqb val2 map combine fst snd num_mul area repeat].
Lemma zero_lost : exists once twice direct, apply_osip (plain_arf [Some 2; Some 3]) (Scalar (Some 0)) = Ok once /\
  apply_osip once (Array [Some 1; Some (/ 2)]) = Ok twice /\ apply_osip (plain_arf [Some 2; Some 3]) (Array [Some 1; Some (/ 2)]) = Ok direct /\
  area 2 twice = Ok [None; None] /\ area 2 direct = Ok [Some (1 * 2); Some (/ 2 * 3)].
Proof.
  exists (CK [("SPECRESP", Scalar (Some (0 * 2))); ("OSIPFAC", Scalar (Some 0))] []).
  exists (CK [("SPECRESP", Scalar None); ("OSIPFAC", Scalar (Some 0))] [("SPECRESP", [None; None]); ("OSIPFAC", [Some 1; Some (/ 2)])]).
  exists (CK [] [("SPECRESP", [Some (1 * 2); Some (/ 2 * 3)]); ("OSIPFAC", [Some 1; Some (/ 2)])]).
  unfold apply_osip, plain_arf. split; [|split; [|split; [|split; reflexivity]]].
  - ck_cbn. replace (0 * 3) with (0 * 2) by lra. rewrite ck_set_same2. ck_cbn. reflexivity.
  - ck_cbn. rewrite num_div_zero. cbn [ck_set]. ck_cbn. rewrite ck_set_nan. ck_cbn. rewrite all_first_two by lra. reflexivity.
  - ck_cbn. rewrite ck_set_two by lra. ck_cbn. rewrite ck_set_two by lra. reflexivity.
Qed.
(** the factors of the second call are hidden by the constant factor of the first *)
Lemma third_wrong : exists t1 t2 t3 direct, apply_osip (plain_arf [Some 2; Some 3]) (Array [Some (/ 2); Some (/ 2)]) = Ok t1 /\
  apply_osip t1 (Array [Some (/ 2); Some (/ 4)]) = Ok t2 /\ apply_osip t2 (Array [Some 1; Some (/ 2)]) = Ok t3 /\
  apply_osip (plain_arf [Some 2; Some 3]) (Array [Some 1; Some (/ 2)]) = Ok direct /\
  area 2 t3 = Ok [Some 2; Some (3 / 4)] /\ area 2 direct = Ok [Some 2; Some (3 / 2)].
Proof.
  exists (CK [("OSIPFAC", Scalar (Some (/ 2)))] [("SPECRESP", [Some 1; Some (3 / 2)])]).
  exists (CK [("OSIPFAC", Scalar (Some (/ 2)))] [("SPECRESP", [Some 1; Some (3 / 4)]); ("OSIPFAC", [Some (/ 2); Some (/ 4)])]).
  exists (CK [("OSIPFAC", Scalar (Some (/ 2)))] [("SPECRESP", [Some 2; Some (3 / 4)]); ("OSIPFAC", [Some 1; Some (/ 2)])]).
  exists (CK [] [("SPECRESP", [Some 2; Some (3 / 2)]); ("OSIPFAC", [Some 1; Some (/ 2)])]).
  unfold apply_osip, plain_arf. split; [|split; [|split; [|split; [|split; reflexivity]]]].
  - ck_cbn. rewrite ck_set_two by lra. ck_cbn. rewrite ck_set_same2. ck_cbn. replace (/ 2 * 2) with 1 by lra. replace (/ 2 * 3) with (3 / 2) by lra. reflexivity.
  - ck_cbn. rewrite !num_div_some by lra. rewrite ck_set_two by lra. ck_cbn. rewrite ck_set_two by lra. ck_cbn. rewrite ck_set_two by lra. ck_cbn.
    replace (/ 2 * (1 / / 2)) with 1 by field. replace (/ 4 * (3 / 2 / / 2)) with (3 / 4) by field. reflexivity.
  - ck_cbn. rewrite !num_div_some by lra. rewrite ck_set_two by lra. ck_cbn. rewrite ck_set_two by lra. ck_cbn. rewrite ck_set_two by lra. ck_cbn.
    replace (1 * (1 / / 2)) with 2 by field. replace (/ 2 * (3 / 4 / / 2)) with (3 / 4) by field. reflexivity.
  - ck_cbn. rewrite ck_set_two by lra. ck_cbn. rewrite ck_set_two by lra. ck_cbn. replace (1 * 2) with 2 by lra. replace (/ 2 * 3) with (3 / 2) by lra. reflexivity.
Qed.
(** C57 in one statement *)
Lemma factors_sum : forall f cdf e m, m <> 0%Z -> 0 < e -> 0 <= f <= 1 -> (forall x y, x <= y -> cdf x e <= cdf y e) -> (forall x, 0 <= cdf x e <= 1) ->
  forall orders, NoDup orders -> Forall (same_side m) orders ->
  exists l, sequence (map (fun n => arf_factor (base_range (fractional_tab f)) cdf e m n) orders) = Ok l /\ Forall (fun x => 0 <= x) l /\ 0 <= Rsum l <= 1.
Proof.
  intros f cdf e m M E F MO BO orders N SS. set (e0 := e / IZR (Z.abs m)). assert (E0 : 0 < e0) by (apply Rmult_lt_0_compat; [exact E|]; apply Rinv_0_lt_compat, IZR_lt; lia).
  exists (map (term (fun x => cdf x e) f e0) (map Z.abs orders)). split; [|split].
  - rewrite map_map. clear N. induction SS as [|n l S SS IH]; [reflexivity|]. cbn [map]. rewrite arf_factor_fractional by assumption. cbn [sequence bind]. rewrite IH. reflexivity.
  - apply Forall_forall. intros x I. apply in_map_iff in I. destruct I as (k & <- & _). unfold term. assert (cdf (e0 * (IZR k - f / 2)) e <= cdf (e0 * (IZR k + f / 2)) e) by (apply MO; nra). lra.
  - apply (sum_bound_nodup (fun x => cdf x e)); auto. now apply NoDup_abs with m.
Qed.
(** windows of different orders, at the energies where they compete *)
Lemma windows_disjoint : forall f e m n n', m <> 0%Z -> 0 < e -> 0 <= f <= 1 -> same_side m n -> same_side m n' -> (Z.abs n < Z.abs n')%Z ->
  snd (base_range (fractional_tab f) (e / IZR m * IZR n) n) <= fst (base_range (fractional_tab f) (e / IZR m * IZR n') n').
Proof.
  intros f e m n n' M E F S S' L. destruct (fractional_window f e m n M S) as [-> _], (fractional_window f e m n' M S') as [-> _]. unfold window. cbn [fst snd].
  assert (0 < e / IZR (Z.abs m)) by (apply Rmult_lt_0_compat; [exact E|]; apply Rinv_0_lt_compat, IZR_lt; lia). apply Rmult_le_compat_l; [lra|].
  assert (IZR (Z.abs n) + 1 <= IZR (Z.abs n')) by (rewrite <- plus_IZR; apply IZR_le; lia). lra.
Qed.
Lemma consecutive : forall cdf e m k n, (0 < k)%Z -> (0 < m)%Z -> exists l,
  sequence (map (fun i => arf_factor (base_range (fractional_tab 1)) cdf e m (k + Z.of_nat i)) (seq 0 n)) = Ok l /\
  Rsum l = cdf (e / IZR m * (IZR k + INR n - 1 / 2)) e - cdf (e / IZR m * (IZR k - 1 / 2)) e.
Proof.
  intros cdf e m k n K M. exists (map (fun i => term (fun x => cdf x e) 1 (e / IZR m) (k + Z.of_nat i)) (seq 0 n)). split; [|apply (telescope (fun x => cdf x e))].
  generalize (seq 0 n). induction l as [|i l IH]; [reflexivity|]. cbn [map]. rewrite arf_factor_fractional; [|lia|split; [lia|destruct m, (k + Z.of_nat i)%Z eqn:E; cbn; lia]].
  cbn [sequence bind]. rewrite IH. cbn [bind]. rewrite !Z.abs_eq by lia. reflexivity.
Qed.
