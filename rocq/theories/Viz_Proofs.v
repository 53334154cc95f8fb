From Coq Require Import Ascii.
From Verif Require Export Viz_Model Base_Proofs Vec_Proofs.
Open Scope nat_scope.

(** ** Plane with hole *)
Fixpoint chain (no : nat) (s : nat * nat) (l : list tri) (e : nat * nat) : Prop :=
  match l with [] => s = e | t :: r => spoke_first no t = s /\ chain no (spoke_second no t) r e end.

Lemma mod_succ : forall b n, 0 < n -> (b mod n + 1) mod n = (b + 1) mod n.
Proof. intros b n H. rewrite Nat.add_mod_idemp_l by lia. reflexivity. Qed.

Lemma pwh_spec : forall ge no ni, 0 < no -> 0 < ni -> sound_ge no ni ge -> forall k i a b, i + k = no + ni -> a + b = i -> a <= ni -> b <= no ->
  let L := pwh_loop ge no ni k i a (b mod no) in
  length L = k /\ Forall (tri_ok (no + ni)) L /\
  map inner_edge (filter (is_inner no) L) = map (fun j => (no + j, no + (j + 1) mod ni)) (seq a (ni - a)) /\
  map outer_edge (filter (fun t => negb (is_inner no t)) L) = map (fun j => ((j + 1) mod no, j)) (seq b (no - b)) /\
  chain no (b mod no, no + a mod ni) L (0, no).
Proof.
  intros ge no ni Hno Hni [G1 G2]. induction k as [|k IH]; intros i a b E1 E2 Ha Hb.
  - assert (a = ni) by lia. assert (b = no) by lia. subst a b. cbn [pwh_loop length filter map chain]. rewrite !Nat.sub_diag, !Nat.mod_same by lia. rewrite Nat.add_0_r. repeat split. constructor.
  - cbn [pwh_loop]. assert (Bm : b mod no < no) by (apply Nat.mod_upper_bound; lia). destruct (ge i a) eqn:G.
    + assert (a < ni). { destruct (Nat.eq_dec a ni); [|lia]. subst a. rewrite G2 in G by lia. discriminate. }
      destruct (IH (S i) (S a) b ltac:(lia) ltac:(lia) ltac:(lia) ltac:(lia)) as (L1 & L2 & L3 & L4 & L5).
      assert (Cm : (a + 1) mod ni < ni) by (apply Nat.mod_upper_bound; lia).
      assert (T : is_inner no (b mod no, no + a, no + (a + 1) mod ni) = true) by (unfold is_inner; apply Nat.leb_le; lia).
      cbn [length filter]. rewrite T. cbn [negb map]. split; [f_equal; exact L1|]. split; [constructor; [unfold tri_ok; lia|exact L2]|]. split; [|split].
      * rewrite L3. replace (ni - a) with (S (ni - S a)) by lia. reflexivity.
      * exact L4.
      * cbn [chain]. unfold spoke_first, is_inner in *. rewrite T. split; [rewrite (Nat.mod_small a) by lia; reflexivity|]. cbn [spoke_second]. rewrite (Nat.add_1_r a). exact L5.
    + assert (b < no).
      { destruct (Nat.eq_dec b no); [|lia]. subst b. exfalso. assert (Q : ge i a = true); [|congruence]. apply G1. unfold ge_exact. apply Nat.leb_le. subst i. nia. }
      rewrite mod_succ by lia.
      destruct (IH (S i) a (b + 1) ltac:(lia) ltac:(lia) ltac:(lia) ltac:(lia)) as (L1 & L2 & L3 & L4 & L5).
      assert (Cm : (b + 1) mod no < no) by (apply Nat.mod_upper_bound; lia). assert (Dm : a mod ni < ni) by (apply Nat.mod_upper_bound; lia).
      assert (T : is_inner no ((b + 1) mod no, b mod no, no + a mod ni) = false) by (unfold is_inner; apply Nat.leb_gt; lia).
      cbn [length filter]. rewrite T. cbn [negb map]. split; [f_equal; exact L1|]. split; [constructor; [unfold tri_ok; lia|exact L2]|]. split; [|split].
      * exact L3.
      * rewrite L4. replace (no - b) with (S (no - (b + 1))) by lia. cbn [seq map outer_edge]. rewrite (Nat.mod_small b) by lia. rewrite Nat.add_1_r. reflexivity.
      * cbn [chain]. unfold spoke_first, is_inner in *. rewrite T. split; [reflexivity|exact L5].
Qed.

Lemma chain_nth : forall no l s e, chain no s l e -> forall i d, S i < length l -> spoke_second no (nth i l d) = spoke_first no (nth (S i) l d).
Proof.
  intros no. induction l as [|t l IH]; intros s e C i d H; [cbn in H; lia|]. destruct C as [_ C]. destruct i as [|i].
  - destruct l as [|u l]; [cbn in H; lia|]. destruct C as [C _]. symmetry. exact C.
  - cbn [nth]. apply (IH _ _ C). cbn in H. lia.
Qed.
Lemma chain_last : forall no l s e, chain no s l e -> l <> [] -> forall d, spoke_second no (last l d) = e.
Proof.
  intros no. induction l as [|t l IH]; intros s e C N d; [contradiction|]. destruct C as [_ C]. destruct l as [|u l]; [exact C|]. apply (IH _ _ C). discriminate.
Qed.

Lemma exact_sound : forall no ni, 0 < no -> 0 < ni -> sound_ge no ni (ge_exact no ni).
Proof.
  intros no ni Hno Hni. split; [auto|]. intros i H. unfold ge_exact. apply Nat.leb_gt. nia.
Qed.

Lemma ring : forall ge no ni, 0 < no -> 0 < ni -> sound_ge no ni ge -> let L := pwh_loop ge no ni (no + ni) 0 0 0 in
  length L = no + ni /\ Forall (tri_ok (no + ni)) L /\
  map inner_edge (filter (is_inner no) L) = map (fun j => (no + j, no + (j + 1) mod ni)) (seq 0 ni) /\
  map outer_edge (filter (fun t => negb (is_inner no t)) L) = map (fun j => ((j + 1) mod no, j)) (seq 0 no) /\
  chain no (0, no) L (0, no).
Proof.
  intros ge no ni Hno Hni S. destruct (pwh_spec ge no ni Hno Hni S (no + ni) 0 0 0) as (A & B & C & D & E); try lia.
  rewrite Nat.mod_small in * by lia. rewrite Nat.mod_small in E by lia. rewrite !Nat.sub_0_r in *. rewrite Nat.add_0_r in E. auto.
Qed.

Lemma nth_last : forall {A} (l : list A) d, nth (length l - 1) l d = last l d.
Proof.
  induction l as [|x l IH]; intros d; [reflexivity|]. destruct l as [|y l]; [reflexivity|]. cbn [length]. replace (S (S (length l)) - 1) with (S (length l)) by lia.
  cbn [nth]. specialize (IH d). cbn [length] in IH. replace (S (length l) - 1) with (length l) in IH by lia. exact IH.
Qed.
Lemma ring_closed : forall ge no ni d, 0 < no -> 0 < ni -> sound_ge no ni ge -> let L := pwh_loop ge no ni (no + ni) 0 0 0 in
  forall i, i < no + ni -> spoke_second no (nth i L d) = spoke_first no (nth ((i + 1) mod (no + ni)) L d).
Proof.
  intros ge no ni d Hno Hni S L i Hi. destruct (ring ge no ni Hno Hni S) as (A & _ & _ & _ & C). fold L in A, C.
  destruct (Nat.eq_dec (i + 1) (no + ni)) as [E|E].
  - rewrite E, Nat.mod_same by lia. replace i with (length L - 1) by lia. rewrite nth_last. rewrite (chain_last _ _ _ _ C); [|intros Q; rewrite Q in A; cbn in A; lia].
    destruct L as [|t L']; [cbn in A; lia|]. destruct C as [C _]. symmetry. exact C.
  - rewrite Nat.mod_small by lia. rewrite Nat.add_1_r. apply (chain_nth _ _ _ _ C). lia.
Qed.

(** ** Combination *)
Fixpoint right_offsets (acc : nat) (l : list nat) : list nat := match l with [] => [] | x :: r => acc :: right_offsets (acc + x) r end.
Lemma offsets_equal : forall l acc s, Forall (fun x => x = s) l -> map (fun c => c - s) (cumsum_nat acc l) = right_offsets acc l.
Proof. induction l as [|x l IH]; intros acc s F; [reflexivity|]. inversion F; subst. cbn. f_equal; [lia|apply IH; assumption]. Qed.
Lemma offsets_only : forall l acc s, map (fun c => c - s) (cumsum_nat acc l) = right_offsets acc l -> s <= acc + hd 0 l -> Forall (fun x => x = s) l.
Proof.
  induction l as [|x l IH]; intros acc s E B; [constructor|]. cbn in E, B. injection E as E1 E2. assert (x = s) by lia. subst x. constructor; [reflexivity|]. apply (IH (acc + s)); [exact E2|lia].
Qed.

Lemma corners_shift : forall {P} (pre xyz post : list P) t, tri_ok (length xyz) t -> corners (pre ++ xyz ++ post) (shift_tri (length pre) t) = corners xyz t.
Proof.
  intros P pre xyz post [[a b] c] (A & B & C). assert (X : forall i, i < length xyz -> nth_error (pre ++ xyz ++ post) (i + length pre) = nth_error xyz i).
  { intros i H. rewrite nth_error_app2 by lia. replace (i + length pre - length pre) with i by lia. rewrite nth_error_app1 by lia. reflexivity. }
  cbn. rewrite !X by assumption. reflexivity.
Qed.
Lemma combine_right : forall {P} (lx : list (list P)) lt pre, length lt = length lx -> Forall2 (fun xyz ts => Forall (tri_ok (length xyz)) ts) lx lt ->
  map (corners (pre ++ concat lx)) (concat (map (fun p => map (shift_tri (fst p)) (snd p)) (combine (right_offsets (length pre) (map (@length P) lx)) lt))) =
  concat (map (fun p => map (corners (fst p)) (snd p)) (combine lx lt)).
Proof.
  intros P. induction lx as [|x lx IH]; intros lt pre E F; [reflexivity|]. destruct lt as [|ts lt]; [discriminate|]. inversion F as [|? ? ? ? F1 F2]; subst.
  cbn [map right_offsets combine concat fst snd]. rewrite map_app. f_equal.
  - rewrite map_map. apply map_ext_in. intros t Ht. apply corners_shift. rewrite Forall_forall in F1. apply F1, Ht.
  - specialize (IH lt (pre ++ x)). rewrite app_length in IH. rewrite <- app_assoc in IH. apply IH; [cbn in E; lia|exact F2].
Qed.
Lemma cumsum_length : forall l acc, length (cumsum_nat acc l) = length l.
Proof. induction l; intros; cbn; auto. Qed.
Lemma combine_ok : forall {P} (lx : list (list P)) lt s, lx <> [] -> length lt = length lx -> Forall (fun x => length x = s) lx ->
  Forall2 (fun xyz ts => Forall (tri_ok (length xyz)) ts) lx lt ->
  exists tris, combine_disjoint lx lt = Ok (concat lx, tris) /\ map (corners (concat lx)) tris = concat (map (fun p => map (corners (fst p)) (snd p)) (combine lx lt)).
Proof.
  intros P lx lt s N E S F. unfold combine_disjoint. destruct lx as [|x0 lx]; [contradiction|].
  remember (x0 :: lx) as L. assert (M : Forall (fun n => n = s) (map (@length P) L)). { clear - S. induction S; constructor; auto. }
  destruct (cumsum_nat 0 (map (@length P) L)) as [|c0 cs] eqn:Q; [subst L; discriminate|].
  assert (c0 = s). { subst L. cbn in Q. injection Q as Q _. inversion S; subst. lia. } subst c0.
  rewrite <- Q. rewrite offsets_equal by exact M. assert (LL : length (right_offsets 0 (map (@length P) L)) = length L). { rewrite <- (offsets_equal _ 0 s M), map_length, cumsum_length, map_length. reflexivity. }
  rewrite LL, E, Nat.ltb_irrefl. eexists. split; [reflexivity|]. exact (combine_right L lt [] E F).
Qed.

(** ** Grids *)
Lemma surface_count : forall n m, length (surface_faces n m) = (n - 1) * (m - 1).
Proof.
  intros n m. unfold surface_faces. set (F := fun i => map (fun j => [grid_index m i j; grid_index m i (j + 1); grid_index m (i + 1) (j + 1); grid_index m (i + 1) j]) (seq 0 (m - 1))).
  enough (G : forall k st, length (flat_map F (seq st k)) = k * (m - 1)) by apply G. induction k as [|k IH]; intros st; [reflexivity|]. cbn [seq flat_map]. rewrite app_length, IH. unfold F at 1. rewrite map_length, seq_length. lia.
Qed.
Lemma surface_in : forall n m f, In f (surface_faces n m) <-> exists i j, i + 1 < n /\ j + 1 < m /\ f = [grid_index m i j; grid_index m i (j + 1); grid_index m (i + 1) (j + 1); grid_index m (i + 1) j].
Proof.
  intros n m f. unfold surface_faces. rewrite in_flat_map. split.
  - intros (i & Hi & H). apply in_map_iff in H. destruct H as (j & <- & Hj). apply in_seq in Hi. apply in_seq in Hj. exists i, j. repeat split; lia.
  - intros (i & j & Hi & Hj & ->). exists i. split; [apply in_seq; lia|]. apply in_map_iff. exists j. split; [reflexivity|apply in_seq; lia].
Qed.
Lemma grid_index_inj : forall m i j i' j', j < m -> j' < m -> grid_index m i j = grid_index m i' j' -> i = i' /\ j = j'.
Proof. intros m i j i' j' H H' E. unfold grid_index in E. assert (i = i') by nia. subst. split; [reflexivity|lia]. Qed.
Lemma grid_index_lt : forall n m i j, i < n -> j < m -> grid_index m i j < n * m.
Proof. intros. unfold grid_index. nia. Qed.
Lemma NoDup_app_disj : forall {A} (l l' : list A), NoDup l -> NoDup l' -> (forall x, In x l -> ~ In x l') -> NoDup (l ++ l').
Proof.
  intros A l l' N N' D. induction N as [|x l H N IH]; [exact N'|]. cbn. constructor.
  - rewrite in_app_iff. intros [Q|Q]; [auto|]. apply (D x); [left; reflexivity|exact Q].
  - apply IH. intros y Hy. apply D. right. exact Hy.
Qed.
Lemma NoDup_map_inj_in : forall {A B} (f : A -> B) l, (forall x y, In x l -> In y l -> f x = f y -> x = y) -> NoDup l -> NoDup (map f l).
Proof.
  intros A B f l I N. induction N as [|x l H N IH]; [constructor|]. cbn. constructor.
  - intros Q. apply in_map_iff in Q. destruct Q as (y & E & Hy). apply H. rewrite (I x y); auto; [left; reflexivity|right; exact Hy].
  - apply IH. intros y z Hy Hz. apply I; right; assumption.
Qed.
Lemma surface_nodup : forall n m, NoDup (surface_faces n m).
Proof.
  intros n m. unfold surface_faces. set (F := fun i => map (fun j => [grid_index m i j; grid_index m i (j + 1); grid_index m (i + 1) (j + 1); grid_index m (i + 1) j]) (seq 0 (m - 1))).
  enough (G : forall k st, NoDup (flat_map F (seq st k))) by apply G. induction k as [|k IH]; intros st; [constructor|]. cbn [seq flat_map]. apply NoDup_app_disj.
  - apply NoDup_map_inj_in.
    + intros j j' Hj Hj' E. apply in_seq in Hj. apply in_seq in Hj'. assert (X := f_equal (hd 0) E). cbn [hd] in X. destruct (grid_index_inj m st j st j' ltac:(lia) ltac:(lia) X). assumption.
    + apply seq_NoDup.
  - apply IH.
  - intros f H1 H2. apply in_map_iff in H1. destruct H1 as (j & <- & Hj). apply in_flat_map in H2. destruct H2 as (i' & Hi' & H2). apply in_map_iff in H2. destruct H2 as (j' & E & Hj').
    apply in_seq in Hi'. apply in_seq in Hj. apply in_seq in Hj'. assert (X := f_equal (hd 0) E). cbn [hd] in X. destruct (grid_index_inj m i' j' st j ltac:(lia) ltac:(lia) X). lia.
Qed.

(** ** Hexadecimal numbers *)
Open Scope Z_scope.
Fixpoint digs (w : nat) (n : Z) : list Z := match w with O => [] | S k => digs k (n / 16) ++ [n mod 16] end.
Lemma digs_length : forall w n, length (digs w n) = w.
Proof. induction w as [|w IH]; intros n; cbn; [reflexivity|]. rewrite app_length, IH. cbn. lia. Qed.
Lemma digs_zero : forall w, digs w 0 = repeat 0 w.
Proof.
  induction w as [|w IH]; [reflexivity|]. cbn [digs]. change (0 / 16) with 0. change (0 mod 16) with 0. rewrite IH. change [0] with (repeat 0 1). rewrite <- repeat_app. f_equal. lia.
Qed.
Lemma hexdigits_length : forall fuel n, (1 <= length (hexdigits fuel n))%nat.
Proof. induction fuel as [|f IH]; intros n; cbn; [lia|]. destruct (n <? 16); cbn; [lia|]. rewrite app_length. cbn. lia. Qed.
Lemma zfill_digits : forall w fuel n, 0 <= n < 16 ^ (Z.of_nat (S w)) -> n <= Z.of_nat fuel -> zfill (S w) (hexdigits fuel n) = digs (S w) n.
Proof.
  induction w as [|w IH]; intros fuel n Hn Hf.
  - change (16 ^ Z.of_nat 1) with 16 in Hn. destruct fuel as [|f]; cbn [hexdigits].
    + assert (n = 0) by lia. subst. reflexivity.
    + rewrite (proj2 (Z.ltb_lt n 16)) by lia. cbn. rewrite Z.mod_small by lia. reflexivity.
  - assert (P : 16 ^ Z.of_nat (S (S w)) = 16 * 16 ^ Z.of_nat (S w)). { rewrite (Nat2Z.inj_succ (S w)), Z.pow_succ_r by lia. reflexivity. }
    destruct (Z.ltb_spec n 16) as [L|L].
    + assert (X : hexdigits fuel n = [n]). { destruct fuel as [|f]; cbn [hexdigits]; [assert (n = 0) by lia; subst; reflexivity|]. rewrite (proj2 (Z.ltb_lt n 16) L). reflexivity. }
      rewrite X. change (digs (S (S w)) n) with (digs (S w) (n / 16) ++ [n mod 16]). rewrite Z.div_small, Z.mod_small by lia. rewrite digs_zero. unfold zfill. reflexivity.
    + destruct fuel as [|f]; [cbn in Hf; lia|]. cbn [hexdigits]. rewrite (proj2 (Z.ltb_ge n 16)) by lia.
      change (digs (S (S w)) n) with (digs (S w) (n / 16) ++ [n mod 16]). rewrite <- (IH f).
      * unfold zfill. rewrite app_length. cbn [length]. rewrite app_assoc. f_equal. f_equal. f_equal. lia.
      * split; [apply Z.div_pos; lia|]. apply Z.div_lt_upper_bound; lia.
      * assert (n / 16 < n) by (apply Z.div_lt; lia). lia.
Qed.
Lemma hexstring_three : forall r g b, 0 <= r < 256 -> 0 <= g < 256 -> 0 <= b < 256 ->
  hexstring (r * (256 * 256) + g * 256 + b) = String.append "0x" (String.append (two_hex r) (String.append (two_hex g) (two_hex b))).
Proof.
  intros r g b Hr Hg Hb. unfold hexstring. rewrite zfill_digits; [|change (16 ^ Z.of_nat 6) with 16777216; lia|rewrite Z2Nat.id; lia].
  set (n := r * (256 * 256) + g * 256 + b).
  assert (E0 : n mod 16 = b mod 16) by (unfold n; rewrite <- (Z.mod_add b (r * 4096 + g * 16) 16) by lia; f_equal; lia).
  assert (D1 : n / 16 = r * 4096 + g * 16 + b / 16) by (unfold n; rewrite <- (Z.div_add_l (r * 4096 + g * 16) 16 b) by lia; f_equal; lia).
  assert (B1 : 0 <= b / 16 < 16) by (split; [apply Z.div_pos; lia|apply Z.div_lt_upper_bound; lia]).
  assert (G1 : 0 <= g / 16 < 16) by (split; [apply Z.div_pos; lia|apply Z.div_lt_upper_bound; lia]).
  assert (R1 : 0 <= r / 16 < 16) by (split; [apply Z.div_pos; lia|apply Z.div_lt_upper_bound; lia]).
  assert (E1 : (n / 16) mod 16 = b / 16). { rewrite D1. replace (r * 4096 + g * 16 + b / 16) with (b / 16 + (r * 256 + g) * 16) by lia. rewrite Z.mod_add by lia. apply Z.mod_small. exact B1. }
  assert (D2 : n / 16 / 16 = r * 256 + g). { rewrite D1. replace (r * 4096 + g * 16 + b / 16) with ((r * 256 + g) * 16 + b / 16) by lia. rewrite Z.div_add_l by lia. rewrite (Z.div_small (b / 16)) by exact B1. lia. }
  assert (E2 : (n / 16 / 16) mod 16 = g mod 16). { rewrite D2. replace (r * 256 + g) with (g + r * 16 * 16) by lia. apply Z.mod_add. lia. }
  assert (D3 : n / 16 / 16 / 16 = r * 16 + g / 16). { rewrite D2. replace (r * 256 + g) with (r * 16 * 16 + g) by lia. apply Z.div_add_l. lia. }
  assert (E3 : (n / 16 / 16 / 16) mod 16 = g / 16). { rewrite D3. rewrite Z.add_comm, Z.mod_add by lia. apply Z.mod_small. exact G1. }
  assert (D4 : n / 16 / 16 / 16 / 16 = r). { rewrite D3, Z.div_add_l by lia. rewrite (Z.div_small (g / 16)) by exact G1. lia. }
  assert (E5 : (n / 16 / 16 / 16 / 16 / 16) mod 16 = r / 16). { rewrite D4. apply Z.mod_small. exact R1. }
  cbn [digs app]. rewrite E0, E1, E2, E3, E5, D4. reflexivity.
Qed.
Lemma hexstring_length : forall n, 0 <= n < 16777216 -> String.length (hexstring n) = 8%nat.
Proof.
  intros n H. unfold hexstring. rewrite zfill_digits; [|exact H|rewrite Z2Nat.id; lia]. reflexivity.
Qed.

(** ** Strings *)
Lemma loa_app : forall a b, list_ascii_of_string (String.append a b) = list_ascii_of_string a ++ list_ascii_of_string b.
Proof. induction a as [|c a IH]; intros b; [reflexivity|]. cbn. rewrite IH. reflexivity. Qed.
Lemma csplit_app : forall c w cur rest, ~ In c w -> csplit c cur (w ++ c :: rest) = (rev cur ++ w) :: csplit c [] rest.
Proof.
  intros c. induction w as [|x w IH]; intros cur rest N; cbn.
  - rewrite Ascii.eqb_refl, app_nil_r. reflexivity.
  - destruct (Ascii.eqb_spec x c) as [E|E]; [exfalso; apply N; left; exact E|]. rewrite IH by (intros Q; apply N; right; exact Q). cbn. rewrite <- app_assoc. reflexivity.
Qed.
Lemma csplit_one : forall c w cur, ~ In c w -> csplit c cur w = [rev cur ++ w].
Proof.
  intros c. induction w as [|x w IH]; intros cur N; cbn; [rewrite app_nil_r; reflexivity|].
  destruct (Ascii.eqb_spec x c) as [E|E]; [exfalso; apply N; left; exact E|]. rewrite IH by (intros Q; apply N; right; exact Q). cbn. rewrite <- app_assoc. reflexivity.
Qed.
(** the list of words, each with white space around it *)
Fixpoint join (c : ascii) (l : list (list ascii)) : list ascii := match l with [] => [] | [w] => w | w :: r => w ++ c :: join c r end.
Lemma split_join : forall c l, l <> [] -> Forall (fun w => ~ In c w) l -> csplit c [] (join c l) = l.
Proof.
  intros c. induction l as [|w l IH]; intros N F; [contradiction|]. inversion F as [|? ? F1 F2]; subst. destruct l as [|v l].
  - cbn [join]. rewrite csplit_one by assumption. reflexivity.
  - change (join c (w :: v :: l)) with (w ++ c :: join c (v :: l)). rewrite csplit_app by assumption. rewrite IH by (try discriminate; assumption). reflexivity.
Qed.
Lemma lstrip_space : forall p w, forallb is_space p = true -> lstrip (p ++ w) = lstrip w.
Proof. induction p as [|x p IH]; intros w H; [reflexivity|]. cbn in H. apply andb_prop in H. destruct H as [H1 H2]. cbn. rewrite H1. apply IH, H2. Qed.
Lemma lstrip_word : forall w, (match w with [] => false | x :: _ => is_space x end) = false -> lstrip w = w.
Proof. intros [|x w] H; [reflexivity|]. cbn. rewrite H. reflexivity. Qed.
(** Spec: no white space at the begin and the end *)
Definition trimmed (w : list ascii) : Prop := hd_error w <> None /\ (forall x, hd_error w = Some x -> is_space x = false) /\ (forall x, hd_error (rev w) = Some x -> is_space x = false).
Lemma forallb_rev : forall {A} (f : A -> bool) l, forallb f l = true -> forallb f (rev l) = true.
Proof. intros A f l H. apply forallb_forall. intros x Hx. apply in_rev in Hx. rewrite forallb_forall in H. apply H, Hx. Qed.
Lemma strip_padded : forall p w q, forallb is_space p = true -> forallb is_space q = true -> trimmed w -> strip (p ++ w ++ q) = w.
Proof.
  intros p w q Hp Hq (T0 & T1 & T2). unfold strip. rewrite lstrip_space by exact Hp.
  assert (X : lstrip (w ++ q) = w ++ q). { destruct w as [|x w]; [contradiction T0; reflexivity|]. apply lstrip_word. cbn. apply T1. reflexivity. }
  rewrite X, rev_app_distr, lstrip_space by (apply forallb_rev, Hq). rewrite lstrip_word.
  - apply rev_involutive.
  - destruct (rev w) as [|x r]; [reflexivity|]. apply T2. reflexivity.
Qed.

(** ** Dispatch *)
Lemma dispatch_plotted : forall reg l s, dispatch reg l = Plotted s <-> exists pre post, l = pre ++ s :: post /\ s <> "None"%string /\ In s reg /\ (forall x, In x pre -> x <> "None"%string /\ ~ In x reg).
Proof.
  intros reg. induction l as [|a l IH]; intros s; cbn [dispatch].
  - split; [discriminate|]. intros (pre & post & E & _). destruct pre; discriminate.
  - destruct (String.eqb_spec a "None") as [E|E].
    + split; [discriminate|]. intros (pre & post & Q & H1 & H2 & H3). destruct pre as [|p pre]; cbn in Q; [congruence|]. injection Q as Q _. destruct (H3 p) as [X _]; [left; reflexivity|]. congruence.
    + destruct (inb a reg) eqn:I.
      * apply inb_In in I. split.
        -- intros Q. injection Q as <-. exists [], l. repeat split; auto; contradiction.
        -- intros (pre & post & Q & H1 & H2 & H3). destruct pre as [|p pre]; cbn in Q; [congruence|]. injection Q as Q _. subst. destruct (H3 p) as [_ X]; [left; reflexivity|]. contradiction.
      * assert (NI : ~ In a reg) by (intros Q; apply inb_In in Q; congruence). rewrite IH. split.
        -- intros (pre & post & -> & H1 & H2 & H3). exists (a :: pre), post. repeat split; auto; intros Q; destruct H as [<-|H]; auto; destruct (H3 x H); auto.
        -- intros (pre & post & Q & H1 & H2 & H3). destruct pre as [|p pre]; cbn in Q; injection Q as Q1 Q2; [subst; contradiction|]. exists pre, post. repeat split; auto; destruct (H3 x (or_intror H)); auto.
Qed.
Lemma dispatch_hidden : forall reg l, dispatch reg l = Hidden <-> exists pre post, l = pre ++ "None"%string :: post /\ (forall x, In x pre -> x <> "None"%string /\ ~ In x reg).
Proof.
  intros reg. induction l as [|a l IH]; cbn [dispatch].
  - split; [discriminate|]. intros (pre & post & E & _). destruct pre; discriminate.
  - destruct (String.eqb_spec a "None") as [E|E].
    + split; [|reflexivity]. intros _. subst. exists [], l. split; [reflexivity|contradiction].
    + destruct (inb a reg) eqn:I.
      * apply inb_In in I. split; [discriminate|]. intros (pre & post & Q & H3). destruct pre as [|p pre]; cbn in Q; injection Q as Q1 Q2; [congruence|]. subst. destruct (H3 p) as [_ X]; [left; reflexivity|]. contradiction.
      * assert (NI : ~ In a reg) by (intros Q; apply inb_In in Q; congruence). rewrite IH. split.
        -- intros (pre & post & -> & H3). exists (a :: pre), post. split; [reflexivity|]. intros x [<-|H]; auto.
        -- intros (pre & post & Q & H3). destruct pre as [|p pre]; cbn in Q; injection Q as Q1 Q2; [congruence|]. exists pre, post. split; [exact Q2|]. intros x H. apply H3. right. exact H.
Qed.
Lemma dispatch_warned : forall reg l, dispatch reg l = Warned <-> (forall x, In x l -> x <> "None"%string /\ ~ In x reg).
Proof.
  intros reg. induction l as [|a l IH]; cbn [dispatch].
  - split; [contradiction|reflexivity].
  - destruct (String.eqb_spec a "None") as [E|E].
    + split; [discriminate|]. intros H. destruct (H a); [left; reflexivity|]. contradiction.
    + destruct (inb a reg) eqn:I.
      * apply inb_In in I. split; [discriminate|]. intros H. destruct (H a); [left; reflexivity|]. contradiction.
      * assert (NI : ~ In a reg) by (intros Q; apply inb_In in Q; congruence). rewrite IH. split.
        -- intros H x [<-|Q]; auto.
        -- intros H x Q. apply H. right. exact Q.
Qed.

(** ** Rays *)
Open Scope R_scope.
From Coq Require Import Permutation.
Lemma filter_split : forall {A} (f : A -> bool) l, Permutation l (filter f l ++ filter (fun x => negb (f x)) l).
Proof.
  intros A f. induction l as [|x l IH]; [constructor|]. cbn. destruct (f x); cbn; [constructor; exact IH|]. etransitivity; [constructor; exact IH|]. apply Permutation_middle.
Qed.
Lemma filter_filter : forall {A} (f g : A -> bool) l, (forall x, f x = true -> g x = true) -> filter f (filter g l) = filter f l.
Proof.
  intros A f g l H. induction l as [|x l IH]; [reflexivity|]. cbn. destruct (g x) eqn:G; cbn; [destruct (f x); rewrite IH; reflexivity|].
  destruct (f x) eqn:F; [rewrite (H x F) in G; discriminate|exact IH].
Qed.
Lemma partition_perm : forall {A} (values : list R) (L : list (R * A)), NoDup values -> (forall p, In p L -> In (fst p) values) ->
  Permutation (concat (map (fun s => map snd (filter (fun p => Reqb (fst p) s) L)) values)) (map snd L).
Proof.
  intros A. induction values as [|s values IH]; intros L N I.
  - destruct L as [|p L]; [constructor|]. destruct (I p); left; reflexivity.
  - inversion N as [|? ? N1 N2]; subst. cbn [map concat]. set (rest := filter (fun p => negb (Reqb (fst p) s)) L).
    assert (E : map (fun s0 => map snd (filter (fun p : R * A => Reqb (fst p) s0) L)) values = map (fun s0 => map snd (filter (fun p : R * A => Reqb (fst p) s0) rest)) values).
    { apply map_ext_in. intros t Ht. f_equal. unfold rest. symmetry. apply filter_filter. intros p Q. apply Reqb_true in Q. destruct (Reqb (fst p) s) eqn:Z; [|reflexivity]. apply Reqb_true in Z. congruence. }
    rewrite E. rewrite (IH rest N2).
    + rewrite <- map_app. apply Permutation_map. symmetry. apply filter_split.
    + intros p Hp. unfold rest in Hp. apply filter_In in Hp. destruct Hp as [Hp Q]. destruct (I p Hp) as [Z|Z]; [|exact Z]. rewrite (proj2 (Reqb_true _ _) (eq_sym Z)) in Q. discriminate.
Qed.
Lemma combine_snd : forall {A B} (a : list A) (b : list B), length a = length b -> map snd (combine a b) = b.
Proof. intros A B. induction a as [|x a IH]; intros [|y b] H; try discriminate; [reflexivity|]. cbn. f_equal. apply IH. cbn in H. lia. Qed.
Lemma rays_ok : forall {A} (rays : list A) (colors values : list R), length colors = length rays -> NoDup values -> (forall c, In c colors <-> In c values) ->
  exists out, drawn rays colors values = Ok out /\ map fst out = values /\ Permutation (concat (map snd out)) rays /\
    (forall s set r, In (s, set) out -> In r set <-> exists i, nth_error colors i = Some s /\ nth_error rays i = Some r).
Proof.
  intros A rays colors values E N I. unfold drawn. rewrite E, Nat.eqb_refl. cbn [negb]. eexists. split; [reflexivity|]. split; [|split].
  - rewrite map_map. apply map_id.
  - rewrite map_map. cbn [snd]. etransitivity; [apply partition_perm; [exact N|]|].
    + intros [c r] Q. apply in_combine_l in Q. apply I. exact Q.
    + rewrite combine_snd by exact E. reflexivity.
  - intros s set r Q. apply in_map_iff in Q. destruct Q as (s' & Q & Hs). injection Q as -> <-. rewrite in_map_iff. clear - E. revert rays E. induction colors as [|c colors IH]; intros [|y rays] E; try discriminate.
    + split; [intros (x & _ & []) | intros ([|i] & Q & _); discriminate].
    + cbn [combine filter fst]. specialize (IH rays ltac:(cbn in E; lia)). destruct (Reqb c s) eqn:Z.
      * apply Reqb_true in Z. subst c. split.
        -- intros (x & Q & [W|W]); [subst x; exists 0%nat; cbn in Q; subst; split; reflexivity|]. destruct (proj1 IH (ex_intro _ x (conj Q W))) as (i & Q1 & Q2). exists (S i). split; assumption.
        -- intros ([|i] & Q1 & Q2); [injection Q2 as ->; exists (s, r); split; [reflexivity|left; reflexivity]|]. destruct (proj2 IH (ex_intro _ i (conj Q1 Q2))) as (x & X1 & X2). exists x. split; [exact X1|right; exact X2].
      * apply Reqb_false in Z. rewrite IH. split.
        -- intros (i & Q1 & Q2). exists (S i). split; assumption.
        -- intros ([|i] & Q1 & Q2); [injection Q1 as Q1; contradiction|]. exists i. split; assumption.
Qed.
(** ** Colors *)
Lemma color_ints : forall r g b, (0 <= r <= 255)%Z -> (0 <= g <= 255)%Z -> (0 <= b <= 255)%Z ->
  color_tuple_to_hex [CInt r; CInt g; CInt b] = Ok (String.append "0x" (String.append (two_hex r) (String.append (two_hex g) (two_hex b)))).
Proof.
  intros r g b Hr Hg Hb. unfold color_tuple_to_hex. cbn [forallb is_float is_int existsb ival andb].
  rewrite (proj2 (Z.ltb_ge r 0)), (proj2 (Z.ltb_ge g 0)), (proj2 (Z.ltb_ge b 0)), (proj2 (Z.ltb_ge 255 r)), (proj2 (Z.ltb_ge 255 g)), (proj2 (Z.ltb_ge 255 b)) by lia.
  cbn [orb]. f_equal. apply hexstring_three; lia.
Qed.
Lemma float_branch : forall r g b, 0 <= r <= 1 -> 0 <= g <= 1 -> 0 <= b <= 1 ->
  color_tuple_to_hex [CFloat r; CFloat g; CFloat b] = Ok (hexstring (Rfloor (r * (256 * 256) * 255 + g * 256 * 255 + b * 255))).
Proof.
  intros r g b Hr Hg Hb. unfold color_tuple_to_hex. cbn [forallb is_float existsb fval andb].
  rewrite (proj2 (Rltb_false r 0)), (proj2 (Rltb_false g 0)), (proj2 (Rltb_false b 0)), (proj2 (Rltb_false 1 r)), (proj2 (Rltb_false 1 g)), (proj2 (Rltb_false 1 b)) by lra. reflexivity.
Qed.
Lemma color_floats : forall r g b kr kg kb, 0 <= r <= 1 -> 0 <= g <= 1 -> 0 <= b <= 1 -> r * 255 = IZR kr -> g * 255 = IZR kg -> IZR kb <= b * 255 < IZR kb + 1 ->
  color_tuple_to_hex [CFloat r; CFloat g; CFloat b] = Ok (String.append "0x" (String.append (two_hex kr) (String.append (two_hex kg) (two_hex kb)))).
Proof.
  intros r g b kr kg kb Hr Hg Hb Er Eg Eb. rewrite float_branch by assumption. f_equal.
  assert (X : (0 <= kr <= 255)%Z) by (split; apply le_IZR; rewrite <- Er; lra). assert (Y : (0 <= kg <= 255)%Z) by (split; apply le_IZR; rewrite <- Eg; lra).
  assert (W : (0 <= kb <= 255)%Z). { split; [|apply le_IZR; lra]. apply Z.lt_succ_r. apply lt_IZR. rewrite succ_IZR. lra. }
  rewrite (Rfloor_unique _ (kr * (256 * 256) + kg * 256 + kb)%Z); [apply hexstring_three; lia|]. rewrite !plus_IZR, !mult_IZR. rewrite <- Er, <- Eg. lra.
Qed.
Lemma color_floats_length : forall r g b, 0 <= r <= 1 -> 0 <= g <= 1 -> 0 <= b <= 1 -> exists s, color_tuple_to_hex [CFloat r; CFloat g; CFloat b] = Ok s /\ String.length s = 8%nat.
Proof.
  intros r g b Hr Hg Hb. rewrite float_branch by assumption. eexists. split; [reflexivity|]. apply hexstring_length.
  destruct (Rfloor_spec (r * (256 * 256) * 255 + g * 256 * 255 + b * 255)) as [A B]. split; [|apply lt_IZR; lra]. apply Z.lt_succ_r. apply lt_IZR. rewrite succ_IZR. lra.
Qed.
Lemma color_leak : color_tuple_to_hex [CFloat (1 / 2); CFloat 0; CFloat 0] = Ok "0x7f8000"%string.
Proof.
  rewrite float_branch by lra. rewrite (Rfloor_unique _ 8355840) by lra. apply f_equal. change 8355840%Z with (127 * (256 * 256) + 128 * 256 + 0)%Z. rewrite hexstring_three by lia. reflexivity.
Qed.
Lemma existsb_out : forall (f : cval -> bool) l x, In x l -> f x = true -> existsb f l = true.
Proof. intros. apply existsb_exists. exists x. auto. Qed.
Lemma color_refused : forall c, (exists x, In x c /\ (is_float x && (Rltb (fval x) 0 || Rltb 1 (fval x)) || is_int x && ((ival x <? 0)%Z || (255 <? ival x)%Z) || negb (is_float x || is_int x))%bool = true) ->
  color_tuple_to_hex c = Err ValueError.
Proof.
  intros c (x & Hx & H). unfold color_tuple_to_hex. destruct (forallb is_float c) eqn:F.
  - rewrite forallb_forall in F. specialize (F x Hx). destruct x; try discriminate. rewrite (existsb_out _ c (CFloat r) Hx); [reflexivity|]. cbn in H |- *. rewrite !orb_false_r in H. exact H.
  - destruct (forallb is_int c) eqn:I; [|reflexivity]. rewrite forallb_forall in I. specialize (I x Hx). destruct x; try discriminate. rewrite (existsb_out _ c (CInt z) Hx); [reflexivity|]. cbn in H |- *. rewrite orb_false_r in H. exact H.
Qed.
Lemma color_mixed : forall c x y, In x c -> In y c -> is_float x = true -> is_int y = true -> color_tuple_to_hex c = Err ValueError.
Proof.
  intros c x y Hx Hy Fx Iy. unfold color_tuple_to_hex. destruct (forallb is_float c) eqn:F.
  - rewrite forallb_forall in F. specialize (F y Hy). destruct y; discriminate.
  - destruct (forallb is_int c) eqn:I; [|reflexivity]. rewrite forallb_forall in I. specialize (I x Hx). destruct x; discriminate.
Qed.
Lemma get_color_unit : forall to_rgb c out, (forall s l, to_rgb s = Ok l -> unit_floats l = true) -> get_color to_rgb c = Ok out -> unit_floats out = true.
Proof.
  intros to_rgb c out T H. unfold get_color in H. destruct c as [[l|s]|].
  - destruct (unit_floats l) eqn:U; [injection H as <-; exact U|apply (T _ _ H)].
  - apply (T _ _ H).
  - injection H as <-. unfold unit_floats. cbn [length Nat.eqb forallb is_float fval andb]. rewrite (proj2 (Rltb_false 1 0)), (proj2 (Rltb_false 1 1)) by lra. reflexivity.
Qed.
(** ** Boxes *)
Definition in_range (lo hi : Z) (x : Z) : bool := ((lo <=? x) && (x <=? hi))%Z%bool.
Lemma face_plane : forallb (fun f => existsb (fun j => forallb (fun i => Z.eqb (coord j (nth i box_corners (0, 0, 0)%Z)) (coord j (nth (hd 0%nat f) box_corners (0, 0, 0)%Z))) f) [0; 1; 2]%nat) (box_faces ++ box_triangles) = true.
Proof. reflexivity. Qed.
