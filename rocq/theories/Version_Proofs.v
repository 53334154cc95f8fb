From Verif Require Export Version_Model Base_Proofs Meta_Proofs.
From Coq Require Import Lia.
Open Scope string_scope.

Lemma app_nil_r (s : string) : s ++ "" = s.
Proof. induction s as [|c s IH]; [reflexivity|]. cbn. now rewrite IH. Qed.
Lemma app_assoc_s (a b c : string) : (a ++ b) ++ c = a ++ (b ++ c).
Proof. induction a as [|x a IH]; [reflexivity|]. cbn. now rewrite IH. Qed.
Lemma all_chars_app p a b : all_chars p (a ++ b) <-> all_chars p a /\ all_chars p b.
Proof. induction a as [|c a IH]; cbn; tauto. Qed.

Section Many.
  Context {X : Type}.
  Implicit Types (k : string -> string -> option X).
  (** the first letter after the repetition is not one of them *)
  Definition stops (p : ascii -> bool) (s : string) : Prop := match s with String c _ => p c = false | EmptyString => True end.
  Lemma many_stop p s k : stops p s -> many p s k = None.
  Proof. destruct s as [|c s]; cbn; [reflexivity|]. now intros ->. Qed.
  (** it takes all letters if the rest matches *)
  Lemma many_all p w : forall s k x, w <> "" -> all_chars p w -> stops p s -> k w s = Some x -> many p (w ++ s) k = Some x.
  Proof.
    induction w as [|c w IH]; intros s k x N A S K; [congruence|]. cbn in A. destruct A as [A1 A2]. cbn. rewrite A1.
    destruct w as [|c' w].
    - cbn. now rewrite many_stop.
    - now rewrite (IH s (fun a => k (String c a)) x) by (cbn; (discriminate || assumption)).
  Qed.
  (** it gives back letters: all of [w] and no more if the rest does not match after more letters *)
  Lemma many_back p w : forall u s k x, w <> "" -> all_chars p w -> all_chars p u -> stops p s ->
    k w (u ++ s) = Some x -> (forall a b, a <> "" -> u = a ++ b -> k (w ++ a) (b ++ s) = None) -> many p (w ++ u ++ s) k = Some x.
  Proof.
    induction w as [|c w IH]; intros u s k x N A U S K B; [congruence|]. cbn in A. destruct A as [A1 A2]. cbn. rewrite A1.
    destruct w as [|c' w].
    - cbn [append].
      assert (Z : forall u (k' : string -> string -> option X), all_chars p u -> (forall a b, a <> "" -> u = a ++ b -> k' a (b ++ s) = None) -> many p (u ++ s) k' = None).
      { clear - S. induction u as [|d u IH]; intros k' U B; [now apply many_stop|]. cbn in U. destruct U as [U1 U2]. cbn. rewrite U1.
        rewrite (IH (fun a => k' (String d a))); [|assumption|].
        - apply (B (String d "") u); [discriminate|reflexivity].
        - intros a b N E. apply (B (String d a) b); [discriminate|]. cbn. now rewrite E. }
      rewrite Z; [assumption|assumption|]. intros a b Na E. exact (B a b Na E).
    - rewrite (IH u s (fun a => k (String c a)) x); try (assumption || discriminate); reflexivity.
  Qed.
  (** what a match means *)
  Lemma many_some p : forall s k x, many p s k = Some x -> exists w r, s = w ++ r /\ w <> "" /\ all_chars p w /\ k w r = Some x.
  Proof.
    induction s as [|c s IH]; intros k x; cbn; [discriminate|]. destruct (p c) eqn:Pc; [|discriminate].
    destruct (many p s (fun a => k (String c a))) as [y|] eqn:M.
    - intros [= <-]. destruct (IH _ _ M) as (w & r & -> & N & A & K). exists (String c w), r. cbn. repeat split; try assumption. discriminate.
    - intros K. exists (String c ""), s. cbn. repeat split; try assumption. discriminate.
  Qed.
  Lemma many_none p : forall s k, many p s k = None <-> forall w r, s = w ++ r -> w <> "" -> all_chars p w -> k w r = None.
  Proof.
    induction s as [|c s IH]; intros k; cbn.
    - split; [|reflexivity]. intros _ w r E N. destruct w; [congruence|discriminate].
    - destruct (p c) eqn:Pc.
      + split.
        * intros H w r E N A. destruct w as [|d w]; [congruence|]. cbn in E. injection E as -> E. cbn in A.
          destruct (many p s (fun a => k (String d a))) as [y|] eqn:M; [discriminate|].
          destruct w as [|d' w]; [cbn in E; now subst r|]. apply IH with (w := String d' w) (r := r) in M; [assumption|assumption|discriminate|tauto].
        * intros H. destruct (many p s (fun a => k (String c a))) as [y|] eqn:M.
          -- exfalso. apply many_some in M. destruct M as (w & r & E & N & A & K). rewrite (H (String c w) r) in K; [discriminate| |discriminate|].
             ++ cbn. now rewrite E.
             ++ cbn. auto.
          -- apply (H (String c "") s); [reflexivity|discriminate|cbn; auto].
      + split; [|reflexivity]. intros _ w r E N A. destruct w as [|d w]; [congruence|]. cbn in E, A. injection E as -> _. destruct A. congruence.
  Qed.
  (** the number of letters is the largest one with which the rest matches *)
  Lemma many_longest p : forall s k x, many p s k = Some x ->
    exists w r, s = w ++ r /\ w <> "" /\ all_chars p w /\ k w r = Some x /\
      forall a b, a <> "" -> r = a ++ b -> all_chars p a -> k (w ++ a) b = None.
  Proof.
    induction s as [|c s IH]; intros k x; cbn; [discriminate|]. destruct (p c) eqn:Pc; [|discriminate].
    destruct (many p s (fun a => k (String c a))) as [y|] eqn:M.
    - intros [= <-]. destruct (IH _ _ M) as (w & r & -> & N & A & K & L). exists (String c w), r. cbn. repeat split; try assumption. discriminate.
    - intros K. exists (String c ""), s. cbn. repeat split; try assumption; [discriminate|].
      intros a b Na -> Aa. exact (proj1 (many_none _ _ _) M a b eq_refl Na Aa).
  Qed.
End Many.

(** ** after the version *)
Definition after (a b s : string) : option version :=
  maybe "+" s (fun s => group "g" word_char s (fun git s => maybe "." s (fun s => group "d" digit s (fun dirty _ => Some (mkVer (a ++ b) git dirty))))).
Lemma group_some {X} c p s (k : option string -> string -> option X) : (forall o r, exists x, k o r = Some x) -> exists x, group c p s k = Some x.
Proof.
  intros H. destruct s as [|a s]; cbn; [apply H|]. destruct (Ascii.eqb a c); [|apply H]. destruct (many _ _ _) as [x|]; [eauto|apply H].
Qed.
Lemma maybe_some {X} c s (k : string -> option X) : (forall r, exists x, k r = Some x) -> exists x, maybe c s k = Some x.
Proof. intros H. destruct s as [|a s]; cbn; [apply H|]. destruct (Ascii.eqb a c); [|apply H]. destruct (H s) as [x ->]. eauto. Qed.
(** nothing after the version can make the match fail *)
Lemma after_some a b s : exists v, after a b s = Some v.
Proof.
  apply maybe_some. intros r. apply group_some. intros o r'. apply maybe_some. intros r''. apply group_some. eauto.
Qed.
Lemma group_inv {X} (P : X -> Prop) c p s (k : option string -> string -> option X) x :
  group c p s k = Some x -> (forall o r y, k o r = Some y -> P y) -> P x.
Proof.
  intros H K. destruct s as [|a s]; cbn in H; [eapply K, H|]. destruct (Ascii.eqb a c); [|eapply K, H].
  destruct (many _ _ _) as [y|] eqn:M; [|eapply K, H]. injection H as <-. apply many_some in M. destruct M as (w & r & _ & _ & _ & M). eapply K, M.
Qed.
Lemma maybe_inv {X} (P : X -> Prop) c s (k : string -> option X) x : maybe c s k = Some x -> (forall r y, k r = Some y -> P y) -> P x.
Proof.
  intros H K. destruct s as [|a s]; cbn in H; [eapply K, H|]. destruct (Ascii.eqb a c); [|eapply K, H].
  destruct (k s) as [y|] eqn:M; [injection H as <-; eapply K, M|eapply K, H].
Qed.
Lemma after_version a b s v : after a b s = Some v -> ver_version v = a ++ b.
Proof.
  intros H. apply (maybe_inv (fun v => ver_version v = a ++ b) _ _ _ _ H). intros r y H1.
  apply (group_inv (fun v => ver_version v = a ++ b) _ _ _ _ _ H1). intros o r1 y1 H2.
  apply (maybe_inv (fun v => ver_version v = a ++ b) _ _ _ _ H2). intros r2 y2 H3.
  apply (group_inv (fun v => ver_version v = a ++ b) _ _ _ _ _ H3). intros o3 r3 y3 [= <-]. reflexivity.
Qed.
Lemma parse_unfold s : parse_version s = many version_char s (fun a s => many digit s (fun b s => after a b s)).
Proof. reflexivity. Qed.

Lemma digit_version c : digit c = true -> version_char c = true.
Proof. unfold version_char. now intros ->. Qed.
Lemma all_digit_version s : all_chars digit s -> all_chars version_char s.
Proof. induction s as [|c s IH]; cbn; [auto|]. intros [A B]. split; [now apply digit_version|auto]. Qed.
Lemma all_digit_word s : all_chars digit s -> all_chars word_char s.
Proof. induction s as [|c s IH]; cbn; [auto|]. intros [A B]. split; [unfold word_char; now rewrite A|auto]. Qed.

(** *** the version itself: the longest start made of the letters that ends in a digit *)
Lemma plain_start v s x : plain_version v -> stops version_char s -> after v "" s = Some x -> parse_version (v ++ s) = Some x.
Proof.
  intros (u & c & -> & N & A & D) S K. rewrite parse_unfold, app_assoc_s.
  apply (many_back version_char u (String c "") s); try assumption.
  - cbn. split; [now apply digit_version|exact I].
  - change (String c "" ++ s) with (String c "" ++ s). apply many_all; [discriminate|cbn; auto| |].
    + destruct s as [|d s]; cbn in *; [exact I|]. unfold version_char in S. now destruct (digit d).
    + unfold after in *. rewrite app_nil_r in K. exact K.
  - intros a b Na E. destruct a as [|d a]; [congruence|]. cbn in E. injection E as -> E. destruct a as [|e a]; [|discriminate]. cbn in E. subst b.
    cbn [append]. apply many_stop. destruct s as [|d' s]; cbn in *; [exact I|]. unfold version_char in S. now destruct (digit d').
Qed.
Lemma parse_inv s v : parse_version s = Some v ->
  exists r, s = ver_version v ++ r /\ plain_version (ver_version v) /\
    (forall w r', s = w ++ r' -> plain_version w -> String.length w <= String.length (ver_version v))%nat.
Proof.
  rewrite parse_unfold. intros H. destruct (many_longest _ _ _ _ H) as (a & r & E & N & A & K & L).
  destruct (many_longest _ _ _ _ K) as (b & r' & E' & N' & A' & K' & L'). pose proof (after_version _ _ _ _ K') as V. exists r'. rewrite V.
  assert (Sp : exists u c, b = u ++ String c "" /\ all_chars digit u /\ digit c = true).
  { clear - N' A'. induction b as [|d b IH]; [congruence|]. cbn in A'. destruct A' as [A1 A2]. destruct b as [|e b].
    - exists "", d. cbn. auto.
    - destruct IH as (u & c & Eb & Au & Dc); [discriminate|assumption|]. exists (String d u), c. rewrite Eb. cbn. auto. }
  destruct Sp as (u & c & Eb & Au & Dc).
  repeat split.
  - rewrite E, E'. now rewrite app_assoc_s.
  - exists (a ++ u), c. rewrite Eb. repeat split.
    + now rewrite app_assoc_s.
    + destruct a; [congruence|discriminate].
    + apply all_chars_app. split; [assumption|now apply all_digit_version].
    + assumption.
  - intros w r2 Ew (u2 & c2 & -> & N2 & A2 & D2).
    destruct (le_lt_dec (String.length (u2 ++ String c2 "")) (String.length (a ++ b))) as [|G]; [assumption|exfalso].
    (* the longer start would have been taken *)
    assert (Pre : forall (x y z t : string), x ++ y = z ++ t -> (String.length x <= String.length z)%nat -> exists q, z = x ++ q /\ y = q ++ t).
    { clear. induction x as [|x0 x IH]; intros y z t E L; [exists z; cbn in *; auto|]. destruct z as [|z0 z]; [cbn in L; lia|].
      cbn in E. injection E as -> E. destruct (IH y z t E) as (q & -> & ->); [cbn in L; lia|]. exists q. auto. }
    assert (Len : forall x y : string, String.length (x ++ y) = (String.length x + String.length y)%nat).
    { clear. induction x as [|x0 x IH]; intros y; cbn; [reflexivity|]. now rewrite IH. }
    rewrite !Len in G. cbn in G.
    destruct (le_lt_dec (String.length u2) (String.length a)) as [Q|Q].
    + (* then the last digit of w lies within a ++ b *)
      assert (1 <= String.length b)%nat by (destruct b; [congruence|cbn; lia]). lia.
    + destruct (Pre a r u2 (String c2 "" ++ r2)) as (q & Eq & Er); [now rewrite <- E, Ew, app_assoc_s|lia|].
      assert (q <> "") by (intros ->; rewrite app_nil_r in Eq; rewrite Eq in Q; lia).
      rewrite Eq in A2. apply all_chars_app in A2. destruct A2 as [_ A2].
      pose proof (L q (String c2 "" ++ r2) H0 Er A2) as Z. cbn beta in Z.
      apply (proj1 (many_none digit _ _)) with (w := String c2 "") (r := r2) in Z; [|reflexivity|discriminate|cbn; auto].
      destruct (after_some (a ++ q) (String c2 "") r2) as [y Y]. congruence.
Qed.
Lemma parse_none s : parse_version s = None <-> forall w r, s = w ++ r -> ~ plain_version w.
Proof.
  split.
  - intros H w r E (u & c & -> & N & A & D). rewrite parse_unfold in H.
    apply (proj1 (many_none _ _ _)) with (w := u) (r := String c "" ++ r) in H; [|now rewrite E, app_assoc_s|assumption|assumption].
    apply (proj1 (many_none _ _ _)) with (w := String c "") (r := r) in H; [|reflexivity|discriminate|cbn; auto].
    destruct (after_some u (String c "") r) as [y Y]. congruence.
  - intros H. destruct (parse_version s) as [v|] eqn:P; [|reflexivity]. exfalso. destruct (parse_inv _ _ P) as (r & E & V & _). exact (H _ _ E V).
Qed.

(** *** texts written by setuptools_scm *)
Lemma stops_end p : stops p "".
Proof. exact I. Qed.
Lemma date_group d s (k : option string -> string -> option version) x : date_text d -> stops digit s -> k (Some d) s = Some x ->
  group "d" digit (String "d" (d ++ s)) k = Some x.
Proof. intros [N A] S K. cbn. now rewrite (many_all digit d s (fun w => k (Some w)) x). Qed.
Lemma hash_group g s (k : option string -> string -> option version) x : hash g -> stops word_char s -> k (Some g) s = Some x ->
  group "g" word_char (String "g" (g ++ s)) k = Some x.
Proof. intros [N A] S K. cbn. now rewrite (many_all word_char g s (fun w => k (Some w)) x). Qed.
Lemma parse_text v : well_formed v -> parse_version (version_text v) = Some v.
Proof.
  destruct v as [v g d]. intros (V & G & D). cbn in V, G, D. unfold version_text. cbn [ver_version ver_git ver_dirty].
  destruct g as [g|], d as [d|]; cbn in G, D.
  - apply plain_start; [assumption|reflexivity|]. unfold after. rewrite app_nil_r. cbn [append maybe]. 
    change (Ascii.eqb "+" "+") with true. cbv iota.
    rewrite (hash_group g (String "." (String "d" d)) _ (mkVer v (Some g) (Some d))); [reflexivity|assumption|reflexivity|].
    cbn [maybe]. change (Ascii.eqb "." ".") with true. cbv iota. 
    replace d with (d ++ "") at 1 by apply app_nil_r. rewrite (date_group d "" _ (mkVer v (Some g) (Some d))); try assumption; try exact I; reflexivity.
  - apply plain_start; [assumption|reflexivity|]. unfold after. rewrite app_nil_r. cbn [append maybe].
    change (Ascii.eqb "+" "+") with true. cbv iota.
    replace g with (g ++ "") at 1 by apply app_nil_r. rewrite (hash_group g "" _ (mkVer v (Some g) None)); try assumption; try exact I; reflexivity.
  - apply plain_start; [assumption|reflexivity|]. unfold after. rewrite app_nil_r. cbn [append maybe].
    change (Ascii.eqb "+" "+") with true. cbv iota.
    assert (Gn : forall s (k : option string -> string -> option version), group "g" word_char (String "d" s) k = k None (String "d" s)) by reflexivity.
    rewrite Gn. cbn [maybe]. change (Ascii.eqb "d" ".") with false. cbv iota.
    replace d with (d ++ "") at 1 by apply app_nil_r. rewrite (date_group d "" _ (mkVer v None (Some d))); try assumption; try exact I; reflexivity.
  - rewrite app_nil_r. replace v with (v ++ "") at 1 by apply app_nil_r. apply plain_start; [assumption|exact I|]. unfold after. cbn. now rewrite app_nil_r.
Qed.

(** ** headers of photons *)
Lemma text_injective v w : well_formed v -> well_formed w -> version_text v = version_text w -> v = w.
Proof. intros V W E. apply parse_text in V. apply parse_text in W. rewrite E in V. congruence. Qed.
(** the keywords of the version in the header, if the user does not give them *)
Lemma tagged_keyword v date kw : NoDup (dkeys kw) -> (forall k, In k version_keywords -> dget k kw = None) ->
  dget "MARXSVER" (tagged v date kw) = Some (ver_version v, "MARXS code version") /\
  dget "MARXSGIT" (tagged v date kw) = option_map (fun g => (g, "Git hash of MARXS code")) (ver_git v) /\
  dget "MARXSTIM" (tagged v date kw) = option_map (fun d => (d, "Date of dirty version ARCUS code")) (ver_dirty v).
Proof.
  intros ND H. unfold tagged.
  assert (K : forall k, k <> "DATE" -> dget k (tag_call date (tag_init v None None kw) [] []) = dget k (tag_init v None None kw)).
  { intros k N. rewrite tag_call_get; [|now apply tag_init_NoDup|constructor]. cbn [dget].
    destruct (dget k (tag_init v None None kw)); [reflexivity|]. apply String.eqb_neq in N. now rewrite N. }
  rewrite !K by discriminate. unfold tag_init. destruct v as [ve g d]. cbn [ver_version ver_git ver_dirty].
  assert (D : forall k, In k version_keywords -> k <> "name" -> dget k (ddel "name" kw) = None) by (intros k I N; rewrite dget_ddel_neq by congruence; now apply H).
  assert (I1 : In "MARXSVER" version_keywords) by (cbn; tauto). assert (I2 : In "MARXSGIT" version_keywords) by (cbn; tauto).
  assert (I3 : In "MARXSTIM" version_keywords) by (cbn; tauto).
  destruct g as [g|], d as [d|]; cbn [option_map];
  repeat split; repeat ((rewrite dget_dset_eq by discriminate) || (rewrite dget_dset_neq by discriminate)); try reflexivity;
    try (rewrite dget_dset_eq); try reflexivity; apply D; (assumption || discriminate).
Qed.
Lemma same_version v w date date' kw kw' : NoDup (dkeys kw) -> NoDup (dkeys kw') ->
  (forall k, In k version_keywords -> dget k kw = None) -> (forall k, In k version_keywords -> dget k kw' = None) ->
  check_meta (tagged v date kw) (tagged w date' kw') version_keywords true = Ok tt <-> v = w.
Proof.
  intros N N' H H'. rewrite check_meta_iff.
  destruct (tagged_keyword v date kw N H) as (A1 & A2 & A3). destruct (tagged_keyword w date' kw' N' H') as (B1 & B2 & B3).
  unfold version_keywords. rewrite !Forall_cons_iff. unfold agree. rewrite A1, A2, A3, B1, B2, B3.
  destruct v as [v g d], w as [w g' d']. cbn [ver_version ver_git ver_dirty]. split.
  - intros ((E1 & _) & (E2 & _) & (E3 & _) & _). injection E1 as ->. f_equal.
    + destruct g, g'; cbn in E2; congruence.
    + destruct d, d'; cbn in E3; congruence.
  - intros [= -> -> ->]. repeat split; auto; discriminate.
Qed.
Lemma tagged_by v s date kw tags : new_tags s None None kw = Ok tags -> parse_version s = Some v -> tag_call date tags [] [] = tagged v date kw.
Proof. unfold new_tags. intros H P. rewrite P in H. injection H as <-. reflexivity. Qed.
