(** Proofs about the text of the ACIS corners *)
From Coq Require Import Ascii Lia Lra.
From Verif Require Import Base_Proofs Osip_Proofs.
From Verif Require Export AcisText_Model.
Open Scope string_scope.
Open Scope list_scope.

(** ** decimals *)
Lemma ten (P : nat -> Prop) : P 0%nat -> P 1%nat -> P 2%nat -> P 3%nat -> P 4%nat -> P 5%nat -> P 6%nat -> P 7%nat -> P 8%nat -> P 9%nat -> forall d, (d < 10)%nat -> P d.
Proof. intros. do 10 (destruct d as [|d]; [assumption|]). lia. Qed.
Lemma digit_text_ok d : (d < 10)%nat -> digit (digit_text d) = Some (Z.of_nat d) /\ is_space (digit_text d) = false /\ Ascii.eqb (digit_text d) "-" = false /\ Ascii.eqb (digit_text d) "+" = false.
Proof. revert d. apply ten; repeat split; reflexivity. Qed.
Definition push (a : Z) (l : list nat) : Z := fold_left (fun a d => (10 * a + Z.of_nat d)%Z) l a.
Lemma digits_read l : Forall (fun d => (d < 10)%nat) l -> forall s a n, match s with EmptyString => True | String c _ => digit c = None end ->
  digits (digits_text l ++ s)%string a n = (push a l, (List.length l + n)%nat, s).
Proof.
  induction 1 as [|d l D F IH]; intros s a n E.
  - cbn. destruct s as [|c s]; [reflexivity|]. cbn. now rewrite E.
  - cbn [digits_text String.append digits]. rewrite (proj1 (digit_text_ok d D)). rewrite IH by exact E. cbn [push fold_left List.length]. f_equal. f_equal. lia.
Qed.
Lemma push_number a l : push a l = (a * 10 ^ Z.of_nat (List.length l) + digits_number l)%Z.
Proof.
  unfold digits_number. fold (push 0 l). revert a. induction l as [|d l IH]; intros a.
  - cbn. lia.
  - change (push a (d :: l)) with (push (10 * a + Z.of_nat d) l). change (push 0 (d :: l)) with (push (10 * 0 + Z.of_nat d) l). rewrite IH, (IH (10 * 0 + Z.of_nat d)%Z). cbn [List.length]. rewrite Nat2Z.inj_succ, Z.pow_succ_r by lia. lia.
Qed.
Lemma append_nil_r (s : string) : (s ++ "")%string = s.
Proof. induction s as [|c s IH]; [reflexivity|]. cbn. now rewrite IH. Qed.
Lemma unsigned_read ip fp : Forall (fun d => (d < 10)%nat) ip -> Forall (fun d => (d < 10)%nat) fp -> ip <> [] ->
  unsigned (digits_text ip ++ "." ++ digits_text fp)%string = Some (push (push 0 ip) fp, List.length fp).
Proof.
  intros Hi F N. unfold unsigned. rewrite (digits_read ip Hi) by reflexivity. change ("." ++ digits_text fp)%string with (String "." (digits_text fp)). cbv iota. change (Ascii.eqb "." ".") with true. cbv iota.
  rewrite <- (append_nil_r (digits_text fp)), (digits_read fp F "" _ 0%nat I). rewrite !Nat.add_0_r. destruct ip as [|d ip]; [congruence|]. cbn [List.length Nat.add Nat.eqb]. reflexivity.
Qed.
Lemma decimal_read x : decimal_ok x -> decimal (decimal_text x) = Some ((if d_neg x then -1 else 1) * push (push 0 (d_int x)) (d_frac x), List.length (d_frac x))%Z.
Proof.
  intros (I & F & N). unfold decimal_text. destruct (d_neg x).
  - cbn [String.append decimal]. change (Ascii.eqb "-" "-") with true. cbv iota. change (digits_text (d_int x) ++ String "." (digits_text (d_frac x)))%string with (digits_text (d_int x) ++ "." ++ digits_text (d_frac x))%string.
    rewrite (unsigned_read _ _ I F N). cbn [option_map fst snd]. f_equal.
  - change ("" ++ digits_text (d_int x) ++ "." ++ digits_text (d_frac x))%string with (digits_text (d_int x) ++ "." ++ digits_text (d_frac x))%string. rewrite Z.mul_1_l. rewrite <- (unsigned_read _ _ I F N).
    destruct (d_int x) as [|d ip]; [congruence|]. cbn [digits_text String.append decimal]. inversion I; subst. destruct (digit_text_ok d) as (_ & _ & M & P); [assumption|]. now rewrite M, P.
Qed.
Lemma IZR_pow10 n : IZR (10 ^ Z.of_nat n) = (10 ^ n)%R.
Proof. rewrite <- pow_IZR. reflexivity. Qed.
Lemma float_read x : decimal_ok x -> float (decimal_text x) = Ok (decimal_value x).
Proof.
  intros H. unfold float. rewrite (decimal_read x H). f_equal. unfold dec_value, decimal_value. cbn [fst snd]. rewrite mult_IZR, (push_number (push 0 (d_int x))), plus_IZR, mult_IZR, IZR_pow10.
  assert (E : push 0 (d_int x) = digits_number (d_int x)) by reflexivity. rewrite E. assert (P : (10 ^ List.length (d_frac x))%R <> 0%R) by (apply pow_nonzero; lra). destruct (d_neg x); field; exact P.
Qed.

(** ** words *)
Fixpoint no_space (s : string) : bool := match s with EmptyString => true | String c s' => (negb (is_space c) && no_space s')%bool end.
Lemma no_space_app s u : no_space (s ++ u)%string = (no_space s && no_space u)%bool.
Proof. induction s as [|c s IH]; [reflexivity|]. cbn. now rewrite IH, Bool.andb_assoc. Qed.
Lemma digits_no_space l : Forall (fun d => (d < 10)%nat) l -> no_space (digits_text l) = true.
Proof. induction 1 as [|d l D F IH]; [reflexivity|]. cbn [digits_text no_space]. destruct (digit_text_ok d D) as (_ & E & _). now rewrite E, IH. Qed.
Lemma decimal_no_space x : decimal_ok x -> no_space (decimal_text x) = true /\ decimal_text x <> "".
Proof.
  intros (I & F & N). unfold decimal_text. split.
  - rewrite !no_space_app, (digits_no_space _ I), (digits_no_space _ F). now destruct (d_neg x).
  - destruct (d_neg x); [discriminate|]. destruct (d_int x); [congruence|]. discriminate.
Qed.
Lemma words_word w s cur : no_space w = true -> words_from cur (w ++ s)%string = words_from (cur ++ w)%string s.
Proof.
  revert cur. induction w as [|c w IH]; intros cur H; [now rewrite append_nil_r|]. cbn in H. apply Bool.andb_true_iff in H. destruct H as [C H]. apply Bool.negb_true_iff in C. cbn [String.append words_from]. rewrite C, IH by exact H. now rewrite append_assoc.
Qed.
Lemma words_blanks n s : words_from "" (blanks n ++ s)%string = words_from "" s.
Proof. induction n as [|n IH]; [reflexivity|]. cbn. exact IH. Qed.
Lemma words_end cur n s : cur <> "" -> (0 < n)%nat -> words_from cur (blanks n ++ s)%string = cur :: words_from "" s.
Proof. intros C N. destruct n as [|n]; [lia|]. cbn [blanks String.append words_from]. change (is_space " ") with true. cbv iota. destruct cur; [congruence|]. f_equal. apply words_blanks. Qed.
Lemma words_last cur n : cur <> "" -> words_from cur (blanks n) = [cur].
Proof.
  intros C. destruct n as [|n]; [destruct cur; [congruence|reflexivity]|]. rewrite <- (append_nil_r (blanks (S n))), words_end by (assumption || lia). reflexivity.
Qed.
Lemma words_more l last : Forall (fun nx => (0 < fst nx)%nat) l -> Forall (fun nx => decimal_ok (snd nx)) l -> forall cur, cur <> "" ->
  words_from cur (numbers_text l ++ blanks last)%string = cur :: map (fun nx => decimal_text (snd nx)) l.
Proof.
  induction l as [|[n x] l IH]; intros G D cur C.
  - cbn [numbers_text map String.append]. now apply words_last.
  - cbn [numbers_text map]. inversion G; subst. inversion D; subst. cbn [fst snd] in *. rewrite !append_assoc. rewrite words_end by assumption. f_equal. destruct (decimal_no_space x) as [S1 S2]; [assumption|].
    rewrite words_word by exact S1. cbn [String.append]. now apply IH.
Qed.
Lemma words_numbers l last : separated l -> Forall (fun nx => decimal_ok (snd nx)) l -> words (numbers_text l ++ blanks last)%string = map (fun nx => decimal_text (snd nx)) l.
Proof.
  intros G D. destruct l as [|[n x] l].
  - cbn [numbers_text map String.append]. unfold words. rewrite <- (append_nil_r (blanks last)), words_blanks. reflexivity.
  - cbn [numbers_text map]. inversion D; subst. cbn [fst snd] in *. unfold words. rewrite !append_assoc, words_blanks. destruct (decimal_no_space x) as [S1 S2]; [assumption|]. rewrite words_word by exact S1. cbn [String.append]. now apply words_more.
Qed.
Lemma substring_prefix s u : String.substring 0 (String.length s) (s ++ u)%string = s.
Proof. induction s as [|c s IH]; [now destruct u|]. cbn. now rewrite IH. Qed.
Lemma string_length_app s u : String.length (s ++ u)%string = (String.length s + String.length u)%nat.
Proof. induction s as [|c s IH]; [reflexivity|]. cbn. now rewrite IH. Qed.
Lemma inner_bracket s : inner ("(" ++ s ++ ")")%string = s.
Proof.
  unfold inner. cbn [String.append String.length]. rewrite string_length_app. cbn [String.length]. replace (S (String.length s + 1) - 2)%nat with (String.length s) by lia. cbn [String.substring]. apply substring_prefix.
Qed.
Lemma floats_read l : Forall (fun nx => decimal_ok (snd nx)) l -> floats (map (fun nx : nat * decimal_number => decimal_text (snd nx)) l) = Ok (map (fun nx => decimal_value (snd nx)) l).
Proof. induction 1 as [|[n x] l D F IH]; [reflexivity|]. cbn [map floats fst snd] in *. rewrite (float_read x D). cbn [bind]. rewrite IH. reflexivity. Qed.
Lemma bracket_read l last : separated l -> Forall (fun nx => decimal_ok (snd nx)) l -> floats (words (inner (bracket_text l last))) = Ok (map (fun nx => decimal_value (snd nx)) l).
Proof. intros G D. unfold bracket_text. rewrite <- (append_assoc (numbers_text l) (blanks last) ")"). rewrite inner_bracket, (words_numbers _ _ G D). now apply floats_read. Qed.

(** ** the table *)
Lemma lookup_first pre name text post : (forall row, In row pre -> fst row <> name) -> lookup (pre ++ (name, text) :: post) name = Ok text.
Proof.
  intros H. unfold lookup. rewrite filter_app. assert (E : filter (fun row => String.eqb (fst row) name) pre = []).
  { induction pre as [|r pre IH]; [reflexivity|]. cbn. destruct (String.eqb_spec (fst r) name) as [Q|Q]; [exfalso; apply (H r); [now left|exact Q]|]. apply IH. intros row I. apply H. now right. }
  rewrite E. cbn. now rewrite String.eqb_refl.
Qed.
Lemma lookup_missing t name : (forall row, In row t -> fst row <> name) -> lookup t name = Err IndexError.
Proof.
  intros H. unfold lookup. induction t as [|r t IH]; [reflexivity|]. cbn. destruct (String.eqb_spec (fst r) name) as [Q|Q]; [exfalso; apply (H r); [now left|exact Q]|]. apply IH. intros row I. apply H. now right.
Qed.
Lemma get_chip_spec t chip cs : forall out d, get_chip t chip cs out = Ok d -> NoDup cs -> (forall c, In c cs -> exists v, corner t chip c = Ok v /\ dget c d = Some v) /\ (forall c, ~ In c cs -> dget c d = dget c out).
Proof.
  induction cs as [|c cs IH]; intros out d E N; cbn in E.
  - injection E as <-. split; [intros c []|reflexivity].
  - destruct (corner t chip c) as [v|e] eqn:V; [|discriminate]. cbn in E. inversion N; subst. destruct (IH _ _ E) as [A B]; [assumption|]. split.
    + intros c' [<-|I]; [|now apply A]. exists v. split; [exact V|]. rewrite B by assumption. apply dget_dset_eq.
    + intros c' I. rewrite B by (intros J; apply I; now right). apply dget_dset_neq. intros ->. apply I. now left.
Qed.
Lemma get_chip_ok t chip cs : (forall c, In c cs -> exists v, corner t chip c = Ok v) -> forall out, exists d, get_chip t chip cs out = Ok d.
Proof.
  induction cs as [|c cs IH]; intros H out; cbn; [eauto|]. destruct (H c (or_introl eq_refl)) as [v V]. rewrite V. cbn. apply IH. intros c' I. apply H. now right.
Qed.
Lemma get_chip_err t chip cs : (exists c e, In c cs /\ corner t chip c = Err e) -> forall out, exists e, get_chip t chip cs out = Err e.
Proof.
  induction cs as [|c cs IH]; intros (c0 & e & I & E) out; [destruct I|]. cbn. destruct (corner t chip c) as [v|e'] eqn:V; cbn; [|eauto]. apply IH. destruct I as [<-|I]; [congruence|]. eauto.
Qed.
Lemma get_chip_first_err t chip cs1 c cs2 e : (forall c', In c' cs1 -> exists v, corner t chip c' = Ok v) -> corner t chip c = Err e -> forall out, get_chip t chip (cs1 ++ c :: cs2) out = Err e.
Proof.
  intros H E. induction cs1 as [|c1 cs1 IH]; intros out; cbn; [now rewrite E|]. destruct (H c1 (or_introl eq_refl)) as [v V]. rewrite V. cbn. apply IH. intros c' I. apply H. now right.
Qed.
Lemma get_chips_spec t chips : forall ds, get_chips t chips = Ok ds -> Forall2 (fun chip d => get_chip t chip corner_names [] = Ok d) chips ds.
Proof.
  induction chips as [|chip chips IH]; intros ds E; cbn [get_chips] in E; [injection E as <-; constructor|].
  destruct (get_chip t chip corner_names []) as [d|] eqn:D; [|discriminate]. cbn [bind] in E. destruct (get_chips t chips) as [ds'|]; [|discriminate]. cbn in E. injection E as <-. constructor; [exact D|now apply IH].
Qed.
Lemma get_chips_ok t chips : (forall chip, In chip chips -> exists d, get_chip t chip corner_names [] = Ok d) -> exists ds, get_chips t chips = Ok ds.
Proof.
  induction chips as [|chip chips IH]; intros H; [now exists []|]. cbn [get_chips]. destruct (H chip (or_introl eq_refl)) as [d ->]. cbn [bind]. destruct IH as [ds ->]; [intros c I; apply H; now right|]. eexists. reflexivity.
Qed.
Lemma get_chips_first_err t c1 chip c2 e : (forall c, In c c1 -> exists d, get_chip t c corner_names [] = Ok d) -> get_chip t chip corner_names [] = Err e -> get_chips t (c1 ++ chip :: c2) = Err e.
Proof.
  intros H E. induction c1 as [|c c1 IH]; cbn [app get_chips]; [now rewrite E|]. destruct (H c (or_introl eq_refl)) as [d ->]. cbn [bind]. rewrite IH by (intros c' I; apply H; now right). reflexivity.
Qed.
(** ** the shipped table *)
Lemma floats_dec l ds : map decimal l = map Some ds -> floats l = Ok (map dec_value ds).
Proof.
  revert ds. induction l as [|s l IH]; intros [|d ds] E; try discriminate; [reflexivity|]. cbn [map] in E. assert (E1 : decimal s = Some d) by congruence. assert (E2 : map decimal l = map Some ds) by congruence. cbn [floats map]. unfold float. rewrite E1. cbn [bind]. rewrite (IH _ E2). reflexivity.
Qed.
Definition corner_dec (t : list (string * string)) (chip c : string) : option (list (Z * nat)) :=
  match lookup t ("ACIS-" ++ chip ++ "-" ++ c)%string with
  | Ok text => fold_right (fun s o => match decimal s, o with Some d, Some ds => Some (d :: ds) | _, _ => None end) (Some []) (words (inner text))
  | Err _ => None
  end.
Lemma corner_dec_ok t chip c ds : corner_dec t chip c = Some ds -> corner t chip c = Ok (map dec_value ds).
Proof.
  unfold corner_dec, corner. destruct (lookup t _) as [text|]; [|discriminate]. cbn [bind]. intros H. apply floats_dec. revert ds H. induction (words (inner text)) as [|s l IH]; intros ds H; cbn in H; [injection H as <-; reflexivity|].
  destruct (decimal s) as [d|] eqn:D; [|discriminate]. destruct (fold_right _ _ l) as [ds'|] eqn:F; [|discriminate]. injection H as <-. cbn [map]. now rewrite D, (IH ds' eq_refl).
Qed.
Lemma dec_3 z : dec_value (z, 3%nat) = (IZR z / 1000)%R. Proof. unfold dec_value. cbn. lra. Qed.
Lemma dec_2 z : dec_value (z, 2%nat) = (IZR (10 * z) / 1000)%R. Proof. unfold dec_value. rewrite mult_IZR. cbn. lra. Qed.
Ltac chip_tac := unfold corner_names; cbn [get_chip]; 
  repeat (match goal with |- context [corner acis_table ?a ?b] => let v := eval vm_compute in (corner_dec acis_table a b) in match v with Some ?ds => rewrite (corner_dec_ok acis_table a b ds) by (vm_compute; reflexivity) end end; cbn [bind]);
  unfold as_dict, um; cbn [map c_LL c_LR c_UR c_UL x3 y3 z3]; rewrite ?dec_3, ?dec_2; reflexivity.
Lemma shipped_corners : get_corners acis_table = Ok (map as_dict acis_corners).
Proof.
  assert (E : Forall2 (fun chip c => get_chip acis_table chip corner_names [] = Ok (as_dict c)) acis_names acis_corners).
  { unfold acis_names, acis_corners. repeat constructor; chip_tac. }
  unfold get_corners. revert E. generalize acis_names, acis_corners. intros l cs E. induction E as [|chip c l cs H E IH]; [reflexivity|]. cbn [get_chips map]. now rewrite H, IH.
Qed.

(** ** which texts are numbers *)
Lemma digit_inv c d : digit c = Some d -> exists k, (k < 10)%nat /\ d = Z.of_nat k /\ c = digit_text k.
Proof.
  unfold digit. destruct ((48 <=? Z.of_nat (nat_of_ascii c))%Z && (Z.of_nat (nat_of_ascii c) <=? 57)%Z)%bool eqn:E; [|discriminate]. intros H. apply (f_equal (fun o => match o with Some x => x | None => 0%Z end)) in H.
  apply Bool.andb_true_iff in E. destruct E as [A B]. apply Z.leb_le in A, B. exists (nat_of_ascii c - 48)%nat. split; [lia|]. split; [rewrite <- H; lia|]. unfold digit_text. replace (48 + (nat_of_ascii c - 48))%nat with (nat_of_ascii c) by lia. now rewrite ascii_nat_embedding.
Qed.
Lemma digits_inv s : forall a n b m r, digits s a n = (b, m, r) -> exists l, Forall (fun d => (d < 10)%nat) l /\ s = (digits_text l ++ r)%string /\ b = push a l /\ m = (List.length l + n)%nat.
Proof.
  induction s as [|c s IH]; intros a n b m r H.
  - cbn in H. injection H as <- <- <-. exists []. repeat split; constructor.
  - cbn [digits] in H. destruct (digit c) as [d|] eqn:D.
    + destruct (digit_inv c d D) as (k & K & -> & ->). destruct (IH _ _ _ _ _ H) as (l & F & -> & -> & ->). exists (k :: l). repeat split; [now constructor|]. cbn. lia.
    + injection H as <- <- <-. exists []. repeat split; constructor.
Qed.
Lemma point_no_digit : digit "." = None. Proof. reflexivity. Qed.
Lemma unsigned_numeral ip pt fp : Forall (fun d => (d < 10)%nat) ip -> Forall (fun d => (d < 10)%nat) fp -> ip ++ fp <> [] -> (pt = false -> fp = []) ->
  unsigned (digits_text ip ++ (if pt : bool then "." ++ digits_text fp else ""))%string = Some (push (push 0 ip) fp, List.length fp).
Proof.
  intros Hi F N Q. unfold unsigned. destruct pt.
  - rewrite (digits_read ip Hi) by reflexivity. change ("." ++ digits_text fp)%string with (String "." (digits_text fp)). cbv iota. change (Ascii.eqb "." ".") with true. cbv iota.
    rewrite <- (append_nil_r (digits_text fp)), (digits_read fp F "" _ 0%nat I). rewrite !Nat.add_0_r. destruct (Nat.eqb (List.length ip + List.length fp) 0) eqn:E; [|reflexivity].
    apply Nat.eqb_eq in E. exfalso. apply N. destruct ip; [|discriminate]. destruct fp; [reflexivity|discriminate].
  - rewrite (Q eq_refl) in N |- *. rewrite (digits_read ip Hi "" _ 0%nat I). rewrite app_nil_r in N. destruct ip; [congruence|]. reflexivity.
Qed.
Lemma unsigned_inv s a k : unsigned s = Some (a, k) -> exists ip pt fp, Forall (fun d => (d < 10)%nat) ip /\ Forall (fun d => (d < 10)%nat) fp /\ ip ++ fp <> [] /\ (pt = false -> fp = []) /\
  s = (digits_text ip ++ (if pt : bool then "." ++ digits_text fp else ""))%string.
Proof.
  unfold unsigned. destruct (digits s 0 0) as [[b n] r] eqn:D. destruct (digits_inv _ _ _ _ _ _ D) as (ip & Fi & -> & _ & En). destruct r as [|c r].
  - destruct (Nat.eqb n 0) eqn:E; [discriminate|]. intros _. apply Nat.eqb_neq in E. exists ip, false, []. repeat split; try assumption; try constructor. rewrite app_nil_r. intros ->. apply E. now rewrite En.
  - destruct (Ascii.eqb c ".") eqn:C; [|discriminate]. apply Ascii.eqb_eq in C. subst c. destruct (digits r b 0) as [[b2 k2] r2] eqn:D2. destruct (digits_inv _ _ _ _ _ _ D2) as (fp & Ff & -> & _ & Ek). destruct r2; [|discriminate].
    destruct (Nat.eqb (n + k2) 0) eqn:E; [discriminate|]. intros _. apply Nat.eqb_neq in E. exists ip, true, fp. repeat split; try assumption; try discriminate.
    + intros Z. apply app_eq_nil in Z. destruct Z as [-> ->]. cbn in En, Ek. lia.
    + now rewrite append_nil_r.
Qed.
Definition unsign (s : string) : bool := match s with EmptyString => true | String c _ => (negb (Ascii.eqb c "-") && negb (Ascii.eqb c "+"))%bool end.
Lemma numeral_unsign ip pt fp : Forall (fun d => (d < 10)%nat) ip -> unsign (digits_text ip ++ (if pt : bool then "." ++ digits_text fp else ""))%string = true.
Proof. intros [|d l D F]; [now destruct pt|]. cbn [digits_text String.append unsign]. destruct (digit_text_ok d D) as (_ & _ & M & P). now rewrite M, P. Qed.
Lemma decimal_numeral x : numeral_ok x -> exists z, decimal (numeral_text x) = Some (z, List.length (n_frac x)) /\ z = ((match n_sign x with Some true => -1 | _ => 1 end) * push (push 0 (n_int x)) (n_frac x))%Z.
Proof.
  intros (Hi & F & N & Q). pose proof (unsigned_numeral _ (n_point x) _ Hi F N Q) as U. pose proof (numeral_unsign _ (n_point x) (n_frac x) Hi) as S. unfold numeral_text. set (s := (digits_text (n_int x) ++ _)%string) in *. clearbody s.
  destruct (n_sign x) as [[|]|].
  - eexists. split; [|reflexivity]. cbn [sign_text String.append decimal]. change (Ascii.eqb "-" "-") with true. cbv iota. rewrite U. cbn [option_map fst snd]. match goal with |- Some (?a, _) = Some (?b, _) => replace b with a by lia end. reflexivity.
  - eexists. split; [|reflexivity]. cbn [sign_text String.append decimal]. change (Ascii.eqb "+" "-") with false. change (Ascii.eqb "+" "+") with true. cbv iota. rewrite U. match goal with |- Some (?a, _) = Some (?b, _) => replace b with a by lia end. reflexivity.
  - eexists. split; [|reflexivity]. cbn [sign_text]. cbn [String.append]. destruct s as [|c s]; [discriminate|]. cbn [unsign] in S. apply Bool.andb_true_iff in S. destruct S as [S1 S2].
    apply Bool.negb_true_iff in S1, S2. cbn [decimal]. rewrite S1, S2, U. match goal with |- Some (?a, _) = Some (?b, _) => replace b with a by lia end. reflexivity.
Qed.
Lemma float_numeral x : numeral_ok x -> float (numeral_text x) = Ok (numeral_value x).
Proof.
  intros H. unfold float. destruct (decimal_numeral x H) as (z & E & ->). rewrite E. f_equal. unfold dec_value, numeral_value. cbn [fst snd]. rewrite mult_IZR, (push_number (push 0 (n_int x))), plus_IZR, mult_IZR, IZR_pow10.
  assert (E2 : push 0 (n_int x) = digits_number (n_int x)) by reflexivity. rewrite E2. assert (P : (10 ^ List.length (n_frac x))%R <> 0%R) by (apply pow_nonzero; lra). destruct (n_sign x) as [[|]|]; field; exact P.
Qed.
Lemma float_only s v : float s = Ok v -> exists x, numeral_ok x /\ s = numeral_text x.
Proof.
  unfold float, decimal. destruct s as [|c s]; [discriminate|]. destruct (Ascii.eqb c "-") eqn:M; [|destruct (Ascii.eqb c "+") eqn:P].
  - apply Ascii.eqb_eq in M. subst c. destruct (unsigned s) as [[a k]|] eqn:U; [|discriminate]. intros _. destruct (unsigned_inv _ _ _ U) as (ip & pt & fp & Hi & F & N & Q & ->). now exists (Num (Some true) ip pt fp).
  - apply Ascii.eqb_eq in P. subst c. destruct (unsigned s) as [[a k]|] eqn:U; [|discriminate]. intros _. destruct (unsigned_inv _ _ _ U) as (ip & pt & fp & Hi & F & N & Q & ->). now exists (Num (Some false) ip pt fp).
  - destruct (unsigned (String c s)) as [[a k]|] eqn:U; [|discriminate]. intros _. destruct (unsigned_inv _ _ _ U) as (ip & pt & fp & Hi & F & N & Q & ->). now exists (Num None ip pt fp).
Qed.
Lemma float_otherwise s : (forall x, numeral_ok x -> s <> numeral_text x) -> float s = Err ValueError.
Proof. intros H. destruct (float s) as [v|e] eqn:E; [destruct (float_only s v E) as (x & K & ->); now destruct (H x K)|]. unfold float in E. destruct (decimal s); [discriminate|]. now rewrite <- E. Qed.

(** ** white space *)
Lemma is_space_white c : is_space c = true <-> In (nat_of_ascii c) white_codes.
Proof.
  unfold is_space, white_codes. rewrite !Bool.orb_true_iff, !Bool.andb_true_iff, Nat.eqb_eq, !Nat.leb_le. cbn [In]. split; intros H; lia.
Qed.
Lemma none_white_word s : none_white s -> no_space s = true.
Proof.
  induction s as [|c s IH]; [reflexivity|]. intros [H K]. cbn. rewrite IH by exact K. destruct (is_space c) eqn:E; [|reflexivity]. apply is_space_white in E. contradiction.
Qed.
Lemma words_skip sp s : all_white sp -> words_from "" (sp ++ s)%string = words_from "" s.
Proof. induction sp as [|c sp IH]; [reflexivity|]. intros [H K]. cbn [String.append words_from]. rewrite (proj2 (is_space_white c) H). now apply IH. Qed.
Lemma words_close cur sp s : cur <> "" -> sp <> "" -> all_white sp -> words_from cur (sp ++ s)%string = cur :: words_from "" s.
Proof. intros C N W. destruct sp as [|c sp]; [congruence|]. destruct W as [H K]. cbn [String.append words_from]. rewrite (proj2 (is_space_white c) H). destruct cur; [congruence|]. f_equal. now apply words_skip. Qed.
Lemma words_spaced_more l last : Forall (fun x => all_white (fst x) /\ fst x <> "" /\ none_white (snd x) /\ snd x <> "") l -> all_white last -> forall cur, cur <> "" ->
  words_from cur (spaced l ++ last)%string = cur :: map snd l.
Proof.
  intros F L. induction F as [|[sp w] l (A & N & W & E) F IH]; intros cur C.
  - cbn. destruct last as [|c last]; [now destruct cur|]. rewrite <- (append_nil_r (String c last)), words_close by (congruence || assumption). reflexivity.
  - cbn [spaced map fst snd] in *. rewrite !append_assoc, words_close by assumption. f_equal. rewrite words_word by (now apply none_white_word). cbn [String.append]. now apply IH.
Qed.
Lemma words_spaced l last : match l with [] => True | (sp, w) :: l' => all_white sp /\ none_white w /\ w <> "" /\ Forall (fun x => all_white (fst x) /\ fst x <> "" /\ none_white (snd x) /\ snd x <> "") l' end ->
  all_white last -> words (spaced l ++ last)%string = map snd l.
Proof.
  intros H L. unfold words. destruct l as [|[sp w] l].
  - cbn. rewrite <- (append_nil_r last), words_skip by exact L. reflexivity.
  - destruct H as (A & W & E & F). cbn [spaced map snd]. rewrite !append_assoc, words_skip by exact A. rewrite words_word by (now apply none_white_word). cbn [String.append]. now apply words_spaced_more.
Qed.
