(** Proofs about Tol_Model. *)
From Verif Require Export Base_Proofs Vec_Proofs Container_Proofs Placement_Proofs Tol_Model.
Open Scope R_scope.

(** ** varyattribute *)
Section Attributes.
Context {V : Type}.
Implicit Types kw e : dict V.
Lemma din_dset : forall k k' (v : V) e, din k' e = true -> din k (dset k' v e) = din k e.
Proof.
  intros k k' v e H. destruct (din k e) eqn:A.
  - apply din_dget in A. destruct A as [x A]. apply din_dget. destruct (String.string_dec k k') as [->|N]; [exists v; apply dget_dset_eq|]. exists x. now rewrite dget_dset_neq.
  - destruct (din k (dset k' v e)) eqn:B; [|reflexivity]. apply din_dget in B. destruct B as [x B].
    assert (N : k <> k') by congruence. rewrite dget_dset_neq in B by exact N. apply din_false in A. congruence.
Qed.
Lemma vary1_ok : forall kw e, (forall k, In k (dkeys kw) -> din k e = true) -> varyattribute1 kw e = (dupdate e kw, None).
Proof.
  induction kw as [|[k v] kw IH]; intros e H; [reflexivity|]. cbn [varyattribute1]. rewrite H by (now left).
  rewrite IH; [reflexivity|]. intros k' I. rewrite din_dset by (apply H; now left). apply H. now right.
Qed.
Lemma vary1_err : forall kw e, (exists k, In k (dkeys kw) /\ din k e = false) -> snd (varyattribute1 kw e) = Some ValueError.
Proof.
  induction kw as [|[k v] kw IH]; intros e (k' & I & D); [destruct I|]. cbn [varyattribute1]. destruct (din k e) eqn:A; [|reflexivity].
  apply IH. exists k'. cbn in I. destruct I as [->|I]; [congruence|]. split; [exact I|]. now rewrite din_dset.
Qed.
Lemma dkeys_dset_in : forall k (v : V) e, din k e = true -> dkeys (dset k v e) = dkeys e.
Proof.
  intros k v e. induction e as [|[k' v'] e IH]; [discriminate|]. unfold din. cbn. destruct (String.eqb k k') eqn:E; cbn; [reflexivity|].
  intros H. f_equal. apply IH. exact H.
Qed.
Lemma vary1_keys : forall kw e, dkeys (fst (varyattribute1 kw e)) = dkeys e.
Proof.
  induction kw as [|[k v] kw IH]; intros e; [reflexivity|]. cbn [varyattribute1]. destruct (din k e) eqn:A; [|reflexivity]. rewrite IH. now apply dkeys_dset_in.
Qed.
Lemma vary1_other : forall kw e k, ~ In k (dkeys kw) -> dget k (fst (varyattribute1 kw e)) = dget k e.
Proof.
  induction kw as [|[k v] kw IH]; intros e k' N; [reflexivity|]. cbn [varyattribute1]. destruct (din k e) eqn:A; [|reflexivity].
  rewrite IH by (intros I; apply N; now right). apply dget_dset_neq. intros ->. apply N. now left.
Qed.
Lemma vary_ok : forall kw es, (forall e k, In e es -> In k (dkeys kw) -> din k e = true) -> varyattribute kw es = (map (fun e => dupdate e kw) es, None).
Proof.
  induction es as [|e es IH]; intros H; [reflexivity|]. cbn [varyattribute map]. rewrite vary1_ok by (intros; apply H; [now left|assumption]).
  rewrite IH by (intros; apply H; [now right|assumption]). reflexivity.
Qed.
Lemma vary_err : forall kw es, (exists e k, In e es /\ In k (dkeys kw) /\ din k e = false) -> snd (varyattribute kw es) = Some ValueError.
Proof.
  induction es as [|e es IH]; intros (e' & k & I & K & D); [destruct I|]. cbn [varyattribute]. destruct (varyattribute1 kw e) as [e1 [x|]] eqn:A.
  - cbn. destruct (forallb (fun k => din k e) (dkeys kw)) eqn:F.
    + rewrite forallb_forall in F. rewrite vary1_ok in A by exact F. discriminate.
    + assert (X : snd (varyattribute1 kw e) = Some ValueError); [|rewrite A in X; exact X]. apply vary1_err.
      clear - F. induction (dkeys kw) as [|k ks IH]; [discriminate|]. cbn in F. destruct (din k e) eqn:G; [|exists k; split; [now left|exact G]].
      destruct (IH F) as (k' & I & D). exists k'. split; [now right|exact D].
  - destruct I as [->|I].
    + exfalso. assert (X : snd (varyattribute1 kw e') = Some ValueError) by (apply vary1_err; exists k; auto). rewrite A in X. discriminate.
    + destruct (varyattribute kw es) as [r x] eqn:B. cbn. change x with (snd (r, x)). apply IH. exists e', k. auto.
Qed.
End Attributes.

(** ** run_tolerances *)
Section Runs.
Context {Ph V S : Type}.
Variable wigglefunc : S -> dict V -> S.
Variable instrum : S -> @memory Ph -> nat -> S * @memory Ph * nat.
Variable analyzefunc : Ph -> dict V.
Variable image : S -> Ph -> S * Ph.
Hypothesis AC : acts_as instrum image.
Notation before := (state_before wigglefunc image).
Lemma nth_error_app_l : forall {A} (l l' : list A) k, (k < length l)%nat -> nth_error (l ++ l') k = nth_error l k.
Proof. intros. now apply nth_error_app1. Qed.

Lemma run_spec : forall params s mem src p, nth_error mem src = Some p ->
  exists mem' out, run_tolerances wigglefunc instrum analyzefunc s mem src params = Ok (before p s params (length params), mem', out) /\
    (forall k, (k < length mem)%nat -> nth_error mem' k = nth_error mem k) /\
    length out = length params /\
    forall i pars, nth_error params i = Some pars ->
      nth_error out i = Some (dupdate pars (analyzefunc (snd (image (wigglefunc (before p s params i) pars) p)))).
Proof.
  induction params as [|pars rest IH]; intros s mem src p H.
  - exists mem, []. cbn. split; [reflexivity|]. split; [reflexivity|]. split; [reflexivity|]. intros [|i]; discriminate.
  - cbn [run_tolerances]. rewrite H.
    assert (L : (src < length mem)%nat) by (apply nth_error_Some; congruence).
    assert (N : nth_error (mem ++ [p]) (length mem) = Some p) by (rewrite nth_error_app2 by lia; now rewrite Nat.sub_diag).
    destruct (AC (wigglefunc s pars) _ _ _ N) as (mem2 & l & E & G & K). rewrite E, G.
    assert (KK : forall k, (k < length mem)%nat -> nth_error mem2 k = nth_error mem k).
    { intros k B. rewrite K by (rewrite ?app_length; cbn; lia). now apply nth_error_app_l. }
    assert (H2 : nth_error mem2 src = Some p) by (rewrite KK by exact L; exact H).
    assert (LE : (length mem <= length mem2)%nat).
    { destruct (Nat.le_gt_cases (length mem) (length mem2)) as [|GT]; [assumption|]. exfalso.
      assert (X := KK (length mem2) GT). rewrite (proj2 (nth_error_None mem2 (length mem2))) in X by lia. symmetry in X. apply nth_error_None in X. lia. }
    destruct (IH (fst (image (wigglefunc s pars) p)) mem2 src p H2) as (mem3 & out & R & M & LO & O). rewrite R. cbn [bind].
    eexists _, _. split; [reflexivity|]. split; [|split].
    + intros k B. rewrite M by lia. now apply KK.
    + cbn. now rewrite LO.
    + intros [|i] q Q; cbn in Q |- *; [injection Q as <-; reflexivity|]. now apply O.
Qed.

(** runs that do not depend on the ones before *)
Section Independent.
Context {C : Type}.
Variable view : S -> C.
Variable sim : S -> S -> Prop.
Hypothesis SR : forall s, sim s s.
Hypothesis ST : forall a b c, sim a b -> sim b c -> sim a c.
Hypothesis SW : forall s pars, sim s (wigglefunc s pars).
Hypothesis SI : forall s p, sim s (fst (image s p)).
Hypothesis VI : forall s s' p, view s = view s' -> snd (image s p) = snd (image s' p).
Hypothesis VW : forall s s' pars, sim s s' -> view (wigglefunc s pars) = view (wigglefunc s' pars).
Lemma before_sim : forall params p s i, sim s (before p s params i).
Proof.
  induction params as [|q params IH]; intros p s [|i]; cbn; auto. eapply ST; [|apply IH]. eapply ST; [apply SW|apply SI].
Qed.
Lemma run_independent : forall params s p i pars,
  snd (image (wigglefunc (before p s params i) pars) p) = snd (image (wigglefunc s pars) p).
Proof. intros. apply VI. symmetry. apply VW. apply before_sim. Qed.
End Independent.

(** *** energies *)
Context {E : Type}.
Variable set_energy : S -> E -> S.
Variable first_part : S -> Ph -> S * Ph.
Variable source : S -> S * Ph.
Variable energy wave : E -> V.
Variable strip : V -> V.
Notation loop := (energies_loop wigglefunc instrum analyzefunc set_energy first_part source energy wave strip).
Definition photons_for (s : S) (e : E) : S * Ph := let '(s1, p1) := source (set_energy s e) in first_part s1 p1.
Definition sim_state (params : list (dict V)) (s : S) (e : E) : S :=
  let '(s2, p2) := photons_for s e in before p2 s2 params (length params).
Definition sim_rows (params : list (dict V)) (s : S) (e : E) (i : nat) (pars : dict V) : dict V :=
  let '(s2, p2) := photons_for s e in
  dupdate pars (analyzefunc (snd (image (wigglefunc (before p2 s2 params i) pars) p2))).
Lemma loop_spec : forall es s mem params, params <> [] ->
  exists mem' tabs, loop s mem es params = Ok (fold_left (sim_state params) es s, mem', tabs) /\ length tabs = length es /\
   forall j e, nth_error es j = Some e -> exists tab, nth_error tabs j = Some tab /\ length tab = length params /\
     forall i pars, nth_error params i = Some pars ->
       nth_error tab i = Some (add_energy energy wave e (to_row strip (sim_rows params (fold_left (sim_state params) (firstn j es) s) e i pars))).
Proof.
  induction es as [|e es IH]; intros s mem params NE.
  - exists mem, []. cbn. split; [reflexivity|]. split; [reflexivity|]. intros [|j]; discriminate.
  - cbn [energies_loop fold_left].
    destruct (source (set_energy s e)) as [s1 p1] eqn:E1. destruct (first_part s1 p1) as [s2 p2] eqn:E2.
    assert (PF : photons_for s e = (s2, p2)) by (unfold photons_for; now rewrite E1).
    assert (N : nth_error (mem ++ [p2]) (length mem) = Some p2) by (rewrite nth_error_app2 by lia; now rewrite Nat.sub_diag).
    destruct (run_spec params s2 _ _ _ N) as (mem3 & out & R & M & L & O). rewrite R. cbn [bind].
    assert (SS : sim_state params s e = before p2 s2 params (length params)) by (unfold sim_state; now rewrite PF).
    destruct out as [|o out]; [destruct params; [congruence|discriminate]|]. rewrite <- SS.
    destruct (IH (sim_state params s e) mem3 params NE) as (mem4 & tabs & R4 & L4 & O4). rewrite R4. cbn [bind].
    eexists _, _. split; [reflexivity|]. split; [cbn [length]; now rewrite L4|].
    intros [|j] e' J; cbn [nth_error] in J |- *.
    + injection J as <-. eexists. split; [reflexivity|]. split; [now rewrite map_length|]. intros i pars P. cbn [firstn fold_left].
      rewrite nth_error_map. rewrite (O _ _ P). cbn [option_map]. unfold sim_rows. now rewrite PF.
    + destruct (O4 _ _ J) as (tab & T & LT & OT). exists tab. split; [exact T|]. split; [exact LT|]. intros i pars P. cbn [firstn fold_left]. now apply OT.
Qed.
Lemma concat_const_nth : forall {A} n (ls : list (list A)), Forall (fun l => length l = n) ls -> forall j i l,
  nth_error ls j = Some l -> (i < n)%nat -> nth_error (concat ls) (j * n + i) = nth_error l i.
Proof.
  induction ls as [|a ls IH]; intros F j i l J I; [destruct j; discriminate|]. inversion F as [|x y FA FL]; subst x y. cbn [concat].
  destruct j as [|j]; cbn in J.
  - injection J as ->. cbn. apply nth_error_app1. lia.
  - rewrite nth_error_app2 by (cbn; lia). rewrite FA. replace (Datatypes.S j * n + i - n)%nat with (j * n + i)%nat by (cbn; lia). now apply IH.
Qed.
Lemma concat_const_len : forall {A} n (ls : list (list A)), Forall (fun l => length l = n) ls -> length (concat ls) = (length ls * n)%nat.
Proof. induction 1 as [|a ls FA FL IH]; cbn; [reflexivity|]. rewrite app_length. lia. Qed.
Lemma energies_spec : forall es s mem params reset, params <> [] -> es <> [] ->
  exists mem' rows, run_tolerances_for_energies wigglefunc instrum analyzefunc set_energy first_part source energy wave strip s mem es params reset
     = Ok (match reset with Some r => wigglefunc (fold_left (sim_state params) es s) r | None => fold_left (sim_state params) es s end, mem', rows) /\
   length rows = (length es * length params)%nat /\
   forall j e i pars, nth_error es j = Some e -> nth_error params i = Some pars ->
     nth_error rows (j * length params + i) = Some (add_energy energy wave e (to_row strip (sim_rows params (fold_left (sim_state params) (firstn j es) s) e i pars))).
Proof.
  intros es s mem params reset NP NE. destruct (loop_spec es s mem params NP) as (mem' & tabs & R & L & O).
  assert (F : Forall (fun l => length l = length params) tabs).
  { apply Forall_forall. intros tab I. apply In_nth_error in I. destruct I as [j J].
    destruct (nth_error es j) as [e|] eqn:JE; [|apply nth_error_None in JE; assert (j < length tabs)%nat by (apply nth_error_Some; congruence); lia].
    destruct (O _ _ JE) as (tab' & T & LT & _). congruence. }
  unfold run_tolerances_for_energies. rewrite R. cbn [bind]. destruct tabs as [|t tabs]; [destruct es; [congruence|discriminate]|].
  eexists _, _. split; [reflexivity|]. split; [rewrite (concat_const_len _ _ F); now rewrite L|].
  intros j e i pars J P. destruct (O _ _ J) as (tab & T & LT & OT). rewrite (concat_const_nth _ _ F _ _ _ T); [now apply OT|]. apply nth_error_Some. congruence.
Qed.
End Runs.

(** ** the split of the instrument *)
Lemma first_from_before : forall cmp l i j, first_from cmp i l = Some j -> (i <= j)%nat /\
  forall e, In e (firstn (j - i) l) -> cmp e = false /\ (cont e = true -> elements_of cmp false e = []).
Proof.
  induction l as [|e l IH]; intros i j H; cbn [first_from] in H; [discriminate|]. destruct (cmp e) eqn:C.
  - injection H as <-. split; [lia|]. rewrite Nat.sub_diag. intros e' [].
  - destruct (cont e && Nat.ltb 0 (length (elements_of cmp false e)))%bool eqn:D.
    + injection H as <-. split; [lia|]. rewrite Nat.sub_diag. intros e' [].
    + apply IH in H. destruct H as [L H]. split; [lia|]. replace (j - i)%nat with (S (j - S i)) by lia. cbn [firstn].
      intros e' [<-|I]; [|now apply H]. split; [exact C|]. intros CE. rewrite CE in D. cbn [andb] in D.
      destruct (elements_of cmp false e); [reflexivity|discriminate].
Qed.
Lemma flat_map_nil : forall {A B} (f : A -> list B) l, (forall x, In x l -> f x = []) -> flat_map f l = [].
Proof. induction l; cbn; intros H; [reflexivity|]. rewrite H by auto. apply IHl. auto. Qed.
Lemma split_covers : forall t cls sub ind, Container_Model.comp sub cls t = false -> first_of_class_top_level t cls sub = Some ind ->
  elements_of_class t cls sub false =
  flat_map (fun e => if Container_Model.comp sub cls e then [e] else if cont e then elements_of_class e cls sub false else []) (skipn ind (kids t)).
Proof.
  intros t cls sub ind C F. unfold elements_of_class. destruct t as [i m c ks]. cbn [elements_of kids]. rewrite C. cbn [andb app].
  apply first_from_before in F. destruct F as [_ F]. rewrite Nat.sub_0_r in F. cbn [kids] in F.
  rewrite <- (firstn_skipn ind ks) at 1. rewrite flat_map_app. rewrite flat_map_nil; [reflexivity|].
  intros e I. destruct (F e I) as [F1 F2]. rewrite F1. destruct (cont e); [now apply F2|reflexivity].
Qed.

(** ** 6d lists *)
Lemma Rltb_irr : forall x, Rltb x x = false.
Proof. intros. apply Rltb_false. lra. Qed.
Lemma lex_irr : forall a, lex_lt a a = false.
Proof. induction a as [|x a IH]; [reflexivity|]. cbn. now rewrite Rltb_irr. Qed.
Lemma lex_trans : forall a b c, lex_lt a b = true -> lex_lt b c = true -> lex_lt a c = true.
Proof.
  induction a as [|x a IH]; intros [|y b] [|z c]; cbn; try discriminate; auto.
  destruct (Rltb x y) eqn:A.
  - apply Rltb_true in A. intros _. destruct (Rltb y z) eqn:B.
    + apply Rltb_true in B. intros _. now rewrite (proj2 (Rltb_true x z)) by lra.
    + apply Rltb_false in B. destruct (Rltb z y) eqn:D; [discriminate|]. apply Rltb_false in D. intros _. now rewrite (proj2 (Rltb_true x z)) by lra.
  - apply Rltb_false in A. destruct (Rltb y x) eqn:A2; [discriminate|]. apply Rltb_false in A2. assert (x = y) by lra. subst y. intros L.
    destruct (Rltb x z) eqn:B; [auto|]. destruct (Rltb z x); [discriminate|]. intros M. eauto.
Qed.
Lemma lex_total : forall a b, length a = length b -> lex_lt a b = false -> lex_lt b a = false -> a = b.
Proof.
  induction a as [|x a IH]; intros [|y b]; cbn; try discriminate; auto. intros L.
  destruct (Rltb x y) eqn:A; [discriminate|]. destruct (Rltb y x) eqn:B; [discriminate|]. apply Rltb_false in A, B. intros P Q. f_equal; [lra|]. apply IH; auto.
Qed.
Lemma ins_row_in : forall n x l, length x = n -> Forall (fun r => length r = n) l -> forall y, In y (ins_row x l) <-> y = x \/ In y l.
Proof.
  intros n x l LX F. induction F as [|z l LZ F IH]; intros y; cbn [ins_row]; [cbn; intuition|].
  destruct (lex_lt x z) eqn:A; [cbn; intuition|]. destruct (lex_lt z x) eqn:B.
  - cbn [In]. rewrite IH. intuition.
  - assert (x = z) by (apply lex_total; auto; congruence). subst z. cbn. intuition.
Qed.
Lemma unique_in : forall n l, Forall (fun r => length r = n) l -> forall y, In y (unique l) <-> In y l.
Proof.
  intros n l F. induction F as [|x l LX F IH]; intros y; [reflexivity|]. cbn [unique fold_right]. fold (unique l).
  rewrite (ins_row_in n); [cbn; rewrite IH; intuition|exact LX|]. apply Forall_forall. intros r I. rewrite IH in I. rewrite Forall_forall in F. auto.
Qed.
Definition below (x : list R) (l : list (list R)) : Prop := match l with [] => True | y :: _ => lex_lt x y = true end.
Lemma increasing_cons : forall x l, increasing (x :: l) <-> below x l /\ increasing l.
Proof. intros x [|y l]; cbn; intuition. Qed.
Lemma ins_row_inc : forall x l, increasing l -> increasing (ins_row x l) /\ forall y, lex_lt y x = true -> below y l -> below y (ins_row x l).
Proof.
  induction l as [|z l IH]; intros I; [cbn; auto|]. cbn [ins_row]. destruct (lex_lt x z) eqn:A.
  - split; [apply increasing_cons; split; [exact A|exact I]|]. intros y Y _. exact Y.
  - destruct (lex_lt z x) eqn:B.
    + apply increasing_cons in I. destruct I as [I1 I2]. destruct (IH I2) as [J1 J2]. split; [|intros y _ Y; exact Y].
      apply increasing_cons. split; [|exact J1]. apply J2; assumption.
    + split; [exact I|auto].
Qed.
Lemma unique_inc : forall l, increasing (unique l).
Proof. induction l as [|x l IH]; [exact I|]. cbn [unique fold_right]. now apply ins_row_inc. Qed.
Lemma increasing_nodup : forall l, increasing l -> NoDup l.
Proof.
  assert (H : forall l x, increasing (x :: l) -> forall y, In y l -> lex_lt x y = true).
  { induction l as [|z l IH]; intros x I y Y; [destruct Y|]. apply increasing_cons in I. destruct I as [I1 I2]. destruct Y as [<-|Y]; [exact I1|].
    eapply lex_trans; [exact I1|]. now apply IH. }
  induction l as [|x l IH]; intros I; constructor.
  - intros J. assert (X := H _ _ I _ J). rewrite lex_irr in X. discriminate.
  - apply IH. now apply increasing_cons in I.
Qed.

Lemma fill_spec : forall trans rot r c, fill trans rot r c =
  let nt := length trans in let nr := length rot in
  if Nat.ltb r nt then (if Nat.eqb c 0 then nth r trans 0 else 0)
  else if Nat.ltb r (2 * nt) then (if Nat.eqb c 1 then nth (r - nt) trans 0 else 0)
  else if Nat.ltb r (3 * nt) then (if Nat.eqb c 2 then nth (r - 2 * nt) trans 0 else 0)
  else if Nat.ltb r (3 * nt + nr) then (if Nat.eqb c 3 then nth (r - 3 * nt) rot 0 else 0)
  else if Nat.ltb r (3 * nt + 2 * nr) then (if Nat.eqb c 4 then nth (r - (3 * nt + nr)) rot 0 else 0)
  else if Nat.ltb r (3 * nt + 3 * nr) then (if Nat.eqb c 5 then nth (r - (3 * nt + 2 * nr)) rot 0 else 0)
  else 0.
Proof.
  intros. unfold fill, set_col, zeros. cbn [fold_left]. cbv zeta.
  repeat match goal with
  | |- context [Nat.leb ?a ?b] => destruct (Nat.leb_spec a b); cbn [andb]; try lia
  | |- context [Nat.ltb ?a ?b] => destruct (Nat.ltb_spec a b); cbn [andb]; try lia
  | |- context [Nat.eqb ?a ?b] => destruct (Nat.eqb_spec a b); cbn [andb]; try lia
  end; try reflexivity; f_equal; lia.
Qed.
Definition is_row (a : arr) (r k : nat) (v : R) : Prop := forall c, a r c = if Nat.eqb c k then v else 0.
Ltac natcase := repeat match goal with
  | |- context [Nat.ltb ?a ?b] => destruct (Nat.ltb_spec a b); try lia
  end.
Lemma fill_row : forall trans rot r, (r < 3 * length trans + 3 * length rot)%nat ->
  exists k v, (k < 6)%nat /\ In v (values_of trans rot k) /\ is_row (fill trans rot) r k v.
Proof.
  intros trans rot r H. set (nt := length trans) in *. set (nr := length rot) in *.
  assert (X : forall k v, is_row (fill trans rot) r k v <-> is_row (fill trans rot) r k v) by reflexivity.
  destruct (Nat.lt_ge_cases r nt); [|destruct (Nat.lt_ge_cases r (2 * nt)); [|destruct (Nat.lt_ge_cases r (3 * nt));
   [|destruct (Nat.lt_ge_cases r (3 * nt + nr)); [|destruct (Nat.lt_ge_cases r (3 * nt + 2 * nr))]]]].
  - exists 0%nat, (nth r trans 0). split; [lia|]. split; [apply nth_In; assumption|]. intros c. rewrite fill_spec. cbv zeta. fold nt nr. natcase. reflexivity.
  - exists 1%nat, (nth (r - nt) trans 0). split; [lia|]. split; [apply (nth_In trans); fold nt; lia|]. intros c. rewrite fill_spec. cbv zeta. fold nt nr. natcase. reflexivity.
  - exists 2%nat, (nth (r - 2 * nt) trans 0). split; [lia|]. split; [apply (nth_In trans); fold nt; lia|]. intros c. rewrite fill_spec. cbv zeta. fold nt nr. natcase. reflexivity.
  - exists 3%nat, (nth (r - 3 * nt) rot 0). split; [lia|]. split; [apply (nth_In rot); fold nr; lia|]. intros c. rewrite fill_spec. cbv zeta. fold nt nr. natcase. reflexivity.
  - exists 4%nat, (nth (r - (3 * nt + nr)) rot 0). split; [lia|]. split; [apply (nth_In rot); fold nr; lia|]. intros c. rewrite fill_spec. cbv zeta. fold nt nr. natcase. reflexivity.
  - exists 5%nat, (nth (r - (3 * nt + 2 * nr)) rot 0). split; [lia|]. split; [apply (nth_In rot); fold nr; lia|]. intros c. rewrite fill_spec. cbv zeta. fold nt nr. natcase. reflexivity.
Qed.
Lemma fill_has : forall trans rot k v, (k < 6)%nat -> In v (values_of trans rot k) ->
  exists r, (r < 3 * length trans + 3 * length rot)%nat /\ is_row (fill trans rot) r k v.
Proof.
  intros trans rot k v K I. unfold values_of in I. destruct (Nat.ltb_spec k 3) as [L|L]; apply In_nth with (d := 0) in I; destruct I as (i & LI & <-).
  - exists (k * length trans + i)%nat. assert (k = 0 \/ k = 1 \/ k = 2)%nat as [-> | [-> | ->]] by lia; (split; [lia|]; intros c; rewrite fill_spec; cbv zeta; natcase);
    match goal with |- context [nth ?j trans 0] => replace j with i by lia; reflexivity end.
  - exists (3 * length trans + (k - 3) * length rot + i)%nat. assert (k = 3 \/ k = 4 \/ k = 5)%nat as [-> | [-> | ->]] by lia; cbn [Nat.sub];
    (split; [lia|]; intros c; rewrite fill_spec; cbv zeta; natcase);
    match goal with |- context [nth ?j rot 0] => replace j with i by lia; reflexivity end.
Qed.
Lemma row_dict : forall a r k v, is_row a r k v -> to_dict (map (a r) (seq 0 6)) = one_dof k v.
Proof. intros a r k v H. unfold to_dict, one_dof, names6. cbn [seq map combine nth]. now rewrite !H. Qed.
Lemma rows_len : forall a s n, Forall (fun r => length r = 6%nat) (rows a s n).
Proof. intros. apply Forall_forall. intros x I. apply in_map_iff in I. destruct I as (r & <- & _). now rewrite map_length, seq_length. Qed.
Lemma unique_rows_in : forall a n d, In d (map to_dict (unique (rows a 0 n))) <-> exists r, (r < n)%nat /\ d = to_dict (map (a r) (seq 0 6)).
Proof.
  intros. rewrite in_map_iff. split.
  - intros (x & <- & I). rewrite (unique_in 6) in I by apply rows_len. apply in_map_iff in I. destruct I as (r & <- & I). apply in_seq in I. exists r. split; [lia|reflexivity].
  - intros (r & L & ->). eexists. split; [reflexivity|]. rewrite (unique_in 6) by apply rows_len. apply in_map_iff. exists r. split; [reflexivity|]. apply in_seq. lia.
Qed.
Lemma combine_inj : forall {A B} (n : list A) (a b : list B), length a = length n -> length b = length n -> combine n a = combine n b -> a = b.
Proof.
  induction n as [|x n IH]; intros [|p a] [|q b]; cbn; try discriminate; auto. intros L M E. injection E as -> E. f_equal. apply IH; auto.
Qed.
Lemma NoDup_map_in : forall {A B} (f : A -> B) l, (forall x y, In x l -> In y l -> f x = f y -> x = y) -> NoDup l -> NoDup (map f l).
Proof.
  intros A B f l I N. induction N as [|x l NI N IH]; cbn; constructor.
  - intros J. apply in_map_iff in J. destruct J as (y & E & Y). apply NI. rewrite (I x y); auto; [now left|now right].
  - apply IH. intros; apply I; auto; now right.
Qed.
Lemma unique_rows_nodup : forall a n, NoDup (map to_dict (unique (rows a 0 n))).
Proof.
  intros. assert (F := rows_len a 0 n). rewrite Forall_forall in F. apply NoDup_map_in; [|apply increasing_nodup, unique_inc].
  intros x y X Y E. rewrite (unique_in 6) in X, Y by apply rows_len. apply (combine_inj names6); [now apply F|now apply F|exact E].
Qed.
Lemma wiggle_spec : forall trans rot g ind, wigglelist trans rot = Ok (g, ind) ->
  (forall d, In d ind <-> exists k v, (k < 6)%nat /\ In v (values_of trans rot k) /\ d = one_dof k v) /\
  (forall d, In d g <-> exists k v, (k < 6)%nat /\ (In v (values_of trans rot k) \/ In (- v) (values_of trans rot k)) /\ d = one_dof k v) /\
  NoDup ind /\ NoDup g.
Proof.
  intros trans rot g ind H. unfold wigglelist in H. set (half := (3 * length trans + 3 * length rot)%nat) in *.
  assert (E : map to_dict (unique (rows (mirrored half (fill trans rot)) 0 (2 * half))) = g /\ map to_dict (unique (rows (mirrored half (fill trans rot)) 0 half)) = ind).
  { destruct trans, rot; try discriminate. injection H as <- <-. auto. }
  clear H. destruct E as [EG EI]. subst g ind.
  assert (LO : forall r, (r < half)%nat -> forall k v, is_row (mirrored half (fill trans rot)) r k v <-> is_row (fill trans rot) r k v).
  { intros r L k v. unfold is_row, mirrored. destruct (Nat.ltb_spec r half); [reflexivity|lia]. }
  assert (HI : forall r, (r < half)%nat -> forall k v, is_row (fill trans rot) r k v -> is_row (mirrored half (fill trans rot)) (half + r) k (- v)).
  { intros r L k v I c. unfold mirrored. destruct (Nat.ltb_spec (half + r) half); [lia|]. replace (half + r - half)%nat with r by lia. rewrite I. destruct (Nat.eqb c k); lra. }
  split; [|split; [|split; apply unique_rows_nodup]].
  - intros d. rewrite unique_rows_in. split.
    + intros (r & L & ->). destruct (fill_row trans rot r L) as (k & v & K & I & Q). exists k, v. split; [exact K|]. split; [exact I|]. apply row_dict. now apply LO.
    + intros (k & v & K & I & ->). destruct (fill_has trans rot k v K I) as (r & L & Q). exists r. split; [exact L|]. symmetry. apply row_dict. now apply LO.
  - intros d. rewrite unique_rows_in. split.
    + intros (r & L & ->). destruct (Nat.lt_ge_cases r half) as [B|B].
      * destruct (fill_row trans rot r B) as (k & v & K & I & Q). exists k, v. split; [exact K|]. split; [now left|]. apply row_dict. now apply LO.
      * assert (B2 : (r - half < half)%nat) by lia. destruct (fill_row trans rot (r - half) B2) as (k & v & K & I & Q). exists k, (- v). split; [exact K|].
        split; [right; now rewrite Ropp_involutive|]. apply row_dict. replace r with (half + (r - half))%nat by lia. now apply HI.
    + intros (k & v & K & [I|I] & ->).
      * destruct (fill_has trans rot k v K I) as (r & L & Q). exists r. fold half in L. split; [lia|]. symmetry. apply row_dict. now apply LO.
      * destruct (fill_has trans rot k (- v) K I) as (r & L & Q). fold half in L. exists (half + r)%nat. split; [lia|]. symmetry. apply row_dict.
        rewrite <- (Ropp_involutive v). now apply HI.
Qed.

(** ** select_1dof_changed *)
Lemma others_zero_spec : forall pars row, (forall p, In p pars -> dget p row <> None) ->
  exists b, others_zero pars row = Ok b /\ (b = true <-> forall p, In p pars -> dget p row = Some 0).
Proof.
  induction pars as [|p pars IH]; intros row H; cbn [others_zero]; [exists true; split; [reflexivity|]; split; [intros _ p []|reflexivity]|].
  destruct (dget p row) as [v|] eqn:G; [|exfalso; now apply (H p (or_introl eq_refl))].
  destruct (IH row) as (b & -> & B); [intros; apply H; now right|]. cbn [bind]. eexists. split; [reflexivity|].
  rewrite andb_true_iff, B, Reqb_true. split.
  - intros [-> Z] q [<-|I]; auto.
  - intros Z. split; [|intros; apply Z; now right]. assert (X := Z p (or_introl eq_refl)). congruence.
Qed.
Lemma select_spec : forall table par parlist, (forall row p, In row table -> In p parlist -> p <> par -> dget p row <> None) ->
  exists out, select_1dof_changed table par parlist = Ok out /\ subseq out table /\
    forall row, In row out <-> In row table /\ forall p, In p parlist -> p <> par -> dget p row = Some 0.
Proof.
  intros table par parlist. unfold select_1dof_changed. set (others := filter _ parlist).
  assert (O : forall p, In p others <-> In p parlist /\ p <> par).
  { intros p. unfold others. rewrite filter_In, negb_true_iff, String.eqb_neq. reflexivity. }
  clearbody others. induction table as [|row table IH]; intros H.
  - exists []. cbn. split; [reflexivity|]. split; [constructor|]. intros r. intuition.
  - destruct IH as (out & E & SU & M); [intros; eapply H; eauto; now right|].
    destruct (others_zero_spec others row) as (b & B & BT). { intros p I. apply O in I. apply H; [now left| |]; tauto. }
    cbn [map collect]. rewrite B. cbn [bind]. destruct (collect (map (others_zero others) table)) as [ind|]; [|discriminate]. cbn [bind] in E |- *.
    cbn [combine filter fst map snd]. injection E as E. destruct b.
    + eexists. split; [reflexivity|]. cbn [map snd]. rewrite E. split; [now constructor|]. intros r. cbn [In]. rewrite M. split.
      * intros [<-|[I Z]]; [|auto]. split; [now left|]. intros p P N. apply BT; [reflexivity|]. now apply O.
      * intros [[<-|I] Z]; [now left|]. right. auto.
    + eexists. split; [reflexivity|]. rewrite E. split; [now constructor|]. intros r. cbn [In]. rewrite M. split; [tauto|].
      intros [[<-|I] Z]; [|auto]. exfalso. assert (X : false = true); [|discriminate]. apply BT. intros p P. apply O in P. apply Z; tauto.
Qed.
Lemma one_dof_get : forall k v j, (j < 6)%nat -> dget (nth j names6 "") (one_dof k v) = Some (if Nat.eqb j k then v else 0).
Proof. intros k v j J. do 6 (destruct j as [|j]; [reflexivity|]). lia. Qed.
Lemma names_nodup : NoDup names6.
Proof. unfold names6. repeat (constructor; [cbn; intuition discriminate|]). constructor. Qed.
Lemma dget_in_keys : forall {V} k (d : dict V) v, dget k d = Some v -> In k (dkeys d).
Proof.
  intros V k d v. induction d as [|[a b] d IH]; cbn; [discriminate|]. destruct (String.eqb_spec k a) as [->|N]; [now left|]. intros H. right. now apply IH.
Qed.
Lemma dget_dupdate_nodup : forall (V : Type) (pars results : dict V) k, NoDup (dkeys results) ->
  dget k (dupdate pars results) = match dget k results with Some v => Some v | None => dget k pars end.
Proof.
  intros V pars results k N. destruct (dget k results) as [v|] eqn:G; [now apply dget_dupdate_in|]. apply dget_dupdate_notin. now apply dget_none_notin.
Qed.
Lemma elements_of_none : forall cmp stop t, (forall n, In n (nodes t) -> cmp n = false) -> elements_of cmp stop t = [].
Proof.
  intros cmp stop t H. assert (S := elements_subseq cmp stop t).
  assert (E : filter cmp (nodes t) = []).
  { clear S. revert H. generalize (nodes t). induction l as [|x l IH]; intros H; [reflexivity|]. cbn. rewrite H by (now left). apply IH. intros; apply H; now right. }
  rewrite E in S. now inversion S.
Qed.
