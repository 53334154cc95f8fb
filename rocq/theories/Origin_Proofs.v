(** Proofs about the constructors of sources and pointings and about their headers. *)
From Verif Require Import Base_Proofs Origin_Model.
From Coq Require Import Reals Lra.
Open Scope string_scope.
Open Scope list_scope.

Section Keywords.
Context {V : Type}.
Implicit Types kw : keywords V.

Lemma dget_ddel_some k j kw v : dget k (ddel j kw) = Some v <-> k <> j /\ dget k kw = Some v.
Proof.
  destruct (string_dec k j) as [->|n].
  - rewrite dget_ddel_eq. split; [discriminate | intros [H _]; now destruct H].
  - rewrite dget_ddel_neq by exact n. tauto.
Qed.
Lemma only_ddel known k kw : only known (ddel k kw) <-> only (k :: known) kw.
Proof.
  unfold only. split; intros H j v E.
  - destruct (string_dec j k) as [->|n]; [now left|]. right. apply (H j v). apply dget_ddel_some. now split.
  - apply dget_ddel_some in E as [n E]. destruct (H j v E) as [->|I]; [now destruct n | exact I].
Qed.
Lemma only_dset known k v kw : In k known -> only known (dset k v kw) <-> only known kw.
Proof.
  intros I. unfold only. split; intros H j w E.
  - destruct (string_dec j k) as [->|n]; [exact I|]. apply (H j w). now rewrite dget_dset_neq.
  - destruct (string_dec j k) as [->|n]; [exact I|]. apply (H j w). now rewrite dget_dset_neq in E.
Qed.
Lemma only_perm l l' kw : (forall k, In k l <-> In k l') -> only l kw <-> only l' kw.
Proof. intros P. unfold only. split; intros H j v E; apply P; eauto. Qed.
Lemma only_nil kw : only [] kw <-> kw = [].
Proof.
  split; [|intros ->; intros k v; discriminate].
  destruct kw as [|[k v] r]; [easy|]. intros H. destruct (H k v). cbn. now rewrite String.eqb_refl.
Qed.
Lemma element_iff kw u : element_init kw = Ok u <-> only ["id_num"; "id_col"; "name"] kw.
Proof.
  destruct u.
  transitivity (only [] (ddel "name" (ddel "id_col" (ddel "id_num" kw)))).
  - rewrite only_nil. unfold element_init. destruct ddel; split; intros; (reflexivity || discriminate).
  - rewrite !only_ddel. apply only_perm. cbn. tauto.
Qed.
Lemma element_err kw e : element_init kw = Err e -> e = ValueError.
Proof. unfold element_init. destruct ddel; congruence. Qed.

Lemma given_ddel k j d kw : k <> j -> given k d (ddel j kw) = given k d kw.
Proof. intros n. unfold given. now rewrite dget_ddel_neq. Qed.

Lemma source_iff {A} (D : defaults V) (next : keywords V -> result A) kw s a :
  source_init D next kw = Ok (s, a) <->
  s = as_given D kw /\ next (ddel "geomarea" (ddel "polarization" (ddel "flux" (ddel "energy" kw)))) = Ok a.
Proof.
  unfold source_init, pop. destruct next as [b|e]; cbn [bind]; [|split; [discriminate | now intros [_ H]]].
  rewrite !dget_ddel_neq by discriminate. fold (given "energy" (d_energy D) kw). fold (given "flux" (d_flux D) kw). unfold as_given.
  replace (match match dget "geomarea" kw with Some v => v | None => Some (d_area D) end with Some _ => match dget "geomarea" kw with Some v => v | None => Some (d_area D) end | None => Some (d_one D) end)
    with (match dget "geomarea" kw with None => Some (d_area D) | Some None => Some (d_one D) | Some (Some v) => Some v end)
    by (destruct (dget "geomarea" kw) as [[w|]|]; reflexivity).
  split; [intros H; inversion H; subst; now split | intros [-> H]; inversion H; now subst].
Qed.
Lemma source_element D kw s a :
  source_init D element_init kw = Ok (s, a) <-> s = as_given D kw /\ only of_source kw.
Proof.
  rewrite source_iff, element_iff, !only_ddel. apply and_iff_compat_l. apply only_perm. cbn. tauto.
Qed.
Lemma as_given_ddel D k kw : ~ In k ["energy"; "flux"; "polarization"; "geomarea"] -> as_given D (ddel k kw) = as_given D kw.
Proof.
  intros N. unfold as_given, given.
  assert (H : forall j, In j ["energy"; "flux"; "polarization"; "geomarea"] -> dget j (ddel k kw) = dget j kw)
    by (intros j I; apply dget_ddel_neq; intros ->; now destruct N).
  rewrite !H by (cbn; tauto). reflexivity.
Qed.
Lemma as_given_dset D k v kw : ~ In k ["energy"; "flux"; "polarization"; "geomarea"] -> as_given D (dset k v kw) = as_given D kw.
Proof.
  intros N. unfold as_given, given.
  assert (H : forall j, In j ["energy"; "flux"; "polarization"; "geomarea"] -> dget j (dset k v kw) = dget j kw)
    by (intros j I; apply dget_dset_neq; intros ->; now destruct N).
  rewrite !H by (cbn; tauto). reflexivity.
Qed.

Lemma pop_iff k kw v kw' : pop_or_fail k kw = Ok (v, kw') <-> dget k kw = Some v /\ kw' = ddel k kw.
Proof.
  unfold pop_or_fail. destruct (dget k kw) as [w|]; split; try (intros H; inversion H; subst; now split); try discriminate.
  - intros [H ->]. now inversion H.
  - intros [H _]. discriminate.
Qed.

Variables (D : defaults V) (sky : option V -> result V) (scalar : V -> bool).
Lemma astro_iff kw c s :
  astro_init D sky scalar kw = Ok (c, s) <->
  (exists v, dget "coords" kw = Some v /\ sky v = Ok c) /\ scalar c = true /\ only ("coords" :: of_source) kw /\ s = as_given D kw.
Proof.
  unfold astro_init, pop_or_fail. destruct (dget "coords" kw) as [v|] eqn:E; cbn [bind].
  2: { split; [discriminate | intros ((w & H & _) & _); discriminate]. }
  destruct (sky v) as [c'|e] eqn:F; cbn [bind].
  2: { split; [discriminate | intros ((w & H & G) & _); inversion H; subst; congruence]. }
  destruct (scalar c') eqn:S.
  2: { split; [discriminate | intros ((w & H & G) & K & _); inversion H; subst; congruence]. }
  assert (P : forall t u, source_init D element_init (ddel "coords" kw) = Ok (t, u) <-> only ("coords" :: of_source) kw /\ t = as_given D kw).
  { intros t u. rewrite source_element, only_ddel, as_given_ddel by (cbn; intuition discriminate). tauto. }
  destruct source_init as [[t u]|e] eqn:Q; cbn [bind].
  - destruct (proj1 (P t u) eq_refl) as [K L]. split.
    + intros H. inversion H; subst. repeat split; [exists v; now split | exact S | exact K].
    + intros ((w & H & G) & _ & _ & ->). inversion H; subst. congruence.
  - split; [discriminate|]. intros (_ & _ & K & L). now destruct (P s tt) as [_ H]; specialize (H (conj K L)).
Qed.
Lemma radial_iff kw fn par c s :
  radial_source D sky scalar kw = Ok (fn, par, (c, s)) <->
  dget "radial_distribution" kw = Some fn /\ par = match dget "func_par" kw with Some v => v | None => None end /\
  (exists v, dget "coords" kw = Some v /\ sky v = Ok c) /\ scalar c = true /\
  only ("radial_distribution" :: "func_par" :: "coords" :: of_source) kw /\ s = as_given D kw.
Proof.
  unfold radial_source, pop_or_fail, pop. destruct (dget "radial_distribution" kw) as [g|] eqn:E; cbn [bind].
  2: { split; [discriminate | intros (H & _); discriminate]. }
  assert (P : forall c s, astro_init D sky scalar (ddel "func_par" (ddel "radial_distribution" kw)) = Ok (c, s) <->
     (exists v, dget "coords" kw = Some v /\ sky v = Ok c) /\ scalar c = true /\
     only ("radial_distribution" :: "func_par" :: "coords" :: of_source) kw /\ s = as_given D kw).
  { intros c' s'. rewrite astro_iff, !only_ddel, !as_given_ddel, !dget_ddel_neq by (try discriminate; cbn; intuition discriminate). tauto. }
  rewrite !dget_ddel_neq by discriminate.
  destruct astro_init as [[c' s']|e] eqn:Q; cbn [bind].
  - pose proof (proj1 (P c' s') eq_refl) as K. split.
    + intros H. inversion H; subst. split; [reflexivity|]. split; [reflexivity | exact K].
    + intros (H & -> & L). apply P in L. inversion L; inversion H. reflexivity.
  - split; [discriminate|]. intros (_ & _ & L). apply P in L. discriminate.
Qed.
Lemma disk_iff pair own kw fn par c s :
  disk_source D pair own sky scalar kw = Ok (fn, par, (c, s)) <->
  (exists v, dget "a_outer" kw = Some v /\ par = Some (pair v (given "a_inner" (d_angle D) kw))) /\ fn = Some own /\
  (exists v, dget "coords" kw = Some v /\ sky v = Ok c) /\ scalar c = true /\
  only ("a_outer" :: "a_inner" :: "radial_distribution" :: "func_par" :: "coords" :: of_source) kw /\ s = as_given D kw.
Proof.
  unfold disk_source, pop_or_fail, pop. destruct (dget "a_outer" kw) as [g|] eqn:E; cbn [bind].
  2: { split; [discriminate | intros ((v & H & _) & _); discriminate]. }
  rewrite radial_iff, !only_dset, !as_given_dset, !only_ddel, !as_given_ddel, !dget_dset_eq by (cbn; intuition discriminate).
  rewrite (dget_dset_neq "func_par"), dget_dset_eq by discriminate.
  rewrite !(dget_dset_neq "coords"), !(dget_ddel_neq "coords"), (dget_ddel_neq "a_inner") by discriminate.
  fold (given "a_inner" (d_angle D) kw).
  split.
  - intros (F & P & R). split; [exists g; now split|]. split; [congruence | exact R].
  - intros ((v & H & P) & F & R). inversion H; subst. split; [reflexivity|]. split; [reflexivity | exact R].
Qed.
Lemma gauss_iff kw w c s :
  gauss_source D sky scalar kw = Ok (w, (c, s)) <->
  dget "sigma" kw = Some w /\ (exists v, dget "coords" kw = Some v /\ sky v = Ok c) /\ scalar c = true /\ only ("sigma" :: "coords" :: of_source) kw /\ s = as_given D kw.
Proof.
  unfold gauss_source, pop_or_fail. destruct (dget "sigma" kw) as [g|] eqn:E; cbn [bind].
  2: { split; [discriminate | intros (H & _); discriminate]. }
  assert (P : forall c s, astro_init D sky scalar (ddel "sigma" kw) = Ok (c, s) <->
     (exists v, dget "coords" kw = Some v /\ sky v = Ok c) /\ scalar c = true /\ only ("sigma" :: "coords" :: of_source) kw /\ s = as_given D kw).
  { intros c' s'. rewrite astro_iff, !only_ddel, !as_given_ddel, !dget_ddel_neq by (try discriminate; cbn; intuition discriminate). tauto. }
  destruct astro_init as [[c' s']|e] eqn:Q; cbn [bind].
  - pose proof (proj1 (P c' s') eq_refl) as K. split.
    + intros H. inversion H; subst. now split.
    + intros (H & L). apply P in L. inversion L; inversion H. reflexivity.
  - split; [discriminate|]. intros (_ & L). apply P in L. discriminate.
Qed.
Lemma symbol_iff kw w c s :
  symbol_source D sky scalar kw = Ok (w, (c, s)) <->
  w = given "size" (d_size D) kw /\ (exists v, dget "coords" kw = Some v /\ sky v = Ok c) /\ scalar c = true /\ only ("size" :: "coords" :: of_source) kw /\ s = as_given D kw.
Proof.
  unfold symbol_source, pop. fold (given "size" (d_size D) kw).
  assert (P : forall c s, astro_init D sky scalar (ddel "size" kw) = Ok (c, s) <->
     (exists v, dget "coords" kw = Some v /\ sky v = Ok c) /\ scalar c = true /\ only ("size" :: "coords" :: of_source) kw /\ s = as_given D kw).
  { intros c' s'. rewrite astro_iff, !only_ddel, !as_given_ddel, !dget_ddel_neq by (try discriminate; cbn; intuition discriminate). tauto. }
  destruct astro_init as [[c' s']|e] eqn:Q; cbn [bind].
  - pose proof (proj1 (P c' s') eq_refl) as K. split.
    + intros H. inversion H; subst. now split.
    + intros (-> & L). apply P in L. now inversion L.
  - split; [discriminate|]. intros (_ & L). apply P in L. discriminate.
Qed.

(** ** sources in the laboratory *)
Lemma ddel_dset k v kw : ddel k (dset k v kw) = ddel k kw.
Proof.
  unfold ddel. induction kw as [|[j w] r IH]; cbn [dset filter fst negb].
  - now rewrite String.eqb_refl.
  - destruct (String.eqb k j) eqn:E; cbn [filter fst]; rewrite E; cbn [negb]; [reflexivity | now rewrite IH].
Qed.
Lemma ddel_dset_neq k j v kw : k <> j -> ddel k (dset j v kw) = dset j v (ddel k kw).
Proof.
  intros n. unfold ddel. induction kw as [|[i w] r IH]; cbn [dset filter fst negb].
  - apply String.eqb_neq in n. now rewrite n.
  - destruct (String.eqb j i) eqn:E; cbn [filter fst].
    + apply String.eqb_eq in E. subst i. apply String.eqb_neq in n. rewrite n. cbn [negb dset]. now rewrite String.eqb_refl.
    + destruct (String.eqb k i) eqn:F; cbn [negb dset]; [exact IH|]. rewrite E. now rewrite IH.
Qed.
Lemma ddel_notin k kw : dget k kw = None -> ddel k kw = kw.
Proof.
  unfold ddel. induction kw as [|[i w] r IH]; cbn [dget filter fst]; [reflexivity|].
  destruct (String.eqb k i); [discriminate|]. intros H. cbn [negb]. now rewrite IH.
Qed.
Lemma ddel_comm k j kw : ddel k (ddel j kw) = ddel j (ddel k kw).
Proof.
  unfold ddel. induction kw as [|[i w] r IH]; cbn [filter fst]; [reflexivity|].
  destruct (String.eqb j i) eqn:E, (String.eqb k i) eqn:F; cbn [negb filter fst]; rewrite ?E, ?F; cbn [negb]; rewrite IH; reflexivity.
Qed.
Lemma lab_iff {A} (next : keywords V -> result A) kw s a :
  lab_init D next kw = Ok (s, a) <->
  dget "geomarea" kw = None /\ s = lab_as_given D kw /\ next (ddel "polarization" (ddel "flux" (ddel "energy" kw))) = Ok a.
Proof.
  unfold lab_init. set (kw' := if din "flux" kw then kw else dset "flux" (Some (d_labflux D)) kw).
  assert (F : dget "flux" kw' = Some (given "flux" (d_labflux D) kw)).
  { unfold kw', given. destruct (din "flux" kw) eqn:E.
    - apply din_dget in E as [v E]. now rewrite E.
    - rewrite dget_dset_eq. apply din_false in E. now rewrite E. }
  assert (O : forall k, k <> "flux" -> dget k kw' = dget k kw) by (intros k n; unfold kw'; destruct din; [reflexivity | now apply dget_dset_neq]).
  assert (K : ddel "flux" (ddel "energy" kw') = ddel "flux" (ddel "energy" kw)).
  { unfold kw'. destruct din; [reflexivity|]. rewrite ddel_dset_neq by discriminate. apply ddel_dset. }
  destruct (din "geomarea" kw') eqn:G.
  - apply din_dget in G as [v G]. rewrite O in G by discriminate. rewrite G. split; [discriminate | intros (H & _); discriminate].
  - apply din_false in G. rewrite source_iff.
    assert (G' : dget "geomarea" kw = None) by (rewrite <- O by discriminate; exact G). rewrite G'.
    replace (ddel "geomarea" (ddel "polarization" (ddel "flux" (ddel "energy" (dset "geomarea" None kw')))))
      with (ddel "polarization" (ddel "flux" (ddel "energy" kw))).
    2: { rewrite !(ddel_dset_neq _ "geomarea") by discriminate. rewrite ddel_dset, K. symmetry. apply ddel_notin.
         now rewrite !dget_ddel_neq by discriminate. }
    replace (as_given D (dset "geomarea" None kw')) with (lab_as_given D kw).
    2: { unfold as_given, lab_as_given, given in *. rewrite dget_dset_eq, !dget_dset_neq, F, (O "energy"), (O "polarization") by discriminate. reflexivity. }
    tauto.
Qed.
Lemma far_iff {G} (geometry : keywords V -> result (G * keywords V)) kw p s g :
  far_init D geometry kw = Ok (p, (s, g)) <->
  dget "sourcePos" kw = Some p /\ dget "geomarea" kw = None /\ s = lab_as_given D kw /\
  exists rest, geometry (ddel "polarization" (ddel "flux" (ddel "energy" (ddel "sourcePos" kw)))) = Ok (g, rest) /\ only ["id_num"; "id_col"; "name"] rest.
Proof.
  unfold far_init. destruct (dget "sourcePos" kw) as [q|] eqn:E; [|split; [discriminate | intros (H & _); discriminate]].
  assert (P : forall s g, lab_init D (fun kw => bind (geometry kw) (fun '(g, kw) => bind (element_init kw) (fun _ => Ok g))) (ddel "sourcePos" kw) = Ok (s, g) <->
    dget "geomarea" kw = None /\ s = lab_as_given D kw /\
    exists rest, geometry (ddel "polarization" (ddel "flux" (ddel "energy" (ddel "sourcePos" kw)))) = Ok (g, rest) /\ only ["id_num"; "id_col"; "name"] rest).
  { intros s' g'. rewrite lab_iff, dget_ddel_neq by discriminate.
    replace (lab_as_given D (ddel "sourcePos" kw)) with (lab_as_given D kw) by (unfold lab_as_given, given; now rewrite !dget_ddel_neq by discriminate).
    apply and_iff_compat_l, and_iff_compat_l. destruct geometry as [[h rest]|e]; cbn [bind].
    - destruct (element_init rest) as [u|e] eqn:Q; cbn [bind].
      + apply element_iff in Q. split; [intros H; inversion H; subst; exists rest; now split | intros (r & H & _); now inversion H].
      + split; [discriminate|]. intros (r & H & O). inversion H; subst. apply (element_iff r tt) in O. congruence.
    - split; [discriminate | intros (r & H & _); discriminate]. }
  destruct lab_init as [[s' g']|e] eqn:Q; cbn [bind].
  - pose proof (proj1 (P s' g') eq_refl) as K. split.
    + intros H. inversion H; subst. now split.
    + intros (H & L). apply P in L. inversion L; inversion H. reflexivity.
  - split; [discriminate|]. intros (_ & L). apply P in L. discriminate.
Qed.
Lemma cone_iff (len : option V -> result nat) kw p o d s :
  cone_init D len kw = Ok (p, o, d, s) <->
  p = given "position" (d_origin D) kw /\ o = given "half_opening" (d_opening D) kw /\ d = given "direction" (d_axis D) kw /\
  len p = Ok 3%nat /\ len d = Ok 3%nat /\ only ["position"; "half_opening"; "direction"; "energy"; "flux"; "polarization"; "id_num"; "id_col"; "name"] kw /\
  s = lab_as_given D kw.
Proof.
  clear sky scalar.
  unfold cone_init, pop. rewrite !dget_ddel_neq by discriminate.
  fold (given "position" (d_origin D) kw). fold (given "half_opening" (d_opening D) kw). fold (given "direction" (d_axis D) kw).
  set (p' := given "position" (d_origin D) kw). set (d' := given "direction" (d_axis D) kw).
  assert (P : forall s u, lab_init D element_init (ddel "direction" (ddel "half_opening" (ddel "position" kw))) = Ok (s, u) <->
    only ["position"; "half_opening"; "direction"; "energy"; "flux"; "polarization"; "id_num"; "id_col"; "name"] kw /\ s = lab_as_given D kw).
  { intros s' u. rewrite lab_iff, element_iff, !only_ddel, !dget_ddel_neq by discriminate.
    replace (lab_as_given D (ddel "direction" (ddel "half_opening" (ddel "position" kw)))) with (lab_as_given D kw)
      by (unfold lab_as_given, given; now rewrite !dget_ddel_neq by discriminate).
    split.
    - intros (_ & -> & H). now split.
    - intros (H & ->). split; [|now split]. destruct (dget "geomarea" kw) eqn:E; [|reflexivity].
      specialize (H "geomarea" _ E). cbn in H. intuition discriminate. }
  destruct (len p') as [n|e] eqn:L1; cbn [bind].
  2: { split; [discriminate | intros (-> & _ & _ & H & _)]. fold p' in H. congruence. }
  destruct (Nat.eqb_spec n 3) as [->|N]; cbn [negb].
  2: { split; [discriminate | intros (-> & _ & _ & H & _)]. fold p' in H. congruence. }
  destruct (len d') as [n|e] eqn:L2; cbn [bind].
  2: { split; [discriminate | intros (_ & _ & -> & _ & H & _)]. fold d' in H. congruence. }
  destruct (Nat.eqb_spec n 3) as [->|N]; cbn [negb].
  2: { split; [discriminate | intros (_ & _ & -> & _ & H & _)]. fold d' in H. congruence. }
  destruct lab_init as [[s' u]|e] eqn:Q; cbn [bind].
  - destruct (proj1 (P s' u) eq_refl) as [K L]. split.
    + intros H. inversion H; subst. repeat split; assumption.
    + intros (-> & -> & -> & _ & _ & _ & ->). now rewrite L.
  - split; [discriminate|]. intros (_ & _ & _ & _ & _ & K & L). now destruct (P s tt) as [_ H]; specialize (H (conj K L)).
Qed.

(** ** pointings *)
Variable isscalar : option V -> result bool.
Lemma fixed_iff kw p :
  fixed_init D isscalar kw = Ok p <->
  dget "coords" kw = Some (p_coords p) /\ isscalar (p_coords p) = Ok true /\
  p_roll p = given "roll" (d_roll D) kw /\ p_reference p = given "reference_transform" (d_eye D) kw /\
  only ["coords"; "roll"; "reference_transform"; "id_num"; "id_col"; "name"] kw.
Proof.
  unfold fixed_init, pop_or_fail, pop. destruct (dget "coords" kw) as [c|] eqn:E; cbn [bind].
  2: { split; [discriminate | intros (H & _); discriminate]. }
  destruct (isscalar c) as [b|e] eqn:S; cbn [bind].
  2: { split; [discriminate | intros (H & K & _); inversion H; subst; congruence]. }
  destruct b; cbn [negb].
  2: { split; [discriminate | intros (H & K & _); inversion H; subst; congruence]. }
  rewrite !dget_ddel_neq by discriminate. fold (given "roll" (d_roll D) kw). fold (given "reference_transform" (d_eye D) kw).
  assert (P : forall u, element_init (ddel "reference_transform" (ddel "roll" (ddel "coords" kw))) = Ok u <->
     only ["coords"; "roll"; "reference_transform"; "id_num"; "id_col"; "name"] kw).
  { intros u. rewrite element_iff, !only_ddel. reflexivity. }
  destruct element_init as [u|e] eqn:Q; cbn [bind].
  - pose proof (proj1 (P u) eq_refl) as K. split.
    + intros H. inversion H; subst. cbn. repeat split; assumption.
    + intros (H & _ & R & T & _). destruct p. cbn in *. inversion H. now subst.
  - split; [discriminate|]. intros (_ & _ & _ & _ & K). apply (P tt) in K. discriminate.
Qed.
Lemma fixed_ddel k kw : ~ In k ["coords"; "roll"; "reference_transform"; "id_num"; "id_col"; "name"] -> forall p,
  fixed_init D isscalar (ddel k kw) = Ok p <->
  dget "coords" kw = Some (p_coords p) /\ isscalar (p_coords p) = Ok true /\
  p_roll p = given "roll" (d_roll D) kw /\ p_reference p = given "reference_transform" (d_eye D) kw /\
  only (k :: ["coords"; "roll"; "reference_transform"; "id_num"; "id_col"; "name"]) kw.
Proof.
  intros N p. assert (H : forall j, In j ["coords"; "roll"; "reference_transform"; "id_num"; "id_col"; "name"] -> j <> k) by (intros j I ->; now destruct N).
  rewrite fixed_iff, only_ddel. unfold given. rewrite !dget_ddel_neq by (apply H; cbn; tauto). reflexivity.
Qed.
Lemma jitter_iff (abs : option V -> result V) kw j p :
  jitter_init D abs isscalar kw = Ok (j, p) <->
  (exists v, dget "jitter" kw = Some v /\ abs v = Ok j) /\
  dget "coords" kw = Some (p_coords p) /\ isscalar (p_coords p) = Ok true /\
  p_roll p = given "roll" (d_roll D) kw /\ p_reference p = given "reference_transform" (d_eye D) kw /\
  only ["jitter"; "coords"; "roll"; "reference_transform"; "id_num"; "id_col"; "name"] kw.
Proof.
  clear sky scalar.
  unfold jitter_init, pop_or_fail. destruct (dget "jitter" kw) as [v|] eqn:E; cbn [bind].
  2: { split; [discriminate | intros ((v & H & _) & _); discriminate]. }
  destruct (abs v) as [a|e] eqn:A; cbn [bind].
  2: { split; [discriminate | intros ((w & H & K) & _); inversion H; subst; congruence]. }
  assert (P := fixed_ddel "jitter" kw ltac:(cbn; intuition discriminate)).
  destruct (fixed_init D isscalar (ddel "jitter" kw)) as [q|e] eqn:Q; cbn [bind].
  - pose proof (proj1 (P q) eq_refl) as K. split.
    + intros H. inversion H; subst. split; [exists v; now split | exact K].
    + intros ((w & H & B) & L). apply P in L. inversion L. inversion H; subst. congruence.
  - split; [discriminate|]. intros (_ & L). apply P in L. discriminate.
Qed.
Lemma dither_iff kw a t h p :
  dither_init D isscalar kw = Ok (a, t, h, p) <->
  a = given "DitherAmp" (d_amp D) kw /\ t = given "DitherPeriod" (d_period D) kw /\ h = given "DitherPhase" (d_phase D) kw /\
  dget "coords" kw = Some (p_coords p) /\ isscalar (p_coords p) = Ok true /\
  p_roll p = given "roll" (d_roll D) kw /\ p_reference p = given "reference_transform" (d_eye D) kw /\
  only ["DitherAmp"; "DitherPeriod"; "DitherPhase"; "coords"; "roll"; "reference_transform"; "id_num"; "id_col"; "name"] kw.
Proof.
  clear sky scalar.
  unfold dither_init, pop. rewrite !dget_ddel_neq by discriminate.
  fold (given "DitherAmp" (d_amp D) kw). fold (given "DitherPeriod" (d_period D) kw). fold (given "DitherPhase" (d_phase D) kw).
  assert (P := fixed_ddel "DitherPhase" (ddel "DitherPeriod" (ddel "DitherAmp" kw)) ltac:(cbn; intuition discriminate)).
  assert (P' : forall p, fixed_init D isscalar (ddel "DitherPhase" (ddel "DitherPeriod" (ddel "DitherAmp" kw))) = Ok p <->
    dget "coords" kw = Some (p_coords p) /\ isscalar (p_coords p) = Ok true /\
    p_roll p = given "roll" (d_roll D) kw /\ p_reference p = given "reference_transform" (d_eye D) kw /\
    only ["DitherAmp"; "DitherPeriod"; "DitherPhase"; "coords"; "roll"; "reference_transform"; "id_num"; "id_col"; "name"] kw).
  { intros q. rewrite P, !only_ddel. unfold given. rewrite !dget_ddel_neq by discriminate. reflexivity. }
  clear P. destruct (fixed_init D isscalar _) as [q|e] eqn:Q; cbn [bind].
  - pose proof (proj1 (P' q) eq_refl) as K. split.
    + intros H. inversion H; subst. split; [reflexivity|]. split; [reflexivity|]. split; [reflexivity | exact K].
    + intros (-> & -> & -> & L). apply P' in L. now inversion L.
  - split; [discriminate|]. intros (_ & _ & _ & L). apply P' in L. discriminate.
Qed.
End Keywords.

Section Errors.
Context {V : Type}.
Implicit Types kw : keywords V.
Lemma element_refuses kw : ~ only ["id_num"; "id_col"; "name"] kw -> element_init kw = Err ValueError.
Proof.
  intros N. destruct (element_init kw) as [u|e] eqn:E; [apply element_iff in E; contradiction | now apply element_err in E as ->].
Qed.
Lemma astro_errors (D : defaults V) sky scalar kw :
  (dget "coords" kw = None -> astro_init D sky scalar kw = Err KeyError) /\
  (forall v e, dget "coords" kw = Some v -> sky v = Err e -> astro_init D sky scalar kw = Err e) /\
  (forall v c, dget "coords" kw = Some v -> sky v = Ok c -> scalar c = false \/ ~ only ("coords" :: of_source) kw -> astro_init D sky scalar kw = Err ValueError).
Proof.
  unfold astro_init, pop_or_fail. split; [intros ->; reflexivity|]. split; [intros v e -> H; cbn [bind]; now rewrite H|].
  intros v c -> H C. cbn [bind]. rewrite H. cbn [bind]. destruct (scalar c) eqn:S; [|reflexivity].
  destruct C as [C|N]; [discriminate|]. unfold source_init, pop. rewrite element_refuses; [reflexivity|].
  rewrite !only_ddel. intros O. apply N. revert O. apply only_perm. intros k. cbn. tauto.
Qed.
Lemma fixed_errors (D : defaults V) isscalar kw :
  (dget "coords" kw = None -> fixed_init D isscalar kw = Err KeyError) /\
  (forall v e, dget "coords" kw = Some v -> isscalar v = Err e -> fixed_init D isscalar kw = Err e) /\
  (forall v b, dget "coords" kw = Some v -> isscalar v = Ok b -> b = false \/ ~ only ["coords"; "roll"; "reference_transform"; "id_num"; "id_col"; "name"] kw ->
     fixed_init D isscalar kw = Err ValueError).
Proof.
  unfold fixed_init, pop_or_fail. split; [intros ->; reflexivity|]. split; [intros v e -> H; cbn [bind]; now rewrite H|].
  intros v b -> H C. cbn [bind]. rewrite H. cbn [bind]. destruct b; [|reflexivity]. cbn [negb].
  destruct C as [C|N]; [discriminate|]. unfold pop. rewrite element_refuses; [reflexivity|].
  rewrite !only_ddel. intros O. apply N. revert O. apply only_perm. intros k. cbn. tauto.
Qed.
Lemma disk_ignores (D : defaults V) pair own sky scalar kw f p r :
  disk_source D pair own sky scalar kw = Ok r ->
  disk_source D pair own sky scalar (dset "radial_distribution" f (dset "func_par" p kw)) = Ok r.
Proof.
  destruct r as [[fn par] [c s]]. intros E.
  apply disk_iff in E as ((v & A & P) & F & (w & C & S) & K & O & R). apply disk_iff.
  rewrite !only_dset, !as_given_dset by (cbn; intuition discriminate). unfold given. rewrite !dget_dset_neq by discriminate.
  split; [exists v; now split|]. split; [exact F|]. split; [exists w; now split|]. now split.
Qed.
Lemma lab_area {A} (D : defaults V) (next : keywords V -> result A) kw v : dget "geomarea" kw = Some v -> lab_init D next kw = Err TypeError.
Proof.
  intros H. unfold lab_init. destruct (din "flux" kw).
  - replace (din "geomarea" kw) with true; [reflexivity|]. symmetry. apply din_dget. now exists v.
  - replace (din "geomarea" (dset "flux" (Some (d_labflux D)) kw)) with true; [reflexivity|]. symmetry. apply din_dget. exists v.
    rewrite dget_dset_neq by discriminate. exact H.
Qed.
End Errors.

(** ** headers *)
Lemma pointed_iff ra dec roll l :
  snd (pointed ra dec roll l) = None <->
  dget "dir" (columns l) = None /\ (forall k, In k ["ra"; "dec"; "time"; "polangle"] -> exists u, dget k (columns l) = Some u).
Proof.
  unfold pointed. cbn [columns header].
  destruct (din "dir" (columns l)) eqn:E.
  { apply din_dget in E as [u E]. rewrite E. split; [discriminate | intros [H _]; discriminate]. }
  apply din_false in E.
  assert (K : forall k v, k <> "dir" -> din k (dset "dir" v (columns l)) = din k (columns l)).
  { intros k v n. destruct (din k (columns l)) eqn:F.
    - apply din_dget in F as [u F]. apply din_dget. exists u. now rewrite dget_dset_neq.
    - apply din_false in F. apply din_false. now rewrite dget_dset_neq. }
  assert (K2 : din "polangle" (dset "dir" None (dset "dir" (Some "mm") (columns l))) = din "polangle" (columns l)).
  { destruct (din "polangle" (columns l)) eqn:F.
    - apply din_dget in F as [u F]. apply din_dget. exists u. now rewrite !dget_dset_neq.
    - apply din_false in F. apply din_false. now rewrite !dget_dset_neq. }
  rewrite K2, !K by discriminate.
  destruct (din "ra" (columns l)) eqn:A, (din "dec" (columns l)) eqn:B, (din "time" (columns l)) eqn:C, (din "polangle" (columns l)) eqn:F; cbn [andb negb snd];
    split; try discriminate; try (intros [_ H]).
  1: { intros _. split; [exact E|]. intros k [<-|[<-|[<-|[<-|[]]]]]; now apply din_dget. }
  1: reflexivity.
  all: exfalso;
    try (apply din_false in F; destruct (H "polangle") as [u G]; [cbn; tauto | congruence]);
    try (apply din_false in C; destruct (H "time") as [u G]; [cbn; tauto | congruence]);
    try (apply din_false in B; destruct (H "dec") as [u G]; [cbn; tauto | congruence]);
    (apply din_false in A; destruct (H "ra") as [u G]; [cbn; tauto | congruence]).
Qed.
Lemma pointed_twice ra dec roll l u : dget "dir" (columns l) = Some u -> pointed ra dec roll l = (l, Some ValueError).
Proof. intros H. unfold pointed. assert (E : din "dir" (columns l) = true) by (apply din_dget; now exists u). now rewrite E. Qed.
Lemma pointed_dir ra dec roll l : exists u, dget "dir" (columns (fst (pointed ra dec roll l))) = Some u.
Proof.
  unfold pointed. cbn [columns header]. destruct (din "dir" (columns l)) eqn:E; [now apply din_dget in E|].
  destruct (negb _); [|destruct (negb _)]; cbn [fst columns].
  - exists (Some "mm"). now rewrite dget_dset_eq.
  - exists None. now rewrite dget_dset_eq.
  - exists None. now rewrite dget_dset_neq, dget_dset_eq.
Qed.
Lemma pointed_keeps ra dec roll l :
  (forall k, ~ In k ["RA_PNT"; "DEC_PNT"; "ROLL_PNT"; "RA_NOM"; "DEC_NOM"; "ROLL_NOM"] -> dget k (header (fst (pointed ra dec roll l))) = dget k (header l)) /\
  (forall k, ~ In k ["dir"; "polarization"] -> dget k (columns (fst (pointed ra dec roll l))) = dget k (columns l)).
Proof.
  unfold pointed. cbn [columns header]. destruct (din "dir" (columns l)); [split; reflexivity|].
  assert (N : forall k a (L : list string), ~ In k L -> In a L -> k <> a) by (intros k a L n i ->; contradiction).
  destruct (negb _); [|destruct (negb _)]; cbn [fst columns header]; split; intros k n; try reflexivity;
    rewrite ?dget_dset_neq by (apply (N _ _ _ n); cbn; tauto); reflexivity.
Qed.
Lemma pointed_values ra dec roll l : snd (pointed ra dec roll l) = None ->
  let h := header (fst (pointed ra dec roll l)) in
  (forall k, In k ["RA_PNT"; "RA_NOM"] -> exists c, dget k h = Some (Commented (Number ra) c)) /\
  (forall k, In k ["DEC_PNT"; "DEC_NOM"] -> exists c, dget k h = Some (Commented (Number dec) c)) /\
  (forall k, In k ["ROLL_PNT"; "ROLL_NOM"] -> exists c, dget k h = Some (Commented (Number roll) c)) /\
  dget "dir" (columns (fst (pointed ra dec roll l))) = Some None /\ dget "polarization" (columns (fst (pointed ra dec roll l))) = Some None.
Proof.
  unfold pointed. cbn [columns header]. destruct (din "dir" (columns l)); [discriminate|].
  destruct (negb _); [discriminate|]. destruct (negb _); [discriminate|]. intros _. cbn [fst columns header].
  repeat split.
  1-3: intros k [<-|[<-|[]]]; eexists; rewrite ?dget_dset_neq by discriminate; rewrite dget_dset_eq; reflexivity.
  - rewrite dget_dset_neq by discriminate. apply dget_dset_eq.
  - apply dget_dset_eq.
Qed.
Lemma failed_pointing ra dec roll l e : snd (pointed ra dec roll l) = Some e ->
  header (fst (pointed ra dec roll l)) = header l /\ e = (if din "dir" (columns l) then ValueError else KeyError).
Proof.
  unfold pointed. cbn [columns header]. destruct (din "dir" (columns l)); cbn [fst snd]; [intros H; inversion H; now split|].
  destruct (negb _); [|destruct (negb _)]; cbn [fst snd header]; intros H; inversion H; now split.
Qed.
