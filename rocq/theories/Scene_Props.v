(** Properties C191 to C195: scenes and the output of the backends for plots. *)
From Coq Require Import Ascii.
From Verif Require Import Scene_Proofs Base_Proofs Vec_Proofs Detector_Proofs.
From Verif Require Export Scene_Model.
Open Scope R_scope.

(** C191 *)
(** what is in the scene already stays, and has no influence on what is added *)
Theorem C191_appends : forall to_rgb prec o display, exists new e, forall scene, x3d_plot to_rgb prec o display scene = (scene ++ new, e).
Proof. intros to_rgb prec o display. exact (plot_appends to_rgb prec o display). Qed.
Print Assumptions C191_appends.
(** exactly the elements with a shape that can be drawn are added, with those inside of containers at any depth; each with the display of its own *)
Theorem C191_nodes : forall to_rgb prec o display scene sc, x3d_plot to_rgb prec o display scene = (sc, None) ->
  exists new, sc = scene ++ new /\ forall n, In n new <-> appears to_rgb prec n o display.
Proof.
  intros to_rgb prec o display scene sc H. destruct (plot_appends to_rgb prec o display) as (new & e & N). rewrite N in H. assert (e = None) by congruence. subst e. exists new. split; [congruence|].
  apply (plot_nodes to_rgb prec o display new). exact (N []).
Qed.
Print Assumptions C191_nodes.
(** a container gives the elements one after the other; the display that was given for the container is used for none of them *)
Theorem C191_container : forall to_rgb prec od pts l display d shape scene sc, match display with Some x => Some x | None => od end = Some d -> d_shape d = Some shape ->
  dispatch x3d_registry (shapes_of shape) = Plotted "container" -> x3d_plot to_rgb prec (Obj od pts (Some l)) display scene = (sc, None) ->
  exists news, sc = scene ++ concat news /\ Forall2 (fun e n => x3d_plot to_rgb prec e None [] = (n, None)) l news.
Proof.
  intros to_rgb prec od pts l display d shape scene sc C S D H. destruct (plot_appends to_rgb prec (Obj od pts (Some l)) display) as (new & e & N). rewrite N in H. assert (e = None) by congruence. subst e.
  specialize (N []). cbn [app] in N. rewrite plot_eq in N. unfold chosen in N. rewrite C, S, D in N. destruct (get_color to_rgb (d_color d)); [|discriminate]. cbn [String.eqb Ascii.eqb Bool.eqb] in N.
  destruct (list_parts to_rgb prec l new N) as (news & -> & F). exists news. split; [congruence|exact F].
Qed.
Print Assumptions C191_container.
(** without a scene a new one is returned *)
Theorem C191_new_scene : forall to_rgb prec o display sc, plot_object to_rgb prec o display None = Ok sc -> exists new, sc = Some new /\ (forall n, In n new <-> appears to_rgb prec n o display) /\
  forall old, plot_object to_rgb prec o display (Some old) = Ok (Some (old ++ new)).
Proof.
  intros to_rgb prec o display sc H. unfold plot_object in *. destruct (plot_appends to_rgb prec o display) as (new & e & N). rewrite N in H. destruct e; [discriminate|]. cbn [app] in H. exists new. split; [congruence|].
  split; [apply (plot_nodes to_rgb prec o display new); exact (N [])|]. intros old. now rewrite N.
Qed.
Print Assumptions C191_new_scene.
(** The shapes that can be drawn, and the word for nothing. *)
Theorem C191_shapes : forall s, (dispatch x3d_registry [s] = Plotted s <-> In s ["triangulation"; "box"; "container"; "surface"]%string) /\ (dispatch x3d_registry [s] = Hidden <-> s = "None"%string).
Proof.
  intros s. cbn [dispatch]. destruct (String.eqb_spec s "None") as [->|N].
  - split; split; try discriminate; try reflexivity. intros I. cbn in I. intuition discriminate.
  - destruct (inb s x3d_registry) eqn:E.
    + split; split; try discriminate; try congruence. intros _. apply inb_In in E. exact E.
    + split; split; try discriminate; try congruence. intros I. apply inb_false in E. contradiction.
Qed.
Print Assumptions C191_shapes.
(** "the functions for a single shape return the scene": box and surface return nothing, so that without a scene the drawing is lost *)
Theorem C191_returned_refuted : forall to_rgb prec od pts els d c s p, In s ["box"; "surface"]%string -> pts s = Ok p ->
  (exists n, fst (plot_shape prec s (Obj od pts els) d c None) = [n]) /\ snd (plot_shape prec s (Obj od pts els) d c None) = Ok None /\ plot_object to_rgb prec (Obj od pts els) None None <> Ok None.
Proof.
  intros to_rgb prec od pts els d c s p I P. split; [|split].
  - eexists. unfold plot_shape. rewrite P. reflexivity.
  - unfold plot_shape. rewrite P. destruct I as [<-|[<-|[]]]; reflexivity.
  - unfold plot_object. destruct (x3d_plot _ _ _ _ _) as [sc [e|]]; discriminate.
Qed.
Print Assumptions C191_returned_refuted.
Definition a_box : obj := Obj (Some (Disp (Some "box") None (Some (1 / 4)))) (fun _ => Ok [V3 1000 0 0]) None.
Definition a_tree : obj := Obj (Some (Disp (Some "container") None None)) (fun _ => Err AttributeError) (Some [a_box; Obj None (fun _ => Ok []) None; a_box]).
Example C191_case : exists n, x3d_plot (fun _ => Err ValueError) 1 a_tree None [] = ([n; n], None) /\ n_shape n = "box"%string /\ n_transp n = 1 - 1 / 4.
Proof. eexists. split; [reflexivity|split; reflexivity]. Qed.

(** C192 *)
(** the numbers in the file are metres; they differ from the place by no more than half of the last digit *)
Theorem C192_points : forall prec pts i p, nth_error pts i = Some p -> exists q, nth_error (format_points prec pts) i = Some q /\
  Rabs (1000 * x3 q - x3 p) <= 1 / 2 / 10 ^ prec /\ Rabs (1000 * y3 q - y3 p) <= 1 / 2 / 10 ^ prec /\ Rabs (1000 * z3 q - z3 p) <= 1 / 2 / 10 ^ prec.
Proof.
  intros prec pts i p E. unfold format_points. rewrite nth_error_map, E. cbn [option_map]. eexists. split; [reflexivity|]. cbn [x3 y3 z3]. split; [|split]; apply mm_near.
Qed.
Print Assumptions C192_points.
Theorem C192_number : forall prec pts, length (format_points prec pts) = length pts.
Proof. intros. apply map_length. Qed.
Print Assumptions C192_number.
(** they have no more digits than the precision, *)
Theorem C192_digits : forall prec pts q, In q (format_points prec pts) -> exists a b c : Z, x3 q = IZR a / 10 ^ (prec + 3) /\ y3 q = IZR b / 10 ^ (prec + 3) /\ z3 q = IZR c / 10 ^ (prec + 3).
Proof. intros prec pts q I. apply in_map_iff in I. destruct I as (p & <- & _). do 3 eexists. repeat split. Qed.
Print Assumptions C192_digits.
(** and numbers with these digits are kept *)
Theorem C192_exact : forall prec (a b c : Z), exists q, format_points prec [V3 (IZR a / 10 ^ prec) (IZR b / 10 ^ prec) (IZR c / 10 ^ prec)] = [q] /\
  1000 * x3 q = IZR a / 10 ^ prec /\ 1000 * y3 q = IZR b / 10 ^ prec /\ 1000 * z3 q = IZR c / 10 ^ prec.
Proof. intros prec a b c. eexists. split; [reflexivity|]. cbn [x3 y3 z3]. split; [|split]; apply mm_exact. Qed.
Print Assumptions C192_exact.
(** opaque without an opacity; transparency and opacity add up to one *)
Theorem C192_transparency : forall d, (d_opacity d = None -> transparency d = 0) /\ (forall o, d_opacity d = Some o -> transparency d + o = 1).
Proof. intros [s c o]. unfold transparency. cbn. split; [intros ->; lra|]. intros q ->. lra. Qed.
Print Assumptions C192_transparency.
Example C192_case : 1000 * round_to (1 + 3) (IZR 123 / 10 ^ 1 / 1000) = 12.3.
Proof. rewrite mm_exact. cbn [pow]. lra. Qed.

(** C193 *)
(** the page is the same afterwards, whatever happens *)
Theorem C193_restored : forall H fetch (html : page -> result H) p, fst (write_html_archive fetch html p) = p.
Proof. intros H fetch html p. unfold write_html_archive. destruct (negb _); [reflexivity|]. destruct (html _); reflexivity. Qed.
Print Assumptions C193_restored.
(** the archive has the page, and all the page asks for *)
Theorem C193_complete : forall H fetch (html : page -> result H) p name files h, set_implementation name p = Ok p -> snd (write_html_archive fetch html p) = Ok (files, h) ->
  In "figure.html"%string files /\ exists inner, html inner = Ok h /\ forall f, In f (asks_for inner) -> In f files /\ has_slash f = false.
Proof.
  intros H fetch html p name files h S W. unfold write_html_archive in W. destruct (negb _); [discriminate|]. destruct (html (Page (basename (js p)) (basename (css p)) (impl p))) as [h'|] eqn:E; [|discriminate]. cbn [snd] in W. injection W as <- <-.
  split; [apply in_or_app; right; left; reflexivity|]. exists (Page (basename (js p)) (basename (css p)) (impl p)). split; [exact E|]. clear E. unfold set_implementation in S.
  destruct (String.eqb_spec name "X3DOM") as [N|_]; [|destruct (String.eqb_spec name "X_ITE") as [N|_]; [|discriminate]]; subst name; injection S as S; subst p; intros f F.
  - destruct F as [<-|[<-|[]]]; split; try reflexivity; [left|right; left]; reflexivity.
  - destruct F as [<-|[]]; split; try reflexivity. left; reflexivity.
Qed.
Print Assumptions C193_complete.
(** two implementations, and after one was chosen another can be *)
Theorem C193_implementations : forall name p, (exists q, set_implementation name p = Ok q /\ impl q = name) <-> In name ["X3DOM"; "X_ITE"]%string.
Proof.
  intros name p. unfold set_implementation. split.
  - intros (q & Q & I). destruct (String.eqb_spec name "X3DOM") as [->|_]; [left; reflexivity|]. destruct (String.eqb_spec name "X_ITE") as [->|_]; [right; left; reflexivity|discriminate].
  - intros [<-|[<-|[]]]; eexists; split; reflexivity.
Qed.
Print Assumptions C193_implementations.
(** Only X3DOM comes with a style sheet. *)
Theorem C193_sheet : forall name p q, set_implementation name p = Ok q -> (css q = ""%string <-> name = "X_ITE"%string) /\ js q <> ""%string /\ css q <> js q.
Proof.
  intros name p q H. unfold set_implementation in H. destruct (String.eqb_spec name "X3DOM") as [->|A].
  - injection H as <-. cbn [css js]. split; [split; discriminate|]. split; discriminate.
  - destruct (String.eqb_spec name "X_ITE") as [->|B]; [|discriminate]. injection H as <-. cbn [css js]. split; [split; reflexivity|]. split; discriminate.
Qed.
Print Assumptions C193_sheet.
Theorem C193_last : forall a b p q r r', set_implementation a p = Ok q -> set_implementation b q = Ok r -> set_implementation b p = Ok r' -> r = r'.
Proof. intros a b p q r r' _ B C. unfold set_implementation in *. congruence. Qed.
Print Assumptions C193_last.
(** the name of a file is what is behind the last slash *)
Theorem C193_basename : forall a b, has_slash b = false -> basename (a ++ String "/" b)%string = b /\ basename b = b.
Proof. intros a b N. split; [apply basename_aux_slash; exact N|apply basename_aux_no; exact N]. Qed.
Print Assumptions C193_basename.
Example C193_case : exists p, set_implementation "X_ITE" (Page "" "" "") = Ok p /\ snd (write_html_archive (fun _ => true) (fun q => Ok (js q)) p) = Ok (["x_ite.min.js"; "figure.html"], "x_ite.min.js")%string.
Proof. eexists. split; reflexivity. Qed.

(** C194 *)
(** the lines that mayavi draws connect the points of a ray that follow each other, and nothing else *)
Theorem C194_connections : forall n N c, connections n N = Ok c -> NoDup c /\ length c = (n * (N - 1))%nat /\
  forall a b, In (a, b) c <-> exists i j, (i < n)%nat /\ (j + 1 < N)%nat /\ a = (i * N + j)%nat /\ b = (i * N + (j + 1))%nat.
Proof.
  intros n N c H. unfold connections in H. destruct (Nat.eqb_spec N 0) as [|NZ]; [discriminate|]. injection H as <-.
  assert (IN : forall a b, In (a, b) (map (fun a => (a, a + 1)%nat) (flat_map (fun i => map (fun j => i * N + j)%nat (seq 0 (N - 1))) (seq 0 n))) <-> exists i j, (i < n)%nat /\ (j + 1 < N)%nat /\ a = (i * N + j)%nat /\ b = (i * N + (j + 1))%nat).
  { intros a b. rewrite in_map_iff. split.
    - intros (x & E & I). apply in_flat_map in I. destruct I as (i & I & J). apply in_map_iff in J. destruct J as (j & <- & J). apply in_seq in I. apply in_seq in J. exists i, j. injection E as <- <-. repeat split; lia.
    - intros (i & j & I & J & -> & ->). exists (i * N + j)%nat. split; [f_equal; lia|]. apply in_flat_map. exists i. split; [apply in_seq; lia|]. apply in_map_iff. exists j. split; [reflexivity|apply in_seq; lia]. }
  split; [|split; [|exact IN]].
  - apply FinFun.Injective_map_NoDup; [intros x y E; congruence|]. clear IN. assert (G : forall m s, NoDup (flat_map (fun i => map (fun j => i * N + j)%nat (seq 0 (N - 1))) (seq s m))).
    { induction m as [|m IH]; intros s; [constructor|]. cbn [seq flat_map]. assert (AP : forall (l1 l2 : list nat), NoDup l1 -> NoDup l2 -> (forall x, In x l1 -> ~ In x l2) -> NoDup (l1 ++ l2)).
      { clear. induction l1 as [|x l1 IH]; intros l2 A B D; [exact B|]. inversion A; subst. cbn. constructor; [|apply IH; auto; intros y Y; apply D; right; exact Y]. rewrite in_app_iff. intros [X|X]; [contradiction|]. apply (D x); [left; reflexivity|exact X]. }
      apply AP; [apply FinFun.Injective_map_NoDup; [intros x y E; lia|apply seq_NoDup]|apply IH|]. intros x X Y. apply in_map_iff in X. destruct X as (j & <- & J). apply in_seq in J. apply in_flat_map in Y. destruct Y as (i & I & Y). apply in_map_iff in Y. destruct Y as (k & E & K). apply in_seq in I. apply in_seq in K.
      assert (N * (S s) <= i * N)%nat by (rewrite Nat.mul_comm; apply Nat.mul_le_mono_r; lia). lia. }
    apply G.
  - rewrite map_length. rewrite (flat_len _ (N - 1)%nat); [now rewrite seq_length|]. intros x. now rewrite map_length, seq_length.
Qed.
Print Assumptions C194_connections.
(** each point has the value of its ray, or its own *)
Theorem C194_values : forall n N s v, mayavi_scalars n N s = Ok v -> length v = (n * N)%nat /\ forall i j, (i < n)%nat -> (j < N)%nat ->
  nth_error v (i * N + j) = match s with NoScalar => Some 0 | PerRay l => nth_error l i | PerPoint l => match nth_error l i with Some r => nth_error r j | None => None end end.
Proof.
  intros n N s v H. destruct s as [|l|l]; cbn [mayavi_scalars] in H.
  - injection H as <-. split; [apply repeat_length|]. intros i j I J. apply nth_repeat_lt. assert (i * N + N <= n * N)%nat by (replace (i * N + N)%nat with (S i * N)%nat by (cbn; lia); apply Nat.mul_le_mono_r; lia). lia.
  - destruct (Nat.eqb_spec (length l) n) as [L|]; [|discriminate]. injection H as <-. split; [rewrite (flat_len _ N), L; [reflexivity|intros x; apply repeat_length]|]. intros i j I J.
    destruct (nth_error l i) as [x|] eqn:E; [|apply nth_error_None in E; lia]. rewrite (nth_flat _ N) with (x := x); [apply nth_repeat_lt; exact J|intros y; apply repeat_length|exact E|exact J].
  - destruct (Nat.eqb_spec (length l) n) as [L|]; [|discriminate]. destruct (forallb _ l) eqn:F; [|discriminate]. injection H as <-. split; [rewrite (concat_len N), L; [reflexivity|exact F]|]. intros i j I J.
    destruct (nth_error l i) as [r|] eqn:E; [|apply nth_error_None in E; lia]. now apply concat_nth.
Qed.
Print Assumptions C194_values.
(** three.js: the same values, and the colors and coordinates in the order of the points *)
Theorem C194_json : forall cmap normalize data N s prop r, (forall ray, In ray data -> length ray = N) -> json_rays cmap normalize data N s prop = Ok r ->
  r_n r = length data /\ length (r_pos r) = length data /\ length (r_color r) = length data /\
  forall i ray, nth_error data i = Some ray -> exists pos col, nth_error (r_pos r) i = Some pos /\ nth_error (r_color r) i = Some col /\ length pos = (3 * N)%nat /\ length col = (3 * N)%nat /\
  forall j p, nth_error ray j = Some p -> exists v t, nth_error pos (j * 3) = Some (x3 p) /\ nth_error pos (j * 3 + 1) = Some (y3 p) /\ nth_error pos (j * 3 + 2) = Some (z3 p) /\
    match s with NoScalar => v = 0 | PerRay l => nth_error l i = Some v | PerPoint l => exists q, nth_error l i = Some q /\ nth_error q j = Some v end /\
    let '(re, g, b, _) := cmap (normalize t v) in nth_error col (j * 3) = Some re /\ nth_error col (j * 3 + 1) = Some g /\ nth_error col (j * 3 + 2) = Some b.
Proof.
  intros cmap normalize data N s prop r D H. unfold json_rays in H. destruct (ray_table (length data) N s) as [t|] eqn:T; [|discriminate]. cbn [bind] in H. injection H as <-. cbn [r_n r_pos r_color].
  assert (TT : length t = length data /\ forall i, (i < length data)%nat -> exists q, nth_error t i = Some q /\ length q = N /\ forall j v, nth_error q j = Some v -> match s with NoScalar => v = 0 | PerRay l => nth_error l i = Some v | PerPoint l => exists q, nth_error l i = Some q /\ nth_error q j = Some v end).
  { destruct s as [|l|l]; cbn [ray_table] in T.
    - injection T as <-. split; [apply repeat_length|]. intros i I. exists (repeat 0 N). split; [now apply nth_repeat_lt|]. split; [apply repeat_length|]. intros j v V. apply nth_error_In in V. apply repeat_spec in V. exact V.
    - destruct (Nat.eqb_spec (length l) (length data)) as [L|]; [|discriminate]. injection T as <-. split; [now rewrite map_length|]. intros i I. destruct (nth_error l i) as [x|] eqn:E; [|apply nth_error_None in E; lia].
      exists (repeat x N). split; [rewrite nth_error_map, E; reflexivity|]. split; [apply repeat_length|]. intros j v V. apply nth_error_In in V. apply repeat_spec in V. now subst v.
    - destruct (Nat.eqb_spec (length l) (length data)) as [L|]; [|discriminate]. destruct (forallb _ l) eqn:F; [|discriminate]. injection T as <-. split; [exact L|]. intros i I. destruct (nth_error l i) as [x|] eqn:E; [|apply nth_error_None in E; lia].
      exists x. split; [reflexivity|]. split; [rewrite forallb_forall in F; apply Nat.eqb_eq, F; eapply nth_error_In; exact E|]. intros j v V. exists x. split; [reflexivity|exact V]. }
  destruct TT as [TL TV]. split; [reflexivity|]. split; [apply map_length|]. split; [rewrite map_length; exact TL|]. intros i ray R. assert (I : (i < length data)%nat) by (apply nth_error_Some; congruence).
  destruct (TV i I) as (q & Q & QL & QV). do 2 eexists. split; [rewrite nth_error_map, R; reflexivity|]. split; [rewrite nth_error_map, Q; reflexivity|].
  assert (RL : length ray = N) by (apply D; eapply nth_error_In; exact R).
  assert (L1 : forall p : v3, length [x3 p; y3 p; z3 p] = 3%nat) by reflexivity.
  assert (L2 : forall v, length (let '(re, g, b, _) := cmap (normalize t v) in [re; g; b]) = 3%nat) by (intros v; destruct (cmap (normalize t v)) as [[[? ?] ?] ?]; reflexivity).
  split; [rewrite (flat_len _ 3%nat L1); lia|]. split; [rewrite (flat_len _ 3%nat L2); lia|]. intros j p P. assert (J : (j < N)%nat) by (rewrite <- RL; apply nth_error_Some; congruence).
  destruct (nth_error q j) as [v|] eqn:V; [|apply nth_error_None in V; lia]. exists v, t.
  pose proof (nth_flat _ 3%nat L1 ray j 0%nat p P ltac:(lia)) as P0. pose proof (nth_flat _ 3%nat L1 ray j 1%nat p P ltac:(lia)) as P1. pose proof (nth_flat _ 3%nat L1 ray j 2%nat p P ltac:(lia)) as P2. rewrite Nat.add_0_r in P0.
  split; [exact P0|]. split; [exact P1|]. split; [exact P2|]. split; [exact (QV j v V)|].
  pose proof (nth_flat _ 3%nat L2 q j 0%nat v V ltac:(lia)) as V0. pose proof (nth_flat _ 3%nat L2 q j 1%nat v V ltac:(lia)) as V1. pose proof (nth_flat _ 3%nat L2 q j 2%nat v V ltac:(lia)) as V2. rewrite Nat.add_0_r in V0.
  cbv beta in V0, V1, V2. destruct (cmap (normalize t v)) as [[[re g] b] al]. split; [exact V0|]. split; [exact V1|exact V2].
Qed.
Print Assumptions C194_json.
(** the file is accepted if there are rays, and points on them *)
Theorem C194_schema : forall cmap normalize data N s prop r, (forall ray, In ray data -> length ray = N) -> json_rays cmap normalize data N s prop = Ok r -> (schema_rays r = true <-> (0 < length data)%nat /\ (0 < N)%nat).
Proof.
  intros cmap normalize data N s prop r D H. destruct (C194_json cmap normalize data N s prop r D H) as (_ & LP & LC & E). unfold schema_rays, schema_lists. rewrite !andb_true_iff, !negb_true_iff, !Nat.eqb_neq, LP, LC, !forallb_forall. split.
  - intros [[A B] [_ _]]. split; [lia|]. destruct data as [|ray data]; [cbn in A; lia|]. destruct (E 0%nat ray eq_refl) as (pos & col & P & _ & L & _). specialize (B pos (nth_error_In _ _ P)). apply Nat.leb_le in B. lia.
  - intros [A B]. repeat split; try lia.
    + intros pos I. apply In_nth_error in I. destruct I as [i I]. destruct (nth_error data i) as [ray|] eqn:R; [|apply nth_error_None in R; assert (nth_error (r_pos r) i <> None) as X by congruence; apply nth_error_Some in X; lia].
      destruct (E i ray R) as (p & c & P & _ & L & _). assert (p = pos) by congruence. subst p. apply Nat.leb_le. lia.
    + intros col I. apply In_nth_error in I. destruct I as [i I]. destruct (nth_error data i) as [ray|] eqn:R; [|apply nth_error_None in R; assert (nth_error (r_color r) i <> None) as X by congruence; apply nth_error_Some in X; lia].
      destruct (E i ray R) as (p & c & _ & C & _ & L & _). assert (c = col) by congruence. subst c. apply Nat.leb_le. lia.
Qed.
Print Assumptions C194_schema.
(** the default dictionary is changed by the first call; further calls give the same *)
Theorem C194_default : forall V (two : V) prop k, with_vertex_colors two (with_vertex_colors two prop) = with_vertex_colors two prop /\
  dget k (with_vertex_colors two prop) = if (String.eqb k "vertexColors" && negb (din "vertexColors" prop))%bool then Some two else dget k prop.
Proof.
  intros V two prop k. unfold with_vertex_colors. destruct (din "vertexColors" prop) eqn:D.
  - rewrite D. split; [reflexivity|]. now rewrite andb_false_r.
  - assert (X : din "vertexColors" (dset "vertexColors" two prop) = true). { destruct (din "vertexColors" (dset "vertexColors" two prop)) eqn:Y; [reflexivity|]. apply din_false in Y. rewrite dget_dset_eq in Y. discriminate. }
    rewrite X. split; [reflexivity|]. rewrite andb_true_r. destruct (String.eqb_spec k "vertexColors") as [->|N]; [apply dget_dset_eq|now apply dget_dset_neq].
Qed.
Print Assumptions C194_default.
Example C194_case : connections 2 3 = Ok [(0, 1); (1, 2); (3, 4); (4, 5)]%nat /\ mayavi_scalars 2 3 (PerRay [7; 9]) = Ok [7; 7; 7; 9; 9; 9].
Proof. split; reflexivity. Qed.

(** C195 *)
(** a box is in the browser where it is in the simulation *)
Theorem C195_box : forall m, loader (json_box_pos4d m) = Some m.
Proof. intros [[? ? ? ?] [? ? ? ?] [? ? ? ?] [? ? ? ?]]. reflexivity. Qed.
Print Assumptions C195_box.
(** the torus has the rows and columns of its matrix exchanged *)
Theorem C195_torus : forall m, loader (json_torus_pos4d m) = Some (trans4 m) /\ trans4 (trans4 m) = m.
Proof. intros [[? ? ? ?] [? ? ? ?] [? ? ? ?] [? ? ? ?]]. split; reflexivity. Qed.
Print Assumptions C195_torus.
(** "a torus is in the browser where it is in the simulation": only if it is not moved (and not turned other than by a half turn) *)
Theorem C195_torus_refuted : forall r t, t <> V3 0 0 0 -> loader (json_torus_pos4d (aff r t)) <> Some (aff r t).
Proof.
  intros [[? ? ?] [? ? ?] [? ? ?]] [x y z] T H. apply T. cbn in H. assert (X := f_equal (fun q => match q with Some m => b3 m | None => V4 0 0 0 0 end) H). cbn in X.
  assert (X1 := f_equal x4 X). assert (X2 := f_equal y4 X). assert (X3 := f_equal z4 X). cbn in X1, X2, X3. now subst.
Qed.
Print Assumptions C195_torus_refuted.
Theorem C195_turned : forall r, loader (json_torus_pos4d (aff r (V3 0 0 0))) = Some (aff r (V3 0 0 0)) <-> trans3 r = r.
Proof.
  intros [[a b c] [d e f] [g h i]]. cbn. split.
  - intros H. assert (X0 := f_equal (fun q => match q with Some m => b0 m | None => V4 0 0 0 0 end) H). assert (X1 := f_equal (fun q => match q with Some m => b1 m | None => V4 0 0 0 0 end) H). cbn in X0, X1.
    assert (Y1 := f_equal y4 X0). assert (Y2 := f_equal z4 X0). assert (Y3 := f_equal z4 X1). cbn in Y1, Y2, Y3. subst. reflexivity.
  - intros H. assert (X0 := f_equal a0 H). assert (X1 := f_equal a1 H). cbn in X0, X1. assert (Y1 := f_equal y3 X0). assert (Y2 := f_equal z3 X0). assert (Y3 := f_equal z3 X1). cbn in Y1, Y2, Y3. subst. reflexivity.
Qed.
Print Assumptions C195_turned.
(** "three.js code can be written for any element": there is no call of the function that works *)
Theorem C195_text_refuted : forall V A (general : dict V -> result A) given, threejs_plot_object general given = Err TypeError.
Proof.
  intros V A general given. unfold threejs_plot_object. destruct (negb _); [reflexivity|]. assert (D : din "outfile" (ddel "obj" (ddel "display" (ddel "outfile" given))) = false).
  { apply din_false. rewrite !dget_ddel_neq by discriminate. apply dget_ddel_eq. }
  rewrite D. reflexivity.
Qed.
Print Assumptions C195_text_refuted.
(** neither does any of the functions for rays and shapes *)
Theorem C195_shapes_refuted : forall A (data out : list A) o s, threejs_plot_rays data <> Ok out /\ threejs_box o <> Ok s /\ threejs_triangulation o <> Ok s /\ threejs_torus o <> Ok s.
Proof. intros A data out [od pts els] s. repeat split; try discriminate. unfold threejs_triangulation. destruct (pts _); discriminate. Qed.
Print Assumptions C195_shapes_refuted.
Example C195_case : loader (json_torus_pos4d (aff id3 (V3 1 2 3))) = Some (M4 (V4 1 0 0 1) (V4 0 1 0 2) (V4 0 0 1 3) (V4 0 0 0 1)).
Proof. reflexivity. Qed.
